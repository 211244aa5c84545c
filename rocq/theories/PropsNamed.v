(** C107: names that cannot be imported from packages are reported. *)
From Verif Require Import ReportSpec BuilderSource BuilderHist BuilderInv BuilderCalls World AstProofs PropsBuilder PropsCalls PropsHooks PropsRoots PropsSource PropsReach SeedSpec BuilderSame PropsLoad PropsNeed PropsSame PropsSeed MoreSpec PropsMore BuilderRest PropsRest PropsDefault PropsLoad PropsSame PropsReport BundleSpec PropsBundle MustSpec PropsMust WithinSpec PropsWithin AlwaysSpec PropsAlways FaceSpec PropsFace NamedSpec.
Open Scope string_scope.

Section named.
  Variable E : env.
  Variable find : string -> option spec.
  Variables implies conf : list (string * implied).
  Variable DS : dist -> Prop.
  Variable s : st.
  Hypothesis HR : running E find conf.
  Hypothesis HX : dsession E DS implies conf s.
  Notation g := (s_graph s).
  Let W : JW E find conf DS s.
  Proof. destruct HR as [A _ _ B C]. exact (one_JW E find implies conf A B C s HX). Qed.
  Variable start : LoadSpec.program.
  Hypothesis HB : begun_with s start.
  Hypothesis HO : orderly find conf s start.

  Lemma name_noticed n nd l T fn opt w m sp x : gfind g n = Some nd -> leads g (started start) n -> In (EvAdd n l) (s_log s) ->
    covers T l -> T fn opt w -> mentions n (node_is_pkg nd) w m -> can_import find conf m -> find m = Some sp -> spec_pkg sp = true ->
    In x (map fst (w_names w)) -> dotless x -> ~ In "*" (map fst (w_names w)) -> unbound s m x -> noticed find conf s start n (m ++ "." ++ x).
  Proof.
    intros Hn Hl Ha HT Hw Hm C1 C2 C3 C4 C5 C6 U. destruct (proj1 HT fn opt w Hw) as (i & Hi & Hrec). pose proof (gfind_name _ _ _ Hn) as En.
    pose proof HR as [R1 _ _ R2 R3]. pose proof HO as [O1 O2 O3 O4].
    assert (A : aims s n i m).
    { exists (node_is_pkg nd). split; [rewrite <- En; apply own_pkg; now rewrite En|].
      rewrite <- En in Hm |- *. apply (recorded_names s nd fn opt w i m Hrec); [now rewrite En|exact Hm]. }
    destruct (one_aims E implies conf R1 s HX n l i m Ha Hi A) as [He _].
    destruct (one_ends E implies conf R1 s HX _ _ _ He) as [_ Im].
    destruct (gfind g m) as [nm|] eqn:Em; [|now elim Im].
    destruct (PropsLoad.can_birth E find implies conf R1 R2 R3 s HX m nm C1 Em (O4 _ _ _ He)) as (sp' & n0 & l0 & k & s1 & s2 & B1 & B2 & B3 & _).
    assert (sp' = sp) as -> by congruence.
    assert (Pm : node_is_pkg nm = true).
    { rewrite <- C3, <- (nfs_pkg E k sp s1 n0 l0 s2); [|eapply sy_direct; eassumption| |exact B2].
      - unfold node_is_pkg. destruct B3 as (_ & <- & _). reflexivity.
      - destruct C1 as [m sp' D1 D2 _ _ _]. assert (sp' = sp) as -> by congruence. exact D2. }
    assert (Nm : has_names (n_kind nm) = true) by (unfold has_names; unfold node_is_pkg in Pm; now rewrite Pm).
    assert (Wn : exists y, In y (ii_names i) /\ in_name y = x /\ ii_star i = false).
    { destruct Hrec as (Q1 & _). destruct w as [n' a|mo names lv]; [destruct C4|]. cbn [w_names] in *.
      destruct Q1 as (_ & _ & Q3 & _ & Q5 & _). assert (K : In x (map in_name (ii_names i))).
      { apply Q3. split; [|exact C4]. intros ->. now apply C6. }
      apply in_map_iff in K as (y & K1 & K2). exists y. split; [exact K2|]. split; [exact K1|].
      destruct (ii_star i); [|reflexivity]. elim C6. now apply Q5. }
    destruct Wn as (y & Y1 & <- & Y3).
    assert (No : BuilderSame.names_of s n i m nm).
    { exists m. split; [exact A|]. split; [now left|]. now repeat split. }
    destruct (one_names E implies conf R1 s HX n l i m nm y Ha Hi No Y1)
      as [(z & t & K1 & K2 & K3 & K4)|[(k' & K1)|[(t & K1 & K2 & K3)|[(z & t & K1 & K2 & K3 & K4 & K5)|(b' & k' & f & ty & x & t & K1 & _)]]]].
    - now elim (U z K1).
    - unfold kind_of in K1. rewrite Em in K1. injection K1 as K1. unfold node_is_pkg in Pm. rewrite K1 in Pm. discriminate.
    - apply (one_resolves E implies conf R1 s HX) in K1. subst t. exact (edge_noticed E find implies conf DS s HR HX start HO n _ _ Hl K2).
    - now elim (U z K1).
    - unfold kind_of in K1. rewrite Em in K1. injection K1 as K1.
      pose proof (no_six _ _ _ R2 _ _ _ _ _ _ _ _ _ (w_inv _ _ _ _ _ W) Em K1) as N. discriminate N.
  Qed.

  Variable code : string -> option (list piece).
  Variable f : string.
  Variable l : list piece.
  Hypothesis HP : forall w, In w (flat_map imports l) -> start = RunScript f /\ forall t, e_script E t f = ROk (module_tree l).
  Hypothesis HW : coded E find code.

  (** The node with a statement. *)
  Definition stands (n : string) (b : bool) (w : what) : Prop :=
    exists nd l T fn opt w', gfind g n = Some nd /\ leads g (started start) n /\ In (EvAdd n l) (s_log s) /\ covers T l /\ T fn opt w'
      /\ node_is_pkg nd = b /\ w_level w' = w_level w /\ w_module w' = w_module w /\ map fst (w_names w') = map fst (w_names w).
  Lemma module_stands n sp T fn opt w w' : loads E find conf start n -> find n = Some sp -> module_says E find n T -> T fn opt w' ->
    w_level w' = w_level w /\ w_module w' = w_module w /\ map fst (w_names w') = map fst (w_names w) -> stands n (spec_pkg sp) w.
  Proof.
    intros H1 H2 H3 H4 L. destruct (C75_partial E find DS implies conf s start n HR HX HB HO H1) as [(nd & En & Rn) Le].
    destruct H1 as (name & _ & _ & H1). pose proof HR as [R1 R2 R3 R4 R5].
    destruct (PropsLoad.can_birth E find implies conf R1 R4 R5 s HX n nd H1 En) as (sp' & n0 & l0 & k & s1 & s2 & B1 & B2 & B3 & B4).
    { unfold modular, kind_of. rewrite En. cbn. split; intros K; injection K as K; rewrite K in Rn; discriminate. }
    assert (sp' = sp) as -> by congruence. exists nd, l0, T, fn, opt, w'. split; [exact En|]. split; [exact Le|]. split; [exact B4|].
    split; [eapply (PropsLoad.nfs_code E find); eassumption|]. split; [exact H4|]. split; [|exact L].
    rewrite <- (nfs_pkg E k sp s1 n0 l0 s2); [|eapply sy_direct; eassumption| |exact B2].
    - unfold node_is_pkg. destruct B3 as (_ & <- & _). reflexivity.
    - destruct H1 as [n sp' D1 D2 _ _ _]. assert (sp' = sp) as -> by congruence. exact D2.
  Qed.
  Lemma code_stands n k w : of_code E find conf code f l start n k w -> stands n (match k with Some b => b | None => false end) w.
  Proof.
    destruct k as [b|]; cbn.
    - intros (sp & body & A & B & -> & C & D). pose proof (HW n sp B) as X.
      destruct (sp_loader sp) as [| | | |fr src cd| | | |] eqn:El; try congruence. destruct src as [[text|]|e].
      + destruct X as (file & b & Ho & Hb & Hp). assert (b = body) as -> by congruence. destruct (imports_says body w D) as (fn & opt & S).
        eapply module_stands; [exact A|exact B| |exact S|now repeat split]. eapply (cd_source _ _ _ sp fr text cd file 0); [exact B|exact El|exact Ho|apply Hp].
      + destruct cd as [[c|]|e]; try congruence. destruct X as (dead & b & Hd & Hb & Hc). assert (b = body) as -> by congruence.
        destruct (compiled_says (e_ge311 E) dead body c w Hd Hc D) as (fn & opt & w' & S & L).
        eapply module_stands; [exact A|exact B|eapply (cd_code _ _ _ sp fr None c); [exact B|exact El|now left]|exact S|].
        destruct w as [m a|m ns k], w' as [m' a'|m' l' k']; cbn in L; try contradiction; [now subst|]. destruct L as (L1 & L2 & ->). repeat split; assumption.
      + destruct e; try congruence. destruct X.
    - intros (-> & H). destruct (imports_says l w H) as (fn & opt & S). destruct (HP w H) as [Hs Hp].
      pose proof HB as B. rewrite Hs in B. cbn in B. unfold kind_of in B. destruct (gfind g f) as [nd|] eqn:Ef; [|discriminate].
      injection B as B. destruct (j_nodes _ _ _ _ _ (w_inv _ _ _ _ _ W) _ _ Ef) as (n0 & l1 & Ha & Hb & Sn).
      assert (Hk0 : n_kind n0 = Script) by (destruct Sn as (_ & Sn & _); congruence). pose proof (ru_find _ _ _ HR) as HS.
      destruct (birth_kind E find HS _ _ _ _ _ _ Hb Hk0) as (t1 & tree' & A1 & A2 & _). rewrite Hp in A1. injection A1 as <-.
      destruct Ha as [Ha|Ha]; [|congruence].
      exists nd, l1, (tree_says (module_tree l)), fn, opt, w. split; [exact Ef|]. split; [rewrite Hs; apply le_self|]. split; [exact Ha|].
      split; [eapply tree_covers; [exact (ru_names _ _ _ HR)|exact A2]|]. split; [exact S|]. split; [unfold node_is_pkg; now rewrite B|]. now repeat split.
  Qed.
  Lemma picks_noticed z t t' z' n k p m x : at_rest (kept find conf) code z -> ready E find conf code f l start t ->
    gets_to (kept find conf) code (by_statement find conf code f l z) t z t' z' -> t' = Line n k p -> picks find conf n k p m x -> unbound s m x ->
    noticed find conf s start n (m ++ "." ++ x).
  Proof.
    intros RZ B H -> F U. destruct (gets_within E find conf code f l z start HP HW RZ (kept find conf) (fun _ _ K => K) _ _ _ _ H) as [_ V]; [|exact B|].
    { intros y [K|[K|K]]; [now left| |]; [rewrite (ar_loading _ _ _ RZ) in K|rewrite (ar_failed _ _ _ RZ) in K]; destruct K. }
    cbn in V. destruct F as [mo names lv m sp x T C1 C2 C3 C4 C5 C6].
    destruct (code_stands n k (WFrom mo names lv)) as (nd & l0 & T' & fn & opt & w' & K1 & K2 & K3 & K4 & K5 & K6 & K7 & K8 & K9); [apply V; now left|].
    cbn [w_names] in K9. eapply (name_noticed n nd l0 T' fn opt w' m sp x); rewrite ?K9; try eassumption. rewrite K6.
    assert (M : mentions n (match k with Some b => b | None => false end) (WFrom mo names lv) m).
    { destruct k as [b|]; cbn in T; [exact T|]. destruct T as [T1 ->]. now apply mentions_absolute. }
    destruct M as [M|q M1 M2 M3|q M1 M2 M3].
    - rewrite <- K8. apply mentions_absolute. congruence.
    - apply mentions_package; rewrite ?K7, ?K8; assumption.
    - rewrite <- K8. apply mentions_relative; rewrite ?K7, ?K8; assumption.
  Qed.
End named.

(** ** The property *)

Definition C107_statement : Prop := forall E find conf code DS f l s z n k p z' m x, executed E find conf code DS f l s -> at_rest (kept find conf) code z ->
  gets_to (kept find conf) code (by_statement find conf code f l z) (Lines f None l) z (Line n k p) z' -> picks find conf n k p m x -> unbound s m x ->
  noticed find conf s (RunScript f) n (m ++ "." ++ x).
Theorem C107_partial : forall E find conf code DS f l s z n k p z' m x, executed E find conf code DS f l s -> at_rest (kept find conf) code z -> orderly find conf s (RunScript f) ->
  gets_to (kept find conf) code (by_statement find conf code f l z) (Lines f None l) z (Line n k p) z' -> picks find conf n k p m x -> unbound s m x ->
  noticed find conf s (RunScript f) n (m ++ "." ++ x).
Proof.
  intros E find conf code DS f l s z n k p z' m x [A (i & B) C [D1 D2]] R O H F U.
  eapply (picks_noticed E find i conf DS s A B (RunScript f) C O code f l); [|exact D2|exact R| |exact H|reflexivity|exact F|exact U].
  - intros w Hw. now split.
  - intros w Hw. now split.
Qed.
Theorem C107_module_partial : forall E find conf code DS implies name s z n k p z' m x, running E find conf -> dsession E DS implies conf s ->
  in_graph s name -> modular s name -> coded E find code -> at_rest (kept find conf) code z -> orderly find conf s (RunModule name) ->
  gets_to (kept find conf) code (by_statement find conf code name [] z) (Import name) z (Line n k p) z' -> picks find conf n k p m x -> unbound s m x ->
  noticed find conf s (RunModule name) n (m ++ "." ++ x).
Proof.
  intros E find conf code DS i name s z n k p z' m x A B C C' W R O H F U.
  eapply (picks_noticed E find i conf DS s A B (RunModule name) (conj C C') O code name []); [|exact W|exact R| |exact H|reflexivity|exact F|exact U].
  - intros w [].
  - exists name. split; [now apply ak_start|apply wi_self].
Qed.
Theorem C107_default_partial : forall E P find conf code DS implies f l s z n k p z' m x, order_of_set P -> running E find conf -> default_session E P DS implies conf s ->
  ordinary (s_graph s) -> kind_of s f = Some Script -> assembled E find code f l -> at_rest (kept find conf) code z -> orderly find conf s (RunScript f) ->
  gets_to (kept find conf) code (by_statement find conf code f l z) (Lines f None l) z (Line n k p) z' -> picks find conf n k p m x -> unbound s m x ->
  noticed find conf s (RunScript f) n (m ++ "." ++ x).
Proof.
  intros E P find conf code DS i f l s z n k p z' m x OP A B G C W R O H F U. destruct (C93_session _ _ _ _ _ _ OP B G) as [u [Hu Bu]].
  pose proof (but_orderly _ _ _ _ _ Bu O) as O'. destruct Bu as [v [y ->]].
  eapply (C107_partial E find conf code DS f l (set_missing (set_post s v) y) z n k p z' m x); [|exact R|exact O'|exact H|exact F|exact U]. constructor; [exact A|eexists; exact Hu|exact C|exact W].
Qed.
Theorem C107_default_module_partial : forall E P find conf code DS implies name s z n k p z' m x, order_of_set P -> running E find conf -> default_session E P DS implies conf s ->
  ordinary (s_graph s) -> in_graph s name -> modular s name -> coded E find code -> at_rest (kept find conf) code z -> orderly find conf s (RunModule name) ->
  gets_to (kept find conf) code (by_statement find conf code name [] z) (Import name) z (Line n k p) z' -> picks find conf n k p m x -> unbound s m x ->
  noticed find conf s (RunModule name) n (m ++ "." ++ x).
Proof.
  intros E P find conf code DS i name s z n k p z' m x OP A B G C C' W R O H F U. destruct (C93_session _ _ _ _ _ _ OP B G) as [u [Hu Bu]].
  pose proof (but_orderly _ _ _ _ _ Bu O) as O'. destruct Bu as [v [y ->]].
  exact (C107_module_partial E find conf code DS i name (set_missing (set_post s v) y) z n k p z' m x A Hu C C' W R O' H F U).
Qed.

(** As for C104, but the module that the graph does not have imports a name from a package. *)
Definition rare_program : PropsMust.program :=
  [("q", (true, [PIf [PImport [("json", Some "name")]] []])); ("q.name", (false, [PFrom (Some "json") [("gone", None)] 0])); ("json", (true, []))].
Definition rare_graph : st := Eval vm_compute in program_graph rare_program cond_script.
Theorem C107_refuted : ~ C107_statement.
Proof.
  intros H. destruct (H (program_world rare_program cond_script) (found_in (entries rare_program)) main_conf (code_in rare_program) (fun _ => False) "main.py" cond_script rare_graph (Mods [] [] [] [])
    "q.name" (Some false) (PFrom (Some "json") [("gone", None)] 0) (Mods ["q"] ["q.name"] [] []) "json" "gone") as (_ & (d & ds & K & _) & _); clear H.
  - eapply program_executed; vm_compute; reflexivity.
  - apply rest_new.
  - eapply gt_on; [|apply go_line]. eapply gt_on; [|eapply (load_goes _ _ _ "q.name" _ _ (Mods ["q"] [] [] [])); [distinct|reflexivity..]].
    eapply gt_on; [|eapply (go_child _ _ _ "q" "q.name" (Mods ["q"] [] [] [])); [distinct|reflexivity|exact name_child|apply rn_loaded; cbn; auto]].
    eapply gt_on; [|apply (go_call _ _ _ "q.name")].
    + eapply gt_on; [eapply gt_on; [apply gt_here|apply go_line]|]. eapply (go_names _ _ _ _ _ _ _ _ "q"); [now split|].
      apply rn_top; [distinct|now apply no_child|reflexivity|]. refine (rn_load _ _ _ "q" _ _ _ (Mods [] ["q"] [] []) Next _ _ _ _); [distinct|reflexivity|reflexivity|].
      eapply rn_cons; [|apply rn_nil]. eapply rn_if; [apply rn_return|right; reflexivity|apply rn_nil].
    + eapply bs_script; [now left|reflexivity|]. eapply (rq_name _ _ _ _ _ "q" _ "name"); [now apply mentions_absolute|now apply can_top|reflexivity|reflexivity|now left|reflexivity|].
      intros [K|[]]. discriminate K.
  - eapply pk_from; [now apply (mentions_absolute _ _ (WFrom (Some "json") [("gone", None)] 0))|now apply can_top|reflexivity|reflexivity|now left|reflexivity|].
    intros [K|[]]. discriminate K.
  - intros nd K. vm_compute in K. injection K as <-. intros [].
  - vm_compute in K. repeat (destruct K as [K|K]; [discriminate K|]). destruct K.
Qed.

(** Module app does without the tables of data, which are not there. *)
Definition table_program : PropsMust.program := [("app", (false, [PTry false [PFrom (Some "data") [("tables", None)] 0] [[PSimple]] [] []])); ("data", (true, []))].
Definition table_script : list piece := [PImport [("app", None)]].
Definition table_graph : st := Eval vm_compute in program_graph table_program table_script.
Example C107_nonvacuous :
  executed (program_world table_program table_script) (found_in (entries table_program)) main_conf (code_in table_program) (fun _ => False) "main.py" table_script table_graph
  /\ at_rest (kept (found_in (entries table_program)) main_conf) (code_in table_program) (Mods [] [] [] []) /\ orderly (found_in (entries table_program)) main_conf table_graph (RunScript "main.py")
  /\ gets_to (kept (found_in (entries table_program)) main_conf) (code_in table_program)
       (by_statement (found_in (entries table_program)) main_conf (code_in table_program) "main.py" table_script (Mods [] [] [] [])) (Lines "main.py" None table_script) (Mods [] [] [] [])
       (Line "app" (Some false) (PFrom (Some "data") [("tables", None)] 0)) (Mods [] ["app"] [] [])
  /\ picks (found_in (entries table_program)) main_conf "app" (Some false) (PFrom (Some "data") [("tables", None)] 0) "data" "tables" /\ unbound table_graph "data" "tables"
  /\ found_in (entries table_program) "data.tables" = None /\ kind_of table_graph "data.tables" = Some MissingModule.
Proof.
  split; [eapply program_executed; vm_compute; reflexivity|]. split; [apply rest_new|]. split; [|split; [|split; [|split; [|split; reflexivity]]]].
  - constructor.
    + now apply tidy_bool.
    + intros m nd x t A B C K. exfalso. apply gfind_in in A as [A <-]. vm_compute in A.
      repeat (destruct A as [<-|A]; [cbn in B; repeat (destruct B as [<-|B]; [inversion C as [? ? C1]; discriminate C1|]); destruct B|]). destruct A.
    + intros m x id (nd & (a & i & y & _ & _ & _ & A & _) & B & _) _. apply gfind_in in A as [A _]. vm_compute in A.
      repeat (destruct A as [<-|A]; [destruct B as [G B]; try discriminate G; destruct B as [[]|(b & k & ff & ty & t & B & _)]; discriminate B|]). destruct A.
    + intros a f d (ds & K & _). vm_compute in K. repeat (destruct K as [K|K]; [injection K as <- <- <-; vm_compute; split; discriminate|]). destruct K.
  - eapply gt_on; [|apply go_line]. eapply gt_on; [|apply go_body]. eapply gt_on; [|apply (go_try _ _ _ _ _ _ _ _ [] false)]. eapply gt_on; [|apply go_line].
    eapply gt_on; [|eapply (load_goes _ _ _ "app" _ _ (Mods [] [] [] [])); [distinct|reflexivity..]].
    eapply gt_on; [|apply go_top; [distinct|now apply no_child|reflexivity]]. eapply gt_on; [|apply go_import]. eapply gt_on; [apply gt_here|apply go_line].
  - eapply pk_from; [now apply (mentions_absolute _ _ (WFrom (Some "data") [("tables", None)] 0))|now apply can_top|reflexivity|reflexivity|now left|reflexivity|].
    intros [K|[]]. discriminate K.
  - intros nd K. vm_compute in K. injection K as <-. intros [].
Qed.

Print Assumptions C107_partial.
Print Assumptions C107_module_partial.
Print Assumptions C107_default_partial.
Print Assumptions C107_default_module_partial.
Print Assumptions C107_refuted.
