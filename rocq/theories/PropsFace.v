(** C104: imports that fail are reported. *)
From Verif Require Import ReportSpec BuilderSource BuilderHist BuilderInv BuilderCalls World AstProofs PropsBuilder PropsCalls PropsHooks PropsRoots PropsSource PropsReach SeedSpec BuilderSame PropsLoad PropsNeed PropsSame PropsSeed MoreSpec PropsMore BuilderRest PropsRest PropsDefault PropsLoad PropsSame PropsReport BundleSpec PropsBundle MustSpec PropsMust WithinSpec PropsWithin AlwaysSpec PropsAlways FaceSpec.
Open Scope string_scope.

Lemma alike_mentions n b w w' x : CompileSpec.alike w' w -> mentions n b w x -> mentions n b w' x.
Proof.
  intros H. assert (L : w_level w' = w_level w /\ w_module w' = w_module w).
  { destruct w as [m a|m l k], w' as [m' a'|m' l' k']; cbn in H; try contradiction; [now subst|]. destruct H as (A & B & ->). now split. }
  destruct L as (L1 & L2). intros [K|q K1 K2 K3|q K1 K2 K3].
  - rewrite <- L2. apply mentions_absolute. congruence.
  - apply mentions_package; rewrite ?L1, ?L2; assumption.
  - rewrite <- L2. apply mentions_relative; rewrite ?L1, ?L2; assumption.
Qed.
Section face.
  Variable E : env.
  Variable find : string -> option spec.
  Variables implies conf : list (string * implied).
  Variable DS : dist -> Prop.
  Variable s : st.
  Hypothesis HR : running E find conf.
  Hypothesis HX : dsession E DS implies conf s.
  Notation g := (s_graph s).
  Let W : JW E find conf DS s.
  Proof. destruct HR as [A _ _ B C]. exact (one_JW E find implies conf A B C s HX). Qed.

  (** The edge for what a statement mentions. *)
  Lemma mention_edge n nd l T fn opt w m : gfind g n = Some nd -> In (EvAdd n l) (s_log s) ->
    covers T l -> T fn opt w -> mentions n (node_is_pkg nd) w m -> exists d, has_edge g n m d.
  Proof.
    intros Hn Ha HT Hw Hm. destruct (proj1 HT fn opt w Hw) as (i & Hi & Hrec). pose proof (gfind_name _ _ _ Hn) as En.
    exists (import_dep i). eapply (one_aims E implies conf (ru_order _ _ _ HR) s HX); [exact Ha|exact Hi|].
    exists (node_is_pkg nd). split; [rewrite <- En; apply own_pkg; now rewrite En|].
    rewrite <- En in Hm |- *. apply (recorded_names s nd fn opt w i m Hrec); [now rewrite En|exact Hm].
  Qed.

  (** What is missing has a node that says so. *)
  Lemma lost_missing x k : (forall c, within c x -> assoc c conf = None) -> kind_of s x = Some k -> is_missing k || is_excluded k = true -> k = MissingModule.
  Proof.
    revert k. induction x as [x IH] using (well_founded_induction (Wf_nat.well_founded_ltof _ String.length)). intros k N K M.
    destruct (gfind g x) as [nd|] eqn:Ex; [|unfold kind_of in K; rewrite Ex in K; discriminate].
    assert (Ek : n_kind nd = k) by (unfold kind_of in K; rewrite Ex in K; now injection K).
    destruct (j_nodes _ _ _ _ _ (w_inv _ _ _ _ _ W) _ _ Ex) as (n0 & l & _ & B & S). assert (E0 : n_kind n0 = k) by (destruct S as (_ & S & _); congruence).
    destruct B as [t0 tree l A B|d0 A B|A|c k' A B C D|i k' A B C|A B C|sp' n0 l k' s1 s2 A B C D]; cbn [n_kind plain_node] in E0; clear K Ek; rewrite <- E0 in M |- *; try discriminate M.
    - apply (IH c); [now apply child_shorter| |exact C|exact M].
      intros e He. apply N. eapply wi_up; [exact B|exact He].
    - rewrite (N x (wi_self x)) in B. discriminate.
    - reflexivity.
    - apply (nfs_kind E) in D as [_ D]; [|eapply sy_direct; [exact (ru_find _ _ _ HR)|exact C]]. apply spec_real in D. destruct (n_kind n0); discriminate.
  Qed.
  Lemma unfound_missing x : unfound find conf x -> in_graph s x -> (forall c, within c x -> modular s c) -> kind_of s x = Some MissingModule.
  Proof.
    induction x as [x IH] using (well_founded_induction (Wf_nat.well_founded_ltof _ String.length)). intros (D & N & c & Hc & F) I M.
    destruct (gfind g x) as [nd|] eqn:Ex; [|now elim I].
    assert (Ek : kind_of s x = Some (n_kind nd)) by (unfold kind_of; now rewrite Ex).
    destruct (j_nodes _ _ _ _ _ (w_inv _ _ _ _ _ W) _ _ Ex) as (n0 & l & _ & B & S). assert (E0 : n_kind nd = n_kind n0) by (destruct S as (_ & S & _); congruence).
    rewrite Ek, E0. rewrite E0 in Ek. clear S.
    destruct B as [t0 tree l A B|d0 A B|A|p k A B C G|i k A B C|A B C|sp n0 l k s1 s2 A B C G]; cbn [n_kind plain_node] in *.
    - now elim (proj1 (M x (wi_self x))).
    - now elim (proj2 (M x (wi_self x))).
    - congruence.
    - f_equal. exact (lost_missing x k N Ek G).
    - rewrite (N x (wi_self x)) in B. discriminate.
    - reflexivity.
    - exfalso. destruct Hc as [x|c p x Hp Hc]; [congruence|]. destruct A as [_ A]. destruct (A p Hp) as (k' & K1 & K2 & _).
      rewrite (IH p) in K1; [injection K1 as <-; discriminate|now apply child_shorter| | |].
      + split; [now apply (PropsWithin.child_dots p x)|]. split; [intros e He; apply N; eapply wi_up; eassumption|]. now exists c.
      + unfold in_graph. unfold kind_of in K1. destruct (gfind g p); [discriminate|discriminate K1].
      + intros e He. apply M. eapply wi_up; eassumption.
  Qed.

  Variable start : LoadSpec.program.
  Hypothesis HB : begun_with s start.
  Hypothesis HO : orderly find conf s start.

  Lemma edge_noticed n x d : leads g (started start) n -> has_edge g n x d -> noticed find conf s start n x.
  Proof.
    intros L H. split; [exact L|]. split; [now exists d|]. intros U. destruct HR as [R1 _ _ R2 R3], HO as [O1 O2 O3 O4].
    assert (K : PropsLoad.hit s start x) by (eapply (PropsLoad.edge_hit E implies conf R1 s HX start O4); eassumption).
    apply unfound_missing; [exact U|exact (proj1 K)|]. intros c Hc.
    assert (X : PropsLoad.hit s start c); [|exact (proj1 (proj2 X))].
    eapply (PropsLoad.up_all E find implies conf R1 R2 R3 s HX start); try eassumption. exact (proj1 U).
  Qed.
  Lemma script_noticed f t tree fn opt w x : start = RunScript f -> e_script E t f = ROk tree -> tree_says tree fn opt w -> w_level w = 0 ->
    mentions f false w x -> noticed find conf s start f x.
  Proof.
    intros H1 H2 H3 H4 H5. pose proof HB as B. rewrite H1 in B. cbn in B. unfold kind_of in B. destruct (gfind g f) as [nd|] eqn:Ef; [|discriminate].
    injection B as B. destruct (j_nodes _ _ _ _ _ (w_inv _ _ _ _ _ W) _ _ Ef) as (n0 & l & Ha & Hb & S).
    assert (Hk0 : n_kind n0 = Script) by (destruct S as (_ & S & _); congruence). pose proof (ru_find _ _ _ HR) as HS.
    destruct (birth_kind E find HS _ _ _ _ _ _ Hb Hk0) as (t1 & tree' & A1 & A2 & _).
    rewrite (sy_script _ _ HS t1 t f), H2 in A1. injection A1 as <-.
    destruct Ha as [Ha|Ha]; [|congruence].
    assert (P : node_is_pkg nd = false) by (unfold node_is_pkg; now rewrite B).
    destruct (mention_edge f nd l (tree_says tree) fn opt w x Ef Ha) as (d & K); [|exact H3|now rewrite P|].
    - eapply tree_covers; [exact (ru_names _ _ _ HR)|exact A2].
    - eapply edge_noticed; [|exact K]. rewrite H1. apply le_self.
  Qed.
  Lemma module_noticed n sp T fn opt w x : loads E find conf start n -> find n = Some sp -> module_says E find n T -> T fn opt w ->
    mentions n (spec_pkg sp) w x -> noticed find conf s start n x.
  Proof.
    intros H1 H2 H3 H4 H5. destruct (C75_partial E find DS implies conf s start n HR HX HB HO H1) as [(nd & En & Rn) L].
    destruct H1 as (name & _ & _ & H1). destruct HR as [R1 R2 R3 R4 R5].
    destruct (PropsLoad.can_birth E find implies conf R1 R4 R5 s HX n nd H1 En) as (sp' & n0 & l0 & k & s1 & s2 & B1 & B2 & B3 & B4).
    { unfold modular, kind_of. rewrite En. cbn. split; intros K; injection K as K; rewrite K in Rn; discriminate. }
    assert (sp' = sp) as -> by congruence.
    assert (P : node_is_pkg nd = spec_pkg sp).
    { rewrite <- (nfs_pkg E k sp s1 n0 l0 s2); [|eapply sy_direct; eassumption| |exact B2].
      - unfold node_is_pkg. destruct B3 as (_ & <- & _). reflexivity.
      - destruct H1 as [n sp' D1 D2 _ _ _]. assert (sp' = sp) as -> by congruence. exact D2. }
    destruct (mention_edge n nd l0 T fn opt w x En B4) as (d & K); [|exact H4|now rewrite P|].
    - eapply (PropsLoad.nfs_code E find); eassumption.
    - eapply edge_noticed; [exact L|exact K].
  Qed.
End face.

Section told.
  Variable E : env.
  Variable find : string -> option spec.
  Variables implies conf : list (string * implied).
  Variable DS : dist -> Prop.
  Variable s : st.
  Hypothesis HR : running E find conf.
  Hypothesis HX : dsession E DS implies conf s.
  Variable start : LoadSpec.program.
  Hypothesis HB : begun_with s start.
  Hypothesis HO : orderly find conf s start.
  Variable code : string -> option (list piece).
  Variable f : string.
  Variable l : list piece.
  Hypothesis HP : forall w, In w (flat_map imports l) -> start = RunScript f /\ forall t, e_script E t f = ROk (module_tree l).
  Hypothesis HW : coded E find code.

  Lemma code_noticed n k w x : of_code E find conf code f l start n k w -> target n k w x -> noticed find conf s start n x.
  Proof.
    destruct k as [b|]; cbn.
    - intros (sp & body & A & B & -> & C & D) M. pose proof (HW n sp B) as X.
      destruct (sp_loader sp) as [| | | |fr src cd| | | |] eqn:El; try congruence. destruct src as [[text|]|e].
      + destruct X as (file & b & Ho & Hb & Hp). assert (b = body) as -> by congruence. destruct (imports_says body w D) as (fn & opt & S).
        eapply (module_noticed E find implies conf DS s HR HX start HB HO n sp); [exact A|exact B| |exact S|exact M].
        eapply (cd_source _ _ _ sp fr text cd file 0); [exact B|exact El|exact Ho|apply Hp].
      + destruct cd as [[c|]|e]; try congruence. destruct X as (dead & b & Hd & Hb & Hc). assert (b = body) as -> by congruence.
        destruct (compiled_says (e_ge311 E) dead body c w Hd Hc D) as (fn & opt & w' & S & L).
        eapply (module_noticed E find implies conf DS s HR HX start HB HO n sp); [exact A|exact B| |exact S|exact (alike_mentions _ _ _ _ _ L M)].
        eapply (cd_code _ _ _ sp fr None c); [exact B|exact El|now left].
      + destruct e; try congruence. destruct X.
    - intros (-> & H) (L & ->). destruct (imports_says l w H) as (fn & opt & S). destruct (HP w H) as [Hs Hp].
      eapply (script_noticed E find implies conf DS s HR HX start HB HO f 0); [exact Hs|apply Hp|exact S|exact L|]. now apply mentions_absolute.
  Qed.
  Lemma faces_noticed z t t' z' n k p x : at_rest (kept find conf) code z -> ready E find conf code f l start t ->
    gets_to (kept find conf) code (by_statement find conf code f l z) t z t' z' -> t' = Line n k p -> faces n k p x -> noticed find conf s start n x.
  Proof.
    intros RZ B H -> F. destruct (gets_within E find conf code f l z start HP HW RZ (kept find conf) (fun _ _ K => K) _ _ _ _ H) as [_ V]; [|exact B|].
    { intros y [K|[K|K]]; [now left| |]; [rewrite (ar_loading _ _ _ RZ) in K|rewrite (ar_failed _ _ _ RZ) in K]; destruct K. }
    cbn in V. destruct F as [x a r|m names lv x T].
    - apply (code_noticed n k (WImport x a)); [apply V; now left|]. destruct k; cbn; [apply (mentions_absolute _ _ (WImport x a)); reflexivity|now split].
    - apply (code_noticed n k (WFrom m names lv)); [apply V; now left|exact T].
  Qed.
End told.

(** ** The property *)

Definition C104_statement : Prop := forall E find conf code DS f l s z n k p z' x, executed E find conf code DS f l s -> at_rest (kept find conf) code z ->
  gets_to (kept find conf) code (by_statement find conf code f l z) (Lines f None l) z (Line n k p) z' -> faces n k p x ->
  noticed find conf s (RunScript f) n x.
Theorem C104_partial : forall E find conf code DS f l s z n k p z' x, executed E find conf code DS f l s -> at_rest (kept find conf) code z -> orderly find conf s (RunScript f) ->
  gets_to (kept find conf) code (by_statement find conf code f l z) (Lines f None l) z (Line n k p) z' -> faces n k p x ->
  noticed find conf s (RunScript f) n x.
Proof.
  intros E find conf code DS f l s z n k p z' x [A (i & B) C [D1 D2]] R O H F.
  eapply (faces_noticed E find i conf DS s A B (RunScript f) C O code f l); [|exact D2|exact R| |exact H|reflexivity|exact F].
  - intros w Hw. now split.
  - intros w Hw. now split.
Qed.
Theorem C104_module_partial : forall E find conf code DS implies name s z n k p z' x, running E find conf -> dsession E DS implies conf s ->
  in_graph s name -> modular s name -> coded E find code -> at_rest (kept find conf) code z -> orderly find conf s (RunModule name) ->
  gets_to (kept find conf) code (by_statement find conf code name [] z) (Import name) z (Line n k p) z' -> faces n k p x ->
  noticed find conf s (RunModule name) n x.
Proof.
  intros E find conf code DS i name s z n k p z' x A B C C' W R O H F.
  eapply (faces_noticed E find i conf DS s A B (RunModule name) (conj C C') O code name []); [|exact W|exact R| |exact H|reflexivity|exact F].
  - intros w [].
  - exists name. split; [now apply ak_start|apply wi_self].
Qed.
Theorem C104_default_partial : forall E P find conf code DS implies f l s z n k p z' x, order_of_set P -> running E find conf -> default_session E P DS implies conf s ->
  ordinary (s_graph s) -> kind_of s f = Some Script -> assembled E find code f l -> at_rest (kept find conf) code z -> orderly find conf s (RunScript f) ->
  gets_to (kept find conf) code (by_statement find conf code f l z) (Lines f None l) z (Line n k p) z' -> faces n k p x ->
  noticed find conf s (RunScript f) n x.
Proof.
  intros E P find conf code DS i f l s z n k p z' x OP A B G C W R O H F. destruct (C93_session _ _ _ _ _ _ OP B G) as [u [Hu Bu]].
  pose proof (but_orderly _ _ _ _ _ Bu O) as O'. destruct Bu as [v [y ->]].
  eapply (C104_partial E find conf code DS f l (set_missing (set_post s v) y) z n k p z' x); [|exact R|exact O'|exact H|exact F]. constructor; [exact A|eexists; exact Hu|exact C|exact W].
Qed.
Theorem C104_default_module_partial : forall E P find conf code DS implies name s z n k p z' x, order_of_set P -> running E find conf -> default_session E P DS implies conf s ->
  ordinary (s_graph s) -> in_graph s name -> modular s name -> coded E find code -> at_rest (kept find conf) code z -> orderly find conf s (RunModule name) ->
  gets_to (kept find conf) code (by_statement find conf code name [] z) (Import name) z (Line n k p) z' -> faces n k p x ->
  noticed find conf s (RunModule name) n x.
Proof.
  intros E P find conf code DS i name s z n k p z' x OP A B G C C' W R O H F. destruct (C93_session _ _ _ _ _ _ OP B G) as [u [Hu Bu]].
  pose proof (but_orderly _ _ _ _ _ Bu O) as O'. destruct Bu as [v [y ->]].
  exact (C104_module_partial E find conf code DS i name (set_missing (set_post s v) y) z n k p z' x A Hu C C' W R O' H F).
Qed.

Lemma load_goes find code may x sp l z b z' : ~ known x z -> find x = Some sp -> code x = Some l -> Some (spec_pkg sp) = b -> begin x z = z' ->
  goes find code may (Loads x) z (Lines x b l) z'.
Proof. intros A B C <- <-. now apply go_load. Qed.
(** Package q may or may not bind the name; its module q.name imports what is not there,
    and the graph does not have it. *)
Definition lost_program : PropsMust.program :=
  [("q", (true, [PIf [PImport [("json", Some "name")]] []])); ("q.name", (false, [PImport [("gone", None)]])); ("json", (false, []))].
Definition lost_graph : st := Eval vm_compute in program_graph lost_program cond_script.
Theorem C104_refuted : ~ C104_statement.
Proof.
  intros H. destruct (H (program_world lost_program cond_script) (found_in (entries lost_program)) main_conf (code_in lost_program) (fun _ => False) "main.py" cond_script lost_graph (Mods [] [] [] [])
    "q.name" (Some false) (PImport [("gone", None)]) (Mods ["q"] ["q.name"] [] []) "gone") as (_ & (d & ds & K & _) & _).
  - eapply program_executed; vm_compute; reflexivity.
  - apply rest_new.
  - eapply gt_on; [|apply go_line]. eapply gt_on; [|eapply (load_goes _ _ _ "q.name" _ _ (Mods ["q"] [] [] [])); [distinct|reflexivity..]].
    eapply gt_on; [|eapply (go_child _ _ _ "q" "q.name" (Mods ["q"] [] [] [])); [distinct|reflexivity|exact name_child|apply rn_loaded; cbn; auto]].
    eapply gt_on; [|apply (go_call _ _ _ "q.name")].
    + eapply gt_on; [eapply gt_on; [apply gt_here|apply go_line]|]. eapply (go_names _ _ _ _ _ _ _ _ "q"); [now split|].
      apply rn_top; [distinct|now apply no_child|reflexivity|]. refine (rn_load _ _ _ "q" _ _ _ (Mods [] ["q"] [] []) Next _ _ _ _); [distinct|reflexivity|reflexivity|].
      eapply rn_cons; [|apply rn_nil]. eapply rn_if; [apply rn_return|right; reflexivity|apply rn_nil].
    + eapply bs_script; [now left|reflexivity|]. eapply (rq_name _ _ _ _ _ "q" _ "name"); [now apply mentions_absolute|now apply can_top|reflexivity|reflexivity|now left|reflexivity|].
      intros [K|[]]. discriminate K.
  - apply fc_import.
  - vm_compute in K. repeat (destruct K as [K|K]; [discriminate K|]). destruct K.
Qed.

(** A module that does without what is not there. *)
Definition fast_program : PropsMust.program := [("pkg", (true, [PTry false [PFrom (Some "speedups.core") [("go", None)] 0] [[PSimple]] [] []]))].
Definition fast_script : list piece := [PImport [("pkg", None)]].
Definition fast_graph : st := Eval vm_compute in program_graph fast_program fast_script.
Lemma core_child c : child_of c "speedups.core" -> c = "speedups".
Proof. intros H. pose proof (split_child _ _ _ _ H eq_refl) as K. vm_compute in K. now injection K. Qed.
Example C104_nonvacuous :
  executed (program_world fast_program fast_script) (found_in (entries fast_program)) main_conf (code_in fast_program) (fun _ => False) "main.py" fast_script fast_graph
  /\ at_rest (kept (found_in (entries fast_program)) main_conf) (code_in fast_program) (Mods [] [] [] []) /\ orderly (found_in (entries fast_program)) main_conf fast_graph (RunScript "main.py")
  /\ gets_to (kept (found_in (entries fast_program)) main_conf) (code_in fast_program)
       (by_statement (found_in (entries fast_program)) main_conf (code_in fast_program) "main.py" fast_script (Mods [] [] [] [])) (Lines "main.py" None fast_script) (Mods [] [] [] [])
       (Line "pkg" (Some true) (PFrom (Some "speedups.core") [("go", None)] 0)) (Mods [] ["pkg"] [] [])
  /\ faces "pkg" (Some true) (PFrom (Some "speedups.core") [("go", None)] 0) "speedups.core"
  /\ unfound (found_in (entries fast_program)) main_conf "speedups.core" /\ kind_of fast_graph "speedups.core" = Some MissingModule.
Proof.
  split; [eapply program_executed; vm_compute; reflexivity|]. split; [apply rest_new|]. split; [|split; [|split; [|split; [|reflexivity]]]].
  - constructor.
    + now apply tidy_bool.
    + intros m nd x t A B C K. exfalso. apply gfind_in in A as [A <-]. vm_compute in A.
      repeat (destruct A as [<-|A]; [cbn in B; repeat (destruct B as [<-|B]; [inversion C as [? ? C1]; discriminate C1|]); destruct B|]). destruct A.
    + intros m x id (nd & (a & i & y & _ & _ & _ & A & _) & B & _) _. apply gfind_in in A as [A _]. vm_compute in A.
      repeat (destruct A as [<-|A]; [destruct B as [G B]; try discriminate G; destruct B as [[]|(b & k & ff & ty & t & B & _)]; discriminate B|]). destruct A.
    + intros a f d (ds & K & _). vm_compute in K. repeat (destruct K as [K|K]; [injection K as <- <- <-; vm_compute; split; discriminate|]). destruct K.
  - eapply gt_on; [|apply go_line]. eapply gt_on; [|apply go_body]. eapply gt_on; [|apply (go_try _ _ _ _ _ _ _ _ [] false)]. eapply gt_on; [|apply go_line].
    eapply gt_on; [|eapply (load_goes _ _ _ "pkg" _ _ (Mods [] [] [] [])); [distinct|reflexivity..]].
    eapply gt_on; [|apply go_top; [distinct|now apply no_child|reflexivity]]. eapply gt_on; [|apply go_import]. eapply gt_on; [apply gt_here|apply go_line].
  - apply fc_from. cbn. now apply mentions_absolute.
  - split; [reflexivity|]. split.
    + intros c H. assert (K : c = "speedups.core" \/ c = "speedups"); [|destruct K as [->| ->]; reflexivity].
      inversion H as [|? p ? Hp Hc]; subst; [now left|]. apply core_child in Hp as ->. right.
      inversion Hc as [|? p ? Hp Hc']; subst; [reflexivity|]. exfalso. now apply (no_child "speedups") in Hp.
    + exists "speedups.core". split; [apply wi_self|reflexivity].
Qed.

Print Assumptions C104_partial.
Print Assumptions C104_module_partial.
Print Assumptions C104_default_partial.
Print Assumptions C104_default_module_partial.
Print Assumptions C104_refuted.
