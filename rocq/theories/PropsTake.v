(** C106: settings take effect for all that runs import. *)
From Verif Require Import ReportSpec BuilderSource BuilderHist BuilderInv BuilderCalls World AstProofs PropsBuilder PropsCalls PropsHooks PropsRoots PropsSource PropsReach SeedSpec BuilderSame PropsLoad PropsNeed PropsSame PropsSeed MoreSpec PropsMore BuilderRest PropsRest PropsDefault PropsLoad PropsSame PropsReport BundleSpec PropsBundle MustSpec PropsMust WithinSpec PropsWithin AlwaysSpec PropsAlways FaceSpec PropsFace TakeSpec.
Open Scope string_scope.

Lemma covered_hit s start x : covered s start x -> PropsLoad.hit s start x.
Proof.
  intros [(nd & A & B) L]. unfold PropsLoad.hit, in_graph, modular, kind_of. rewrite A. cbn. split; [discriminate|]. split; [|exact L].
  split; intros K; injection K as K; rewrite K in B; discriminate.
Qed.

Section take.
  Variable E : env.
  Variable find : string -> option spec.
  Variables implies conf : list (string * implied).
  Variable DS : dist -> Prop.
  Variable s : st.
  Hypothesis HR : running E find conf.
  Hypothesis HX : dsession E DS implies conf s.
  Notation g := (s_graph s).
  Let W : JW E find conf DS s.
  Proof. destruct HR as [A _ _ B C]. exact (one_JW E find implies conf A B C s HX). Qed.

  Lemma hit_set start x : PropsLoad.hit s start x -> starts_with "." x = false ->
    (forall p, child_of p x -> can_import find conf p /\ modular s p) -> as_set conf s x.
  Proof.
    intros (I & M & _) D P. unfold as_set. destruct (assoc x conf) as [i|] eqn:Ei; [|exact Logic.I].
    destruct (gfind g x) as [nd|] eqn:Ex; [|now elim I].
    assert (Ek : kind_of s x = Some (n_kind nd)) by (unfold kind_of; now rewrite Ex).
    pose proof HR as [R1 _ _ R2 R3]. destruct (one_node E find implies conf R1 R2 R3 s HX x I M D) as [Pd _].
    assert (T : forall a, n_kind nd = AliasNode a \/ n_kind nd = VirtualNode a -> has_edge g x a (Dep false true false None)).
    { intros a [K|K]; apply (pd_target _ _ _ Pd a); rewrite Ek, K; auto. }
    destruct (j_nodes _ _ _ _ _ (w_inv _ _ _ _ _ W) _ _ Ex) as (n0 & l & _ & B & S). assert (E0 : n_kind nd = n_kind n0) by (destruct S as (_ & S & _); congruence).
    assert (F : free conf s x -> match i with ImpRefs refs => forall b, In b refs -> has_edge g x b (Dep false true false None) | _ => False end).
    { intros F. destruct (F i Ei) as [F1 F2]. destruct i as [|a|a|refs]; try discriminate F1. exact (w_refs _ _ _ _ _ W x refs F2). }
    rewrite Ek, E0. rewrite E0 in T, Ek. clear S E0.
    destruct B as [t0 tree l A B|d0 A B|A|p k A B C G|i' k A B C|A B C|sp n0 l k s1 s2 A B C G]; cbn [n_kind plain_node] in *.
    - now elim (proj1 M).
    - now elim (proj2 M).
    - congruence.
    - exfalso. destruct (P p B) as [Cp Mp]. unfold kind_of in C. destruct (gfind g p) as [np|] eqn:Ep; [|discriminate]. injection C as C.
      pose proof (PropsLoad.can_real E find implies conf R1 R2 R3 s HX p np Cp Ep Mp) as Rp. rewrite C in Rp. destruct k; discriminate.
    - assert (i' = i) as -> by congruence. destruct i; try discriminate C; injection C as <-; auto.
    - specialize (F B). destruct i; [destruct F..|exact F].
    - specialize (F B). destruct i; [destruct F..|exact F].
  Qed.
  Variable start : LoadSpec.program.
  Hypothesis HO : orderly find conf s start.
  Lemma hit_above x : PropsLoad.hit s start x -> starts_with "." x = false -> forall p, child_of p x -> modular s p.
  Proof.
    intros H D p Hp. destruct HR as [R1 _ _ R2 R3], HO as [O1 O2 O3 O4]. assert (X : PropsLoad.hit s start p); [|exact (proj1 (proj2 X))].
    eapply (PropsLoad.up_all E find implies conf R1 R2 R3 s HX start); try eassumption. eapply wi_up; [exact Hp|apply wi_self].
  Qed.
  Lemma noticed_set n x : noticed find conf s start n x -> starts_with "." x = false -> (forall p, child_of p x -> can_import find conf p) -> as_set conf s x.
  Proof.
    intros (L & (d & K) & _) D P. assert (H : PropsLoad.hit s start x).
    { eapply (PropsLoad.edge_hit E implies conf (ru_order _ _ _ HR) s HX start (or_script _ _ _ _ HO)); eassumption. }
    apply (hit_set start x H D). intros p Hp. split; [now apply P|]. eapply hit_above; eassumption.
  Qed.
End take.

(** ** The property *)

Definition C106_statement : Prop := forall E find conf code DS f l s z t' z' x, executed E find conf code DS f l s -> at_rest (kept find conf) code z ->
  gets_to (kept find conf) code (by_statement find conf code f l z) (Lines f None l) z t' z' -> at_hand find conf z z' t' x -> as_set conf s x.
Theorem C106_partial : forall E find conf code DS f l s z t' z' x, executed E find conf code DS f l s -> at_rest (kept find conf) code z -> orderly find conf s (RunScript f) ->
  gets_to (kept find conf) code (by_statement find conf code f l z) (Lines f None l) z t' z' -> at_hand find conf z z' t' x -> as_set conf s x.
Proof.
  intros E find conf code DS f l s z t' z' x X R O H (D & P & [(n & k & p & -> & F)|[V N]]).
  - pose proof (C104_partial E find conf code DS f l s z n k p z' x X R O H F) as K. destruct X as [A (i & B) C _].
    exact (noticed_set E find i conf DS s A B (RunScript f) O n x K D P).
  - destruct (C103_partial E find conf code DS f l s z t' z' X R O H x V) as [K|K]; [contradiction|]. destruct X as [A (i & B) C [W1 W2]].
    apply covered_hit in K. apply (hit_set E find i conf DS s A B (RunScript f) x K D).
    intros p Hp. split; [now apply P|]. exact (hit_above E find i conf DS s A B (RunScript f) O x K D p Hp).
Qed.
Theorem C106_module_partial : forall E find conf code DS implies name s z t' z' x, running E find conf -> dsession E DS implies conf s ->
  in_graph s name -> modular s name -> coded E find code -> at_rest (kept find conf) code z -> orderly find conf s (RunModule name) ->
  gets_to (kept find conf) code (by_statement find conf code name [] z) (Import name) z t' z' -> at_hand find conf z z' t' x -> as_set conf s x.
Proof.
  intros E find conf code DS i name s z t' z' x A B C C' W R O H (D & P & [(n & k & p & -> & F)|[V N]]).
  - pose proof (C104_module_partial E find conf code DS i name s z n k p z' x A B C C' W R O H F) as K.
    exact (noticed_set E find i conf DS s A B (RunModule name) O n x K D P).
  - destruct (C103_module_partial E find conf code DS i name s z t' z' A B C C' W R O H x V) as [K|K]; [contradiction|].
    apply covered_hit in K. apply (hit_set E find i conf DS s A B (RunModule name) x K D).
    intros p Hp. split; [now apply P|]. exact (hit_above E find i conf DS s A B (RunModule name) O x K D p Hp).
Qed.
Theorem C106_default_partial : forall E P find conf code DS implies f l s z t' z' x, order_of_set P -> running E find conf -> default_session E P DS implies conf s ->
  ordinary (s_graph s) -> kind_of s f = Some Script -> assembled E find code f l -> at_rest (kept find conf) code z -> orderly find conf s (RunScript f) ->
  gets_to (kept find conf) code (by_statement find conf code f l z) (Lines f None l) z t' z' -> at_hand find conf z z' t' x -> as_set conf s x.
Proof.
  intros E P find conf code DS i f l s z t' z' x OP A B G C W R O H F. destruct (C93_session _ _ _ _ _ _ OP B G) as [u [Hu Bu]].
  pose proof (but_orderly _ _ _ _ _ Bu O) as O'. destruct Bu as [v [y ->]].
  eapply (C106_partial E find conf code DS f l (set_missing (set_post s v) y) z t' z' x); [|exact R|exact O'|exact H|exact F]. constructor; [exact A|eexists; exact Hu|exact C|exact W].
Qed.
Theorem C106_default_module_partial : forall E P find conf code DS implies name s z t' z' x, order_of_set P -> running E find conf -> default_session E P DS implies conf s ->
  ordinary (s_graph s) -> in_graph s name -> modular s name -> coded E find code -> at_rest (kept find conf) code z -> orderly find conf s (RunModule name) ->
  gets_to (kept find conf) code (by_statement find conf code name [] z) (Import name) z t' z' -> at_hand find conf z z' t' x -> as_set conf s x.
Proof.
  intros E P find conf code DS i name s z t' z' x OP A B G C C' W R O H F. destruct (C93_session _ _ _ _ _ _ OP B G) as [u [Hu Bu]].
  pose proof (but_orderly _ _ _ _ _ Bu O) as O'. destruct Bu as [v [y ->]].
  exact (C106_module_partial E find conf code DS i name (set_missing (set_post s v) y) z t' z' x A Hu C C' W R O' H F).
Qed.

(** As for C104, but the module that the graph does not have imports __main__, which is
    excluded from all graphs. *)
Definition odd_program : PropsMust.program :=
  [("q", (true, [PIf [PImport [("json", Some "name")]] []])); ("q.name", (false, [PImport [("__main__", None)]])); ("json", (false, []))].
Definition odd_graph : st := Eval vm_compute in program_graph odd_program cond_script.
Theorem C106_refuted : ~ C106_statement.
Proof.
  intros H. assert (K : as_set main_conf odd_graph "__main__"); [|vm_compute in K; discriminate K].
  apply (H (program_world odd_program cond_script) (found_in (entries odd_program)) main_conf (code_in odd_program) (fun _ => False) "main.py" cond_script odd_graph (Mods [] [] [] [])
    (Line "q.name" (Some false) (PImport [("__main__", None)])) (Mods ["q"] ["q.name"] [] [])); clear H.
  - eapply program_executed; vm_compute; reflexivity.
  - apply rest_new.
  - eapply gt_on; [|apply go_line]. eapply gt_on; [|eapply (load_goes _ _ _ "q.name" _ _ (Mods ["q"] [] [] [])); [distinct|reflexivity..]].
    eapply gt_on; [|eapply (go_child _ _ _ "q" "q.name" (Mods ["q"] [] [] [])); [distinct|reflexivity|exact name_child|apply rn_loaded; cbn; auto]].
    eapply gt_on; [|apply (go_call _ _ _ "q.name")].
    + eapply gt_on; [eapply gt_on; [apply gt_here|apply go_line]|]. eapply (go_names _ _ _ _ _ _ _ _ "q"); [now split|].
      apply rn_top; [distinct|now apply no_child|reflexivity|]. refine (rn_load _ _ _ "q" _ _ _ (Mods [] ["q"] [] []) Next _ _ _ _); [distinct|reflexivity|reflexivity|].
      eapply rn_cons; [|apply rn_nil]. eapply rn_if; [apply rn_return|right; reflexivity|apply rn_nil].
    + eapply bs_script; [now left|reflexivity|]. eapply (rq_name _ _ _ _ _ "q" _ "name"); [now apply mentions_absolute|now apply can_top|reflexivity|reflexivity|now left|reflexivity|].
      intros [K|[]]. discriminate K.
  - split; [reflexivity|]. split; [intros p Hp; exfalso; now apply (no_child "__main__") in Hp|]. left. eexists _, _, _. split; [reflexivity|apply fc_import].
Qed.

(** Module fast is replaced by slow, and pkg needs data. *)
Definition take_implies : list (string * implied) := [("fast", ImpAlias "slow"); ("pkg", ImpRefs ["data"])].
Definition take_open : st := init take_implies [] [].
Definition take_conf : list (string * implied) := Eval vm_compute in s_lazy take_open.
Definition take_program : PropsMust.program := [("pkg", (false, [PSimple])); ("fast", (false, [])); ("slow", (false, [])); ("data", (false, []))].
Definition take_script : list piece := [PImport [("pkg", None)]; PImport [("fast", None)]].
Definition take_graph : st := Eval vm_compute in snd (the_calls (program_world take_program take_script) [AAddScript "main.py"] take_open).
Example C106_nonvacuous :
  executed (program_world take_program take_script) (found_in (entries take_program)) take_conf (code_in take_program) (fun _ => False) "main.py" take_script take_graph
  /\ at_rest (kept (found_in (entries take_program)) take_conf) (code_in take_program) (Mods [] [] [] []) /\ orderly (found_in (entries take_program)) take_conf take_graph (RunScript "main.py")
  /\ gets_to (kept (found_in (entries take_program)) take_conf) (code_in take_program)
       (by_statement (found_in (entries take_program)) take_conf (code_in take_program) "main.py" take_script (Mods [] [] [] [])) (Lines "main.py" None take_script) (Mods [] [] [] [])
       (Line "main.py" None (PImport [("fast", None)])) (Mods ["pkg"] [] [] [])
  /\ at_hand (found_in (entries take_program)) take_conf (Mods [] [] [] []) (Mods ["pkg"] [] [] []) (Line "main.py" None (PImport [("fast", None)])) "fast"
  /\ at_hand (found_in (entries take_program)) take_conf (Mods [] [] [] []) (Mods ["pkg"] [] [] []) (Line "main.py" None (PImport [("fast", None)])) "pkg"
  /\ assoc "fast" take_conf = Some (ImpAlias "slow") /\ assoc "pkg" take_conf = Some (ImpRefs ["data"]).
Proof.
  split; [|split; [apply rest_new|split; [|split; [|split; [|split; [|split; reflexivity]]]]]].
  - constructor.
    + destruct (program_running take_program take_script eq_refl) as [A B C D _]. constructor; try assumption.
      intros x i H. apply assoc_In in H. destruct H as [H|[H|[H|[]]]]; now injection H as <- <-.
    + exists take_implies. eapply (calls_session _ take_implies take_conf 60 [AAddScript "main.py"] take_open); [apply se_open; [apply op_init|reflexivity]|reflexivity|vm_compute; reflexivity|reflexivity].
    + reflexivity.
    + apply written_assembled, program_written.
  - constructor.
    + now apply tidy_bool.
    + intros m nd x t A B C K. exfalso. apply gfind_in in A as [A <-]. vm_compute in A.
      repeat (destruct A as [<-|A]; [cbn in B; repeat (destruct B as [<-|B]; [inversion C as [? ? C1]; discriminate C1|]); destruct B|]). destruct A.
    + intros m x id (nd & (a & i & y & _ & _ & _ & A & _) & B & _) _. apply gfind_in in A as [A _]. vm_compute in A.
      repeat (destruct A as [<-|A]; [destruct B as [G B]; try discriminate G; destruct B as [[]|(b & k & ff & ty & t & B & _)]; discriminate B|]). destruct A.
    + intros a f d (ds & K & _). vm_compute in K. repeat (destruct K as [K|K]; [injection K as <- <- <-; vm_compute; split; discriminate|]). destruct K.
  - eapply gt_on; [|apply go_line]. eapply gt_on; [apply gt_here|apply go_next]. eapply rn_import; [|apply rn_import_nil]. apply rn_top; [distinct|now apply no_child|reflexivity|].
    refine (rn_load _ _ _ "pkg" _ _ _ (Mods [] ["pkg"] [] []) Next _ _ _ _); [distinct|reflexivity|reflexivity|]. eapply rn_cons; [apply rn_simple, rn_return|apply rn_nil].
  - split; [reflexivity|]. split; [intros p Hp; exfalso; now apply (no_child "fast") in Hp|]. left. eexists _, _, _. split; [reflexivity|apply fc_import].
  - split; [reflexivity|]. split; [intros p Hp; exfalso; now apply (no_child "pkg") in Hp|]. right. split; [left; now left|intros []].
Qed.

Print Assumptions C106_partial.
Print Assumptions C106_module_partial.
Print Assumptions C106_default_partial.
Print Assumptions C106_default_module_partial.
Print Assumptions C106_refuted.
