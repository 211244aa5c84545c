(** C103: at any time, all that a run has loaded is in the graph. *)
From Verif Require Import ReportSpec BuilderSource BuilderHist BuilderInv BuilderCalls World AstProofs PropsBuilder PropsCalls PropsHooks PropsRoots PropsSource PropsReach SeedSpec BuilderSame PropsLoad PropsNeed PropsSame PropsSeed MoreSpec PropsMore BuilderRest PropsRest PropsDefault PropsLoad PropsSame PropsReport BundleSpec PropsBundle MustSpec PropsMust WithinSpec PropsWithin AlwaysSpec.
Open Scope string_scope.

Section gets.
  Variable E : env.
  Variable find : string -> option spec.
  Variable conf : list (string * implied).
  Variable code : string -> option (list piece).
  Variable f : string.
  Variable l : list piece.
  Variable z0 : mods.
  Variable start : LoadSpec.program.
  Hypothesis HP : forall w, In w (flat_map imports l) -> start = RunScript f /\ forall t, e_script E t f = ROk (module_tree l).
  Hypothesis W : coded E find code.
  Hypothesis RZ : at_rest (kept find conf) code z0.
  Variable F1 : string -> option spec.
  Hypothesis HK : forall x sp, F1 x = Some sp -> kept find conf x = Some sp.
  Notation may := (by_statement find conf code f l z0).
  Notation fine z := (within_program E find conf z0 start z).
  Notation rdy t := (ready E find conf code f l start t).

  Lemma goes_within t z t' z' : goes F1 code may t z t' z' -> fine z -> rdy t -> fine z' /\ rdy t'.
  Proof.
    pose proof (run_within E find conf code f l z0 start HP W RZ F1 HK) as RW.
    destruct 1; intros V P; cbn [ready imports flat_map map] in *.
    all: repeat match goal with
      | H : run F1 code may ?t ?y ?o ?y', K : within_program _ _ _ _ _ ?y |- _ =>
          let B := fresh "B" in assert (B : rdy t);
          [cbn [ready imports flat_map map]; first [exact Logic.I
             |intros ? ?; apply P; rewrite ?in_app_iff; now auto
             |intros ? [?|?]; apply P; rewrite ?in_app_iff; now auto
             |intros ? [?|[?|?]]; apply P; rewrite ?in_app_iff; now auto
             |eapply import_asked; [exact HP|exact W|apply P; now left]
             |eapply target_asked; [exact HP|exact W|apply P; now left|eassumption]
             |eapply call_asked; eassumption
             |eapply asked_up; eassumption]
          |destruct (RW _ _ _ _ H K B) as [? ?]; clear H]
      end.
    all: split; [assumption || idtac|].
    all: try solve [exact Logic.I
             |intros ? ?; apply P; rewrite ?in_app_iff; now auto
             |intros ? ?; apply P; now right
             |intros ? [?|?]; apply P; rewrite ?in_app_iff; now auto
             |intros ? [?|[?|?]]; apply P; rewrite ?in_app_iff; now auto
             |eapply import_asked; [exact HP|exact W|apply P; now left]
             |eapply target_asked; [exact HP|exact W|apply P; now left|eassumption]
             |eapply call_asked; eassumption
             |eapply asked_up; eassumption].
    - intros w Hw. apply P. apply in_or_app. destruct H0 as [-> | ->]; auto.
    - intros w Hw. apply P. apply in_flat_map. eauto.
    - intros w Hw. apply P. right. left. apply in_flat_map. eauto.
    - split; [exact P|]. split; [assumption|]. intros p Hp. now elim (H0 p).
    - split; [exact P|]. split; [assumption|]. intros q Hq. assert (q = p) as -> by (eapply child_one; eassumption).
      match goal with R : Next = Next -> reached (Import p) z1 |- _ => specialize (R eq_refl); cbn in R end.
      eapply there_can; [exact W|exact RZ|eassumption|unfold there, known in *; tauto|eapply child_dots; eassumption].
    - apply HK in H0. destruct P as (P1 & P2 & P3). apply program_begin; [exact V|]. eapply load_fine; eassumption.
    - apply HK in H0. destruct P as (P1 & P2 & P3). assert (F0 : loads E find conf start x) by (eapply load_fine; eassumption).
      intros w Hw. apply kept_some in H0 as [H0 _]. exists sp, l0. now repeat split.
    - apply HK in H0. destruct P as (P1 & P2 & P3). apply program_begin; [exact V|]. eapply load_fine; eassumption.
  Qed.
  Lemma gets_within t z t' z' : gets_to F1 code may t z t' z' -> fine z -> rdy t -> fine z' /\ rdy t'.
  Proof. induction 1 as [|t1 z1 t2 z2 _ IH H]; [auto|]. intros V P. destruct (IH V P) as [V1 P1]. now apply (goes_within t1 z1). Qed.
  Lemma gets_loads t t' z' : gets_to F1 code may t z0 t' z' -> rdy t -> forall x, there z' x -> In x (loaded z0) \/ loads E find conf start x.
  Proof.
    intros H B x Hx. destruct (gets_within _ _ _ _ H) as [V _]; [|exact B|now apply V].
    intros y [K|[K|K]]; [now left| |]; [rewrite (ar_loading _ _ _ RZ) in K|rewrite (ar_failed _ _ _ RZ) in K]; destruct K.
  Qed.

  (** Another way to find modules, which agrees where it matters. *)
  Variable F2 : string -> option spec.
  Hypothesis HA : forall x, PropsWithin.asked E find conf start x -> starts_with "." x = false -> (forall p, child_of p x -> can_import find conf p) -> F1 x = F2 x.
  Variable may2 : mods -> string -> Prop.
  Hypothesis HM : forall z x, fine z -> may z x -> may2 z x.
  Lemma goes_same t z t' z' : goes F1 code may t z t' z' -> fine z -> rdy t -> goes F2 code may2 t z t' z'.
  Proof.
    pose proof (run_same E find conf code f l z0 start HP W RZ F1 HK F2 HA may2 HM) as RS.
    pose proof (run_within E find conf code f l z0 start HP W RZ F1 HK) as RW.
    destruct 1; intros V P; cbn [ready imports flat_map map] in *.
    all: repeat match goal with
      | H : run F1 code may ?t ?y ?o ?y', K : within_program _ _ _ _ _ ?y |- _ =>
          let B := fresh "B" in assert (B : rdy t);
          [cbn [ready imports flat_map map]; first [exact Logic.I
             |intros ? ?; apply P; rewrite ?in_app_iff; now auto
             |intros ? [?|?]; apply P; rewrite ?in_app_iff; now auto
             |intros ? [?|[?|?]]; apply P; rewrite ?in_app_iff; now auto
             |eapply import_asked; [exact HP|exact W|apply P; now left]
             |eapply target_asked; [exact HP|exact W|apply P; now left|eassumption]
             |eapply call_asked; eassumption
             |eapply asked_up; eassumption]
          |pose proof (proj1 (RW _ _ _ _ H K B)); apply RS in H; [|exact K|exact B]; clear B]
      end.
    all: try solve [econstructor; first [eassumption|apply HM; eassumption]].
    - destruct P as (P1 & P2 & P3). eapply go_load; [assumption|rewrite <- (HA x P1 P2 P3); eassumption|assumption].
    - destruct P as (P1 & P2 & P3). eapply go_load_other; [assumption|rewrite <- (HA x P1 P2 P3); eassumption|assumption].
  Qed.
  Lemma gets_same t z t' z' : gets_to F1 code may t z t' z' -> fine z -> rdy t -> gets_to F2 code may2 t z t' z'.
  Proof.
    induction 1 as [|t1 z1 t2 z2 H1 IH H]; intros V P; [apply gt_here|]. eapply gt_on; [now apply IH|].
    destruct (gets_within _ _ _ _ H1 V P) as [V1 P1]. now apply goes_same.
  Qed.
End gets.

(** Runs that end load nothing else than what they get to. *)
Lemma gets_trans find code may t z t1 z1 t2 z2 : gets_to find code may t z t1 z1 -> gets_to find code may t1 z1 t2 z2 -> gets_to find code may t z t2 z2.
Proof. intros H. induction 1 as [|t3 z3 t4 z4 _ IH K]; [exact H|]. eapply gt_on; [exact IH|exact K]. Qed.
Lemma run_gets find code may t z o z' : run find code may t z o z' -> forall x, there z' x -> there z x \/ exists z1, gets_to find code may t z (Loads x) z1.
Proof.
  induction 1; intros y K.
  all: repeat match goal with
    | IH : forall x, there ?b x -> there ?a x \/ _, K : there ?b ?v |- _ =>
        destruct (IH v K) as [?|(? & ?)]; [clear IH K|right; eexists; eapply gets_trans; [|eassumption]; eapply gt_on; [apply gt_here|]; solve [econstructor; eassumption|apply go_evaluates; reflexivity]]
    end.
  all: try (left; assumption).
  all: assert (Y : y = x \/ there z1 y)
    by (destruct o; destruct K as [K|[K|K]]; cbn in K; try (destruct K as [<-|K]; [now left|]); try apply tl_in in K; right; unfold there; auto).
  all: destruct Y as [->|Y]; [right; exists z; apply gt_here|].
  all: destruct (IHrun y Y) as [B|(w & B)]; [|right; exists w; eapply gets_trans; [|exact B]; eapply gt_on; [apply gt_here|econstructor; eassumption]].
  all: destruct B as [B|[[<-|B]|B]]; [left; left; exact B|right; exists z; apply gt_here|left; right; left; exact B|left; right; right; exact B].
Qed.

Lemma begins E find conf code z p : at_rest (kept find conf) code z -> within_program E find conf z p z.
Proof. intros R y [K|[K|K]]; [now left| |]; [rewrite (ar_loading _ _ _ R) in K|rewrite (ar_failed _ _ _ R) in K]; destruct K. Qed.
Lemma gets_calls find code (may may' : mods -> string -> Prop) t z t' z' : (forall y x, may y x -> may' y x) -> gets_to find code may t z t' z' -> gets_to find code may' t z t' z'.
Proof.
  intros H. induction 1 as [|t1 z1 t2 z2 _ IH K]; [apply gt_here|]. eapply gt_on; [exact IH|].
  assert (RC : forall t z o z', run find code may t z o z' -> run find code may' t z o z') by (intros; eapply run_calls; eassumption).
  destruct K; solve [econstructor; eauto].
Qed.
Lemma bundle_gets E find DS implies conf code s p F f l z t t' z' : running E find conf -> dsession E DS implies conf s -> begun_with s p -> coded E find code ->
  orderly find conf s p -> includes_bundle s p find conf F -> at_rest (kept find conf) code z ->
  (forall w, In w (flat_map imports l) -> p = RunScript f /\ forall t, e_script E t f = ROk (module_tree l)) -> ready E find conf code f l p t ->
  (gets_to (kept find conf) code (by_statement find conf code f l z) t z t' z' <-> gets_to F code (by_statement F [] code f l z) t z t' z').
Proof.
  intros A B C W O H R HP RT. pose proof (begins E find conf code z p R) as V.
  pose proof (bundle_agrees E find DS implies conf code s p F A B C W O H) as HA. split; intros K.
  - eapply gets_same; try eassumption; auto. intros y x Y. eapply calls_bundle; eassumption.
  - assert (K' : gets_to F code (by_statement find conf code f l z) t z t' z') by (eapply gets_calls; [|exact K]; intros y x; eapply bundle_calls; eassumption).
    eapply gets_same; try eassumption; [exact (proj2 H)| |auto]. intros x P1 P2 P3. symmetry. now apply HA.
Qed.

(** ** Theorems *)

(** However far a run of the script gets, what it has loaded, loads or has failed to load by then
    is in the graph. *)
Definition C103_statement : Prop := forall E find conf code DS f l s z t' z', executed E find conf code DS f l s -> at_rest (kept find conf) code z ->
  gets_to (kept find conf) code (by_statement find conf code f l z) (Lines f None l) z t' z' ->
  forall x, In x (loaded z') \/ In x (loading z') \/ In x (failed z') -> In x (loaded z) \/ covered s (RunScript f) x.
Theorem C103_partial : forall E find conf code DS f l s z t' z', executed E find conf code DS f l s -> at_rest (kept find conf) code z -> orderly find conf s (RunScript f) ->
  gets_to (kept find conf) code (by_statement find conf code f l z) (Lines f None l) z t' z' ->
  forall x, In x (loaded z') \/ In x (loading z') \/ In x (failed z') -> In x (loaded z) \/ covered s (RunScript f) x.
Proof.
  intros E find conf code DS f l s z t' z' [A (i & B) C [D1 D2]] R O H x Hx.
  destruct (gets_loads E find conf code f l z (RunScript f)) with (F1 := kept find conf) (t := Lines f None l) (t' := t') (z' := z') (x := x) as [K|K]; try assumption; auto.
  - intros w Hw. now split.
  - right. exact (C75_partial E find DS i conf s (RunScript f) x A B C O K).
Qed.
Theorem C103_module_partial : forall E find conf code DS implies name s z t' z', running E find conf -> dsession E DS implies conf s ->
  in_graph s name -> modular s name -> coded E find code -> at_rest (kept find conf) code z -> orderly find conf s (RunModule name) ->
  gets_to (kept find conf) code (by_statement find conf code name [] z) (Import name) z t' z' ->
  forall x, In x (loaded z') \/ In x (loading z') \/ In x (failed z') -> In x (loaded z) \/ covered s (RunModule name) x.
Proof.
  intros E find conf code DS i name s z t' z' A B C C' W R O H x Hx.
  destruct (gets_loads E find conf code name [] z (RunModule name)) with (F1 := kept find conf) (t := Import name) (t' := t') (z' := z') (x := x) as [K|K]; try assumption; auto.
  - intros w [].
  - exists name. split; [now apply ak_start|apply wi_self].
  - right. exact (C75_partial E find DS i conf s (RunModule name) x A B (conj C C') O K).
Qed.
(** The same for graphs with the built-in hooks. *)
Theorem C103_default_partial : forall E P find conf code DS implies f l s z t' z', order_of_set P -> running E find conf -> default_session E P DS implies conf s ->
  ordinary (s_graph s) -> kind_of s f = Some Script -> assembled E find code f l -> at_rest (kept find conf) code z -> orderly find conf s (RunScript f) ->
  gets_to (kept find conf) code (by_statement find conf code f l z) (Lines f None l) z t' z' ->
  forall x, In x (loaded z') \/ In x (loading z') \/ In x (failed z') -> In x (loaded z) \/ covered s (RunScript f) x.
Proof.
  intros E P find conf code DS i f l s z t' z' OP A B G C W R O H. destruct (C93_session _ _ _ _ _ _ OP B G) as [u [Hu Bu]].
  pose proof (but_orderly _ _ _ _ _ Bu O) as O'. destruct Bu as [x [y ->]].
  eapply (C103_partial E find conf code DS f l (set_missing (set_post s x) y) z t' z'); [|exact R|exact O'|exact H]. constructor; [exact A|eexists; exact Hu|exact C|exact W].
Qed.
Theorem C103_default_module_partial : forall E P find conf code DS implies name s z t' z', order_of_set P -> running E find conf -> default_session E P DS implies conf s ->
  ordinary (s_graph s) -> in_graph s name -> modular s name -> coded E find code -> at_rest (kept find conf) code z -> orderly find conf s (RunModule name) ->
  gets_to (kept find conf) code (by_statement find conf code name [] z) (Import name) z t' z' ->
  forall x, In x (loaded z') \/ In x (loading z') \/ In x (failed z') -> In x (loaded z) \/ covered s (RunModule name) x.
Proof.
  intros E P find conf code DS i name s z t' z' OP A B G C C' W R O H. destruct (C93_session _ _ _ _ _ _ OP B G) as [u [Hu Bu]].
  pose proof (but_orderly _ _ _ _ _ Bu O) as O'. destruct Bu as [x [y ->]].
  exact (C103_module_partial E find conf code DS i name (set_missing (set_post s x) y) z t' z' A Hu C C' W R O' H).
Qed.
(** A copy of Python with the modules of the graph gets as far as the full installation. *)
Theorem C103_bundle_partial : forall E find conf code DS f l s F z t' z', executed E find conf code DS f l s -> at_rest (kept find conf) code z ->
  orderly find conf s (RunScript f) -> includes_bundle s (RunScript f) find conf F ->
  (gets_to (kept find conf) code (by_statement find conf code f l z) (Lines f None l) z t' z'
   <-> gets_to F code (by_statement F [] code f l z) (Lines f None l) z t' z').
Proof.
  intros E find conf code DS f l s F z t' z' [A (i & B) C [D1 D2]] R O H.
  apply (bundle_gets E find DS i conf code s (RunScript f) F); try assumption; [now split|]. intros w Hw. now split.
Qed.
Theorem C103_bundle_module_partial : forall E find conf code DS implies name s F z t' z', running E find conf -> dsession E DS implies conf s ->
  in_graph s name -> modular s name -> coded E find code -> at_rest (kept find conf) code z -> orderly find conf s (RunModule name) ->
  includes_bundle s (RunModule name) find conf F ->
  (gets_to (kept find conf) code (by_statement find conf code name [] z) (Import name) z t' z'
   <-> gets_to F code (by_statement F [] code name [] z) (Import name) z t' z').
Proof.
  intros E find conf code DS i name s F z t' z' A B C C' D R O H. apply (bundle_gets E find DS i conf code s (RunModule name) F); try assumption; [now split|intros w []|].
  exists name. split; [now apply ak_start|apply wi_self].
Qed.
Theorem C103_bundle_default_partial : forall E P find conf code DS implies f l s F z t' z', order_of_set P -> running E find conf -> default_session E P DS implies conf s ->
  ordinary (s_graph s) -> kind_of s f = Some Script -> assembled E find code f l -> at_rest (kept find conf) code z -> orderly find conf s (RunScript f) ->
  includes_bundle s (RunScript f) find conf F ->
  (gets_to (kept find conf) code (by_statement find conf code f l z) (Lines f None l) z t' z'
   <-> gets_to F code (by_statement F [] code f l z) (Lines f None l) z t' z').
Proof.
  intros E P find conf code DS i f l s F z t' z' OP A B G C D R O H. destruct (C93_session _ _ _ _ _ _ OP B G) as [u [Hu Bu]].
  pose proof (but_orderly _ _ _ _ _ Bu O) as O'. destruct Bu as [x [y ->]].
  eapply C103_bundle_partial; [|exact R|exact O'|exact H]. constructor; [exact A|eexists; exact Hu|exact C|exact D].
Qed.
Theorem C103_bundle_default_module_partial : forall E P find conf code DS implies name s F z t' z', order_of_set P -> running E find conf -> default_session E P DS implies conf s ->
  ordinary (s_graph s) -> in_graph s name -> modular s name -> coded E find code -> at_rest (kept find conf) code z -> orderly find conf s (RunModule name) ->
  includes_bundle s (RunModule name) find conf F ->
  (gets_to (kept find conf) code (by_statement find conf code name [] z) (Import name) z t' z'
   <-> gets_to F code (by_statement F [] code name [] z) (Import name) z t' z').
Proof.
  intros E P find conf code DS i name s F z t' z' OP A B G C C' D R O H. destruct (C93_session _ _ _ _ _ _ OP B G) as [u [Hu Bu]].
  pose proof (but_orderly _ _ _ _ _ Bu O) as O'. destruct Bu as [x [y ->]].
  eapply C103_bundle_module_partial; [exact A|exact Hu|exact C|exact C'|exact D|exact R|exact O'|exact H].
Qed.
(** What runs that end load, is loaded in the meantime. *)
Theorem C103_ends : forall find code may t z o z', run find code may t z o z' -> forall x, In x (loaded z') \/ In x (failed z') ->
  In x (loaded z) \/ In x (loading z) \/ In x (failed z) \/ exists z1, gets_to find code may t z (Loads x) z1.
Proof.
  intros find code may t z o z' H x Hx. destruct (run_gets find code may t z o z' H x) as [[K|[K|K]]|K]; [unfold there; tauto|auto..].
Qed.

(** The program of C98, after its only statement. *)
Theorem C103_refuted : ~ C103_statement.
Proof.
  intros H. destruct (H (program_world cond_program cond_script) (found_in (entries cond_program)) main_conf (code_in cond_program) (fun _ => False) "main.py" cond_script cond_graph (Mods [] [] [] [])
    (Lines "main.py" None []) (Mods ["q.name"; "q"] [] [] [])) with (x := "q.name") as [[]|[(n & K & _) _]].
  - eapply program_executed; vm_compute; reflexivity.
  - apply rest_new.
  - eapply gt_on; [apply gt_here|]. pose proof cond_run as R. inversion R; subst; [|congruence].
    match goal with R2 : run _ _ _ (Lines _ _ []) _ _ _ |- _ => inversion R2; subst end. apply go_next. assumption.
  - left. now left.
  - discriminate K.
Qed.

(** A script that imports a module again and again. *)
Definition again_program : PropsMust.program := [("pkg", (true, [PSimple])); ("pkg.a", (false, [PSimple]))].
Definition again_script : list piece := [PLoop [PImport [("pkg.a", None)]] []; PImport [("never", None)]].
Definition again_graph : st := Eval vm_compute in program_graph again_program again_script.
Lemma again_child : child_of "pkg" "pkg.a".
Proof. apply (child_plain "pkg" "a"); [discriminate|reflexivity]. Qed.
Definition again_turns : task := Turns "main.py" None [PImport [("pkg.a", None)]] [].
Notation again_may := (by_statement (found_in (entries again_program)) main_conf (code_in again_program) "main.py" again_script (Mods [] [] [] [])).
Example C103_nonvacuous :
  executed (program_world again_program again_script) (found_in (entries again_program)) main_conf (code_in again_program) (fun _ => False) "main.py" again_script again_graph
  /\ at_rest (kept (found_in (entries again_program)) main_conf) (code_in again_program) (Mods [] [] [] []) /\ orderly (found_in (entries again_program)) main_conf again_graph (RunScript "main.py")
  /\ gets_to (kept (found_in (entries again_program)) main_conf) (code_in again_program) again_may (Lines "main.py" None again_script) (Mods [] [] [] []) again_turns (Mods ["pkg.a"; "pkg"] [] [] [])
  /\ goes (kept (found_in (entries again_program)) main_conf) (code_in again_program) again_may again_turns (Mods ["pkg.a"; "pkg"] [] [] []) again_turns (Mods ["pkg.a"; "pkg"] [] [] []).
Proof.
  split; [eapply program_executed; vm_compute; reflexivity|]. split; [apply rest_new|]. split; [|split].
  - constructor.
    + now apply tidy_bool.
    + intros m nd x t A B C K. exfalso. apply gfind_in in A as [A <-]. vm_compute in A.
      repeat (destruct A as [<-|A]; [cbn in B; repeat (destruct B as [<-|B]; [inversion C as [? ? C1]; discriminate C1|]); destruct B|]). destruct A.
    + intros m x id (nd & (a & i & y & _ & _ & _ & A & _) & B & _) _. apply gfind_in in A as [A _]. vm_compute in A.
      repeat (destruct A as [<-|A]; [destruct B as [G B]; try discriminate G; destruct B as [[]|(b & k & ff & ty & t & B & _)]; discriminate B|]). destruct A.
    + intros a f d (ds & K & _). vm_compute in K. repeat (destruct K as [K|K]; [injection K as <- <- <-; vm_compute; split; discriminate|]). destruct K.
  - eapply gt_on; [eapply gt_on; [eapply gt_on; [apply gt_here|apply go_line]|apply go_loop, rn_return]|]. eapply (go_turn_next _ _ _ _ _ _ _ _ _ Next); [|discriminate].
    eapply rn_cons; [|apply rn_nil]. eapply rn_import; [|apply rn_import_nil]. eapply rn_child; [distinct|reflexivity|exact again_child| |].
    + apply rn_top; [distinct|now apply no_child|reflexivity|]. refine (rn_load _ _ _ "pkg" _ _ _ (Mods [] ["pkg"] [] []) Next _ _ _ _); [distinct|reflexivity|reflexivity|].
      eapply rn_cons; [apply rn_simple, rn_return|apply rn_nil].
    + refine (rn_load _ _ _ "pkg.a" _ _ _ (Mods ["pkg"] ["pkg.a"] [] []) Next _ _ _ _); [distinct|reflexivity|reflexivity|].
      eapply rn_cons; [apply rn_simple, rn_return|apply rn_nil].
  - eapply (go_turn_next _ _ _ _ _ _ _ _ _ Next); [|discriminate]. eapply rn_cons; [|apply rn_nil]. eapply rn_import; [|apply rn_import_nil]. apply rn_loaded. cbn. auto.
Qed.

(** A copy with these two modules gets as far. *)
Example C103_bundle_nonvacuous :
  includes_bundle again_graph (RunScript "main.py") (found_in (entries again_program)) main_conf (only ["pkg"; "pkg.a"] (found_in (entries again_program)))
  /\ gets_to (only ["pkg"; "pkg.a"] (found_in (entries again_program))) (code_in again_program)
       (by_statement (only ["pkg"; "pkg.a"] (found_in (entries again_program))) [] (code_in again_program) "main.py" again_script (Mods [] [] [] []))
       (Lines "main.py" None again_script) (Mods [] [] [] []) again_turns (Mods ["pkg.a"; "pkg"] [] [] []).
Proof.
  destruct C103_nonvacuous as (A & B & C & D & _).
  assert (K : includes_bundle again_graph (RunScript "main.py") (found_in (entries again_program)) main_conf (only ["pkg"; "pkg.a"] (found_in (entries again_program)))).
  { destruct A as [A (i & A') _ _]. apply (bundle_includes _ _ _ _ _ _ _ _ A A'). apply only_bundle; [|all_names].
    assert (Q : leads (s_graph again_graph) "main.py" "pkg.a") by (eapply edge_leads; [apply le_self|reflexivity]).
    intros x [<-|[<-|[]]]; (split; [eexists; split; reflexivity|]); [|exact Q]. eapply edge_leads; [exact Q|reflexivity]. }
  split; [exact K|]. exact (proj1 (C103_bundle_partial _ _ _ _ _ _ _ _ _ _ _ _ A B C K) D).
Qed.

Print Assumptions C103_partial.
Print Assumptions C103_bundle_module_partial.
Print Assumptions C103_bundle_default_partial.
Print Assumptions C103_bundle_default_module_partial.
Print Assumptions C103_module_partial.
Print Assumptions C103_default_partial.
Print Assumptions C103_default_module_partial.
Print Assumptions C103_bundle_partial.
Print Assumptions C103_ends.
Print Assumptions C103_refuted.
