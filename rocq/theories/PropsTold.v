(** C105: at any time of a run, the command line program has told of all that it has imported. *)
From Verif Require Import BuilderSource BuilderHist BuilderInv BuilderCalls BuilderKinds World AstProofs PropsBuilder PropsCalls PropsHooks PropsRoots PropsPackage PropsSource PropsReach SeedSpec BuilderSame PropsLoad PropsNeed PropsSame PropsSeed MoreSpec PropsMore BuilderRest PropsRest PropsDefault PropsLoad PropsSame ReportProofs PropsReport PropsHtml PropsCli MustSpec PropsMust WithinSpec PropsWithin ShownSpec AlwaysSpec PropsAlways FaceSpec PropsFace ShownSpec PropsShown.
Open Scope string_scope.

(** The output tells of the modules that a run has loaded, loads or could not load, when
    it has got to task [t], and of what a statement is about to import then. *)
Definition told (f : output_format) (text : string) (z z' : mods) (t : task) : Prop :=
  (forall x, In x (loaded z') \/ In x (loading z') \/ In x (failed z') -> In x (loaded z) \/ tells_of f text x)
  /\ forall n k p x, t = Line n k p -> faces n k p x -> tells_of f text x.

Definition C105_statement : Prop := forall envs P implies fuel invalidate stdlib iter opens writes opts names y y' s find code f l z t' z',
  invoked envs P implies fuel invalidate stdlib iter opens writes opts names y y' s -> last (flat_map says_type opts) NTModule = NTScript -> In f names ->
  let E := envs (flat_map says_path opts ++ Cli.sys_path y)%list in
  let conf := option_conf implies stdlib opts in
  order_of_set P -> running E find conf -> assembled E find code f l -> at_rest (kept find conf) code z ->
  gets_to (kept find conf) code (by_statement find conf code f l z) (Lines f None l) z t' z' ->
  exists text, arrived (last (flat_map says_output opts) None) y y' text /\ told (last (flat_map says_format opts) FHtml) text z z' t'.

Lemma noticed_told envs P implies fuel invalidate stdlib iter opens writes opts names y y' s find conf p n x :
  invoked envs P implies fuel invalidate stdlib iter opens writes opts names y y' s -> order_ok (envs (flat_map says_path opts ++ Cli.sys_path y)%list) ->
  orderly find conf s p -> In (started p) (g_roots (s_graph s)) -> noticed find conf s p n x ->
  tells_of (last (flat_map says_format opts) FHtml) (print_graph iter (last (flat_map says_format opts) FHtml) (s_graph s)) x.
Proof.
  intros HI HE HO Hr (L & (d & K) & _).
  pose proof (so_ends _ (reach_sound _ _ s HE (start0_start P implies) (invoked_reach _ _ _ _ _ _ _ _ _ _ _ _ _ _ HI))) as So.
  assert (G : exists nd, gfind (s_graph s) x = Some nd).
  { destruct K as (ds & K & _). apply So in K as [_ K]. apply gfind_ids in K. destruct (gfind (s_graph s) x) as [nd|]; [now exists nd|now elim K]. }
  destruct G as (nd & G). eapply tells; [exact HI|exact HE|exact G| |].
  - intros X. destruct (or_script _ _ _ _ HO _ _ _ K) as [_ M]. apply M. unfold kind_of. rewrite G. cbn. now rewrite X.
  - eapply PropsLoad.leads_reaches; [exact Hr|]. eapply le_edge; eassumption.
Qed.

Theorem C105_partial : forall envs P implies fuel invalidate stdlib iter opens writes opts names y y' s find code f l z t' z',
  invoked envs P implies fuel invalidate stdlib iter opens writes opts names y y' s -> last (flat_map says_type opts) NTModule = NTScript -> In f names ->
  let E := envs (flat_map says_path opts ++ Cli.sys_path y)%list in
  let conf := option_conf implies stdlib opts in
  order_of_set P -> running E find conf -> ordinary (s_graph s) -> assembled E find code f l -> at_rest (kept find conf) code z -> orderly find conf s (RunScript f) ->
  gets_to (kept find conf) code (by_statement find conf code f l z) (Lines f None l) z t' z' ->
  exists text, arrived (last (flat_map says_output opts) None) y y' text /\ told (last (flat_map says_format opts) FHtml) text z z' t'.
Proof.
  intros envs P implies fuel invalidate stdlib iter opens writes opts names y y' s find code f l z t' z' HI T Hf E conf OP A G W R O H.
  destruct (invoked_output _ _ _ _ _ _ _ _ _ _ _ _ _ _ HI) as (anss & text & _ & _ & Ar & Et). exists text. split; [exact Ar|]. subst text.
  destruct (PropsShown.script_asked _ _ _ _ _ _ _ _ _ _ _ _ _ _ HI (ru_order _ _ _ A) f T Hf) as [K Hr].
  assert (D : default_session E P (fun _ => False) implies conf s) by (eapply root_asked; [exact HI|rewrite T; discriminate]).
  split.
  - intros x Hx. destruct (C103_default_partial E P find conf code (fun _ => False) implies f l s z t' z' OP A D G K W R O H x Hx) as [Q|Q]; [now left|right].
    eapply covered_told; [exact HI|exact (ru_order _ _ _ A)| |exact Q]. exact Hr.
  - intros n k p x -> F. eapply noticed_told; [exact HI|exact (ru_order _ _ _ A)|exact O|exact Hr|].
    exact (C104_default_partial E P find conf code (fun _ => False) implies f l s z n k p z' x OP A D G K W R O H F).
Qed.
Theorem C105_module_partial : forall envs P implies fuel invalidate stdlib iter opens writes opts names y y' s find code name z t' z',
  invoked envs P implies fuel invalidate stdlib iter opens writes opts names y y' s -> last (flat_map says_type opts) NTModule = NTModule -> In name names ->
  let E := envs (flat_map says_path opts ++ Cli.sys_path y)%list in
  let conf := option_conf implies stdlib opts in
  order_of_set P -> running E find conf -> ordinary (s_graph s) -> modular s name -> coded E find code -> at_rest (kept find conf) code z -> orderly find conf s (RunModule name) ->
  gets_to (kept find conf) code (by_statement find conf code name [] z) (Import name) z t' z' ->
  exists text, arrived (last (flat_map says_output opts) None) y y' text /\ told (last (flat_map says_format opts) FHtml) text z z' t'.
Proof.
  intros envs P implies fuel invalidate stdlib iter opens writes opts names y y' s find code name z t' z' HI T Hf E conf OP A G M W R O H.
  destruct (PropsShown.module_asked _ _ _ _ _ _ _ _ _ _ _ _ _ _ HI (ru_order _ _ _ A) name OP G T Hf) as [Hg Hr].
  destruct (invoked_output _ _ _ _ _ _ _ _ _ _ _ _ _ _ HI) as (anss & text & _ & _ & Ar & Et). exists text. split; [exact Ar|]. subst text.
  assert (D : default_session E P (fun _ => False) implies conf s) by (eapply root_asked; [exact HI|rewrite T; discriminate]).
  split.
  - intros x Hx. destruct (C103_default_module_partial E P find conf code (fun _ => False) implies name s z t' z' OP A D G Hg M W R O H x Hx) as [Q|Q]; [now left|right].
    eapply covered_told; [exact HI|exact (ru_order _ _ _ A)| |exact Q]. exact Hr.
  - intros n k p x -> F. eapply noticed_told; [exact HI|exact (ru_order _ _ _ A)|exact O|exact Hr|].
    exact (C104_default_module_partial E P find conf code (fun _ => False) implies name s z n k p z' x OP A D G Hg M W R O H F).
Qed.

(** The program of C98. *)
Theorem C105_refuted : ~ C105_statement.
Proof.
  intros H. destruct (H _ _ _ _ _ _ _ _ _ _ _ _ _ _ (found_in (entries cond_program)) (code_in cond_program) "main.py" cond_script (Mods [] [] [] []) (Lines "main.py" None []) (Mods ["q.name"; "q"] [] [] [])
    cond_invoked eq_refl (or_introl eq_refl)) as (text & A & B & _).
  - apply PropsRest.flat_order.
  - now apply program_running.
  - apply written_assembled, program_written.
  - apply rest_new.
  - eapply gt_on; [apply gt_here|]. pose proof cond_run as R. inversion R; subst; [|congruence].
    match goal with R2 : run _ _ _ (Lines _ _ []) _ _ _ |- _ => inversion R2; subst end. apply go_next. assumption.
  - destruct (B "q.name") as [[]|K]; [left; now left|]. change (cond_said.(y_stdout) = "" ++ text) in A. cbn [append] in A. rewrite <- A in K.
    apply memb_In in K. vm_compute in K. discriminate K.
Qed.

(** The program of C104, and its HTML output. *)
Definition fast_shown : st := Eval vm_compute in shown_state fast_program fast_script cond_opts ["main.py"].
Definition fast_said : sys := Eval vm_compute in match shown_main fast_program fast_script cond_opts ["main.py"] with Some (_, y') => y' | None => some_sys end.
Example C105_nonvacuous :
  invoked (fun _ => program_world fast_program fast_script) flat_paths [] 60 (io_ret tt) [] (fun _ g => g_nodes g) (fun _ => ROk tt) (fun _ _ => None) cond_opts ["main.py"] some_sys fast_said fast_shown
  /\ option_conf [] [] cond_opts = main_conf /\ ordinary (s_graph fast_shown)
  /\ running (program_world fast_program fast_script) (found_in (entries fast_program)) main_conf
  /\ assembled (program_world fast_program fast_script) (found_in (entries fast_program)) (code_in fast_program) "main.py" fast_script
  /\ at_rest (kept (found_in (entries fast_program)) main_conf) (code_in fast_program) (Mods [] [] [] []) /\ orderly (found_in (entries fast_program)) main_conf fast_shown (RunScript "main.py")
  /\ gets_to (kept (found_in (entries fast_program)) main_conf) (code_in fast_program)
       (by_statement (found_in (entries fast_program)) main_conf (code_in fast_program) "main.py" fast_script (Mods [] [] [] [])) (Lines "main.py" None fast_script) (Mods [] [] [] [])
       (Line "pkg" (Some true) (PFrom (Some "speedups.core") [("go", None)] 0)) (Mods [] ["pkg"] [] [])
  /\ faces "pkg" (Some true) (PFrom (Some "speedups.core") [("go", None)] 0) "speedups.core"
  /\ anchors (y_stdout fast_said) = ["main.py"; "pkg"; "speedups"; "speedups.core"].
Proof.
  destruct C104_nonvacuous as (Q & R & _ & H & F & _).
  split; [|split; [reflexivity|split; [now apply ordinary_check|split; [apply Q|split; [apply Q|split; [exact R|split; [|split; [exact H|split; [exact F|]]]]]]]]].
  - eapply (shown_invoked _ _ _ _ ["main.py"; "pkg"; "speedups.core"; "speedups"]); try (vm_compute; reflexivity); try discriminate.
    + repeat (constructor; [intros s [=]|]). constructor.
    + cbn. repeat (apply NoDup_cons; [cbn; intuition discriminate|]). apply NoDup_nil.
  - constructor.
    + now apply tidy_bool.
    + intros m nd x t A B C K. exfalso. apply gfind_in in A as [A <-]. vm_compute in A.
      repeat (destruct A as [<-|A]; [cbn in B; repeat (destruct B as [<-|B]; [inversion C as [? ? C1]; discriminate C1|]); destruct B|]). destruct A.
    + intros m x id (nd & (a & i & y & _ & _ & _ & A & _) & B & _) _. apply gfind_in in A as [A _]. vm_compute in A.
      repeat (destruct A as [<-|A]; [destruct B as [G B]; try discriminate G; destruct B as [[]|(b & k & ff & ty & t & B & _)]; discriminate B|]). destruct A.
    + intros a f d (ds & K & _). vm_compute in K. repeat (destruct K as [K|K]; [injection K as <- <- <-; vm_compute; split; discriminate|]). destruct K.
  - vm_compute. reflexivity.
Qed.

Print Assumptions C105_partial.
Print Assumptions C105_module_partial.
Print Assumptions C105_refuted.
