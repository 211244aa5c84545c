(** C102: the command line program tells of all modules that a run loads. *)
From Verif Require Import BuilderSource BuilderHist BuilderInv BuilderCalls BuilderKinds World AstProofs PropsBuilder PropsCalls PropsHooks PropsRoots PropsPackage PropsSource PropsReach SeedSpec BuilderSame PropsLoad PropsNeed PropsSame PropsSeed MoreSpec PropsMore BuilderRest PropsRest PropsDefault PropsLoad PropsSame ReportProofs PropsReport PropsHtml PropsCli MustSpec PropsMust WithinSpec PropsWithin ShownSpec.
Open Scope string_scope.

(** The configuration that the program begins with, without what the options exclude. *)
Definition option_conf (implies : list (string * implied)) (stdlib : list string) (l : list opt) : list (string * implied) :=
  add_excludes (flat_map (says_exclude stdlib) l) (s_lazy (init implies [] [])).

Lemma option_conf_says implies stdlib l x : (In x (flat_map (says_exclude stdlib) l) -> assoc x (option_conf implies stdlib l) = Some ImpNone)
  /\ (~ In x (flat_map (says_exclude stdlib) l) -> assoc x (option_conf implies stdlib l) = assoc x (s_lazy (init implies [] []))).
Proof.
  destruct (C17_configured (world [] [] []) 1 [Exclude (flat_map (says_exclude stdlib) l)] (init implies [] []) _ _ x eq_refl) as [A B].
  split; [intros H; apply A; right; eexists; split; [now left|exact H]|]. intros H.
  assert (D : assoc x (s_lazy (init implies [] [])) = Some ImpNone \/ assoc x (s_lazy (init implies [] [])) <> Some ImpNone)
    by (destruct (assoc x (s_lazy (init implies [] []))) as [[]|]; (now left) || (right; discriminate)).
  destruct D as [D|D]; [rewrite D; apply A; now left|]. destruct B as [_ B]; [|apply B; intros i []].
  intros [K|(c & [<-|[]] & K)]; [contradiction|]. now apply H.
Qed.

Lemma calls_default E P DS implies conf fuel l : forall s anss s', default_session E P DS implies conf s -> Forall (fun a => root_action a \/ dist_action E DS a) l ->
  calls E fuel l s = Some (anss, s') -> Forall (fun a => ok_answer a = true) anss -> default_session E P DS implies conf s'.
Proof.
  induction l as [|a l IH]; intros s anss s' HX Hl HC Ha; cbn in HC.
  - injection HC as <- <-. exact HX.
  - destruct (top_call E fuel a s) as [[ans s1]|] eqn:E1; [|discriminate].
    destruct (calls E fuel l s1) as [[anss' s2]|] eqn:E2; [|discriminate]. injection HC as <- <-.
    inversion Hl as [|? ? L1 L2]; subst. inversion Ha as [|? ? A1 A2]; subst. eapply IH; [|exact L2|exact E2|exact A2].
    eapply df_call; [exact HX|exact L1|exact E1|]. intros e ->. discriminate.
Qed.
Lemma asked_session E P DS implies stdlib l names fuel anss s :
  Forall (fun x => root_action (verb (last (flat_map says_type l) NTModule) x) \/ dist_action E DS (verb (last (flat_map says_type l) NTModule) x)) names ->
  calls E fuel (PropsCli.asked stdlib l names) (init implies [mypyc_hook P] [swig_hook]) = Some (anss, s) -> Forall (fun a => ok_answer a = true) anss ->
  default_session E P DS implies (option_conf implies stdlib l) s.
Proof.
  intros Hn HC HF. unfold PropsCli.asked in HC. cbn [calls] in HC.
  destruct (top_call E fuel (AExcludes (flat_map (says_exclude stdlib) l)) (init implies [mypyc_hook P] [swig_hook])) as [[ans s1]|] eqn:E1; [|discriminate].
  destruct (calls E fuel _ s1) as [[anss' s2]|] eqn:E2; [|discriminate]. injection HC as <- <-. inversion HF as [|? ? F1 F2]; subst.
  eapply calls_default; [| |exact E2|exact F2].
  - apply df_open; [eapply do_exclude; [apply do_init|exact E1|intros e ->; discriminate]|].
    unfold top_call, call, attempt in E1. cbn in E1. injection E1 as <- <-. reflexivity.
  - rewrite Forall_map. exact Hn.
Qed.

(** A call of the program that succeeds, and the graph that it makes. *)
Record invoked (envs : list string -> env) (P : paths) (implies : list (string * implied)) (fuel : nat) (invalidate : IO unit) (stdlib : list string)
  (iter : nat -> graph -> list node) (opens : string -> result unit) (writes : option string -> string -> option nat) (l : list opt) (names : list string) (y y' : sys) (s : st) : Prop := {
  in_keeps : keeps_path invalidate;
  in_quiet : PropsCli.quiet invalidate;
  in_path : has_path y;
  in_names : names <> [];
  in_valid : Forall valid l;
  in_main : main envs (init implies [mypyc_hook P] [swig_hook]) fuel invalidate stdlib iter opens writes l names y = Some (ROk tt, y');
  in_calls : exists anss, calls (envs (flat_map says_path l ++ Cli.sys_path y)%list) fuel (PropsCli.asked stdlib l names) (init implies [mypyc_hook P] [swig_hook]) = Some (anss, s);
  in_iter : forall k, traversal (s_graph s) (iter k (s_graph s));
  in_printable : printable (last (flat_map says_format l) FHtml) (s_graph s)
}.

Section invoked.
  Variable envs : list string -> env.
  Variable P : paths.
  Variable implies : list (string * implied).
  Variable fuel : nat.
  Variable invalidate : IO unit.
  Variable stdlib : list string.
  Variable iter : nat -> graph -> list node.
  Variable opens : string -> result unit.
  Variable writes : option string -> string -> option nat.
  Variable l : list opt.
  Variable names : list string.
  Variables y y' : sys.
  Variable s : st.
  Hypothesis HI : invoked envs P implies fuel invalidate stdlib iter opens writes l names y y' s.
  Let E := envs (flat_map says_path l ++ Cli.sys_path y)%list.
  Hypothesis HO : order_ok E.
  Let start0 := init implies [mypyc_hook P] [swig_hook].

  Lemma start0_start : start start0.
  Proof. now eexists _, _, _. Qed.
  Lemma invoked_output : exists anss text, calls E fuel (PropsCli.asked stdlib l names) start0 = Some (anss, s) /\ Forall (fun a => ok_answer a = true) anss
    /\ arrived (last (flat_map says_output l) None) y y' text /\ text = print_graph iter (last (flat_map says_format l) FHtml) (s_graph s).
  Proof.
    destruct HI as [H1 H2 H3 H4 H5 H6 [anss0 H7] H8 H9].
    destruct (C60_main _ _ _ _ _ _ _ _ l names y _ y' H1 H2 H3 H4 H5 H6) as [_ [(anss & s1 & Hc & Ha & Hd)|(_ & e & K & _)]]; [|discriminate].
    rewrite Hc in H7. injection H7 as <- ->. exists anss. eexists. split; [exact Hc|]. split; [exact Ha|]. split; [|reflexivity].
    unfold delivered in Hd. unfold arrived. destruct (last (flat_map says_output l) None) as [f|].
    - destruct Hd as (_ & _ & [[_ K]|[[K _]|[(e & K & _) _]]]); [exact K|discriminate..].
    - destruct Hd as (_ & [[_ K]|[K _]]); [exact K|discriminate].
  Qed.
  Lemma invoked_reach : reach E start0 s.
  Proof. destruct invoked_output as (anss & text & Hc & _). eapply calls_reach; [apply reach_init|exact Hc]. Qed.
  Lemma tells x n : gfind (s_graph s) x = Some n -> n_kind n <> Distribution -> reaches (s_graph s) x ->
    tells_of (last (flat_map says_format l) FHtml) (print_graph iter (last (flat_map says_format l) FHtml) (s_graph s)) x.
  Proof.
    intros G K R. pose proof (reach_sound E start0 s HO start0_start invoked_reach) as So. destruct HI as [_ _ _ _ _ _ _ T C].
    apply gfind_in in G as [G <-]. destruct (last (flat_map says_format l) FHtml); cbn [tells_of print_graph].
    - apply C55_anchors; [exact So|apply T|apply T|exact C|]. exists n. repeat split; assumption.
    - destruct (C54_dot_partial (s_graph s) (iter 0 (s_graph s)) (iter 1 (s_graph s)) So (T 0) (T 1) C) as (is & cs & A & B). exists is, cs. split; [exact A|]. now apply (sh_nodes _ _ _ B).
  Qed.
  Lemma script_asked f : last (flat_map says_type l) NTModule = NTScript -> In f names -> kind_of s f = Some Script /\ In f (g_roots (s_graph s)).
  Proof.
    intros T Hf. destruct invoked_output as (anss & text & Hc & HF & _).
    pose proof (C60_roots E fuel start0 stdlib l names anss s HO start0_start Hc HF f Hf) as R. rewrite T in R. split; [|exact R].
    destruct (calls_mid E start0 fuel _ start0 anss s (AAddScript f) (reach_init E start0) Hc) as (s1 & ans & s2 & R1 & Ht & Ha & R2).
    { unfold PropsCli.asked. right. rewrite T. now apply (in_map AAddScript). }
    rewrite Forall_forall in HF. destruct (C36_new_script E start0 s1 fuel f ans s2 HO start0_start R1 Ht (HF _ Ha)) as (_ & _ & K & _).
    pose proof (reach_call E start0 s1 fuel _ ans s2 R1 Ht) as R3. pose proof (h_linv _ _ (reach_history E start0 s2 HO start0_start R3)) as L.
    destruct (reach_from_grows E s2 s L R2) as [G _]. eapply grows_kind; eassumption.
  Qed.
  Lemma root_asked : last (flat_map says_type l) NTModule <> NTDistribution -> default_session E P (fun _ => False) implies (option_conf implies stdlib l) s.
  Proof.
    intros T. destruct invoked_output as (anss & text & Hc & HF & _). eapply asked_session; [|exact Hc|exact HF]. apply Forall_forall. intros x _. left.
    destruct (last (flat_map says_type l) NTModule); [exact Logic.I|exact Logic.I|contradiction].
  Qed.
  (** The node of a module has the name that was asked for. *)
  Lemma module_asked name : order_of_set P -> ordinary (s_graph s) -> last (flat_map says_type l) NTModule = NTModule -> In name names ->
    in_graph s name /\ In name (g_roots (s_graph s)).
  Proof.
    intros OP G T Hf. destruct invoked_output as (anss & text & Hc & HF & _).
    destruct (calls_mid E start0 fuel _ start0 anss s (AAddModule name) (reach_init E start0) Hc) as (s1 & ans & s2 & R1 & Ht & Ha & R2).
    { unfold PropsCli.asked. right. rewrite T. now apply (in_map AAddModule). }
    rewrite Forall_forall in HF. destruct (C29_add_module_partial E start0 s1 fuel name ans s2 HO start0_start R1 Ht (HF _ Ha)) as (id & _ & Rt & Q & _).
    pose proof (reach_call E start0 s1 fuel _ ans s2 R1 Ht) as R3. pose proof (h_linv _ _ (reach_history E start0 s2 HO start0_start R3)) as L.
    destruct (reach_from_grows E s2 s L R2) as [Gr _]. destruct (reach_roots E start0 s2 s HO start0_start R3 R2) as [I _]. destruct Rt as [_ Rt]. apply I in Rt.
    assert (D : default_session E P (fun _ => False) implies (option_conf implies stdlib l) s) by (apply root_asked; rewrite T; discriminate).
    destruct (C93_session _ _ _ _ _ _ OP D G) as [u [Hu [p [m ->]]]].
    assert (id = name) as ->.
    { eapply one_resolves; [exact HO|exact Hu|]. destruct Q as [Q|Q]; [now left|right]. cbn. eapply grows_log; eassumption. }
    split; [|exact Rt]. unfold in_graph. rewrite gfind_ids. exact (so_roots _ (reach_sound E start0 s HO start0_start invoked_reach) _ Rt).
  Qed.
  Lemma covered_told p x : In (started p) (g_roots (s_graph s)) -> covered s p x ->
    tells_of (last (flat_map says_format l) FHtml) (print_graph iter (last (flat_map says_format l) FHtml) (s_graph s)) x.
  Proof.
    intros Hr [(n & G & R) L]. apply (tells x n G); [intros K; rewrite K in R; discriminate R|]. eapply PropsLoad.leads_reaches; eassumption.
  Qed.
End invoked.

(** ** Theorems *)

(** When the command line program is called for a script, its output has a section or
    node for each module that a run of the script loads or begins to load. *)
Definition C102_statement : Prop := forall envs P implies fuel invalidate stdlib iter opens writes opts names y y' s find code f l z o z',
  invoked envs P implies fuel invalidate stdlib iter opens writes opts names y y' s -> last (flat_map says_type opts) NTModule = NTScript -> In f names ->
  let E := envs (flat_map says_path opts ++ Cli.sys_path y)%list in
  let conf := option_conf implies stdlib opts in
  order_of_set P -> running E find conf -> assembled E find code f l -> at_rest (kept find conf) code z ->
  run (kept find conf) code (by_statement find conf code f l z) (Lines f None l) z o z' ->
  exists text, arrived (last (flat_map says_output opts) None) y y' text
    /\ forall x, In x (loaded z') \/ In x (failed z') -> In x (loaded z) \/ tells_of (last (flat_map says_format opts) FHtml) text x.
Theorem C102_partial : forall envs P implies fuel invalidate stdlib iter opens writes opts names y y' s find code f l z o z',
  invoked envs P implies fuel invalidate stdlib iter opens writes opts names y y' s -> last (flat_map says_type opts) NTModule = NTScript -> In f names ->
  let E := envs (flat_map says_path opts ++ Cli.sys_path y)%list in
  let conf := option_conf implies stdlib opts in
  order_of_set P -> running E find conf -> ordinary (s_graph s) -> assembled E find code f l -> at_rest (kept find conf) code z -> orderly find conf s (RunScript f) ->
  run (kept find conf) code (by_statement find conf code f l z) (Lines f None l) z o z' ->
  exists text, arrived (last (flat_map says_output opts) None) y y' text
    /\ forall x, In x (loaded z') \/ In x (failed z') -> In x (loaded z) \/ tells_of (last (flat_map says_format opts) FHtml) text x.
Proof.
  intros envs P implies fuel invalidate stdlib iter opens writes opts names y y' s find code f l z o z' HI T Hf E conf OP A G W R O H.
  destruct (invoked_output _ _ _ _ _ _ _ _ _ _ _ _ _ _ HI) as (anss & text & _ & _ & Ar & Et). exists text. split; [exact Ar|]. intros x Hx. subst text.
  destruct (script_asked _ _ _ _ _ _ _ _ _ _ _ _ _ _ HI (ru_order _ _ _ A) f T Hf) as [K Hr].
  destruct (C98_default_partial E P find conf code (fun _ => False) implies f l s z o z' OP A) with (t := x) as [Q|Q]; try assumption; [|now left|right].
  - eapply root_asked; [exact HI|rewrite T; discriminate].
  - eapply covered_told; [exact HI|exact (ru_order _ _ _ A)| |exact Q]. exact Hr.
Qed.
(** The same for modules that are run by their names. *)
Theorem C102_module_partial : forall envs P implies fuel invalidate stdlib iter opens writes opts names y y' s find code name z o z',
  invoked envs P implies fuel invalidate stdlib iter opens writes opts names y y' s -> last (flat_map says_type opts) NTModule = NTModule -> In name names ->
  let E := envs (flat_map says_path opts ++ Cli.sys_path y)%list in
  let conf := option_conf implies stdlib opts in
  order_of_set P -> running E find conf -> ordinary (s_graph s) -> modular s name -> coded E find code -> at_rest (kept find conf) code z -> orderly find conf s (RunModule name) ->
  run (kept find conf) code (by_statement find conf code name [] z) (Import name) z o z' ->
  exists text, arrived (last (flat_map says_output opts) None) y y' text
    /\ forall x, In x (loaded z') \/ In x (failed z') -> In x (loaded z) \/ tells_of (last (flat_map says_format opts) FHtml) text x.
Proof.
  intros envs P implies fuel invalidate stdlib iter opens writes opts names y y' s find code name z o z' HI T Hf E conf OP A G M W R O H.
  destruct (module_asked _ _ _ _ _ _ _ _ _ _ _ _ _ _ HI (ru_order _ _ _ A) name OP G T Hf) as [Hg Hr].
  destruct (invoked_output _ _ _ _ _ _ _ _ _ _ _ _ _ _ HI) as (anss & text & _ & _ & Ar & Et). exists text. split; [exact Ar|]. intros x Hx. subst text.
  destruct (C98_default_module_partial E P find conf code (fun _ => False) implies name s z o z' OP A) with (t := x) as [Q|Q]; try assumption; [|now left|right].
  - eapply root_asked; [exact HI|rewrite T; discriminate].
  - eapply covered_told; [exact HI|exact (ru_order _ _ _ A)| |exact Q]. exact Hr.
Qed.

(** ** Concrete cases *)

(** [ord] has the names in an order in which they are reached. *)
Fixpoint reached_b (g : graph) (seen ord : list string) : bool :=
  match ord with
  | [] => true
  | x :: r => ((memb x (g_roots g) || existsb (fun e => seqb (snd (fst e)) x && memb (fst (fst e)) seen) (g_edges g)) && reached_b g (x :: seen) r)%bool
  end.
Lemma reached_reaches g ord : forall seen, (forall x, In x seen -> reaches g x) -> reached_b g seen ord = true -> forall x, In x ord -> reaches g x.
Proof.
  induction ord as [|x r IH]; intros seen Hs H z Hz; [destruct Hz|]. cbn in H. apply andb_true_iff in H as [H1 H2].
  assert (X : reaches g x).
  { apply orb_true_iff in H1 as [H1|H1]; [apply memb_In in H1; now apply re_root|]. apply existsb_exists in H1 as ([[a b] ds] & H1 & H3). cbn in H3. apply andb_true_iff in H3 as [H3 H4].
    apply seqb_eq in H3 as ->. apply memb_In in H4. eapply re_edge; [apply Hs; exact H4|exact H1]. }
  destruct Hz as [<-|Hz]; [exact X|]. apply (IH (x :: seen)); [|exact H2|exact Hz]. intros w [<-|Hw]; auto.
Qed.
Lemma all_traversal g ord : NoDup (map n_name (g_nodes g)) -> reached_b g [] ord = true -> forallb (fun n => memb (n_name n) ord) (g_nodes g) = true -> traversal g (g_nodes g).
Proof.
  intros N H K. rewrite forallb_forall in K. constructor; [exact N|]. intros n. split; [|now intros [A _]]. intros A. split; [exact A|].
  apply (reached_reaches g ord []); [intros x []|exact H|]. apply memb_In. now apply K.
Qed.
Definition plain_names_b (g : graph) : bool := forallb (fun n => (negb (has_char "<"%char (n_name n)) && negb (has_char dquote (n_name n)) && negb (has_char newline (n_name n))
  && match n_dist n with None => true | _ => false end)%bool) (g_nodes g).
Lemma plain_printable f g : plain_names_b g = true -> printable f g.
Proof.
  intros H n [Hn _]. unfold plain_names_b in H. rewrite forallb_forall in H. specialize (H n Hn). rewrite !andb_true_iff, !negb_true_iff in H. destruct H as [[[A B] C] D].
  split; [|intros d Hd; rewrite Hd in D; discriminate D]. destruct f; intros c [<-|[<-|[]]]; now apply no_char_has.
Qed.
Definition shown_main (w : PropsMust.program) (l : list piece) (opts : list opt) (names : list string) : option (result unit * sys) :=
  main (fun _ => program_world w l) (init [] [mypyc_hook flat_paths] [swig_hook]) 60 (io_ret tt) [] (fun _ g => g_nodes g) (fun _ => ROk tt) (fun _ _ => None) opts names some_sys.
Definition shown_state (w : PropsMust.program) (l : list piece) (opts : list opt) (names : list string) : st :=
  snd (the_calls (program_world w l) (PropsCli.asked [] opts names) (init [] [mypyc_hook flat_paths] [swig_hook])).
Lemma shown_invoked w l opts names ord anss y' s : names <> [] -> Forall valid opts -> shown_main w l opts names = Some (ROk tt, y') ->
  calls (program_world w l) 60 (PropsCli.asked [] opts names) (init [] [mypyc_hook flat_paths] [swig_hook]) = Some (anss, s) ->
  NoDup (map n_name (g_nodes (s_graph s))) -> reached_b (s_graph s) [] ord = true -> forallb (fun n => memb (n_name n) ord) (g_nodes (s_graph s)) = true -> plain_names_b (s_graph s) = true ->
  invoked (fun _ => program_world w l) flat_paths [] 60 (io_ret tt) [] (fun _ g => g_nodes g) (fun _ => ROk tt) (fun _ _ => None) opts names some_sys y' s.
Proof.
  intros V0 V H C N R A Pl. constructor; try assumption.
  - intros y r y1 [= <- <-]. reflexivity.
  - intros y r y1 [= <- <-]. now split.
  - vm_compute. auto.
  - eexists. exact C.
  - intros _. now apply (all_traversal _ ord).
  - now apply plain_printable.
Qed.
Definition cond_opts : list opt := [OScript].
Definition cond_shown : st := Eval vm_compute in shown_state cond_program cond_script cond_opts ["main.py"].
Definition cond_said : sys := Eval vm_compute in match shown_main cond_program cond_script cond_opts ["main.py"] with Some (_, y') => y' | None => some_sys end.
Lemma cond_invoked : invoked (fun _ => program_world cond_program cond_script) flat_paths [] 60 (io_ret tt) [] (fun _ g => g_nodes g) (fun _ => ROk tt) (fun _ _ => None) cond_opts ["main.py"] some_sys cond_said cond_shown.
Proof.
  eapply (shown_invoked _ _ _ _ ["main.py"; "q"; "json"]); try (vm_compute; reflexivity); try discriminate.
  - repeat (constructor; [intros s [=]|]). constructor.
  - cbn. repeat (apply NoDup_cons; [cbn; intuition discriminate|]). apply NoDup_nil.
Qed.
(** The program of C98: the graph does not have q.name, and neither has the output. *)
Theorem C102_refuted : ~ C102_statement.
Proof.
  intros H. destruct (H _ _ _ _ _ _ _ _ _ _ _ _ _ _ (found_in (entries cond_program)) (code_in cond_program) "main.py" cond_script (Mods [] [] [] []) Next (Mods ["q.name"; "q"] [] [] [])
    cond_invoked eq_refl (or_introl eq_refl)) as (text & A & B).
  - apply PropsRest.flat_order.
  - now apply program_running.
  - apply written_assembled, program_written.
  - apply rest_new.
  - exact cond_run.
  - destruct (B "q.name") as [[]|K]; [left; now left|]. change (cond_said.(y_stdout) = "" ++ text) in A. cbn [append] in A. rewrite <- A in K.
    apply memb_In in K. vm_compute in K. discriminate K.
Qed.

Definition lazy_opts : list opt := [OScript; OFormat "dot"; OOutput "out"].
Definition lazy_shown : st := Eval vm_compute in shown_state lazy_program lazy_script lazy_opts ["main.py"].
Definition lazy_said : sys := Eval vm_compute in match shown_main lazy_program lazy_script lazy_opts ["main.py"] with Some (_, y') => y' | None => some_sys end.
Example C102_nonvacuous : exists z',
  invoked (fun _ => program_world lazy_program lazy_script) flat_paths [] 60 (io_ret tt) [] (fun _ g => g_nodes g) (fun _ => ROk tt) (fun _ _ => None) lazy_opts ["main.py"] some_sys lazy_said lazy_shown
  /\ option_conf [] [] lazy_opts = main_conf /\ ordinary (s_graph lazy_shown)
  /\ running (program_world lazy_program lazy_script) (found_in (entries lazy_program)) main_conf
  /\ assembled (program_world lazy_program lazy_script) (found_in (entries lazy_program)) (code_in lazy_program) "main.py" lazy_script
  /\ at_rest (kept (found_in (entries lazy_program)) main_conf) (code_in lazy_program) (Mods ["os"] [] [] []) /\ orderly (found_in (entries lazy_program)) main_conf lazy_shown (RunScript "main.py")
  /\ run (kept (found_in (entries lazy_program)) main_conf) (code_in lazy_program) (by_statement (found_in (entries lazy_program)) main_conf (code_in lazy_program) "main.py" lazy_script (Mods ["os"] [] [] []))
       (Lines "main.py" None lazy_script) (Mods ["os"] [] [] []) MustSpec.Raise z'
  /\ loaded z' = ["pkg.sub"; "pkg"; "os"] /\ failed z' = ["pkg.late"]
  /\ option_map (fun x => option_map (fun r => node_ids (fst r)) (read_dot x)) (assoc "out" (y_files lazy_said)) = Some (Some ["main.py"; "pkg"; "os"; "pkg.sub"; "pkg.late"; "gone"]).
Proof.
  destruct C98_nonvacuous as (z' & Q & R & _ & H & L & F). exists z'. split; [|split; [reflexivity|split; [now apply ordinary_check|split; [apply Q|split; [apply Q|split; [exact R|split; [|split; [exact H|split; [exact L|split; [exact F|]]]]]]]]]].
  - eapply (shown_invoked _ _ _ _ ["main.py"; "pkg"; "os"; "pkg.sub"; "pkg.late"; "gone"]); try (vm_compute; reflexivity); try discriminate.
    + repeat (constructor; [intros s [= <-] || (intros s [=]); auto|]). constructor.
    + cbn. repeat (apply NoDup_cons; [cbn; intuition discriminate|]). apply NoDup_nil.
  - constructor.
    + now apply tidy_bool.
    + intros m nd x t A B C K. exfalso. apply gfind_in in A as [A <-]. vm_compute in A.
      repeat (destruct A as [<-|A]; [cbn in B; repeat (destruct B as [<-|B]; [inversion C as [? ? C1]; discriminate C1|]); destruct B|]). destruct A.
    + intros m x id (nd & (a & i & y & _ & _ & _ & A & _) & B & _) _. apply gfind_in in A as [A _]. vm_compute in A.
      repeat (destruct A as [<-|A]; [destruct B as [G B]; try discriminate G; destruct B as [[]|(b & k & ff & ty & t & B & _)]; discriminate B|]). destruct A.
    + intros a f d (ds & K & _). vm_compute in K. repeat (destruct K as [K|K]; [injection K as <- <- <-; vm_compute; split; discriminate|]). destruct K.
  - vm_compute. reflexivity.
Qed.

(** Package pkg is asked for by its name; json is excluded. *)
Definition name_opts : list opt := [OExclude "json"].
Definition name_shown : st := Eval vm_compute in shown_state lazy_program lazy_script name_opts ["pkg"].
Definition name_said : sys := Eval vm_compute in match shown_main lazy_program lazy_script name_opts ["pkg"] with Some (_, y') => y' | None => some_sys end.
Definition name_conf : list (string * implied) := Eval vm_compute in option_conf [] [] name_opts.
Example C102_module_nonvacuous :
  invoked (fun _ => program_world lazy_program lazy_script) flat_paths [] 60 (io_ret tt) [] (fun _ g => g_nodes g) (fun _ => ROk tt) (fun _ _ => None) name_opts ["pkg"] some_sys name_said name_shown
  /\ option_conf [] [] name_opts = name_conf /\ assoc "json" name_conf = Some ImpNone /\ ordinary (s_graph name_shown) /\ modular name_shown "pkg"
  /\ running (program_world lazy_program lazy_script) (found_in (entries lazy_program)) name_conf
  /\ coded (program_world lazy_program lazy_script) (found_in (entries lazy_program)) (code_in lazy_program)
  /\ at_rest (kept (found_in (entries lazy_program)) name_conf) (code_in lazy_program) (Mods [] [] [] []) /\ orderly (found_in (entries lazy_program)) name_conf name_shown (RunModule "pkg")
  /\ run (kept (found_in (entries lazy_program)) name_conf) (code_in lazy_program) (by_statement (found_in (entries lazy_program)) name_conf (code_in lazy_program) "pkg" [] (Mods [] [] [] []))
       (Import "pkg") (Mods [] [] [] []) Next (Mods ["pkg"; "os"] [] [] [])
  /\ anchors (y_stdout name_said) = ["os"; "pkg"].
Proof.
  split; [|split; [reflexivity|split; [reflexivity|split; [now apply ordinary_check|split; [split; discriminate|split; [|split; [|split; [apply rest_new|split; [|split]]]]]]]]].
  - eapply (shown_invoked _ _ _ _ ["pkg"; "os"]); try (vm_compute; reflexivity); try discriminate.
    + repeat (constructor; [intros s [= <-] || (intros s [=]); auto|]). constructor.
    + cbn. repeat (apply NoDup_cons; [cbn; intuition discriminate|]). apply NoDup_nil.
  - destruct (program_running lazy_program lazy_script eq_refl) as [A B C D _]. constructor; try assumption.
    intros x i H. apply assoc_In in H. destruct H as [H|[H|[]]]; now injection H as <- <-.
  - apply (as_modules _ _ _ "main.py" lazy_script). apply written_assembled, program_written.
  - constructor.
    + now apply tidy_bool.
    + intros m nd x t A B C K. exfalso. apply gfind_in in A as [A <-]. vm_compute in A.
      repeat (destruct A as [<-|A]; [cbn in B; repeat (destruct B as [<-|B]; [inversion C as [? ? C1]; discriminate C1|]); destruct B|]). destruct A.
    + intros m x id (nd & (a & i & y & _ & _ & _ & A & _) & B & _) _. apply gfind_in in A as [A _]. vm_compute in A.
      repeat (destruct A as [<-|A]; [destruct B as [G B]; try discriminate G; destruct B as [[]|(b & k & ff & ty & t & B & _)]; discriminate B|]). destruct A.
    + intros a f d (ds & K & _). vm_compute in K. repeat (destruct K as [K|K]; [injection K as <- <- <-; vm_compute; split; discriminate|]). destruct K.
  - apply rn_top; [distinct|now apply no_child|reflexivity|]. refine (rn_load _ _ _ "pkg" _ _ _ (Mods ["os"] ["pkg"] [] []) Next _ _ _ _); [distinct|reflexivity|reflexivity|].
    eapply rn_cons; [|apply rn_nil]. eapply rn_import; [|apply rn_import_nil]. apply rn_top; [distinct|now apply no_child|reflexivity|].
    refine (rn_load _ _ _ "os" _ _ _ (Mods [] ["os"; "pkg"] [] []) Next _ _ _ _); [distinct|reflexivity|reflexivity|]. eapply rn_cons; [apply rn_simple, rn_return|apply rn_nil].
  - vm_compute. reflexivity.
Qed.

Print Assumptions C102_partial.
Print Assumptions C102_module_partial.
Print Assumptions C102_refuted.
