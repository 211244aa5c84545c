(** Where nodes, edges and roots come from; which calls leave no work behind. *)
From Verif Require Export BuilderInv.

(** ** Origins *)

Record origins (s : st) : Prop := {
  or_nodes : forall id n, gfind (s_graph s) id = Some n ->
    (exists l, In (EvAdd id l) (s_log s)) \/ In (EvGiven id) (s_log s) \/ n_kind n = Distribution;
  or_edges : forall a b d, has_edge (s_graph s) a b d -> justified s a b d;
  or_roots : forall id, In id (g_roots (s_graph s)) -> In (EvRoot id) (s_log s)
}.

Lemma origins_keep s s' : grows s s' -> origins s ->
  (forall id n, gfind (s_graph s') id = Some n ->
     (exists n0, gfind (s_graph s) id = Some n0 /\ n_kind n0 = n_kind n) \/
     (exists l, In (EvAdd id l) (s_log s')) \/ In (EvGiven id) (s_log s') \/ n_kind n = Distribution) ->
  (forall a b d, has_edge (s_graph s') a b d -> has_edge (s_graph s) a b d \/ justified s a b d) ->
  (forall id, In id (g_roots (s_graph s')) -> In id (g_roots (s_graph s)) \/ In (EvRoot id) (s_log s')) ->
  origins s'.
Proof.
  intros G [O1 O2 O3] H1 H2 H3. constructor.
  - intros id n Hn. destruct (H1 id n Hn) as [(n0 & A & B)|A]; [|exact A].
    apply O1 in A as [(l & A)|[A|A]].
    + left. exists l. eapply grows_log; eassumption.
    + right. left. eapply grows_log; eassumption.
    + right. right. congruence.
  - intros a b d H. eapply grows_justified; [exact G|]. destruct (H2 a b d H) as [A|A]; [now apply O2|exact A].
  - intros id H. destruct (H3 id H) as [A|A]; [|exact A]. eapply grows_log; [exact G|now apply O3].
Qed.
Lemma origins_same s s' : grows s s' -> origins s -> s_graph s' = s_graph s -> origins s'.
Proof.
  intros G O H. apply (origins_keep s s' G O); rewrite H; auto.
  intros id n Hn. left. now exists n.
Qed.

Lemma step_origins mrun q s s' : step mrun q s s' -> origins s -> origins s'.
Proof.
  intros H O. pose proof (step_grows _ _ _ _ H) as G.
  step_cases H; [destruct H as (f' & c & ->)|..]; try (now apply (origins_same s)).
  - apply (origins_keep s _ G O); cbn [s_graph s_log log set_graph set_lazy g_roots]; auto.
    intros id n. rewrite gfind_app. cbn [s_graph log set_lazy].
    destruct (gfind (s_graph s) id) as [n0|] eqn:En.
    + intros A. injection A as <-. left. now exists n0.
    + cbn [n_name plain_node]. destruct (seqb name id) eqn:Es; [|discriminate]. apply seqb_eq in Es as <-.
      intros _. right. left. exists []. now left.
  - apply (origins_keep s _ G O); cbn [s_graph s_log log set_graph set_lazy g_roots]; auto.
    intros id x. rewrite gfind_app.
    destruct (gfind (s_graph s) id) as [n0|] eqn:En.
    + intros A. injection A as <-. left. now exists n0.
    + destruct (seqb (n_name n) id) eqn:Es; [|discriminate]. apply seqb_eq in Es as <-.
      intros _. right. left. exists l. now left.
  - apply (origins_keep s _ G O); cbn [s_graph s_log log set_graph set_lazy g_roots]; auto.
    intros id x. rewrite gfind_app.
    destruct (gfind (s_graph s) id) as [n0|] eqn:En.
    + intros A. injection A as <-. left. now exists n0.
    + destruct (seqb (n_name n) id) eqn:Es; [|discriminate]. apply seqb_eq in Es as <-.
      intros A. injection A as <-. destruct H2 as [H2|H2]; auto.
  - apply (origins_keep s _ G O); cbn [s_graph s_log log set_graph set_lazy g_roots]; auto.
    + intros id n Hn. left. exists n. split; [exact Hn|reflexivity].
    + intros x y e (ds & A & B). cbn [g_edges] in A. destruct (edges_add_inv _ _ _ _ _ _ _ A e B) as [(-> & -> & ->)|(ds' & A1 & A2)]; [now right|].
      left. now exists ds'.
  - apply (origins_keep s _ G O); cbn [s_graph s_log log set_graph set_lazy g_roots]; auto.
    + intros x n Hn. left. exists n. split; [exact Hn|reflexivity].
    + intros x A. apply set_add_In in A as [->|A]; auto.
  - apply (origins_keep s _ G O); cbn [s_graph s_log log set_graph set_lazy]; auto.
    intros x n. rewrite gfind_written. destruct (gfind (s_graph s) x) as [n0|]; [|discriminate].
    intros A. injection A as <-. left. exists n0. split; [reflexivity|].
    destruct (upd_written_same id names n0) as (_ & A & _). now rewrite A.
  - apply (origins_same s); [exact G|exact O|]. apply schedule_graph.
Qed.
Lemma start_origins s : start s -> origins s.
Proof.
  intros (implies & post & missing & ->). constructor; cbn.
  - discriminate.
  - intros a b d (ds & [] & _).
  - intros id [].
Qed.
Lemma chain_origins mrun q s s' : chain mrun q s s' -> origins s -> origins s'.
Proof. intros C. apply (chain_ind_inv mrun q origins s s' C). intros a b. apply step_origins. Qed.
Lemma reach_origins E s0 s : order_ok E -> start s0 -> reach E s0 s -> origins s.
Proof.
  intros HE H0 H. apply (reach_history E s0 s HE H0) in H. destruct H as [C _ _ _ _].
  eapply chain_origins; [exact C|now apply start_origins].
Qed.

(** ** Calls that leave no work behind *)

Definition drains {A} (m : M A) : Prop := forall s a s', m s = Some (ROk a, s') -> s_stack s' = [].

Lemma drains_run E n : drains (f_run (exec E n)).
Proof.
  induction n as [|n IH]; intros s a s' H; cbn in H; [discriminate|].
  unfold run_body in H. destruct (s_stack s) as [|w rest] eqn:Es; [injection H as <- <-; exact Es|].
  destruct (do_work E (exec E n) w _) as [[[?|?] s1]|]; [|discriminate|discriminate].
  eapply IH; exact H.
Qed.
Lemma drains_then {A} (m : M unit) (a : A) : drains m -> drains (do m ;; ret a).
Proof.
  intros H s b s' E. unfold bind in E. destruct (m s) as [[[u|e] s1]|] eqn:Em; [|discriminate|discriminate].
  injection E as <- <-. eapply H; exact Em.
Qed.
Lemma drains_bind {A B} (m : M A) (f : A -> M B) : (forall a, drains (f a)) -> drains (bind m f).
Proof.
  intros H s b s' E. unfold bind in E. destruct (m s) as [[[u|e] s1]|] eqn:Em; [|discriminate|discriminate].
  eapply H; exact E.
Qed.
Lemma drains_raise {A} e : drains (@raise A e). Proof. intros s a s' H. discriminate. Qed.
Lemma drains_oof {A} : drains (@out_of_fuel A). Proof. intros s a s' H. discriminate. Qed.

Definition stays_empty {A} (m : M A) : Prop :=
  forall s a s', m s = Some (ROk a, s') -> s_stack s = [] -> s_stack s' = [].
Lemma drains_stays {A} (m : M A) : drains m -> stays_empty m.
Proof. intros H s a s' E _. eapply H; exact E. Qed.
Lemma stays_bind {A B} (m : M A) (f : A -> M B) : stays_empty m -> (forall a, stays_empty (f a)) -> stays_empty (bind m f).
Proof.
  intros H K s b s' E Z. unfold bind in E. destruct (m s) as [[[u|e] s1]|] eqn:Em; [|discriminate|discriminate].
  eapply K; [exact E|]. eapply H; [exact Em|exact Z].
Qed.
Lemma stays_ret {A} (a : A) : stays_empty (ret a).
Proof. intros s b s' E Z. now injection E as <- <-. Qed.
Lemma stays_env {A} (m : M A) : envm m -> stays_empty m.
Proof. intros H s a s' E Z. apply H in E as (f & c & ->). exact Z. Qed.
Lemma stays_iter {A} (f : A -> M unit) l : (forall x, stays_empty (f x)) -> stays_empty (iter f l).
Proof. intros H. induction l as [|x l IH]; cbn; [apply stays_ret|]. apply stays_bind; auto. Qed.
Lemma stays_modify f : (forall s, s_stack (f s) = s_stack s) -> stays_empty (modify f).
Proof. intros H s a s' E Z. injection E as <- <-. now rewrite H. Qed.
Lemma stays_graph f : stays_empty (lift_graph f).
Proof. intros s a s' E Z. unfold lift_graph in E. destruct (f (s_graph s)); [|discriminate]. now injection E as <- <-. Qed.

Lemma drains_add_module E n name : drains (add_module (exec E n) name).
Proof.
  unfold add_module. apply drains_bind. intros o. apply drains_bind. intros id. apply drains_bind. intros _.
  apply drains_bind. intros _. apply drains_then, drains_run.
Qed.
Lemma drains_add_script E n path : drains (add_script E (exec E n) path).
Proof.
  unfold add_script. apply drains_bind. intros [o|]; [apply drains_raise|]. apply drains_bind. intros t.
  destruct (extract_ast_info _ t); [|apply drains_oof].
  do 4 (apply drains_bind; intros _). apply drains_then, drains_run.
Qed.
Lemma drains_hook_context E n p : drains (hook_context (exec E n) p).
Proof.
  unfold hook_context. apply drains_bind. intros a. intros s x s' H. unfold bind in H.
  destruct (f_run (exec E n) s) as [[[u|e] s1]|] eqn:Er; [|discriminate|discriminate].
  apply drains_run in Er. destruct a; [|discriminate]. injection H as <- <-. exact Er.
Qed.
Lemma stays_add_distribution E n d : stays_empty (add_distribution E (exec E n) d).
Proof.
  unfold add_distribution. apply stays_bind; [apply stays_env, envm_get|]. intros [x|].
  - apply stays_bind; [apply stays_env, envm_assert|]. intros _. apply stays_ret.
  - apply drains_stays. do 4 (apply drains_bind; intros ?). apply drains_then, drains_run.
Qed.
Lemma stays_add_source E n source : stays_empty (add_source E (exec E n) source).
Proof.
  unfold add_source. apply stays_bind; [apply stays_env, envm_askr|]. intros t.
  destruct (extract_ast_info _ t); [|apply drains_stays, drains_oof].
  apply stays_iter. intros i. apply stays_bind; [apply drains_stays, drains_add_module|]. intros _.
  apply stays_iter. intros nm. apply stays_bind; [apply drains_stays, drains_add_module|]. intros _. apply stays_ret.
Qed.

(** Calls that process all pending work when they succeed. *)
Definition draining (a : action) : bool :=
  match a with AAddScript _ | AAddModule _ | AHookContext _ => true | _ => false end.
(** Calls for users: not those that only make sense inside a hook context or hook. *)
Definition user_call (a : action) : bool :=
  match a with
  | AImportModule _ _ | AImportPackage _ _ | AProcessImports _ _ => false
  | _ => true
  end.
Definition ok_answer (a : answer) : bool := match a with AnsErr _ => false | _ => true end.

Lemma drains_map {A B} (m : M A) (f : A -> B) : drains m -> drains (x <- m ;; ret (f x)).
Proof.
  intros H s b s' E. unfold bind in E. destruct (m s) as [[[u|e] s1]|] eqn:Em; [|discriminate|discriminate].
  injection E as <- <-. eapply H; exact Em.
Qed.
Lemma draining_action E n a : draining a = true -> drains (do_action E (exec E n) a).
Proof.
  destruct a; intros H; try discriminate; cbn [do_action].
  - apply drains_map, drains_add_script.
  - apply drains_map, drains_add_module.
  - apply drains_map, drains_hook_context.
Qed.
Lemma stays_map {A B} (m : M A) (f : A -> B) : stays_empty m -> stays_empty (x <- m ;; ret (f x)).
Proof. intros H. apply stays_bind; [exact H|]. intros a. apply stays_ret. Qed.
Lemma envm_nfs_exec E n sp : envm (f_nfs (exec E n) sp).
Proof.
  revert sp. induction n as [|n IH]; intros sp; cbn; [apply envm_oof|]. now apply envm_nfs_body.
Qed.
Lemma user_action E n a : user_call a = true -> stays_empty (do_action E (exec E n) a).
Proof.
  destruct a; intros H; try discriminate; cbn [do_action];
    try (apply drains_stays; now apply (draining_action E n (AAddScript path)));
    try (apply drains_stays; now apply (draining_action E n (AAddModule name)));
    try (apply drains_stays; now apply (draining_action E n (AHookContext p)));
    try (apply stays_map; first
      [apply stays_modify; reflexivity|apply stays_env; first [apply envm_find_spec|apply envm_ask|apply envm_nfs_exec|apply envm_del_sysmod]]).
  - apply stays_env, envm_get.
  - apply stays_map, stays_add_source.
  - apply stays_map, stays_add_distribution.
  - apply stays_map. apply stays_bind; [apply stays_env, envm_askr|]. intros [d|]; [apply stays_add_distribution|].
    apply stays_env, envm_raise.
  - apply stays_bind; [apply stays_modify; reflexivity|]. intros _. apply stays_map, stays_graph.
  - apply stays_bind; [apply stays_modify; reflexivity|]. intros _. apply stays_map, stays_graph.
  - apply stays_bind; [apply stays_modify; reflexivity|]. intros _. apply stays_map, stays_graph.
  - apply drains_stays, drains_then, drains_run.
  - destruct (seqb package ""); [apply stays_env, envm_raise|]. apply stays_map, stays_env, envm_find_spec.
  - apply stays_bind; [apply stays_env, envm_askr|]. intros x. apply stays_bind; [apply stays_env, envm_askr|].
    intros t. destruct (extract_ast_info _ t); [apply stays_ret|apply drains_stays, drains_oof].
Qed.

Lemma top_call_ok E fuel a s ans s' : top_call E fuel a s = Some (ans, s') ->
  (do_action E (exec E fuel) a s = Some (ROk ans, s')) \/
  (exists e s1, do_action E (exec E fuel) a s = Some (RErr e, s1) /\ s' = log s1 EvErr /\ ans = AnsErr e).
Proof.
  unfold top_call, call, bind, attempt. destruct (do_action E (exec E fuel) a s) as [[[x|e] s1]|]; [| |discriminate].
  - cbn. intros H. injection H as <- <-. now left.
  - cbn. intros H. injection H as <- <-. right. exists e, s1. auto.
Qed.
Lemma top_call_drains E fuel a s ans s' : top_call E fuel a s = Some (ans, s') ->
  draining a = true -> ok_answer ans = true -> s_stack s' = [].
Proof.
  intros H D O. apply top_call_ok in H as [H|(e & s1 & _ & _ & ->)]; [|discriminate].
  eapply draining_action; eassumption.
Qed.
Lemma top_call_stays E fuel a s ans s' : top_call E fuel a s = Some (ans, s') ->
  user_call a = true -> ~ In EvErr (s_log s') -> s_stack s = [] -> s_stack s' = [].
Proof.
  intros H D O Z. apply top_call_ok in H as [H|(e & s1 & _ & -> & _)]; [|exfalso; apply O; now left].
  eapply user_action; eassumption.
Qed.

(** Histories of calls for users. *)
Inductive user_reach (E : env) (s0 : st) : st -> Prop :=
| user_init : user_reach E s0 s0
| user_more s fuel a ans s' : user_reach E s0 s -> user_call a = true ->
    top_call E fuel a s = Some (ans, s') -> user_reach E s0 s'.
Lemma user_is_reach E s0 s : user_reach E s0 s -> reach E s0 s.
Proof. intros H. induction H; [apply reach_init|eapply reach_call; eassumption]. Qed.
Lemma top_call_grows E fuel a s ans s' : linv s -> top_call E fuel a s = Some (ans, s') -> grows s s'.
Proof. intros L H. now destruct (top_call_closes E fuel a s ans s' L H). Qed.
Lemma user_reach_empty E s0 s : order_ok E -> start s0 -> user_reach E s0 s -> ~ In EvErr (s_log s) -> s_stack s = [].
Proof.
  intros HE H0 H. induction H as [|s fuel a ans s' H IH Ha Hc]; intros N.
  - destruct H0 as (implies & post & missing & ->). reflexivity.
  - eapply top_call_stays; [exact Hc|exact Ha|exact N|]. apply IH. intros K. apply N.
    eapply grows_log; [|exact K]. eapply top_call_grows; [|exact Hc].
    apply (h_linv _ _ (reach_history E s0 s HE H0 (user_is_reach _ _ _ H))).
Qed.
