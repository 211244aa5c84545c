(** Theorems about the effects of hooks: C61, C62. *)
From Verif Require Import BuilderHooks BuilderHist BuilderInv World PropsBuilder.
Open Scope string_scope.

(** ** C61: post processing hooks have their effect on every new node *)

Lemma step_seen mrun q s s' x : step mrun q s s' -> In x (s_seen s') -> In x (s_seen s) \/ exists l, In (EvSched x l) (s_log s').
Proof.
  intros H Hm. step_cases H; [destruct H as (f' & c & ->)|..];
    cbn [s_seen s_log log set_graph set_lazy set_stack set_seen set_post set_missing set_fakes set_mem set_run set_saved] in Hm |- *;
    try (now left).
  rewrite schedule_log. unfold schedule in Hm. cbn in Hm. destruct (memb n (s_seen s)); cbn in Hm; [now left|].
  apply set_add_In in Hm as [->|Hm]; [right; eexists; now left|now left].
Qed.
Lemma seen_graph E s0 s n : order_ok E -> start s0 -> reach E s0 s -> In n (s_seen s) -> in_graph s n.
Proof.
  intros HE H0 HR. pose proof (reach_history E s0 s HE H0 HR) as H.
  assert (X : forall n, In n (s_seen s) -> exists l, In (EvSched n l) (s_log s)).
  { apply (chain_ind_inv true true (fun s => forall n, In n (s_seen s) -> exists l, In (EvSched n l) (s_log s)) s0 s (h_chain _ _ H)).
    - intros s1 s2 S1 IH x Hm. pose proof (step_grows _ _ _ _ S1) as G.
      destruct (step_seen _ _ _ _ x S1 Hm) as [D|D]; [|exact D]. destruct (IH x D) as [l Hl]. exists l. eapply grows_log; eassumption.
    - destruct H0 as (i & p & q & ->). intros m []. }
  intros Hn. destruct (X n Hn) as [l Hl]. eapply (inv_sched _ _ (h_inv _ _ H)). exact Hl.
Qed.

Lemma new_done E s0 s fuel a ans s' : order_ok E -> start s0 -> reach E s0 s -> top_call E fuel a s = Some (ans, s') ->
  draining a = true -> ok_answer ans = true -> no_exception s s' ->
  forall n, built s' n -> ~ in_graph s n -> In (EvDone (DoPost n)) (s_log s') /\ ~ In (EvDone (DoPost n)) (s_log s).
Proof.
  intros HE H0 HR HC D O N n Hb Hn. pose proof (reach_call E s0 s fuel a ans s' HR HC) as R'.
  assert (Old : forall e, In e (s_log s) -> logged e (DoPost n) -> False).
  { intros e He Hl. apply Hn. apply (seen_graph E s0 s n HE H0 HR).
    exact (f_legit _ (reach_facts E s0 s HE H0 HR) e (DoPost n) He Hl). }
  split; [|intros K; eapply Old; [exact K|right; now left]].
  destruct (built_added E s0 s' n HE H0 R' Hb) as (l & A).
  assert (Hs : In (EvSched n l) (s_log s')).
  { apply (call_pays E s0 s fuel a ans s' HE H0 HR HC N (OSched n l)); [exact A|].
    intros K. apply Hn. eapply (h_linv _ _ (reach_history E s0 s HE H0 HR)). exact K. }
  destruct (f_entered _ (reach_facts E s0 s' HE H0 R')) as (_ & T & _).
  assert (Hseen : In n (s_seen s')) by now apply (inv_sched _ _ (h_inv _ _ (reach_history E s0 s' HE H0 R')) n l).
  destruct (proj1 (at_rest E s0 s' HE H0 R' (top_call_drains _ _ _ _ _ _ HC D O)) _ (T n Hseen)) as [K|K]; [exact K|].
  elim (call_pays E s0 s fuel a ans s' HE H0 HR HC N (OFail (DoPost n)) K).
  intros K'. eapply Old; [exact K'|right; now right].
Qed.

(** A hook that is registered when a call starts.  [brings_about] is about the
    hook on its own, in any state. *)
Theorem C61_hooks_have_effect : forall E s0 s fuel a ans s' h F,
  order_ok E -> start s0 -> reach E s0 s -> top_call E fuel a s = Some (ans, s') ->
  draining a = true -> ok_answer ans = true -> no_exception s s' ->
  In h (s_post s) -> brings_about E h F -> lasting_fact F ->
  forall n, built s' n -> ~ in_graph s n -> F n (s_graph s').
Proof.
  intros E s0 s fuel a ans s' h F HE H0 HR HC D O N Hh HB HL n Hb Hn.
  destruct (new_done E s0 s fuel a ans s' HE H0 HR HC D O N n Hb Hn) as [A B].
  assert (J0 : acted h F s s).
  { split; [exact (h_linv _ _ (reach_history E s0 s HE H0 HR))|]. split; [exact Hh|]. split; [lia|]. intros _ m Hm. now left. }
  pose proof (keeps_top _ _ _ _ (acted_keeper E h F s HB HL) fuel a s ans s' Logic.I J0 HC) as (_ & _ & _ & K).
  destruct (K N n A) as [X|X]; [contradiction|exact X].
Qed.

(** Hooks that were there from the start, in histories in which nothing raised. *)
Theorem C61_from_start : forall E s0 s h F,
  order_ok E -> start s0 -> user_reach E s0 s -> ~ In EvErr (s_log s) ->
  In h (s_post s0) -> brings_about E h F -> lasting_fact F ->
  forall n, built s n -> F n (s_graph s).
Proof.
  intros E s0 s h F HE H0 HU N Hh HB HL n Hb. pose proof (user_is_reach _ _ _ HU) as HR.
  assert (Z : errs s = 0).
  { unfold errs. destruct (filter is_err (s_log s)) as [|e l] eqn:Ef; [reflexivity|].
    assert (X : In e (filter is_err (s_log s))) by (rewrite Ef; now left). apply filter_In in X as [X1 X2].
    destruct e; try discriminate. contradiction. }
  assert (Z0 : errs s0 = 0 /\ s_log s0 = []) by (destruct H0 as (i & p & m & ->); now split).
  assert (J : acted h F s0 s).
  { clear HU N Hb Z. induction HR as [|s fuel a ans s' HR IH HC].
    - split; [now apply start_linv|]. split; [exact Hh|]. split; [lia|]. intros _ m Hm. now left.
    - eapply (keeps_top _ _ _ _ (acted_keeper E h F s0 HB HL)); [exact Logic.I|exact IH|exact HC]. }
  destruct J as (_ & _ & _ & K). pose proof (reach_history E s0 s HE H0 HR) as H.
  destruct (h_paid _ _ H) as [B|B]; [contradiction|]. destruct (built_added E s0 s n HE H0 HR Hb) as (l & A).
  pose proof (B (OSched n l) A) as Hs. cbn in Hs. apply (inv_sched _ _ (h_inv _ _ H)) in Hs as [Hs _].
  destruct (f_entered _ (reach_facts E s0 s HE H0 HR)) as (_ & T & _).
  destruct (proj1 (at_rest E s0 s HE H0 HR (user_reach_empty E s0 s HE H0 HU N)) _ (T n Hs)) as [X|X].
  - destruct (K ltac:(lia) n X) as [Y|Y]; [|exact Y]. rewrite (proj2 Z0) in Y. destruct Y.
  - elim (B (OFail (DoPost n)) X).
Qed.

(** A hook that makes every node a root, registered after [m] was added. *)
Definition to_root : post_hook := fun n => PDo (AAddRoot n) (fun _ => PRet None).
Definition root_world : env := world
  [("m", ESource false [] []); ("p", ESource true [imp "q"] []); ("q", ESource false [imp "p.x"; imp "gone"] []);
   ("p.x", ESource false [] [])] [] [].
Definition root_before : st := Eval vm_compute in snd (the_calls root_world [AAddModule "m"; AAddPost to_root] new).
Definition root_after : st := Eval vm_compute in snd (the_calls root_world [AAddModule "p"] root_before).
Lemma to_root_acts E : brings_about E to_root (fun n g => In n (g_roots g)).
Proof.
  intros k n s x s' H He. unfold to_root in H. cbn [run_prog] in H. apply ok_bind in H as (ans & s1 & H1 & H).
  injection H as <- <-. unfold call, attempt in H1. unfold bind at 1 in H1.
  cbn [do_action] in H1. unfold bind, note, modify, add_root, lift_graph in H1. cbn [s_graph log] in H1.
  destruct (gadd_root (s_graph s) n) as [g|e] eqn:Eg.
  - injection H1 as <- <-. apply gadd_root_spec in Eg as [_ ->]. cbn. apply set_add_In. now left.
  - injection H1 as <- <-. unfold errs in He. cbn in He. lia.
Qed.
Lemma roots_last : lasting_fact (fun n g => In n (g_roots g)).
Proof. intros n g g' G. apply (gr_roots _ _ G). Qed.
Example C61_nonvacuous :
  reach root_world new root_before /\ top_call root_world 60 (AAddModule "p") root_before = Some (AnsId "p", root_after)
  /\ no_exception root_before root_after /\ In to_root (s_post root_before)
  /\ g_roots (s_graph root_before) = ["m"] /\ g_roots (s_graph root_after) = ["m"; "p"; "gone"; "p.x"; "q"].
Proof.
  split; [apply (ran _ [AAddModule "m"; AAddPost to_root]); vm_compute; reflexivity|].
  split; [vm_compute; reflexivity|]. split; [vm_compute; reflexivity|]. split; [now left|]. split; vm_compute; reflexivity.
Qed.

(** ** C62: missing hooks are asked before a missing module is made *)

Definition C62_statement : Prop := forall E s0 s h F,
  order_ok E -> start s0 -> reach E s0 s -> In h (s_missing s0) -> declines_only E h F -> lasting_fact F ->
  forall id, kind_of s id = Some MissingModule -> ~ In (EvGiven id) (s_log s) -> F id (s_graph s).

(** A hook with an answer for every name; the loader of six makes the node for a
    name it does not know without asking. *)
Definition always : missing_hook := fun _ _ => PRet (Some "six").
Definition six_names : list (string * entry) :=
  [("six", ESource true [] []); ("six.moves", ESpec (Spec "six.moves" LSix None None false (ROk true)));
   ("six.moves.nothing", ESpec (Spec "six.moves.nothing" LSix None None false (ROk false)))].
Definition six_world : env := world six_names [] [].
Definition six_start : st := init [] [] [always].
Definition six_end : st := Eval vm_compute in snd (the_calls six_world [AAddModule "six.moves.nothing"] six_start).
Theorem C62_refuted : ~ C62_statement.
Proof.
  intros H. apply (H six_world six_start six_end always (fun _ _ => False)) with (id := "six.moves.nothing").
  - intros l x. reflexivity.
  - now exists [], [], [always].
  - apply (ran _ [AAddModule "six.moves.nothing"]). vm_compute. reflexivity.
  - now left.
  - intros k im n s s' Hr. discriminate.
  - intros n g g' _ [].
  - vm_compute. reflexivity.
  - cbn. intuition discriminate.
Qed.

(** One call, from any state: a hook registered before it.  Left out: the nodes
    for specs whose loader stands for another module. *)
Theorem C62_call_partial : forall E s0 s fuel a ans s' h F,
  order_ok E -> start s0 -> reach E s0 s -> top_call E fuel a s = Some (ans, s') ->
  In h (s_missing s) -> declines_only E h F -> lasting_fact F ->
  forall id, kind_of s' id = Some MissingModule -> kind_of s id = None -> ~ In (EvGiven id) (s_log s') -> ~ redirected E id ->
  F id (s_graph s').
Proof.
  intros E s0 s fuel a ans s' h F HE H0 HR HC Hh HB HL id Hk Hn Hg Hr.
  assert (J0 : asked E h F s s).
  { split; [exact (h_linv _ _ (reach_history E s0 s HE H0 HR))|]. split; [exact Hh|]. intros x Hx. now left. }
  pose proof (keeps_top _ _ _ _ (asked_keeper E h F s HB HL) fuel a s ans s' Logic.I J0 HC) as (_ & _ & K).
  destruct (K id Hk) as [A|[A|[A|A]]]; [congruence|contradiction|contradiction|exact A].
Qed.

(** All histories, hooks from the start. *)
Theorem C62_asked_partial : forall E s0 s h F,
  order_ok E -> start s0 -> reach E s0 s -> In h (s_missing s0) -> declines_only E h F -> lasting_fact F ->
  forall id, kind_of s id = Some MissingModule -> ~ In (EvGiven id) (s_log s) -> ~ redirected E id -> F id (s_graph s).
Proof.
  intros E s0 s h F HE H0 HR Hh HB HL id Hk Hg Hr.
  assert (J : asked E h F s0 s).
  { clear Hk Hg. induction HR as [|s fuel a ans s' HR IH HC].
    - split; [now apply start_linv|]. split; [exact Hh|]. intros x Hx. now left.
    - eapply (keeps_top _ _ _ _ (asked_keeper E h F s0 HB HL)); [exact Logic.I|exact IH|exact HC]. }
  destruct J as (_ & _ & K). destruct (K id Hk) as [A|[A|[A|A]]]; [|contradiction|contradiction|exact A].
  destruct H0 as (i & p & m & ->). discriminate.
Qed.

(** In particular names that a hook always has an answer for (or raises an
    exception for) are never missing. *)
Theorem C62_answered_partial : forall E s0 s h (P : string -> Prop),
  order_ok E -> start s0 -> reach E s0 s -> In h (s_missing s0) ->
  (forall k im n s1 s2, P n -> run_prog E (exec E k) (h im n) s1 <> Some (ROk None, s2)) ->
  forall id, P id -> ~ In (EvGiven id) (s_log s) -> ~ redirected E id -> kind_of s id <> Some MissingModule.
Proof.
  intros E s0 s h P HE H0 HR Hh HP id Hi Hg Hr Hk.
  apply (C62_asked_partial E s0 s h (fun n _ => ~ P n) HE H0 HR Hh) with (id := id); try assumption.
  - intros k im n s1 s2 H HN. now apply (HP k im n s1 s2).
  - intros n g g' _ X. exact X.
Qed.

(** A hook that replaces [json5] and [toml] by [json]. *)
Definition replace : missing_hook := fun _ n => PRet (if memb n ["json5"; "toml"] then Some "json" else None).
Definition replace_world : env := world
  [("json", ESource true [] []); ("m", ESource false [imp "toml"; imp "json5"; imp "json"; imp "yaml"] [])] [] [].
Definition replace_end : st := Eval vm_compute in snd (the_calls replace_world [AAddModule "json"; AAddModule "m"; AAddModule "toml"] (init [] [] [replace])).
Example C62_nonvacuous :
  reach replace_world (init [] [] [replace]) replace_end /\ kind_of replace_end "yaml" = Some MissingModule
  /\ kind_of replace_end "toml" = None /\ (forall id, ~ redirected replace_world id)
  /\ g_roots (s_graph replace_end) = ["json"; "m"]
  /\ (forall k im n s1 s2, In n ["json5"; "toml"] -> run_prog replace_world (exec replace_world k) (replace im n) s1 <> Some (ROk None, s2)).
Proof.
  split; [apply (ran _ [AAddModule "json"; AAddModule "m"; AAddModule "toml"]); vm_compute; reflexivity|].
  split; [vm_compute; reflexivity|]. split; [vm_compute; reflexivity|]. split.
  - intros id (sp & (t & f & name & Hf) & Hr & _). cbn in Hf.
    destruct (seqb name "json"); [injection Hf as <-; destruct Hr|].
    destruct (seqb name "m"); [injection Hf as <-; destruct Hr|discriminate].
  - split; [vm_compute; reflexivity|]. intros k im n s1 s2 [<-|[<-|[]]]; discriminate.
Qed.

Print Assumptions C61_hooks_have_effect.
Print Assumptions C61_from_start.
Print Assumptions C62_refuted.
Print Assumptions C62_call_partial.
Print Assumptions C62_asked_partial.
Print Assumptions C62_answered_partial.
