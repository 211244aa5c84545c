(** Properties C14 - C16: callback lists. *)
From Verif Require Import PyStrFacts Callbacks.

(** ** Specification *)

Section spec.
  Context {F S R : Type}.
  (** Callbacks that leave the callback list alone. *)
  Definition quiet (cb : F -> list F -> S -> result R * (list F * S)) : Prop :=
    forall f l s r l' s', cb f l s = (r, (l', s')) -> l' = l.

  (** One after the other until the first exception: [runs step todo s called r s']. *)
  Inductive runs (step : F -> S -> result R * S) : list F -> S -> list F -> result unit -> S -> Prop :=
  | runs_nil s : runs step [] s [] (ROk tt) s
  | runs_ok f l s x s1 c r s2 :
      step f s = (ROk x, s1) -> runs step l s1 c r s2 -> runs step (f :: l) s (f :: c) r s2
  | runs_err f l s e s1 :
      step f s = (RErr e, s1) -> runs step (f :: l) s [f] (RErr e) s1.
End spec.

Section spec_first.
  Context {F S R : Type}.
  (** [f] at position [n] of [fs] is the first one not answering None; older
      ones (later in the list) are not called. *)
  Inductive answers (step : F -> S -> result (option R) * S)
      : list F -> S -> list F -> result (option R) -> S -> Prop :=
  | ans_none s : answers step [] s [] (ROk None) s
  | ans_skip f l s s1 c r s2 :
      step f s = (ROk None, s1) -> answers step l s1 c r s2 -> answers step (f :: l) s (f :: c) r s2
  | ans_here f l s x s1 :
      step f s = (ROk (Some x), s1) -> answers step (f :: l) s [f] (ROk (Some x)) s1
  | ans_err f l s e s1 :
      step f s = (RErr e, s1) -> answers step (f :: l) s [f] (RErr e) s1.
End spec_first.

(** ** Registration *)

(** The list holds what was added since the last clear, newest first. *)
Theorem C14_registered : forall (F : Type) (h : list (reg F)) (fs : list F),
  registered (map Add fs) = rev fs /\ registered (h ++ [Clear] ++ map Add fs) = rev fs.
Proof.
  assert (forall F (fs : list F) l, fold_left (reg_step F) (map Add fs) l = rev fs ++ l) as H.
  { induction fs as [|f fs IH]; intros l; [reflexivity|]. cbn. rewrite IH. cbn.
    now rewrite <- app_assoc. }
  intros F h fs. unfold registered. split; [now rewrite H, app_nil_r|].
  rewrite fold_left_app. cbn. now rewrite H, app_nil_r.
Qed.

Lemma call_all_runs {F S R} (cb : F -> list F -> S -> result R * (list F * S)) l :
  quiet cb -> forall done todo s fuel, l = done ++ todo -> List.length todo < fuel ->
  exists r s' c, call_all cb fuel (List.length done) l s = Some (r, (l, s'), c)
    /\ runs (fun f s => let '(r, (_, s')) := cb f l s in (r, s')) todo s c r s'.
Proof.
  intros Hq. intros done todo. revert done. induction todo as [|f todo IH]; intros done s fuel E Hf.
  - destruct fuel; [cbn in Hf; lia|]. cbn. rewrite app_nil_r in E. subst l.
    rewrite (proj2 (nth_error_None done (List.length done))) by lia.
    eexists _, _, _. split; [reflexivity|constructor].
  - destruct fuel; [cbn in Hf; lia|]. cbn. assert (nth_error l (List.length done) = Some f) as ->.
    { subst l. rewrite nth_error_app2, Nat.sub_diag by lia. reflexivity. }
    destruct (cb f l s) as [[x|e] [l' s']] eqn:Ec; pose proof (Hq _ _ _ _ _ _ Ec); subst l'.
    + destruct (IH (done ++ [f]) s' fuel) as (r & s2 & c & E2 & HR).
      * now rewrite <- app_assoc.
      * cbn in Hf. lia.
      * rewrite app_length in E2. cbn in E2. rewrite E2.
        eexists _, _, _. split; [reflexivity|]. econstructor; [|exact HR]. now rewrite Ec.
    + eexists _, _, _. split; [reflexivity|]. apply runs_err. now rewrite Ec.
Qed.

(** C14: calling the list runs the registered callbacks newest first, each once,
    until the first exception, and then ends. *)
Theorem C14_callbacks_in_order : forall (F S R : Type) (cb : F -> list F -> S -> result R * (list F * S)) fs s,
  quiet cb ->
  let l := registered (map Add fs) in
  exists r s' c, call_all cb (List.length fs + 1) 0 l s = Some (r, (l, s'), c)
    /\ runs (fun f s => let '(r, (_, s')) := cb f l s in (r, s')) (rev fs) s c r s'.
Proof.
  intros F S R cb fs s Hq l.
  destruct (call_all_runs cb l Hq [] l s (List.length fs + 1)) as (r & s' & c & E & H).
  - reflexivity.
  - unfold l. rewrite (proj1 (C14_registered F [] fs)), rev_length. lia.
  - exists r, s', c. split; [exact E|]. unfold l in H at 2.
    now rewrite (proj1 (C14_registered F [] fs)) in H.
Qed.

(** What [runs] means: all of them on success, else up to the one that raised. *)
Theorem C14_runs_all_or_prefix : forall (F S R : Type) (step : F -> S -> result R * S) todo s c r s',
  runs step todo s c r s' ->
  match r with
  | ROk _ => c = todo
  | RErr _ => exists rest, todo = c ++ rest /\ c <> []
  end.
Proof.
  induction 1; auto.
  - destruct r; [congruence|]. destruct IHruns as (rest & -> & _). exists rest. split; [reflexivity|discriminate].
  - exists l. split; [reflexivity|discriminate].
Qed.

(** Three callbacks logging their number; number 1 raises when the log is [[2]]. *)
Definition log_cb (f : nat) (l : list nat) (s : list nat) : result unit * (list nat * list nat) :=
  match f, s with
  | 1, [2] => (RErr (EUser "x"), (l, s))
  | _, _ => (ROk tt, (l, s ++ [f]))
  end.
Example C14_nonvacuous :
  quiet log_cb
  /\ call_all log_cb 4 0 (registered (map Add [0; 3; 2])) [] = Some (ROk tt, ([2; 3; 0], [2; 3; 0]), [2; 3; 0])
  /\ call_all log_cb 4 0 (registered (map Add [0; 1; 2])) []
     = Some (RErr (EUser "x"), ([2; 1; 0], [2]), [2; 1]).
Proof.
  split; [|split; reflexivity]. intros f l s r l' s' H.
  destruct f as [|[|f]]; cbn in H; try congruence. destruct s as [|[|[|[|]]] [|]]; congruence.
Qed.

Lemma call_first_runs {F S R} (cb : F -> list F -> S -> result (option R) * (list F * S)) l :
  quiet cb -> forall done todo s fuel, l = done ++ todo -> List.length todo < fuel ->
  exists r s' c, call_first cb fuel (List.length done) l s = Some (r, (l, s'), c)
    /\ answers (fun f s => let '(r, (_, s')) := cb f l s in (r, s')) todo s c r s'.
Proof.
  intros Hq. intros done todo. revert done. induction todo as [|f todo IH]; intros done s fuel E Hf.
  - destruct fuel; [cbn in Hf; lia|]. cbn. rewrite app_nil_r in E. subst l.
    rewrite (proj2 (nth_error_None done (List.length done))) by lia.
    eexists _, _, _. split; [reflexivity|constructor].
  - destruct fuel; [cbn in Hf; lia|]. cbn. assert (nth_error l (List.length done) = Some f) as ->.
    { subst l. rewrite nth_error_app2, Nat.sub_diag by lia. reflexivity. }
    destruct (cb f l s) as [[[x|]|e] [l' s']] eqn:Ec; pose proof (Hq _ _ _ _ _ _ Ec); subst l'.
    + eexists _, _, _. split; [reflexivity|]. apply ans_here. now rewrite Ec.
    + destruct (IH (done ++ [f]) s' fuel) as (r & s2 & c & E2 & HR).
      * now rewrite <- app_assoc.
      * cbn in Hf. lia.
      * rewrite app_length in E2. cbn in E2. rewrite E2.
        eexists _, _, _. split; [reflexivity|]. eapply ans_skip; [|exact HR]. now rewrite Ec.
    + eexists _, _, _. split; [reflexivity|]. apply ans_err. now rewrite Ec.
Qed.

(** C15 *)
Theorem C15_first_answer : forall (F S R : Type) (cb : F -> list F -> S -> result (option R) * (list F * S)) fs s,
  quiet cb ->
  let l := registered (map Add fs) in
  exists r s' c, call_first cb (List.length fs + 1) 0 l s = Some (r, (l, s'), c)
    /\ answers (fun f s => let '(r, (_, s')) := cb f l s in (r, s')) (rev fs) s c r s'.
Proof.
  intros F S R cb fs s Hq l.
  destruct (call_first_runs cb l Hq [] l s (List.length fs + 1)) as (r & s' & c & E & H).
  - reflexivity.
  - unfold l. rewrite (proj1 (C14_registered F [] fs)), rev_length. lia.
  - exists r, s', c. split; [exact E|]. unfold l in H at 2.
    now rewrite (proj1 (C14_registered F [] fs)) in H.
Qed.

(** With pure callbacks: the answer of the newest callback that has one. *)
Theorem C15_pure : forall (F R : Type) (g : F -> option R) fs,
  let l := registered (map Add fs) in
  match call_first (fun f l (s : unit) => (ROk (g f), (l, s))) (List.length fs + 1) 0 l tt with
  | Some (ROk (Some x), _, c) =>
      exists older f newer, fs = older ++ [f] ++ newer /\ g f = Some x
        /\ (forall k, In k newer -> g k = None) /\ c = rev ([f] ++ newer)
  | Some (ROk None, _, c) => (forall k, In k fs -> g k = None) /\ c = rev fs
  | _ => False
  end.
Proof.
  intros F R g fs l.
  destruct (C15_first_answer F unit R (fun f l s => (ROk (g f), (l, s))) fs tt) as (r & s' & c & E & H).
  { intros f l0 s r l' s' H. congruence. }
  unfold l. rewrite E. clear E l.
  assert (forall todo s c r s', answers (fun f (s : unit) => (ROk (g f), s)) todo s c r s' ->
    match r with
    | ROk (Some x) => exists newer f older, todo = newer ++ [f] ++ older /\ g f = Some x
        /\ (forall k, In k newer -> g k = None) /\ c = newer ++ [f]
    | ROk None => (forall k, In k todo -> g k = None) /\ c = todo
    | RErr _ => False
    end) as K.
  { clear. induction 1.
    - split; [contradiction|reflexivity].
    - injection H as H _. destruct r as [[x|]|e]; [| |contradiction].
      + destruct IHanswers as (n & f' & o & -> & Hx & Hn & ->).
        exists (f :: n), f', o. repeat split; auto. intros k [<-|Hk]; auto.
      + destruct IHanswers as (Hn & ->). split; [|reflexivity]. intros k [<-|Hk]; auto.
    - injection H as H _. exists [], f, l. repeat split; auto; try contradiction.
    - discriminate. }
  apply K in H. destruct r as [[x|]|e]; [| |contradiction].
  - destruct H as (n & f & o & E & Hx & Hn & ->).
    exists (rev o), f, (rev n). split; [|split; [exact Hx|split]].
    + rewrite <- (rev_involutive fs), E, !rev_app_distr. cbn. now rewrite <- app_assoc.
    + intros k Hk. apply Hn. now apply in_rev.
    + rewrite rev_app_distr, rev_involutive. reflexivity.
  - destruct H as (Hn & ->). split; [|reflexivity]. intros k Hk. apply Hn. now apply in_rev in Hk.
Qed.

Example C15_nonvacuous :
  call_first (fun f l (s : unit) => (ROk (if Nat.even f then Some f else None), (l, s)))
    5 0 (registered (map Add [2; 4; 3; 1])) tt
  = Some (ROk (Some 4), ([1; 3; 4; 2], tt), [1; 3; 4]).
Proof. reflexivity. Qed.

(** C16, full statement (one call of the list for one node): no callback is
    called twice, if none was registered twice.  Callbacks may register others
    that are not yet in the list. *)
Definition C16_statement : Prop :=
  forall (F S : Type) (cb : F -> list F -> S -> result unit * (list F * S)),
  (forall f l s r l' s', cb f l s = (r, (l', s')) ->
     l' = l \/ exists g, l' = cb_add F g l /\ ~ In g l) ->
  forall fuel l s r st c, NoDup l -> call_all cb fuel 0 l s = Some (r, st, c) -> NoDup c.

(** Hook 0 registers hook 1 the first time it runs: 0 runs twice, 1 not at all. *)
Definition reg_cb (f : nat) (l : list nat) (s : bool) : result unit * (list nat * bool) :=
  match f, s with
  | 0, false => if existsb (Nat.eqb 1) l then (ROk tt, (l, true)) else (ROk tt, (cb_add nat 1 l, true))
  | _, _ => (ROk tt, (l, s))
  end.

Theorem C16_once_refuted : ~ C16_statement.
Proof.
  intros H.
  assert (NoDup [0; 0]) as Hn.
  { apply (H nat bool reg_cb) with (fuel := 3) (l := [0]) (s := false) (r := ROk tt) (st := ([1; 0], true)).
    - intros f l s r l' s' E. unfold reg_cb in E. destruct f as [|f]; [|injection E as _ <- _; now left].
      destruct s; [injection E as _ <- _; now left|].
      destruct (existsb (Nat.eqb 1) l) eqn:E1; [injection E as _ <- _; now left|]. injection E as _ <- _.
      right. exists 1. split; [reflexivity|]. intros Hi.
      assert (existsb (Nat.eqb 1) l = true) by (apply existsb_exists; exists 1; auto). congruence.
    - repeat constructor. intros [].
    - reflexivity. }
  inversion Hn as [|? ? Hx]. apply Hx. now left.
Qed.

(** It may even never end: a hook that always registers another one. *)
Theorem C16_endless : forall fuel,
  call_all (fun (f : nat) l (s : unit) => (ROk tt, (cb_add nat (List.length l) l, s))) fuel 0 [0] tt = None.
Proof.
  assert (forall fuel i l, i < List.length l ->
    call_all (fun (f : nat) l (s : unit) => (ROk tt, (cb_add nat (List.length l) l, s))) fuel i l tt = None) as K.
  { induction fuel as [|fuel IH]; intros i l Hi; [reflexivity|]. cbn.
    destruct (nth_error l i) eqn:E; [|apply nth_error_None in E; lia].
    rewrite IH; [reflexivity|]. cbn. lia. }
  intros fuel. apply K. cbn. lia.
Qed.

(** The part that holds: hooks that do not change the list.  Missing: hooks
    that register other hooks. *)
Theorem C16_once_partial : forall (F S : Type) (cb : F -> list F -> S -> result unit * (list F * S)) fs s,
  quiet cb -> NoDup fs ->
  exists r st c, call_all cb (List.length fs + 1) 0 (registered (map Add fs)) s = Some (r, st, c) /\ NoDup c.
Proof.
  intros F S cb fs s Hq Hn.
  destruct (C14_callbacks_in_order F S unit cb fs s Hq) as (r & s' & c & E & H).
  eexists _, _, _. split; [exact E|].
  apply C14_runs_all_or_prefix in H. apply NoDup_rev in Hn. destruct r as [x|e].
  - now subst c.
  - destruct H as (rest & Er & _). rewrite Er in Hn. clear - Hn.
    induction c as [|x c IH]; [constructor|]. cbn in Hn. apply NoDup_cons_iff in Hn as [H1 H2]. constructor; auto.
    intros Hi. apply H1, in_or_app. auto.
Qed.

Print Assumptions C14_registered.
Print Assumptions C14_callbacks_in_order.
Print Assumptions C14_runs_all_or_prefix.
Print Assumptions C15_first_answer.
Print Assumptions C15_pure.
Print Assumptions C16_once_refuted.
Print Assumptions C16_endless.
Print Assumptions C16_once_partial.
