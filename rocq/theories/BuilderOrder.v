(** The order of post processing and imports, if missing hooks do not process
    the work stack. *)
From Verif Require Export BuilderWhy.

(** Work items that belong to the imports of a node. *)
Definition import_of (n : string) (w : work) : bool :=
  match w with DoImport m _ | DoNames m _ _ => seqb m n | _ => false end.

(** The imports of a node wait above its post processing. *)
Definition ordered (s : st) : Prop :=
  forall n a b, pend s = a ++ DoPost n :: b -> forall w, In w b -> import_of n w = false.

(** Statement [i] of [n] has been processed, with its names. *)
Definition processed (l : list event) (n : string) (i : iinfo) : Prop :=
  In (EvFail (DoImport n i)) l \/
  (In (EvDone (DoImport n i)) l /\
   ((exists b, beyond_top n b i) \/
    exists m, In (EvDone (DoNames n m i)) l \/ In (EvFail (DoNames n m i)) l)).
Definition all_processed (l : list event) (n : string) : Prop :=
  forall is i, In (EvSched n is) l -> In i is -> processed l n i.

(** The statements found for [n] were handed to the work stack, or a hook did that. *)
Definition handed (l : list event) (n : string) : Prop :=
  (exists is, In (EvProc n is) l) \/ exists is, In (EvAdd n is) l /\ In (EvSched n is) l.

Definition hook_order (s : st) : Prop :=
  forall l1 e l2, s_log s = l1 ++ e :: l2 ->
    match e with
    | EvHook n => exists l3, l2 = EvPop (DoPost n) :: l3 /\ all_processed l3 n /\ handed l3 n
    | EvPop (DoPost n) => all_processed l2 n /\ handed l2 n
    | _ => True
    end.

Lemma import_of_seen s n w : work_ok s w -> import_of n w = true -> In n (s_seen s).
Proof.
  destruct w as [m|m i|m t i|m p]; cbn; try discriminate; intros H K; apply seqb_eq in K as <-; apply H.
Qed.

Lemma app_cons_inv {A} (l a b : list A) x y : y :: l = a ++ x :: b -> (a = [] /\ y = x /\ l = b) \/ exists a', a = y :: a' /\ l = a' ++ x :: b.
Proof.
  destruct a as [|z a]; cbn; intros H; injection H as -> ->; [now left|right]. now exists a.
Qed.
Lemma app_app_inv {A} (l1 l2 a b : list A) x : l1 ++ l2 = a ++ x :: b ->
  (exists b1, l1 = a ++ x :: b1 /\ b = b1 ++ l2) \/ (exists a2, a = l1 ++ a2 /\ l2 = a2 ++ x :: b).
Proof.
  revert a. induction l1 as [|y l1 IH]; intros a H; cbn in H.
  - right. exists a. now split.
  - apply app_cons_inv in H as [(-> & -> & <-)|(a' & -> & H)].
    + left. exists l1. now split.
    + destruct (IH a' H) as [(b1 & -> & ->)|(a2 & -> & ->)]; [left|right].
      * exists b1. now split.
      * exists a2. now split.
Qed.

Lemma step_ordered q s s' : step false q s s' -> inv false s -> ordered s -> ordered s'.
Proof.
  intros H I O. step_cases H; [destruct H as (f' & c & ->)|..]; try exact O.
  - (* schedule *)
    intros x u v E w Hw. rewrite schedule_pend in E.
    assert (W : forall y, In y (pend s) -> work_ok s y).
    { intros y Hy. unfold pend in Hy. apply in_app_iff in Hy as [Hy|Hy]; [now apply (inv_stack _ _ I)|].
      apply in_concat in Hy as (z & Hz & Hy). eapply (inv_saved _ _ I); eassumption. }
    apply app_app_inv in E as [(b1 & E & ->)|(a2 & -> & E)].
    { assert (In (DoPost x) (rev (map (DoImport n) l))) as K by (rewrite E; apply in_app_iff; right; now left).
      apply in_rev, in_map_iff in K as (j & K & _). discriminate. }
    destruct (memb n (s_seen s)) eqn:Em; cbn [app] in E; [eapply O; eassumption|].
    apply app_cons_inv in E as [(-> & E & <-)|(a' & -> & E)]; [|eapply O; eassumption].
    injection E as <-. destruct (import_of n w) eqn:Ew; [|reflexivity].
    apply (import_of_seen s) in Ew; [|now apply W]. apply memb_In in Ew. congruence.
  - (* names *)
    intros x u v E w Hw. unfold pend in *. cbn [s_stack s_saved set_stack] in E.
    assert (O' : forall u v, a ++ b ++ concat (s_saved s) = u ++ DoPost x :: v -> forall w, In w v -> import_of x w = false).
    { intros u' v' E'. apply (O x u' v'). unfold pend. now rewrite H2, <- app_assoc. }
    rewrite <- app_assoc in E. cbn [app] in E.
    apply app_app_inv in E as [(b1 & -> & ->)|(a2 & -> & E)].
    + apply in_app_iff in Hw as [Hw|[<-|Hw]].
      * eapply (O' u (b1 ++ b ++ concat (s_saved s))); [now rewrite <- !app_assoc|]. apply in_app_iff. now left.
      * cbn. destruct (seqb n x) eqn:En; [|reflexivity]. apply seqb_eq in En as ->.
        destruct H7 as [H7|H7]; [discriminate|]. elim H7. apply in_app_iff. right. now left.
      * eapply (O' u (b1 ++ b ++ concat (s_saved s))); [now rewrite <- !app_assoc|]. apply in_app_iff. now right.
    + apply app_cons_inv in E as [(-> & E & _)|(a' & -> & E)]; [discriminate|].
      eapply (O' (a ++ a') v); [now rewrite <- app_assoc, <- E|exact Hw].
  - (* package *)
    intros x u v E w Hw. unfold pend in E. cbn in E.
    apply app_cons_inv in E as [(-> & E & _)|(a' & -> & E)]; [discriminate|]. eapply O; eassumption.
  - (* pop *)
    intros x u v E y Hy. eapply (O x (w :: u)); [|exact Hy]. unfold pend in *. rewrite H2. cbn in *. now rewrite E.
  - (* restore *)
    intros x u v E. apply (O x u v). unfold pend in *. rewrite H2. cbn in *. now rewrite app_assoc.
Qed.

Definition all_handed (s : st) : Prop := forall n, In n (s_seen s) -> handed (s_log s) n.
Lemma handed_mono l l' n : incl l l' -> handed l n -> handed l' n.
Proof. intros H [(is & A)|(is & A & B)]; [left|right]; exists is; auto. Qed.
Lemma step_handed mrun q s s' : step mrun q s s' -> all_handed s -> all_handed s'.
Proof.
  intros H K. pose proof (step_grows _ _ _ _ H) as [_ [l' L] _ _ _].
  assert (M : forall n, handed (s_log s) n -> handed (s_log s') n).
  { intros n. apply handed_mono. rewrite L. intros e He. apply in_app_iff. now right. }
  step_cases H; [destruct H as (f' & c & ->)|..]; try (intros x Hx; apply M, K; exact Hx).
  intros x Hx. assert (x = n \/ In x (s_seen s)) as [->|D].
  { unfold schedule in Hx. cbn in Hx. destruct (memb n (s_seen s)); cbn in Hx; [now right|]. now apply set_add_In in Hx. }
  - destruct H2 as [H2|H2]; [right|left]; exists l; rewrite schedule_log; [split; [now right|now left]|now right].
  - apply M, K, D.
Qed.

(** A node is added once, so the statements found for it are unique. *)
Definition added_once (s : st) : Prop :=
  (forall n l, In (EvAdd n l) (s_log s) -> in_graph s n) /\
  forall n l l', In (EvAdd n l) (s_log s) -> In (EvAdd n l') (s_log s) -> l = l'.
Lemma added_keep s s' : added_once s -> grows s s' ->
  (forall n l, In (EvAdd n l) (s_log s') -> In (EvAdd n l) (s_log s)) -> added_once s'.
Proof.
  intros [A B] G H. split.
  - intros n l K. eapply grows_in_graph; [exact G|]. eapply A; eauto.
  - intros n l l' K K'. eauto.
Qed.
Lemma added_new s s' x m : added_once s -> grows s s' -> gfind (s_graph s) x = None -> in_graph s' x ->
  (forall n l, In (EvAdd n l) (s_log s') -> (n = x /\ l = m) \/ In (EvAdd n l) (s_log s)) -> added_once s'.
Proof.
  intros [A B] G N I H. split.
  - intros n l K. apply H in K as [[-> _]|K]; [exact I|]. eapply grows_in_graph; [exact G|]. eapply A; eauto.
  - intros n l l' K K'. apply H in K as [[-> ->]|K]; apply H in K' as [[E ->]|K'].
    + reflexivity.
    + apply A in K'. now elim K'.
    + subst. apply A in K. now elim K.
    + eauto.
Qed.
Lemma step_added mrun q s s' : step mrun q s s' -> added_once s -> added_once s'.
Proof.
  intros H K. pose proof (step_grows _ _ _ _ H) as G.
  step_cases H; [destruct H as (f' & c & ->)|..];
    try (apply (added_keep s); [exact K|exact G|]; cbn [s_log log set_graph set_lazy set_stack set_run set_saved]; intros ? ? A;
         first [exact A|destruct A as [A|A]; [first [discriminate|subst e; discriminate]|exact A]]; fail).
  - apply (added_new s _ name []); [exact K|exact G|exact H2| |].
    + unfold in_graph. cbn [s_graph log set_graph]. rewrite gfind_app, H2. cbn [n_name plain_node]. unfold seqb. now rewrite String.eqb_refl.
    + cbn. intros x y [A|[A|A]]; [injection A as <- <-; now left|discriminate|now right].
  - apply (added_new s _ (n_name n) l); [exact K|exact G|exact H1|apply in_graph_add|].
    cbn. intros x y [A|A]; [injection A as <- <-; now left|now right].
  - apply (added_keep s); [exact K|exact G|]. intros x y. rewrite schedule_log. intros [A|A]; [discriminate|exact A].
Qed.

Lemma hook_order_keep s s' : hook_order s -> s_log s' = s_log s -> hook_order s'.
Proof. intros H E l1 e l2. rewrite E. apply H. Qed.
Lemma hook_order_add s s' e : hook_order s -> s_log s' = e :: s_log s ->
  match e with
  | EvHook n => exists l3, s_log s = EvPop (DoPost n) :: l3 /\ all_processed l3 n /\ handed l3 n
  | EvPop (DoPost n) => all_processed (s_log s) n /\ handed (s_log s) n
  | _ => True
  end -> hook_order s'.
Proof.
  intros H E K l1 x l2 El. rewrite E in El. apply app_cons_inv in El as [(-> & <- & <-)|(a' & -> & El)]; [exact K|].
  eapply H; exact El.
Qed.

Lemma step_hook_order q s s' : step false q s s' -> inv false s -> facts s -> all_handed s -> ordered s -> hook_order s -> hook_order s'.
Proof.
  intros H I F Y O K. step_cases H; [destruct H as (f' & c & ->)|..];
    try (now apply (hook_order_keep s));
    try (eapply (hook_order_add s); [exact K|reflexivity|exact Logic.I]).
  - eapply (hook_order_add s); [exact K|reflexivity|]. destruct e; try discriminate H; exact Logic.I.
  - eapply (hook_order_add (log (set_lazy s (filter (fun x => negb (seqb (fst x) name)) (s_lazy s))) (EvImplied name ImpNone)));
      [|reflexivity|exact Logic.I].
    eapply (hook_order_add s); [exact K|reflexivity|exact Logic.I].
  - eapply (hook_order_add s); [exact K|apply schedule_log|exact Logic.I].
  - (* pop *)
    eapply (hook_order_add s); [exact K|reflexivity|]. destruct w as [n| | |]; auto.
    split; [|apply Y; apply (inv_stack _ _ I (DoPost n)); rewrite H2; now left].
    intros is i Hs Hi. destruct H3 as [H3|H3]; [discriminate|].
    assert (X : forall w, import_of n w = true -> begun s w -> ended s w).
    { intros w Hw [B|B].
      - exfalso. unfold pend in B. rewrite H2 in B. cbn in B. destruct B as [<-|B]; [discriminate|].
        rewrite (O n [] (rest ++ concat (s_saved s))) in Hw; [discriminate| |exact B]. unfold pend. now rewrite H2.
      - apply (f_tracked _ F) in B as [B|B]; [|exact B]. apply H3 in B. destruct w; discriminate. }
    assert (Rn : forall s0 : string, seqb s0 s0 = true) by (intros z; unfold seqb; apply String.eqb_refl).
    destruct (f_entered _ F) as (T & _ & _).
    destruct (X (DoImport n i)) as [A|A]; [cbn; apply Rn|eapply T; eassumption| |now left].
    right. split; [exact A|]. apply (f_results _ F) in A. destruct A as [(b & _ & A & _)|(m & _ & _ & A)].
    + left. now exists b.
    + right. exists m. apply X; [cbn; apply Rn|exact A].
  - (* hook *)
    eapply (hook_order_add s); [exact K|reflexivity|]. exists l. split; [exact H2|].
    exact (K [] (EvPop (DoPost n)) l H2).
Qed.

Lemma calm_reach_order E s0 s : order_ok E -> calm_start s0 -> calm_reach E s0 s -> hook_order s /\ added_once s.
Proof.
  intros HE H0 H. destruct (calm_chain E s0 s HE H0 H) as (C & _ & _).
  assert (I0 : inv false s0).
  { destruct H0 as [(implies & post & missing & ->) Hh]. constructor; cbn; try contradiction. exact Hh. }
  assert (X : facts s /\ ordered s /\ all_handed s /\ added_once s /\ hook_order s); [|split; apply X].
  apply (chain_ind_inv2 false true (fun s => facts s /\ ordered s /\ all_handed s /\ added_once s /\ hook_order s) s0 s C I0).
  - intros a b S Ia (F & O & Y & D & K). split; [eapply chain_facts; [apply chain_one; exact S|exact Ia|exact F]|].
    split; [eapply step_ordered; eassumption|]. split; [eapply step_handed; eassumption|].
    split; [eapply step_added; eassumption|eapply step_hook_order; eassumption].
  - split; [apply start_facts; apply H0|]. destruct H0 as [(implies & post & missing & ->) _]. split; [|split; [|split; [split|]]].
    + intros n a b E0. destruct a; discriminate.
    + intros n [].
    + intros n l [].
    + intros n l l' [].
    + intros l1 e l2 E0. destruct l1; discriminate.
Qed.
