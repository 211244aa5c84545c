(** Invariants of chains of steps: work items, their order and their results. *)
From Verif Require Export BuilderHist.

(** ** Counting *)

Definition count {A} (f : A -> bool) (l : list A) : nat := List.length (filter f l).
Lemma count_app {A} (f : A -> bool) a b : count f (a ++ b) = count f a + count f b.
Proof. unfold count. now rewrite filter_app, app_length. Qed.
Lemma count_cons {A} (f : A -> bool) x l : count f (x :: l) = (if f x then 1 else 0) + count f l.
Proof. unfold count. cbn. destruct (f x); reflexivity. Qed.
Lemma count_zero {A} (f : A -> bool) l : (forall x, In x l -> f x = false) -> count f l = 0.
Proof.
  induction l as [|x l IH]; intros H; [reflexivity|]. rewrite count_cons, (H x (or_introl eq_refl)).
  apply IH. intros y Hy. apply H. now right.
Qed.
Lemma count_pos {A} (f : A -> bool) l : count f l <> 0 <-> exists x, In x l /\ f x = true.
Proof.
  split.
  - unfold count. destruct (filter f l) as [|x r] eqn:E; [intros K; now destruct K|]. intros _. exists x.
    apply filter_In. rewrite E. now left.
  - intros (x & H1 & H2) H. unfold count in H. apply length_zero_iff_nil in H.
    assert (In x (filter f l)) as K by (apply filter_In; now split). now rewrite H in K.
Qed.

(** Work that is waiting: on the stack or put aside. *)
Definition pend (s : st) : list work := s_stack s ++ concat (s_saved s).
Definition popped (f : work -> bool) (e : event) : bool := match e with EvPop w => f w | _ => false end.

Ltac step_cases H :=
  destruct H as [s' H|m|h H|h H|names|l|e H|name id H|name i H1 H2 H3|name H1 H2 H3|n l H1 H2|n H1 H2
                  |a b d H1 H2 H3|id H1 H2|id names|n l H1 H2|n m i a b H1 H2 H3 H4 H5 H6 H7|n pkg H1 H2|w rest H1 H2 H3
                  |n l H1 H2|w rest H1 H2 H3|w rest H1 H2 H3|H1|a rest H1 H2].

Lemma schedule_pend n l s : pend (schedule n l s) =
  rev (map (DoImport n) l) ++ (if memb n (s_seen s) then [] else [DoPost n]) ++ pend s.
Proof. unfold schedule, pend. cbn. destruct (memb n (s_seen s)); cbn; rewrite <- ?app_assoc; reflexivity. Qed.

(** Waiting work is never lost, whatever happens. *)
Lemma step_keeps mrun q f s s' : step mrun q s s' ->
  count f (pend s) + count (popped f) (s_log s) <= count f (pend s') + count (popped f) (s_log s').
Proof.
  intros H. step_cases H; [destruct H as (f' & c & ->)|..]; unfold pend;
    cbn [s_stack s_saved s_log log set_graph set_lazy set_stack set_seen set_post set_missing set_fakes set_mem set_run set_saved];
    rewrite ?count_cons; cbn [popped]; try lia.
  - fold (pend s). fold (pend (schedule n l s)). rewrite schedule_pend, schedule_log, !count_app, count_cons. cbn [popped]. lia.
  - rewrite H2, <- !app_assoc, !count_app. cbn [app]. rewrite ?count_cons, ?count_app. lia.
  - cbn [app]. rewrite count_cons. lia.
  - rewrite H2. cbn [app]. rewrite count_cons. lia.
  - cbn [concat app]. lia.
  - rewrite H2. cbn [concat]. rewrite <- app_assoc. lia.
Qed.
Lemma chain_keeps mrun q f s s' : chain mrun q s s' ->
  count f (pend s) + count (popped f) (s_log s) <= count f (pend s') + count (popped f) (s_log s').
Proof.
  intros C. induction C as [|s1 s2 C IH S]; [lia|]. pose proof (step_keeps _ _ f _ _ S). lia.
Qed.

(** As a set. *)
Definition begun (s : st) (w : work) : Prop := In w (pend s) \/ In (EvPop w) (s_log s).
Lemma step_begun mrun q s s' x : step mrun q s s' -> begun s x -> begun s' x.
Proof.
  intros H [B|B].
  2:{ right. eapply grows_log; [eapply step_grows; exact H|exact B]. }
  unfold begun, pend in *.
  step_cases H; [destruct H as (f' & c & ->)|..];
    cbn [s_stack s_saved s_log log set_graph set_lazy set_stack set_seen set_post set_missing set_fakes set_mem set_run set_saved];
    try (now left); apply in_app_iff in B; rewrite ?in_app_iff.
  - left. rewrite <- in_app_iff. fold (pend (schedule n l s)). rewrite schedule_pend, !in_app_iff. right. right.
    unfold pend. now rewrite in_app_iff.
  - left. rewrite H2, in_app_iff in B. cbn [In]. tauto.
  - left. cbn [In]. tauto.
  - rewrite H2 in B. cbn [In] in *. destruct B as [[->|B]|B]; [right; now left|left; now left|left; now right].
  - left. rewrite H2 in B. cbn [concat] in B. rewrite in_app_iff in B. tauto.
Qed.
Lemma chain_begun mrun q s s' w : chain mrun q s s' -> begun s w -> begun s' w.
Proof. intros C B. apply (chain_ind_inv mrun q (fun s => begun s w) s s' C); [|exact B]. intros a b. apply step_begun. Qed.

(** Work that has been started is running, finished or has failed. *)
Definition ended (s : st) (w : work) : Prop := In (EvDone w) (s_log s) \/ In (EvFail w) (s_log s).
Definition tracked (s : st) : Prop := forall w, In (EvPop w) (s_log s) -> In w (s_run s) \/ ended s w.
Lemma step_tracked mrun q s s' : step mrun q s s' -> tracked s -> tracked s'.
Proof.
  intros H T. pose proof (step_grows _ _ _ _ H) as G.
  assert (K : forall w, ended s w -> ended s' w).
  { intros w [A|A]; [left|right]; eapply grows_log; eassumption. }
  intros x Hx. unfold tracked in T.
  step_cases H; [destruct H as (f' & c & ->)|..];
    cbn [s_run s_log log set_graph set_lazy set_stack set_seen set_post set_missing set_fakes set_mem set_run set_saved] in *;
    try (destruct (T x Hx) as [A|A]; [now left|right; now apply K]);
    try (destruct Hx as [Hx|Hx]; [discriminate|]; destruct (T x Hx) as [A|A]; [now left|right; now apply K]).
  - destruct Hx as [Hx|Hx]; [subst e; discriminate|]. destruct (T x Hx) as [A|A]; [now left|right; now apply K].
  - destruct Hx as [Hx|[Hx|Hx]]; try discriminate. destruct (T x Hx) as [A|A]; [now left|right; now apply K].
  - rewrite schedule_log in Hx. destruct Hx as [Hx|Hx]; [discriminate|].
    destruct (T x Hx) as [A|A]; [left; unfold schedule; cbn; destruct (memb n (s_seen s)); exact A|right; now apply K].
  - destruct Hx as [Hx|Hx]; [injection Hx as <-; left; now left|].
    destruct (T x Hx) as [A|A]; [left; now right|right; now apply K].
  - destruct Hx as [Hx|Hx]; [discriminate|]. destruct (T x Hx) as [A|A]; [|right; now apply K].
    rewrite H2 in A. destruct A as [<-|A]; [right; left; now left|now left].
  - destruct Hx as [Hx|Hx]; [discriminate|]. destruct (T x Hx) as [A|A]; [|right; now apply K].
    rewrite H2 in A. destruct A as [<-|A]; [right; right; now left|now left].
Qed.

(** Exactly: started items are active or ended. *)
Definition over (f : work -> bool) (e : event) : bool := match e with EvDone w | EvFail w => f w | _ => false end.
Definition balanced (f : work -> bool) (s : st) : Prop :=
  count (popped f) (s_log s) = count f (s_run s) + count (over f) (s_log s).
Lemma step_balanced mrun q f s s' : step mrun q s s' -> balanced f s -> balanced f s'.
Proof.
  intros H B. unfold balanced in *.
  step_cases H; [destruct H as (f' & c & ->)|..];
    cbn [s_run s_log log set_graph set_lazy set_stack set_seen set_post set_missing set_fakes set_mem set_run set_saved];
    rewrite ?count_cons; cbn [popped over]; try exact B.
  - destruct e; try discriminate H; exact B.
  - rewrite schedule_log, !count_cons. cbn [popped over].
    assert (R : s_run (schedule n l s) = s_run s) by (unfold schedule; cbn; now destruct (memb n (s_seen s))).
    rewrite R. exact B.
  - lia.
  - rewrite H2, count_cons in B. lia.
  - rewrite H2, count_cons in B. lia.
Qed.

(** What was scheduled was put on the stack. *)
Definition entered (s : st) : Prop :=
  (forall n l i, In (EvSched n l) (s_log s) -> In i l -> begun s (DoImport n i)) /\
  (forall n, In n (s_seen s) -> begun s (DoPost n)) /\
  (forall n pkg, In (EvPush n pkg) (s_log s) -> begun s (DoPackage n pkg)).
Lemma step_entered mrun q s s' : step mrun q s s' -> entered s -> entered s'.
Proof.
  intros H (T1 & T2 & T3). assert (K := fun w => step_begun _ _ _ _ w H).
  assert (X : (forall n l, In (EvSched n l) (s_log s') -> In (EvSched n l) (s_log s) \/
                 forall i, In i l -> begun s' (DoImport n i)) /\
              (forall n, In n (s_seen s') -> In n (s_seen s) \/ begun s' (DoPost n)) /\
              (forall n pkg, In (EvPush n pkg) (s_log s') -> In (EvPush n pkg) (s_log s) \/ begun s' (DoPackage n pkg))).
  { clear T1 T2 T3 K. step_cases H; [destruct H as (f' & c & ->)|..];
    cbn [s_seen s_log log set_graph set_lazy set_stack set_seen set_post set_missing set_fakes set_mem set_run set_saved];
    (split; [|split]);
    try (intros; now left);
    try (intros; match goal with H : In _ (_ :: _) |- _ => destruct H as [H|H]; [first [discriminate H|subst e; discriminate]|now left] end; fail).
    - intros x l [A|[A|A]]; try discriminate. now left.
    - intros x l [A|[A|A]]; try discriminate. now left.
    - intros x l0 A. rewrite schedule_log in A. destruct A as [A|A]; [|now left]. injection A as <- <-. right.
      intros i Hi. left. rewrite schedule_pend, !in_app_iff. left. apply -> in_rev. now apply in_map.
    - intros x A. assert (In x (s_seen s) \/ (memb n (s_seen s) = false /\ x = n)) as [B|[B ->]].
      { unfold schedule in A. cbn in A. destruct (memb n (s_seen s)); [now left|]. cbn in A.
        apply set_add_In in A as [->|A]; auto. }
      + now left.
      + right. left. rewrite schedule_pend, B, !in_app_iff. right. left. now left.
    - intros x l0 A. rewrite schedule_log in A. destruct A as [A|A]; [discriminate|now left].
    - intros x p [A|A]; [|now left]. injection A as <- <-. right. left. unfold pend. cbn. now left. }
  destruct X as (X1 & X2 & X3). split; [|split].
  - intros n l i Hn Hi. destruct (X1 n l Hn) as [A|A]; [|now apply A]. apply K. eapply T1; eassumption.
  - intros n Hn. destruct (X2 n Hn) as [A|A]; [|exact A]. apply K. now apply T2.
  - intros n p Hn. destruct (X3 n p Hn) as [A|A]; [|exact A]. apply K. now apply T3.
Qed.

(** ** Post processing *)

Definition is_post (n : string) (w : work) : bool := match w with DoPost m => seqb m n | _ => false end.
Definition hook_event (n : string) (e : event) : bool := match e with EvHook m => seqb m n | _ => false end.
Definition just_popped (n : string) (s : st) : nat :=
  match s_log s with EvPop (DoPost m) :: _ => if seqb m n then 1 else 0 | _ => 0 end.
(** How often the post processing hooks were called for [n]. *)
Definition hook_calls (n : string) (s : st) : nat := count (hook_event n) (s_log s).

Record once (n : string) (s : st) : Prop := {
  on_work : count (is_post n) (pend s) + count (popped (is_post n)) (s_log s) =
            if memb n (s_seen s) then 1 else 0;
  on_hook : hook_calls n s + just_popped n s <= count (popped (is_post n)) (s_log s)
}.

Lemma memb_set_add n m l : memb n (set_add m l) = seqb n m || memb n l.
Proof.
  destruct (memb n (set_add m l)) eqn:A.
  - symmetry. apply memb_In, set_add_In in A as [->|A].
    + unfold seqb. now rewrite String.eqb_refl.
    + apply memb_In in A. rewrite A. now destruct (seqb n m).
  - symmetry. apply orb_false_iff. split.
    + destruct (seqb n m) eqn:E; [|reflexivity]. apply seqb_eq in E as ->.
      assert (memb m (set_add m l) = true) by (apply memb_In, set_add_In; now left). congruence.
    + destruct (memb n l) eqn:E; [|reflexivity]. apply memb_In in E.
      assert (memb n (set_add m l) = true) by (apply memb_In, set_add_In; now right). congruence.
Qed.
Lemma seqb_sym a b : seqb a b = seqb b a.
Proof. unfold seqb. apply String.eqb_sym. Qed.

Lemma step_once mrun q x s s' : step mrun q s s' -> once x s -> once x s'.
Proof.
  intros H [O1 O2].
  assert (J : just_popped x s <= 1) by (unfold just_popped; destruct (s_log s) as [|[] ?]; try lia; destruct w; try lia; destruct (seqb _ _); lia).
  step_cases H; [destruct H as (f' & c & ->)|..];
    (constructor; unfold pend, hook_calls, just_popped in *;
     cbn [s_stack s_saved s_seen s_log log set_graph set_lazy set_stack set_seen set_post set_missing set_fakes set_mem set_run set_saved] in *;
     rewrite ?count_cons; cbn [popped hook_event]; try (exact O1); try (exact O2); try lia).
  1,2: destruct e; try discriminate H; cbn [popped hook_event]; try lia.
  - (* schedule *)
    fold (pend (schedule n l s)). fold (pend s) in O1. rewrite schedule_pend, schedule_log, !count_app, count_cons.
    cbn [popped]. rewrite (count_zero (is_post x) (rev _)).
    2:{ intros y Hy. apply in_rev, in_map_iff in Hy as (i & <- & _). reflexivity. }
    unfold schedule. cbn. destruct (memb n (s_seen s)) eqn:Em; cbn [s_seen set_stack set_seen].
    + cbn [count filter List.length]. exact O1.
    + rewrite memb_set_add, count_cons. cbn [is_post]. rewrite (seqb_sym x n). destruct (seqb n x) eqn:En; cbn.
      * apply seqb_eq in En as ->. rewrite Em in O1. fold (count (is_post x) (pend s)).
        fold (count (popped (is_post x)) (s_log s)). lia.
      * exact O1.
  - rewrite schedule_log, !count_cons. cbn [popped hook_event]. lia.
  - rewrite H2 in O1. rewrite <- !app_assoc in *. cbn [app]. rewrite !count_app, !count_cons in *.
    rewrite !count_app in *. cbn [is_post]. lia.
  - rewrite H2 in O1. cbn [app] in O1. rewrite count_cons in O1. lia.
  - destruct w; cbn [is_post]; lia.
  - rewrite H2 in O2. rewrite H2. rewrite !count_cons in *. cbn [popped hook_event] in *.
    unfold is_post in *. destruct (seqb n x); lia.
  - rewrite H2 in O1. cbn [concat] in O1. rewrite <- app_assoc. exact O1.
Qed.

(** Started post processing has called the hooks. *)
Definition hooked (s : st) : Prop :=
  forall n, In (EvPop (DoPost n)) (s_log s) -> In (DoPost n) (s_run s) \/ In (EvHook n) (s_log s).
Lemma step_hooked mrun q s s' : step mrun q s s' -> hooked s -> hooked s'.
Proof.
  intros H T. pose proof (step_grows _ _ _ _ H) as G.
  assert (K : forall n, In (EvHook n) (s_log s) -> In (EvHook n) (s_log s')) by (intros n; now apply grows_log).
  intros x Hx. unfold hooked in T.
  step_cases H; [destruct H as (f' & c & ->)|..];
    cbn [s_run s_log log set_graph set_lazy set_stack set_seen set_post set_missing set_fakes set_mem set_run set_saved] in *;
    try (destruct (T x Hx) as [A|A]; [now left|right; now apply K]);
    try (destruct Hx as [Hx|Hx]; [discriminate|]; destruct (T x Hx) as [A|A]; [now left|right; now apply K]).
  - destruct Hx as [Hx|Hx]; [subst e; discriminate|]. destruct (T x Hx) as [A|A]; [now left|right; now apply K].
  - destruct Hx as [Hx|[Hx|Hx]]; try discriminate. destruct (T x Hx) as [A|A]; [now left|right; now apply K].
  - rewrite schedule_log in Hx. destruct Hx as [Hx|Hx]; [discriminate|].
    destruct (T x Hx) as [A|A]; [left; unfold schedule; cbn; destruct (memb n (s_seen s)); exact A|right; now apply K].
  - destruct Hx as [Hx|Hx]; [injection Hx as ->; left; now left|].
    destruct (T x Hx) as [A|A]; [left; now right|right; now apply K].
  - destruct Hx as [Hx|Hx]; [discriminate|]. destruct (T x Hx) as [A|A]; [|right; now apply K].
    rewrite H2 in A. destruct A as [->|A]; [right; now apply K|now left].
  - destruct Hx as [Hx|Hx]; [discriminate|]. destruct (T x Hx) as [A|A]; [|right; now apply K].
    rewrite H2 in A. destruct A as [->|A]; [right; apply K; now apply H3|now left].
Qed.

(** ** Lasting results *)

Definition lasting (s : st) (w : work) : Prop :=
  match w with
  | DoPost n => In (EvHook n) (s_log s)
  | DoImport n i =>
      (exists b, pkg_node s n b /\ beyond_top n b i /\ kind_of s (invalid_name i) = Some InvalidRelativeImport
         /\ has_edge (s_graph s) n (invalid_name i) (invalid_dep i))
      \/ (exists m, import_target s n i m /\ has_edge (s_graph s) n m (import_dep i) /\ begun s (DoNames n m i))
  | DoNames n m i => ii_star i = false -> in_graph s n /\ in_graph s m /\ names_done s n m i
  | DoPackage n pkg => exists m, resolves s pkg m /\ has_edge (s_graph s) n m default_dep
  end.

Lemma node_back s s' n y : grows s s' -> in_graph s n -> gfind (s_graph s') n = Some y ->
  exists y0, gfind (s_graph s) n = Some y0 /\ same_node y0 y.
Proof.
  intros G H K. unfold in_graph in H. destruct (gfind (s_graph s) n) as [y0|] eqn:E; [|congruence].
  apply (gr_nodes _ _ (gw_graph _ _ G)) in E as (y' & E1 & E2). exists y0. split; [reflexivity|congruence].
Qed.
Lemma grows_names_done s s' n m i : grows s s' -> ii_star i = false -> in_graph s n -> in_graph s m ->
  names_done s n m i -> names_done s' n m i.
Proof.
  intros G Hst Hn Hm [H Ha]. split.
  - unfold names_linked in *. rewrite Hst in *. intros k src Hk Hsrc nm Hnm.
    assert (Hk0 : kind_of s m = Some k) by (eapply kind_back; eassumption).
    assert (Hne : ii_names i <> []) by (intros A; rewrite A in Hnm; destruct Hnm).
    assert (Hsrc0 : (nameable k = true /\ src = m) \/ (k = AliasNode src /\ exists k', kind_of s src = Some k' /\ nameable k' = true)).
    { destruct Hsrc as [A|(-> & k' & B & C)]; [now left|right]. split; [reflexivity|]. exists k'. split; [|exact C].
      eapply kind_back; [exact G| |exact B]. now apply Ha. }
    destruct (H k src Hk0 Hsrc0 nm Hnm) as [H1 H2]. split; [eapply grows_name_done; eassumption|].
    intros y Hy. destruct (node_back _ _ _ _ G Hn Hy) as (y0 & E0 & S0).
    apply S0. now apply H2.
  - intros _ Hne a A. eapply grows_in_graph; [exact G|]. apply Ha; auto. eapply kind_back; eassumption.
Qed.

Definition results (s : st) : Prop := forall w, In (EvDone w) (s_log s) -> lasting s w.
Lemma step_lasting mrun q s s' w : step mrun q s s' -> lasting s w -> lasting s' w.
Proof.
  intros H. pose proof (step_grows _ _ _ _ H) as G. destruct w as [n|n i|n m i|n pkg]; cbn.
  - now apply grows_log.
  - intros [(b & A1 & A2 & A0 & A3)|(m & A1 & A2 & A3)]; [left|right].
    + exists b. split; [eapply grows_pkg_node; eassumption|]. split; [exact A2|].
      split; [eapply grows_kind; eassumption|eapply grows_edge; eassumption].
    + exists m. split; [eapply grows_target; eassumption|]. split; [eapply grows_edge; eassumption|].
      eapply step_begun; eassumption.
  - intros A Hst. destruct (A Hst) as (A1 & A2 & A3). split; [eapply grows_in_graph; eassumption|].
    split; [eapply grows_in_graph; eassumption|]. apply (grows_names_done s); assumption.
  - intros (m & A1 & A2). exists m. split; [eapply grows_resolves; eassumption|eapply grows_edge; eassumption].
Qed.
Lemma done_lasting mrun s w : wf (s_graph s) -> inv mrun s -> In w (s_run s) -> work_done s w -> lasting s w.
Proof.
  intros W I Hr Hd. destruct w as [n|n i|n m i|n pkg]; cbn in *; try exact Hd.
  - destruct Hd as [Hd|(m & A1 & A2 & A3)]; [now left|right]. exists m. split; [exact A1|]. split; [exact A2|].
    left. apply in_app_iff. now left.
  - intros _. apply (inv_run _ _ I) in Hr. cbn in Hr. destruct Hr as (_ & _ & _ & ds & He & _).
    apply (wf_ends _ W) in He as [He1 He2]. unfold in_graph. rewrite !gfind_ids. auto.
Qed.
Lemma step_results mrun q s s' : step mrun q s s' -> inv mrun s -> wf (s_graph s) -> results s -> results s'.
Proof.
  intros H I W R x Hw.
  assert (X : In (EvDone x) (s_log s) \/ lasting s x).
  { step_cases H; [destruct H as (f' & c & ->)|..];
    cbn [s_log log set_graph set_lazy set_stack set_seen set_post set_missing set_fakes set_mem set_run set_saved] in Hw;
    try (now left); try (destruct Hw as [Hw|Hw]; [discriminate|now left]).
    - destruct Hw as [Hw|Hw]; [subst e; discriminate|now left].
    - destruct Hw as [Hw|[Hw|Hw]]; try discriminate. now left.
    - rewrite schedule_log in Hw. destruct Hw as [Hw|Hw]; [discriminate|now left].
    - destruct Hw as [Hw|Hw]; [|now left]. injection Hw as <-. right.
      eapply done_lasting; try eassumption. rewrite H2. now left. }
  eapply step_lasting; [exact H|]. destruct X as [X|X]; [now apply R|exact X].
Qed.

(** Items in the log were legitimate. *)
Definition logged (e : event) (w : work) : Prop := e = EvPop w \/ e = EvDone w \/ e = EvFail w.
Definition legit (s : st) : Prop := forall e w, In e (s_log s) -> logged e w -> work_ok s w.
Lemma step_legit mrun q s s' : step mrun q s s' -> inv mrun s -> legit s -> legit s'.
Proof.
  intros H I K ev x He Hx. pose proof (step_grows _ _ _ _ H) as G.
  apply (grows_work_ok s); [exact G|].
  step_cases H; [destruct H as (f' & c & ->)|..];
    cbn [s_log log set_graph set_lazy set_stack set_seen set_post set_missing set_fakes set_mem set_run set_saved] in He;
    try (now apply (K ev)); try (destruct He as [<-|He]; [|now apply (K ev)]);
    try (destruct Hx as [Hx|[Hx|Hx]]; discriminate Hx).
  - destruct e; try discriminate H; destruct Hx as [Hx|[Hx|Hx]]; discriminate Hx.
  - destruct He as [<-|[<-|He]]; [| |now apply (K ev)]; destruct Hx as [Hx|[Hx|Hx]]; discriminate Hx.
  - rewrite schedule_log in He. destruct He as [<-|He]; [|now apply (K ev)]. destruct Hx as [Hx|[Hx|Hx]]; discriminate Hx.
  - destruct Hx as [Hx|[Hx|Hx]]; try discriminate. injection Hx as <-. apply (inv_stack _ _ I). rewrite H2. now left.
  - destruct Hx as [Hx|[Hx|Hx]]; try discriminate. injection Hx as <-. apply (inv_run _ _ I). rewrite H2. now left.
  - destruct Hx as [Hx|[Hx|Hx]]; try discriminate. injection Hx as <-. apply (inv_run _ _ I). rewrite H2. now left.
Qed.

(** ** All of it *)

Record facts (s : st) : Prop := {
  f_wf : wf (s_graph s);
  f_tracked : tracked s;
  f_entered : entered s;
  f_once : forall n, once n s;
  f_results : results s;
  f_hooked : hooked s;
  f_balanced : forall f, balanced f s;
  f_legit : legit s
}.

Lemma start_facts s : start s -> facts s.
Proof.
  intros H. pose proof (start_wf s H) as W. destruct H as (implies & post & missing & ->). constructor.
  - exact W.
  - intros w [].
  - split; [|split]; intros; cbn in *; contradiction.
  - intros n. constructor; cbn; auto.
  - intros w [].
  - intros n [].
  - intros f. reflexivity.
  - intros e w [].
Qed.
Lemma chain_facts mrun q s s' : chain mrun q s s' -> inv mrun s -> facts s -> facts s'.
Proof.
  intros C I. apply (chain_ind_inv2 mrun q facts s s' C I).
  intros a b S Ia [F1 F2 F3 F4 F5 F6 F7 F8]. constructor.
  - eapply step_wf; eassumption.
  - eapply step_tracked; eassumption.
  - eapply step_entered; eassumption.
  - intros n. eapply step_once; [exact S|apply F4].
  - eapply step_results; eassumption.
  - eapply step_hooked; eassumption.
  - intros f. eapply step_balanced; [exact S|apply F7].
  - eapply step_legit; eassumption.
Qed.
Lemma reach_facts E s0 s : order_ok E -> start s0 -> reach E s0 s -> facts s.
Proof.
  intros HE H0 H. apply (reach_history E s0 s HE H0) in H. destruct H as [C _ _ _ _].
  eapply chain_facts; [exact C|now apply start_inv|now apply start_facts].
Qed.
Lemma reach_saved E s0 s : order_ok E -> start s0 -> reach E s0 s -> s_run s = [] /\ s_saved s = [].
Proof.
  intros HE H0 H. apply (reach_history E s0 s HE H0) in H. destruct H as [_ [B1 B2] _ _ _].
  destruct H0 as (implies & post & missing & ->). now rewrite B1, B2.
Qed.
