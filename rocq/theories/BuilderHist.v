(** Histories: all reachable states are made of steps, and what is invariant. *)
From Verif Require Export BuilderClose.

Scheme prog_mut := Induction for prog Sort Prop
  with action_mut := Induction for action Sort Prop.

(** If missing hooks may process the stack everything is allowed. *)
Lemma all_prog_ok p : prog_ok true true p.
Proof.
  apply (prog_mut (prog_ok true true) (act_ok true true)); cbn; auto.
Qed.
Lemma all_act_ok a : act_ok true true a.
Proof.
  apply (action_mut (prog_ok true true) (act_ok true true)); cbn; auto.
Qed.

(** Iterating over a set yields its elements. *)
Definition order_ok (E : env) : Prop := forall l x, In x (e_order E l) <-> In x l.

(** A new ModuleGraph. *)
Definition start (s : st) : Prop := exists implies post missing, s = init implies post missing.

Lemma start_inv s : start s -> inv true s.
Proof.
  intros (implies & post & missing & ->). constructor; cbn; try contradiction.
  split; intros; apply all_prog_ok.
Qed.
Lemma start_linv s : start s -> linv s.
Proof. intros (implies & post & missing & ->) n l []. Qed.

Record history (s0 s : st) : Prop := {
  h_chain : chain true true s0 s;
  h_bal : bal s0 s;
  h_inv : inv true s;
  h_linv : linv s;
  h_paid : In EvErr (s_log s) \/ forall o, owed s o -> paid s o
}.

Lemma reach_history E s0 s : order_ok E -> start s0 -> reach E s0 s -> history s0 s.
Proof.
  intros HE H0 H. induction H as [|s fuel a ans s' H IH Hc].
  - constructor; [apply ch_refl|apply bal_refl|now apply start_inv|now apply start_linv|].
    right. destruct H0 as (implies & post & missing & ->).
    intros [n l|w|id c|id a|name ref|n name]; cbn;
      [intros []|intros []|intros ((l & []) & _)|intros ((l & []) & _)|intros (refs & [] & _)|intros []].
  - destruct IH as [C B I L P].
    destruct (top_call_chain true E (fun l x => proj1 (HE l x)) fuel a s ans s' I (or_introl eq_refl) (all_act_ok a) Hc) as [C' B'].
    destruct (top_call_closes E fuel a s ans s' L Hc) as (G & L' & K).
    constructor.
    + eapply chain_trans; eassumption.
    + eapply bal_trans; eassumption.
    + eapply chain_inv; eassumption.
    + exact L'.
    + destruct P as [P|P]; [left; eapply grows_log; eassumption|].
      destruct K as [K|K].
      { left. unfold erred, errs in K. destruct (filter is_err (s_log s')) as [|e r] eqn:Ef; [cbn in K; lia|].
        assert (In e (filter is_err (s_log s'))) as Hi by (rewrite Ef; now left).
        apply filter_In in Hi as [Hi He]. now destruct e. }
      right. intros o Ho. destruct (K o Ho) as [X|[X|[]]]; [exact X|].
      eapply grows_paid; [exact G|]. now apply P.
Qed.

(** Histories in which missing hooks do not process the work stack. *)
Inductive calm_reach (E : env) (s0 : st) : st -> Prop :=
| calm_init : calm_reach E s0 s0
| calm_call s fuel a ans s' : calm_reach E s0 s -> act_ok false true a ->
    top_call E fuel a s = Some (ans, s') -> calm_reach E s0 s'.
Definition calm_start (s : st) : Prop := start s /\ hooks_ok false s.

Lemma calm_chain E s0 s : order_ok E -> calm_start s0 -> calm_reach E s0 s ->
  chain false true s0 s /\ bal s0 s /\ inv false s.
Proof.
  intros HE [H0 Hh] H. induction H as [|s fuel a ans s' H IH Ha Hc].
  - split; [apply ch_refl|]. split; [apply bal_refl|].
    destruct H0 as (implies & post & missing & ->). constructor; cbn; try contradiction. exact Hh.
  - destruct IH as (C & B & I).
    assert (Hq : may_run false s).
    { right. destruct B as [B _]. destruct H0 as (implies & post & missing & ->). intros w. rewrite B. intros []. }
    destruct (top_call_chain false E (fun l x => proj1 (HE l x)) fuel a s ans s' I Hq Ha Hc) as [C' B'].
    split; [eapply chain_trans; eassumption|]. split; [eapply bal_trans; eassumption|].
    eapply chain_inv; eassumption.
Qed.
Lemma calm_is_reach E s0 s : calm_reach E s0 s -> reach E s0 s.
Proof. intros H. induction H; [apply reach_init|eapply reach_call; eassumption]. Qed.

(** A property of all states of a chain. *)
Lemma chain_ind_inv mrun q (P : st -> Prop) s s' : chain mrun q s s' ->
  (forall a b, step mrun q a b -> P a -> P b) -> P s -> P s'.
Proof. intros C H. induction C; eauto. Qed.
Lemma chain_ind_inv2 mrun q (P : st -> Prop) s s' : chain mrun q s s' -> inv mrun s ->
  (forall a b, step mrun q a b -> inv mrun a -> P a -> P b) -> P s -> P s'.
Proof.
  intros C I H K. assert (X : inv mrun s' /\ P s'); [|apply X].
  induction C as [|s1 s2 C IH S]; [now split|]. destruct IH as [I1 K1].
  split; [eapply step_inv; eassumption|eauto].
Qed.

(** ** Well formed graphs *)

Definition ids (g : graph) : list string := map n_name (g_nodes g).

Record wf (g : graph) : Prop := {
  wf_nodes : NoDup (ids g);
  wf_ends : forall a b ds, In (a, b, ds) (g_edges g) -> In a (ids g) /\ In b (ids g);
  wf_edges : NoDup (map fst (g_edges g));
  wf_roots : forall id, In id (g_roots g) -> In id (ids g);
  wf_roots_once : NoDup (g_roots g)
}.

Lemma gfind_ids g id : gfind g id <> None <-> In id (ids g).
Proof.
  unfold gfind, ids. induction (g_nodes g) as [|n l IH]; cbn; [split; [congruence|intros []]|].
  destruct (seqb (n_name n) id) eqn:E.
  - apply seqb_eq in E. split; [now left|congruence].
  - rewrite IH. split; [now right|]. intros [H|H]; [|exact H].
    subst. unfold seqb in E. rewrite String.eqb_refl in E. discriminate.
Qed.
Lemma gfind_In g n : NoDup (ids g) -> In n (g_nodes g) -> gfind g (n_name n) = Some n.
Proof.
  unfold gfind, ids. induction (g_nodes g) as [|x l IH]; intros ND H; [destruct H|].
  cbn in *. inversion ND as [|? ? Hx ND']; subst. destruct H as [->|H].
  - unfold seqb. now rewrite String.eqb_refl.
  - destruct (seqb (n_name x) (n_name n)) eqn:E; [|auto]. apply seqb_eq in E. exfalso. apply Hx. rewrite E.
    apply in_map_iff. now exists n.
Qed.

Lemma edges_add_fst l s t d : map fst (edges_add l s t d) =
  if existsb (fun e => seqb s (fst (fst e)) && seqb t (snd (fst e))) l then map fst l else map fst l ++ [(s, t)].
Proof.
  induction l as [|[[s' t'] ds] l IH]; cbn; [reflexivity|].
  destruct (seqb s s' && seqb t t') eqn:E; cbn; [reflexivity|]. rewrite IH.
  match goal with |- context [if existsb ?f ?x then _ else _] => destruct (existsb f x) end; reflexivity.
Qed.
Lemma NoDup_app_one {A} (l : list A) x : NoDup l -> ~ In x l -> NoDup (l ++ [x]).
Proof.
  intros H. induction H as [|y l Hy H IH]; intros Hx; cbn; [constructor; [auto|constructor]|].
  constructor.
  - rewrite in_app_iff. cbn. intros [K|[K|[]]]; [auto|]. apply Hx. now left.
  - apply IH. intros K. apply Hx. now right.
Qed.
Lemma edges_add_nodup l s t d : NoDup (map fst l) -> NoDup (map fst (edges_add l s t d)).
Proof.
  intros H. rewrite edges_add_fst.
  match goal with |- context [if existsb ?f ?x then _ else _] => destruct (existsb f x) eqn:E end; [exact H|].
  apply NoDup_app_one; [exact H|]. intros K. apply in_map_iff in K as [[[a b] ds] [K1 K2]]. cbn in K1.
  injection K1 as -> ->. enough (existsb (fun e => seqb s (fst (fst e)) && seqb t (snd (fst e))) l = true) by congruence.
  apply existsb_exists. exists (s, t, ds). split; [exact K2|]. cbn. unfold seqb. now rewrite !String.eqb_refl.
Qed.
Lemma edges_add_ends l s t d a b ds : In (a, b, ds) (edges_add l s t d) ->
  (a = s /\ b = t) \/ exists ds', In (a, b, ds') l.
Proof.
  induction l as [|[[s' t'] ds0] l IH]; cbn.
  - intros [H|[]]. injection H as <- <- <-. now left.
  - destruct (seqb s s' && seqb t t') eqn:E; intros [H|H].
    + apply andb_true_iff in E as [E1 E2]. apply seqb_eq in E1, E2. injection H as <- <- <-. now left.
    + right. exists ds. now right.
    + injection H as <- <- <-. right. exists ds0. now left.
    + destruct (IH H) as [K|[ds' K]]; [now left|right]. exists ds'. now right.
Qed.
Lemma set_add_nodup x l : NoDup l -> NoDup (set_add x l).
Proof.
  intros H. unfold set_add. destruct (memb x l) eqn:E; [exact H|]. apply NoDup_app_one; [exact H|].
  intros K. apply memb_In in K. congruence.
Qed.
Lemma ids_written g id names : ids (gadd_written g id names) = ids g.
Proof.
  unfold ids, gadd_written. cbn. rewrite map_map. apply map_ext. intros n. apply upd_written_name.
Qed.

Lemma wf_add_node g n : gfind g (n_name n) = None -> wf g -> wf (Graph (g_nodes g ++ [n]) (g_edges g) (g_roots g)).
Proof.
  intros Hn [H1 H2 H3 H4 H5].
  assert (Hi : ids (Graph (g_nodes g ++ [n]) (g_edges g) (g_roots g)) = ids g ++ [n_name n]).
  { unfold ids. cbn. now rewrite map_app. }
  constructor; rewrite ?Hi; cbn [g_edges g_roots]; [|intros a b ds H| |intros id H|]; rewrite ?in_app_iff.
  - apply NoDup_app_one; [exact H1|]. intros K. apply gfind_ids in K. congruence.
  - apply H2 in H as [A B]. split; now left.
  - exact H3.
  - left. now apply H4.
  - exact H5.
Qed.

Lemma step_wf mrun q s s' : step mrun q s s' -> wf (s_graph s) -> wf (s_graph s').
Proof.
  intros H W. destruct H as [s' H|m|h H|h H|names|l|e H|name id H|name i H1 H2 H3|name H1 H2 H3|n l H1 H2|n H1 H2
                  |a b d H1 H2 H3|id H1 H2|id names|n l H1|n m i a b H1 H2 H3 H4 H5 H6 H7|n pkg H1 H2|w rest H1 H2 H3
                  |n l H1 H2|w rest H1 H2 H3|w rest H1 H2 H3|H1|a rest H1 H2];
    try exact W; cbn [s_graph log set_graph set_lazy].
  - destruct H as (f & c & ->). exact W.
  - now apply (wf_add_node _ (plain_node ExcludedModule name)).
  - now apply wf_add_node.
  - now apply wf_add_node.
  - destruct W as [W1 W2 W3 W4 W5]. constructor; cbn [g_edges g_roots ids g_nodes]; auto.
    + intros x y ds H. apply edges_add_ends in H as [[-> ->]|[ds' H]]; [split; now apply gfind_ids|].
      apply W2 in H. exact H.
    + now apply edges_add_nodup.
  - destruct W as [W1 W2 W3 W4 W5]. constructor; cbn [g_edges g_roots ids g_nodes]; auto.
    + intros x H. apply set_add_In in H as [->|H]; [now apply gfind_ids|now apply W4].
    + now apply set_add_nodup.
  - destruct W as [W1 W2 W3 W4 W5]. constructor; rewrite ?ids_written; auto.
  - now rewrite schedule_graph.
Qed.
Lemma start_wf s : start s -> wf (s_graph s).
Proof. intros (implies & post & missing & ->). constructor; cbn; try constructor; intros; contradiction. Qed.
Lemma chain_wf mrun q s s' : chain mrun q s s' -> wf (s_graph s) -> wf (s_graph s').
Proof. intros C. apply (chain_ind_inv mrun q (fun s => wf (s_graph s)) s s' C). intros a b. apply step_wf. Qed.
