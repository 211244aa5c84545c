(** How names get their nodes: exclusions, implied actions, and modules below
    missing or excluded packages. *)
From Verif Require Export BuilderOrder.

(** ** Histories from any state on *)

Lemma reach_from E s0 s s' : order_ok E -> start s0 -> reach E s0 s -> reach E s s' ->
  reach E s0 s' /\ chain true true s s'.
Proof.
  intros HE H0 HR H. induction H as [|s1 fuel a ans s2 H IH Hc].
  - split; [exact HR|apply ch_refl].
  - destruct IH as [R1 C1]. split; [eapply reach_call; eassumption|].
    eapply chain_trans; [exact C1|].
    eapply (top_call_chain true E (fun l x => proj1 (HE l x)) fuel a s1 ans s2);
      [apply (h_inv _ _ (reach_history E s0 s1 HE H0 R1))|now left|apply all_act_ok|exact Hc].
Qed.

(** Event [e] is noted between two states. *)
Definition news (s s' : st) (e : event) : Prop := exists l, s_log s' = l ++ s_log s /\ In e l.
Lemma news_grows s s1 s2 e : grows s1 s2 -> news s s1 e -> news s s2 e.
Proof.
  intros G (l & A & B). destruct (gw_log _ _ G) as (l' & A').
  exists (l' ++ l). rewrite A', A, app_assoc. split; [reflexivity|]. apply in_app_iff. now right.
Qed.
Lemma news_head s s1 s2 e r : grows s s1 -> s_log s2 = e :: r ++ s_log s1 -> news s s2 e.
Proof.
  intros G H. destruct (gw_log _ _ G) as (l & A). exists (e :: r ++ l). rewrite H, A. cbn.
  rewrite app_assoc. split; [reflexivity|now left].
Qed.
Lemma news_In s s' e : news s s' e -> In e (s_log s').
Proof. intros (l & -> & H). apply in_app_iff. now left. Qed.

(** ** Names and their containing package *)

Lemma repeat_dot_snoc k x : (repeat_char dot (S k) ++ x = repeat_char dot k ++ "." ++ x)%string.
Proof. induction k as [|k IH]; [reflexivity|]. cbn in *. now rewrite IH. Qed.
Lemma lstrip_repeat k : lstrip dot (repeat_char dot k) = ""%string.
Proof. induction k as [|k IH]; [reflexivity|exact IH]. Qed.
Lemma child_shape c x : child_of c x -> exists p y, x = (p ++ "." ++ y)%string /\ dotless y /\
  ((c = p /\ lstrip dot p <> ""%string) \/ exists k, p = repeat_char dot k /\ c = repeat_char dot (S k)).
Proof.
  intros [y H1 H2|k y H1 H2].
  - exists c, y. auto.
  - subst c. exists (repeat_char dot k), y. rewrite repeat_dot_snoc. split; [reflexivity|]. split; [exact H2|].
    right. now exists k.
Qed.
Lemma child_of_fun c c' x : child_of c x -> child_of c' x -> c = c'.
Proof.
  intros H K. apply child_shape in H as (p & y & -> & Hy & H). apply child_shape in K as (p' & y' & E & Hy' & K).
  apply app_dot_inj in E as [<- <-]; [|exact Hy|exact Hy'].
  destruct H as [[-> H]|(k & -> & ->)]; destruct K as [[-> K]|(k' & K & ->)]; auto.
  - subst p. now rewrite lstrip_repeat in H.
  - now rewrite lstrip_repeat in K.
  - cbn [repeat_char]. now rewrite K.
Qed.

(** ** Nodes that do not come from looking up their own name *)

(** The target of an alias node was taken from the spec of another name. *)
Definition alias_target (s : st) (x : string) : Prop :=
  exists y, y <> x /\ kind_of s y = Some (AliasNode x).
(** Scripts, distributions and invalid relative imports; nodes given by hooks
    or users; targets of aliases. *)
Definition foreign (s : st) (x : string) : Prop :=
  kind_of s x = Some Script \/ kind_of s x = Some Distribution \/ kind_of s x = Some InvalidRelativeImport
  \/ In (EvGiven x) (s_log s) \/ alias_target s x.
Lemma grows_foreign s s' x : grows s s' -> foreign s x -> foreign s' x.
Proof.
  intros G [H|[H|[H|[H|(y & H1 & H2)]]]].
  - left. eapply grows_kind; eassumption.
  - right; left. eapply grows_kind; eassumption.
  - right; right; left. eapply grows_kind; eassumption.
  - right; right; right; left. eapply grows_log; eassumption.
  - right; right; right; right. exists y. split; [exact H1|]. eapply grows_kind; eassumption.
Qed.

Lemma kind_other s n x : n_name n <> x ->
  gfind (Graph (g_nodes (s_graph s) ++ [n]) (g_edges (s_graph s)) (g_roots (s_graph s))) x = gfind (s_graph s) x.
Proof.
  intros H. rewrite gfind_app. destruct (gfind (s_graph s) x) as [m|]; [reflexivity|].
  destruct (seqb (n_name n) x) eqn:E; [|reflexivity]. apply seqb_eq in E. contradiction.
Qed.
Lemma gfind_new s n : gfind (s_graph s) (n_name n) = None ->
  gfind (Graph (g_nodes (s_graph s) ++ [n]) (g_edges (s_graph s)) (g_roots (s_graph s))) (n_name n) = Some n.
Proof. intros H. rewrite gfind_app, H. unfold seqb. now rewrite String.eqb_refl. Qed.
Lemma kind_written s id names x : option_map n_kind (gfind (gadd_written (s_graph s) id names) x) = kind_of s x.
Proof.
  rewrite gfind_written. unfold kind_of. destruct (gfind (s_graph s) x) as [n|]; [|reflexivity].
  cbn. now destruct (upd_written_same id names n) as (_ & -> & _).
Qed.

(** ** The table of implied actions *)

Lemma assoc_map_set {A} x y (v : A) l : assoc x (map (fun p => if seqb (fst p) y then (fst p, v) else p) l) =
  match assoc x l with None => None | Some w => if seqb x y then Some v else Some w end.
Proof.
  induction l as [|[k w] l IH]; [reflexivity|]. cbn [map assoc fst]. destruct (seqb k y) eqn:E; cbn [assoc fst].
  - destruct (seqb x k) eqn:Ex; [|exact IH]. apply seqb_eq in Ex as ->. now rewrite E.
  - destruct (seqb x k) eqn:Ex; [|exact IH]. apply seqb_eq in Ex as ->. now rewrite E.
Qed.
Lemma assoc_app {A} x (l l' : list (string * A)) : assoc x (l ++ l') = match assoc x l with Some v => Some v | None => assoc x l' end.
Proof. induction l as [|[k v] l IH]; [reflexivity|]. cbn. destruct (seqb x k); auto. Qed.
Lemma existsb_assoc {A} x (l : list (string * A)) : existsb (fun p => seqb (fst p) x) l = match assoc x l with Some _ => true | None => false end.
Proof.
  induction l as [|[k v] l IH]; [reflexivity|]. cbn [existsb assoc fst]. rewrite IH, (seqb_sym k x). now destruct (seqb x k).
Qed.
Lemma assoc_lazy_set x y i l : assoc x (lazy_set y i l) = if seqb x y then Some i else assoc x l.
Proof.
  unfold lazy_set. rewrite existsb_assoc. destruct (assoc y l) as [v|] eqn:Ey.
  - rewrite assoc_map_set. destruct (seqb x y) eqn:E.
    + apply seqb_eq in E as ->. now rewrite Ey.
    + now destruct (assoc x l).
  - rewrite assoc_app. cbn. destruct (seqb x y) eqn:E; [|now destruct (assoc x l)].
    apply seqb_eq in E as ->. now rewrite Ey.
Qed.
Lemma assoc_excludes names : forall l x, assoc x (add_excludes names l) = if memb x names then Some ImpNone else assoc x l.
Proof.
  induction names as [|y names IH]; intros l x; [reflexivity|]. unfold add_excludes in *. cbn [fold_left memb].
  rewrite IH, assoc_lazy_set. change (x =? y)%string with (seqb x y). destruct (seqb x y); [now destruct (memb x names)|reflexivity].
Qed.
Lemma assoc_implies_one y i l x : assoc x (match assoc y l with Some ImpNone => l | _ => lazy_set y i l end) =
  if seqb x y then match assoc y l with Some ImpNone => Some ImpNone | _ => Some i end else assoc x l.
Proof.
  destruct (seqb x y) eqn:E.
  - apply seqb_eq in E as ->. destruct (assoc y l) as [[]|] eqn:Ey; rewrite ?assoc_lazy_set; unfold seqb; rewrite ?String.eqb_refl; auto.
  - destruct (assoc y l) as [[]|] eqn:Ey; rewrite ?assoc_lazy_set, ?E; auto.
Qed.
Lemma assoc_implies_kept imps : forall l x, assoc x l = Some ImpNone -> assoc x (add_implies imps l) = Some ImpNone.
Proof.
  induction imps as [|[y i] imps IH]; intros l x H; [exact H|]. apply IH. cbn [fst snd]. rewrite assoc_implies_one.
  destruct (seqb x y) eqn:E; [|exact H]. apply seqb_eq in E as ->. now rewrite H.
Qed.
Lemma assoc_implies_other imps : forall l x, ~ In x (map fst imps) -> assoc x (add_implies imps l) = assoc x l.
Proof.
  induction imps as [|[y i] imps IH]; intros l x H; [reflexivity|].
  unfold add_implies in *. cbn [fold_left]. rewrite IH; [|intros K; apply H; now right]. cbn [fst snd].
  rewrite assoc_implies_one. destruct (seqb x y) eqn:E; [|reflexivity]. apply seqb_eq in E as ->. elim H. now left.
Qed.
Lemma assoc_filter_other {A} x y (l : list (string * A)) : x <> y ->
  assoc x (filter (fun p => negb (seqb (fst p) y)) l) = assoc x l.
Proof.
  intros H. induction l as [|[k v] l IH]; [reflexivity|]. cbn [filter assoc fst].
  destruct (seqb k y) eqn:E; cbn [negb assoc].
  - apply seqb_eq in E as ->. destruct (seqb x y) eqn:Ex; [|exact IH]. apply seqb_eq in Ex. contradiction.
  - now rewrite IH.
Qed.

(** ** The entry of a name is used when its node is made *)

(** A name that was in the table without being in the graph: the entry is still
    there, or was configured again, or used; or the node is foreign, or missing
    or excluded because of its package (or a missing hook), or a missing hook
    raised an exception that was ignored. *)
Definition entry_fate (s0 s : st) (x : string) (i : implied) : Prop :=
  (assoc x (s_lazy s) = Some i /\ ~ in_graph s x)
  \/ (exists names, news s0 s (EvConf names) /\ In x names)
  \/ news s0 s (EvImplied x i)
  \/ foreign s x
  \/ kind_of s x = Some MissingModule \/ kind_of s x = Some ExcludedModule
  \/ (s_missing s <> [] /\ In EvErr (s_log s)).

Lemma fate_later s0 s s' x i : grows s s' ->
  ((exists names, news s0 s (EvConf names) /\ In x names)
  \/ news s0 s (EvImplied x i) \/ foreign s x
  \/ kind_of s x = Some MissingModule \/ kind_of s x = Some ExcludedModule
  \/ (s_missing s <> [] /\ In EvErr (s_log s))) -> entry_fate s0 s' x i.
Proof.
  intros G [(names & A & B)|[A|[A|[A|[A|[A B]]]]]]; right.
  - left. exists names. split; [|exact B]. eapply news_grows; eassumption.
  - right; left. eapply news_grows; eassumption.
  - right; right; left. eapply grows_foreign; eassumption.
  - right; right; right; left. eapply grows_kind; eassumption.
  - right; right; right; right; left. eapply grows_kind; eassumption.
  - right; right; right; right; right. split; [|eapply grows_log; eassumption].
    destruct (gw_missing _ _ G) as [l ->]. now apply not_nil_app.
Qed.

Lemma kind_new s n l : gfind (s_graph s) (n_name n) = None ->
  kind_of (log (set_graph s (Graph (g_nodes (s_graph s) ++ [n]) (g_edges (s_graph s)) (g_roots (s_graph s)))) l) (n_name n)
  = Some (n_kind n).
Proof. intros H. unfold kind_of. cbn [s_graph log set_graph]. now rewrite gfind_new. Qed.

Lemma fresh_not s x i : fresh s x -> assoc x (s_lazy s) = Some i -> s_missing s <> [] /\ In EvErr (s_log s).
Proof. intros [H|H] K; [congruence|exact H]. Qed.

Lemma step_fate mrun q s0 s s' x v : step mrun q s s' -> grows s0 s -> entry_fate s0 s x v -> entry_fate s0 s' x v.
Proof.
  intros H G0 [F|F]; [|eapply fate_later; [eapply step_grows; exact H|exact F]].
  pose proof (step_grows _ _ _ _ H) as G. destruct F as [Fa Fg].
  step_cases H; [destruct H as (f' & c & ->)|..]; try (left; split; [exact Fa|exact Fg]; fail).
  - (* excludes *)
    destruct (memb x names) eqn:Em.
    + right; left. exists names. split; [|now apply memb_In]. eapply (news_head s0 s _ _ []); [exact G0|reflexivity].
    + left. cbn [s_lazy set_lazy log]. rewrite assoc_excludes, Em. now split.
  - (* implies *)
    destruct (memb x (map fst l)) eqn:Em.
    + right; left. exists (map fst l). split; [|now apply memb_In]. eapply (news_head s0 s _ _ []); [exact G0|reflexivity].
    + left. cbn [s_lazy set_lazy log]. rewrite assoc_implies_other; [now split|].
      intros K. apply memb_In in K. congruence.
  - (* an entry is used *)
    destruct (string_dec x name) as [->|N].
    + right; right; left. replace v with i by congruence.
      eapply (news_head s0 s _ _ []); [exact G0|reflexivity].
    + left. cbn [s_lazy set_lazy log]. rewrite assoc_filter_other by exact N. now split.
  - destruct (string_dec x name) as [->|N].
    + right; right; left. replace v with ImpNone by congruence.
      apply (news_grows s0 (log (set_lazy s (filter (fun p => negb (seqb (fst p) name)) (s_lazy s))) (EvImplied name ImpNone))).
      * constructor; cbn [s_graph s_log s_seen s_post s_missing log set_graph set_lazy]; first [apply grows_add_node|apply incl_refl|now exists []|now eexists [_]].
      * eapply (news_head s0 s _ _ []); [exact G0|reflexivity].
    + left. cbn [s_lazy set_lazy log set_graph]. rewrite assoc_filter_other by exact N. split; [exact Fa|].
      unfold in_graph. cbn [s_graph log set_graph]. rewrite (kind_other s (plain_node ExcludedModule name)); [exact Fg|].
      cbn. congruence.
  - (* a node *)
    destruct (string_dec (n_name n) x) as [Ex|N].
    2:{ left. split; [exact Fa|]. unfold in_graph. cbn [s_graph log set_graph]. now rewrite (kind_other s n). }
    pose proof (kind_new s n (EvAdd (n_name n) l) H1) as Hk. rewrite Ex in Hk.
    destruct H2 as [nm P1 P2|nm P|nm P|nm a P1 P2 P3|nm a P1 P2 P3|n l P1 P2 P3|n nm P1 P2 P3|n l nm P0 P1 P2|j m b P1 P2 P3|path l];
      cbn [n_name n_kind plain_node] in Ex, Hk; try subst nm.
    + right; right; right; right; now left.
    + right; right; right; right; now left.
    + right; right; right; right; right; now left.
    + congruence.
    + congruence.
    + subst x. right; right; right; right; right; right. destruct (fresh_not _ _ _ P3 Fa) as [A B].
      split; [exact A|now right].
    + right; right; right; right; right; right. destruct (fresh_not _ _ _ P2 Fa) as [A B].
      split; [exact A|now right].
    + subst x. right; right; right; left. right; right; right; right. exists nm. split; [congruence|].
      eapply grows_kind; [exact G|exact P1].
    + right; right; right; left. right; right. now left.
    + right; right; right; left. now left.
  - (* a given node *)
    destruct (string_dec (n_name n) x) as [Ex|N].
    2:{ left. split; [exact Fa|]. unfold in_graph. cbn [s_graph log set_graph]. now rewrite (kind_other s n). }
    right; right; right; left. subst x. destruct H2 as [H2|H2].
    + right; right; right; now left.
    + right; left. unfold kind_of. cbn [s_graph set_graph]. rewrite gfind_new by exact H1. cbn. now rewrite H2.
  - left. split; [exact Fa|]. unfold in_graph. cbn [s_graph set_graph]. rewrite gfind_written.
    intros K. apply Fg. unfold in_graph. destruct (gfind (s_graph s) x); [discriminate|exact K].
  - left. split; [now rewrite schedule_lazy|]. unfold in_graph. now rewrite schedule_graph.
Qed.
Lemma chain_fate mrun q s s' x i : chain mrun q s s' -> assoc x (s_lazy s) = Some i -> ~ in_graph s x ->
  entry_fate s s' x i.
Proof.
  intros C H K. assert (X : grows s s' /\ entry_fate s s' x i); [|apply X].
  induction C as [|s1 s2 C IH S]; [split; [apply grows_refl|left; now split]|]. destruct IH as [G F]. split.
  - eapply grows_trans; [exact G|]. eapply step_grows; exact S.
  - eapply step_fate; eassumption.
Qed.

(** ** Excluded names *)

Definition not_scanned (s : st) (x : string) : Prop := forall l, In (EvAdd x l) (s_log s) -> l = [].
Definition shut (s : st) (x : string) : Prop :=
  (kind_of s x = Some ExcludedModule \/
   kind_of s x = Some MissingModule /\ not_hooked s (exists c, child_of c x /\ kind_of s c = Some MissingModule))
  /\ not_scanned s x.
(** What becomes of a name that was excluded before it was in the graph. *)
Definition excluded_fate (s : st) (x : string) : Prop :=
  (assoc x (s_lazy s) = Some ImpNone /\ ~ in_graph s x)
  \/ shut s x \/ foreign s x \/ (s_missing s <> [] /\ In EvErr (s_log s)).

Lemma shut_later mrun q s s' x : step mrun q s s' -> added_once s -> shut s x -> shut s' x.
Proof.
  intros H A [K N]. pose proof (step_grows _ _ _ _ H) as G. pose proof (step_added _ _ _ _ H A) as [A1 A2].
  split.
  { destruct K as [K|[K1 K2]]; [left; eapply grows_kind; eassumption|right].
    split; [eapply grows_kind; eassumption|]. destruct K2 as [K2|(c & K2 & K3)].
    - left. destruct (gw_missing _ _ G) as [l ->]. now apply not_nil_app.
    - right. exists c. split; [exact K2|]. eapply grows_kind; eassumption. }
  assert (I : in_graph s x) by (unfold in_graph, kind_of in *; destruct (gfind (s_graph s) x); [discriminate|destruct K as [K|[K _]]; discriminate]).
  intros imps L. step_cases H; [destruct H as (f' & c & ->)|..];
    try (apply N; exact L);
    try (destruct L as [L|L]; [discriminate|apply N; exact L]).
  - destruct L as [L|L]; [subst e; discriminate|apply N; exact L].
  - destruct L as [L|[L|L]]; [|discriminate|apply N; exact L]. now injection L as <- <-.
  - destruct L as [L|L]; [|apply N; exact L]. injection L as <- <-. now elim I.
  - rewrite schedule_log in L. destruct L as [L|L]; [discriminate|]. apply N; exact L.
Qed.

Lemma step_excluded mrun q s s' x : step mrun q s s' -> added_once s -> excluded_fate s x -> excluded_fate s' x.
Proof.
  intros H A F. pose proof (step_grows _ _ _ _ H) as G.
  destruct F as [[Fa Fg]|[F|[F|[F1 F2]]]].
  2:{ right; left. eapply shut_later; eassumption. }
  2:{ right; right; left. eapply grows_foreign; eassumption. }
  2:{ right; right; right. split; [|eapply grows_log; eassumption]. destruct (gw_missing _ _ G) as [l ->]. now apply not_nil_app. }
  assert (N : forall l, ~ In (EvAdd x l) (s_log s)) by (intros l L; apply (proj1 A) in L; contradiction).
  step_cases H; [destruct H as (f' & c & ->)|..]; try (left; split; [exact Fa|exact Fg]; fail).
  - left. cbn [s_lazy set_lazy log]. rewrite assoc_excludes. split; [|exact Fg]. now destruct (memb x names).
  - left. cbn [s_lazy set_lazy log]. split; [|exact Fg]. now apply assoc_implies_kept.
  - left. cbn [s_lazy set_lazy log]. rewrite assoc_filter_other by congruence. now split.
  - destruct (string_dec x name) as [->|Nx].
    + right; left. split.
      * left. unfold kind_of. cbn [s_graph log set_graph]. pose proof (gfind_new s (plain_node ExcludedModule name) H2) as Hg.
        cbn [n_name plain_node] in Hg. now rewrite Hg.
      * intros l [L|[L|L]]; [now injection L as <-|discriminate|]. now apply N in L.
    + left. cbn [s_lazy set_lazy log set_graph]. rewrite assoc_filter_other by exact Nx. split; [exact Fa|].
      unfold in_graph. cbn [s_graph log set_graph]. rewrite (kind_other s (plain_node ExcludedModule name)); [exact Fg|].
      cbn. congruence.
  - destruct (string_dec (n_name n) x) as [Ex|Nx].
    2:{ left. split; [exact Fa|]. unfold in_graph. cbn [s_graph log set_graph]. now rewrite (kind_other s n). }
    assert (Hk : kind_of (log (set_graph s (Graph (g_nodes (s_graph s) ++ [n]) (g_edges (s_graph s)) (g_roots (s_graph s))))
      (EvAdd (n_name n) l)) x = Some (n_kind n)) by (rewrite <- Ex; now apply kind_new).
    assert (Sh : l = [] -> n_kind n = ExcludedModule \/ n_kind n = MissingModule /\
        not_hooked s (exists c, child_of c x /\ kind_of s c = Some MissingModule) ->
      shut (log (set_graph s (Graph (g_nodes (s_graph s) ++ [n]) (g_edges (s_graph s)) (g_roots (s_graph s)))) (EvAdd (n_name n) l)) x).
    { intros -> K. split.
      - rewrite Hk. destruct K as [-> |[-> K]]; [now left|right]. split; [reflexivity|].
        destruct K as [K|(c & K1 & K2)]; [now left|right]. exists c. split; [exact K1|]. eapply grows_kind; [exact G|exact K2].
      -       intros l' [L|L]; [now injection L as _ <-|]. now apply N in L. }
    destruct H2 as [nm P1 P2|nm P|nm P|nm a P1 P2 P3|nm a P1 P2 P3|n l P1 P2 P3|n nm P1 P2 P3|n l nm P0 P1 P2|j m b P1 P2 P3|path l];
      cbn [n_name n_kind plain_node] in Ex, Hk, Sh; try subst nm.
    + right; left. apply Sh; [reflexivity|]. right. split; [reflexivity|]. left. destruct P2 as [P2|P2]; [exact P2|congruence].
    + right; left. apply Sh; auto.
    + right; left. apply Sh; auto.
    + congruence.
    + congruence.
    + subst x. right; right; right. destruct (fresh_not _ _ _ P3 Fa) as [X Y]. split; [exact X|now right].
    + right; right; right. destruct (fresh_not _ _ _ P2 Fa) as [X Y]. split; [exact X|now right].
    + subst x. right; right; left. right; right; right; right. exists nm. split; [congruence|].
      eapply grows_kind; [exact G|exact P1].
    + right; right; left. right; right. now left.
    + right; right; left. now left.
  - destruct (string_dec (n_name n) x) as [Ex|Nx].
    2:{ left. split; [exact Fa|]. unfold in_graph. cbn [s_graph log set_graph]. now rewrite (kind_other s n). }
    right; right; left. subst x. destruct H2 as [H2|H2].
    + right; right; right; now left.
    + right; left. unfold kind_of. cbn [s_graph set_graph]. rewrite gfind_new by exact H1. cbn. now rewrite H2.
  - left. split; [exact Fa|]. unfold in_graph. cbn [s_graph set_graph]. rewrite gfind_written.
    intros K. apply Fg. unfold in_graph. destruct (gfind (s_graph s) x); [discriminate|exact K].
  - left. split; [now rewrite schedule_lazy|]. unfold in_graph. now rewrite schedule_graph.
Qed.

Lemma chain_added mrun q s s' : chain mrun q s s' -> added_once s -> added_once s'.
Proof. intros C H. induction C as [|s1 s2 C IH S]; [exact H|]. eapply step_added; [exact S|exact IH]. Qed.
Lemma reach_added E s0 s : order_ok E -> start s0 -> reach E s0 s -> added_once s.
Proof.
  intros HE H0 HR. eapply chain_added; [apply (h_chain _ _ (reach_history E s0 s HE H0 HR))|].
  destruct H0 as (implies & post & missing & ->). split; [intros n l []|intros n l l' []].
Qed.
Lemma chain_excluded mrun q s s' x : chain mrun q s s' -> added_once s -> excluded_fate s x -> excluded_fate s' x.
Proof.
  intros C A F. induction C as [|s1 s2 C IH S]; [exact F|].
  eapply step_excluded; [exact S|eapply chain_added; eassumption|exact IH].
Qed.

(** ** Below missing and excluded packages *)

Definition like_parent (kc kx : kind) : Prop :=
  (is_missing kc = true -> kx = MissingModule) /\ (is_excluded kc = true -> kx = ExcludedModule).
Definition family (s : st) : Prop := forall c x, child_of c x -> in_graph s x ->
  foreign s x \/ exists kc kx, kind_of s c = Some kc /\ kind_of s x = Some kx /\ like_parent kc kx.

Lemma fine_like s x : s_missing s = [] -> parent_fine s x ->
  forall c, child_of c x -> exists kc, kind_of s c = Some kc /\ forall kx, like_parent kc kx.
Proof.
  intros H [K|K] c Hc; [contradiction|]. destruct (K c Hc) as (k & A & B & D). exists k. split; [exact A|].
  intros kx. split; congruence.
Qed.
Lemma like_self s x k : s_missing s = [] ->
  not_hooked s (exists c, child_of c x /\ kind_of s c = Some k) ->
  (k = MissingModule \/ k = ExcludedModule) ->
  forall c, child_of c x -> exists kc, kind_of s c = Some kc /\ like_parent kc k.
Proof.
  intros H [K|K] Hk c Hc; [contradiction|]. destruct K as (c' & A & B). rewrite (child_of_fun _ _ _ Hc A).
  exists k. split; [exact B|]. destruct Hk as [-> | ->]; split; auto; discriminate.
Qed.

Lemma family_keep s s' : grows s s' -> (forall x, in_graph s' x -> in_graph s x) -> family s -> family s'.
Proof.
  intros G H F c x Hc Hx. destruct (F c x Hc (H x Hx)) as [K|(kc & kx & A & B & L)].
  - left. eapply grows_foreign; eassumption.
  - right. exists kc, kx. split; [eapply grows_kind; eassumption|]. split; [eapply grows_kind; eassumption|exact L].
Qed.
Lemma family_new s s' y : grows s s' -> (forall x, in_graph s' x -> x = y \/ in_graph s x) -> family s ->
  (foreign s' y \/ exists ky, kind_of s' y = Some ky /\
     forall c, child_of c y -> exists kc, kind_of s c = Some kc /\ like_parent kc ky) -> family s'.
Proof.
  intros G H F N c x Hc Hx. destruct (H x Hx) as [->|K].
  - destruct N as [N|(ky & A & B)]; [now left|right]. destruct (B c Hc) as (kc & D & L).
    exists kc, ky. split; [eapply grows_kind; eassumption|]. now split.
  - destruct (F c x Hc K) as [Z|(kc & kx & A & B & L)].
    + left. eapply grows_foreign; eassumption.
    + right. exists kc, kx. split; [eapply grows_kind; eassumption|]. split; [eapply grows_kind; eassumption|exact L].
Qed.
Lemma in_graph_new s n e x :
  in_graph (log (set_graph s (Graph (g_nodes (s_graph s) ++ [n]) (g_edges (s_graph s)) (g_roots (s_graph s)))) e) x ->
  x = n_name n \/ in_graph s x.
Proof.
  intros H. destruct (string_dec (n_name n) x) as [E|N]; [now left|right].
  unfold in_graph in *. cbn [s_graph log set_graph] in H. now rewrite (kind_other s n) in H.
Qed.

Lemma step_family mrun q s s' : step mrun q s s' -> s_missing s = [] -> family s -> family s'.
Proof.
  intros H M F. pose proof (step_grows _ _ _ _ H) as G.
  step_cases H; [destruct H as (f' & c & ->)|..]; try (apply (family_keep s); [exact G| |exact F]; intros x Hx; exact Hx).
  - (* excluded *)
    apply (family_new s _ name); [exact G| |exact F|].
    + intros x Hx. change name with (n_name (plain_node ExcludedModule name)).
      apply (in_graph_new s _ EvErr). exact Hx.
    + right. exists ExcludedModule. split.
      * unfold kind_of. cbn [s_graph log set_graph]. pose proof (gfind_new s (plain_node ExcludedModule name) H2) as Hg.
        cbn [n_name plain_node] in Hg. now rewrite Hg.
      * intros c Hc. destruct (fine_like s name M H3 c Hc) as (kc & A & B). exists kc. split; [exact A|apply B].
  - (* a node *)
    apply (family_new s _ (n_name n)); [exact G|apply in_graph_new|exact F|].
    pose proof (kind_new s n (EvAdd (n_name n) l) H1) as Hk.
    destruct H2 as [nm P1 P2|nm P|nm P|nm a P1 P2 P3|nm a P1 P2 P3|n l P1 P2 P3|n nm P1 P2 P3|n l nm P0 P1 P2|j m b P1 P2 P3|path l];
      cbn [n_name n_kind plain_node] in *.
    + right. eexists. split; [exact Hk|]. intros c Hc. destruct (fine_like s _ M P1 c Hc) as (kc & A & B). exists kc. split; [exact A|apply B].
    + right. eexists. split; [exact Hk|]. apply (like_self s _ _ M P). now left.
    + right. eexists. split; [exact Hk|]. apply (like_self s _ _ M P). now right.
    + right. eexists. split; [exact Hk|]. intros c Hc. destruct (fine_like s _ M P2 c Hc) as (kc & A & B). exists kc. split; [exact A|apply B].
    + right. eexists. split; [exact Hk|]. intros c Hc. destruct (fine_like s _ M P2 c Hc) as (kc & A & B). exists kc. split; [exact A|apply B].
    + right. eexists. split; [exact Hk|]. intros c Hc. destruct (fine_like s _ M P2 c Hc) as (kc & A & B). exists kc. split; [exact A|apply B].
    + right. eexists. split; [exact Hk|]. intros c Hc. destruct (fine_like s _ M P1 c Hc) as (kc & A & B). exists kc. split; [exact A|apply B].
    + left. right; right; right; right. exists nm. split; [congruence|]. eapply grows_kind; [exact G|exact P1].
    + left. right; right. now left.
    + left. now left.
  - apply (family_new s _ (n_name n)); [exact G|apply (in_graph_new s n EvErr)|exact F|].
    left. destruct H2 as [H2|H2]; [right; right; right; now left|].
    right; left. unfold kind_of. cbn [s_graph set_graph]. rewrite gfind_new by exact H1. cbn. now rewrite H2.
  - apply (family_keep s); [exact G| |exact F]. intros x. unfold in_graph. cbn [s_graph set_graph]. rewrite gfind_written.
    now destruct (gfind (s_graph s) x).
  - apply (family_keep s); [exact G| |exact F]. intros x. unfold in_graph. now rewrite schedule_graph.
Qed.
Lemma chain_family mrun q s s' : chain mrun q s s' -> s_missing s' = [] -> family s -> family s'.
Proof.
  intros C M F. induction C as [|s1 s2 C IH S]; [exact F|].
  assert (M1 : s_missing s1 = []).
  { destruct (gw_missing _ _ (step_grows _ _ _ _ S)) as [l E]. rewrite M in E. symmetry in E. now apply app_eq_nil in E. }
  eapply step_family; [exact S|exact M1|now apply IH].
Qed.
Lemma reach_family E s0 s : order_ok E -> start s0 -> reach E s0 s -> s_missing s = [] -> family s.
Proof.
  intros HE H0 HR M. eapply chain_family; [apply (h_chain _ _ (reach_history E s0 s HE H0 HR))|exact M|].
  destruct H0 as (implies & post & missing & ->). intros c x _ H. now elim H.
Qed.

(** ** What is put on the work stack for a node was found in it *)

Definition sched_origin (s : st) : Prop := forall x l, In (EvSched x l) (s_log s) -> In (EvAdd x l) (s_log s) \/ In (EvProc x l) (s_log s).
Lemma step_sched_origin mrun q s s' : step mrun q s s' -> sched_origin s -> sched_origin s'.
Proof.
  intros H F x0 l0 K. pose proof (step_grows _ _ _ _ H) as G.
  assert (Old : In (EvSched x0 l0) (s_log s) -> In (EvAdd x0 l0) (s_log s') \/ In (EvProc x0 l0) (s_log s')).
  { intros X. apply F in X as [X|X]; [left|right]; eapply grows_log; eassumption. }
  step_cases H; [destruct H as (f' & c & ->)|..]; try (apply Old; exact K);
    try (destruct K as [K|K]; [discriminate|apply Old; exact K]).
  - destruct K as [K|K]; [subst e; discriminate|now apply Old].
  - destruct K as [K|[K|K]]; [discriminate|discriminate|now apply Old].
  - rewrite schedule_log in K. destruct K as [K|K]; [|now apply Old]. injection K as -> ->.
    rewrite schedule_log. destruct H2 as [H2|H2]; [left|right]; now right.
Qed.
Lemma reach_sched_origin E s0 s : order_ok E -> start s0 -> reach E s0 s -> sched_origin s.
Proof.
  intros HE H0 HR. apply (chain_ind_inv true true sched_origin s0 s (h_chain _ _ (reach_history E s0 s HE H0 HR))).
  - intros a b. apply step_sched_origin.
  - destruct H0 as (implies & post & missing & ->). intros x l [].
Qed.
