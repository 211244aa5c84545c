(** Theorems about all histories of graph building: C19-C22, C25, C26, C28, C31, C35. *)
From Verif Require Import BuilderWhy World.

(** ** C19: building only adds *)

(** The second graph has everything of the first. *)
Record only_adds (g g' : graph) : Prop := {
  oa_nodes : forall n, In n (g_nodes g) -> exists n', In n' (g_nodes g') /\ n_name n' = n_name n
    /\ n_kind n' = n_kind n /\ n_read n' = n_read n /\ n_dist n' = n_dist n /\ n_file n' = n_file n
    /\ n_search n' = n_search n /\ n_data n' = n_data n /\ incl (n_written n) (n_written n');
  oa_edges : forall a b ds d, In (a, b, ds) (g_edges g) -> In d ds ->
    exists ds', In (a, b, ds') (g_edges g') /\ In d ds';
  oa_roots : incl (g_roots g) (g_roots g')
}.

Lemma gfind_listed g id n : gfind g id = Some n -> In n (g_nodes g).
Proof. unfold gfind. intros H. now apply find_some in H. Qed.

Theorem C19_only_adds : forall E s0 s fuel a ans s',
  order_ok E -> start s0 -> reach E s0 s -> top_call E fuel a s = Some (ans, s') ->
  only_adds (s_graph s) (s_graph s').
Proof.
  intros E s0 s fuel a ans s' HE H0 HR HC.
  pose proof (h_linv _ _ (reach_history E s0 s HE H0 HR)) as L.
  pose proof (wf_nodes _ (f_wf _ (reach_facts E s0 s HE H0 HR))) as W.
  destruct (top_call_closes E fuel a s ans s' L HC) as ([[G1 G2 G3] _ _ _ _] & _ & _).
  constructor.
  - intros n Hn. apply (gfind_In _ _ W) in Hn. apply G1 in Hn as (n' & K & S).
    exists n'. split; [eapply gfind_listed; exact K|]. exact S.
  - intros x y ds d H1 H2. destruct (G2 _ _ _ H1) as (ds' & A & B). exists ds'. split; [exact A|now apply B].
  - exact G3.
Qed.

(** ** C20: the graph stays well formed *)

Record well_formed (g : graph) : Prop := {
  ok_ids : NoDup (map n_name (g_nodes g));
  ok_ends : forall a b ds, In (a, b, ds) (g_edges g) ->
    (exists n, In n (g_nodes g) /\ n_name n = a) /\ (exists n, In n (g_nodes g) /\ n_name n = b);
  ok_roots : forall id, In id (g_roots g) -> exists n, In n (g_nodes g) /\ n_name n = id;
  ok_pairs : forall a b ds ds', In (a, b, ds) (g_edges g) -> In (a, b, ds') (g_edges g) -> ds = ds'
}.

Lemma nodup_pair {A B} (l : list (A * B)) a b b' : NoDup (map fst l) -> In (a, b) l -> In (a, b') l -> b = b'.
Proof.
  induction l as [|[x y] l IH]; intros N H K; [destruct H|]. cbn in N. inversion N as [|? ? N1 N2]; subst.
  destruct H as [H|H], K as [K|K]; [congruence| | |auto].
  - injection H as <- <-. elim N1. apply in_map_iff. now exists (x, b').
  - injection K as <- <-. elim N1. apply in_map_iff. now exists (x, b).
Qed.

Theorem C20_well_formed : forall E s0 s, order_ok E -> start s0 -> reach E s0 s -> well_formed (s_graph s).
Proof.
  intros E s0 s HE H0 HR. destruct (f_wf _ (reach_facts E s0 s HE H0 HR)) as [W1 W2 W3 W4 W5].
  assert (X : forall id, In id (ids (s_graph s)) -> exists n, In n (g_nodes (s_graph s)) /\ n_name n = id).
  { intros id H. apply in_map_iff in H as (n & A & B). now exists n. }
  constructor.
  - exact W1.
  - intros a b ds H. apply W2 in H as [A B]. auto.
  - intros id H. auto.
  - intros a b ds ds' H K. eapply nodup_pair; eassumption.
Qed.

(** What would break the form of the graph is refused, and changes nothing: an
    identifier that is in use, edges and roots that are not in the graph. *)
Definition present (g : graph) (id : string) : Prop := exists n, In n (g_nodes g) /\ n_name n = id.
Lemma present_has g id : ghas g id = true <-> present g id.
Proof.
  unfold ghas, gfind, present. destruct (find _ _) as [n|] eqn:E.
  - split; [|reflexivity]. intros _. apply find_some in E as [A B]. apply seqb_eq in B. now exists n.
  - split; [discriminate|]. intros (n & A & B). pose proof (find_none _ _ E n A) as K. cbn in K. subst id. unfold seqb in K. rewrite String.eqb_refl in K. discriminate.
Qed.
Lemma absent_has g id : ~ present g id <-> ghas g id = false.
Proof. rewrite <- present_has. destruct (ghas g id); split; congruence. Qed.
Theorem C20_refused : forall E fuel s,
  (forall n, present (s_graph s) (n_name n) -> exists s', top_call E fuel (AAddNode n) s = Some (AnsErr EValue, s') /\ s_graph s' = s_graph s) /\
  (forall n, ~ present (s_graph s) (n_name n) -> exists s', top_call E fuel (AAddNode n) s = Some (AnsUnit, s')
     /\ g_nodes (s_graph s') = g_nodes (s_graph s) ++ [n] /\ g_edges (s_graph s') = g_edges (s_graph s) /\ g_roots (s_graph s') = g_roots (s_graph s)) /\
  (forall a b d, ~ present (s_graph s) a \/ ~ present (s_graph s) b -> exists s', top_call E fuel (AAddEdge a b d) s = Some (AnsErr EKey, s') /\ s_graph s' = s_graph s) /\
  (forall id, ~ present (s_graph s) id -> exists s', top_call E fuel (AAddRoot id) s = Some (AnsErr EKey, s') /\ s_graph s' = s_graph s).
Proof.
  intros E fuel s. unfold top_call, call, do_action, user_add_node, add_edge, add_root, note, lift_graph, modify, attempt, bind, ret. cbn [s_graph log].
  unfold gadd_node, gadd_edge, gadd_root. split; [|split; [|split]].
  - intros n H. apply present_has in H. rewrite H. now eexists.
  - intros n H. apply absent_has in H. rewrite H. eexists. split; [reflexivity|]. auto.
  - intros a b d H. replace (ghas (s_graph s) a && ghas (s_graph s) b) with false; [now eexists|].
    destruct H as [H|H]; apply absent_has in H; rewrite H; [reflexivity|now rewrite andb_false_r].
  - intros id H. apply absent_has in H. rewrite H. now eexists.
Qed.

(** ** C21: post processing at most once per node *)

Theorem C21_at_most_once : forall E s0 s n, order_ok E -> start s0 -> reach E s0 s -> hook_calls n s <= 1.
Proof.
  intros E s0 s n HE H0 HR. destruct (f_once _ (reach_facts E s0 s HE H0 HR) n) as [O1 O2].
  destruct (memb n (s_seen s)); lia.
Qed.

(** ** C22: post processing happens *)

(** A node the builder made: not a distribution and not handed to [add_node] by
    a hook or user. *)
Definition built (s : st) (n : string) : Prop :=
  exists k, kind_of s n = Some k /\ k <> Distribution /\ ~ In (EvGiven n) (s_log s).

Lemma built_added E s0 s id : order_ok E -> start s0 -> reach E s0 s -> built s id ->
  exists l, In (EvAdd id l) (s_log s).
Proof.
  intros HE H0 HR (k & K1 & K2 & K3). unfold kind_of in K1. destruct (gfind (s_graph s) id) as [x|] eqn:Ex; [|discriminate].
  injection K1 as <-. destruct (or_nodes _ (reach_origins E s0 s HE H0 HR) id x Ex) as [A|[A|A]];
    [exact A|contradiction|contradiction].
Qed.

(** No exception reached the caller of an API function (also of a hook), and none
    was ignored by the builder. *)
Definition no_exception (s s' : st) : Prop := errs s' = errs s.

Lemma call_pays E s0 s fuel a ans s' : order_ok E -> start s0 -> reach E s0 s ->
  top_call E fuel a s = Some (ans, s') -> no_exception s s' -> forall o, owed s' o -> ~ owed s o -> paid s' o.
Proof.
  intros HE H0 HR HC N o A B.
  destruct (top_call_closes E fuel a s ans s' (h_linv _ _ (reach_history E s0 s HE H0 HR)) HC) as (_ & _ & [K|K]).
  - unfold erred, no_exception in *. lia.
  - destruct (K o A) as [X|[X|[]]]; [exact X|contradiction].
Qed.
Definition C22_statement : Prop := forall E s0 s fuel a ans s',
  order_ok E -> start s0 -> reach E s0 s -> top_call E fuel a s = Some (ans, s') ->
  draining a = true -> ok_answer ans = true ->
  s_stack s' = [] /\ forall n, built s' n -> hook_calls n s' = 1.

(** A namespace package whose hidden import cannot be looked up. *)
Definition broken_world : env := world
  [("q", ESource true [] []);
   ("q.p", EText true "__import__('pkgutil')" [imp "x"] ["__import__"] []);
   ("pkgutil", EFail EInterrupt);
   ("m", ESource false [] [])] [] [].
Definition broken : st := Eval vm_compute in snd (the_calls broken_world [AAddModule "q.p"] new).
Definition broken_next : st := Eval vm_compute in snd (the_calls broken_world [AAddModule "m"] broken).

Lemma world_order w s f : order_ok (world w s f).
Proof. intros l x. reflexivity. Qed.
Lemma new_start : start new.
Proof. now exists [], [], []. Qed.
Lemma broken_reach : reach broken_world new broken.
Proof. apply (ran _ [AAddModule "q.p"]). vm_compute. reflexivity. Qed.
Lemma broken_call : top_call broken_world 60 (AAddModule "m") broken = Some (AnsId "m", broken_next).
Proof. vm_compute. reflexivity. Qed.

Theorem C22_refuted : ~ C22_statement.
Proof.
  intros H. destruct (H broken_world new broken 60 (AAddModule "m") (AnsId "m") broken_next
    (world_order _ _ _) new_start broken_reach broken_call eq_refl eq_refl) as [_ K].
  specialize (K "q.p"). enough (X : built broken_next "q.p") by (specialize (K X); vm_compute in K; discriminate).
  exists (Package false "q.p" MSource (Some "q.p/__init__.py") (Some "pkgutil")).
  split; [vm_compute; reflexivity|]. split; [discriminate|].
  cbn. intuition discriminate.
Qed.

(** No work is left after a successful call, whatever happened before. *)
Theorem C22_no_work_left_partial : forall E fuel a s ans s', top_call E fuel a s = Some (ans, s') ->
  draining a = true -> ok_answer ans = true -> s_stack s' = [].
Proof. exact top_call_drains. Qed.

Lemma at_rest E s0 s : order_ok E -> start s0 -> reach E s0 s -> s_stack s = [] ->
  (forall w, begun s w -> ended s w) /\ forall n, In n (s_seen s) -> hook_calls n s = 1.
Proof.
  intros HE H0 HR Z. destruct (reach_saved E s0 s HE H0 HR) as [R V].
  destruct (reach_facts E s0 s HE H0 HR) as [_ T _ O _ K _ _].
  assert (P : pend s = []) by (unfold pend; now rewrite Z, V). split.
  - intros w [B|B]; [rewrite P in B; destruct B|]. apply T in B as [B|B]; [rewrite R in B; destruct B|exact B].
  - intros n Hn. destruct (O n) as [O1 O2]. rewrite P in O1. apply memb_In in Hn. rewrite Hn in O1. cbn in O1.
    assert (X : count (popped (is_post n)) (s_log s) <> 0) by (rewrite O1; discriminate).
    apply count_pos in X as (e & X1 & X2). destruct e as [| w | | | | | | | | | | | | | | | ]; try discriminate. cbn in X2.
    destruct w as [m| | |]; try discriminate. cbn in X2. apply seqb_eq in X2 as ->.
    apply K in X1 as [X1|X1]; [rewrite R in X1; destruct X1|].
    assert (Y : hook_calls n s <> 0).
    { apply count_pos. exists (EvHook n). split; [exact X1|]. cbn. unfold seqb. apply String.eqb_refl. }
    lia.
Qed.

(** Nodes whose imports were handed to the work stack: exactly once, also after
    exceptions (in earlier calls or ones that were caught). *)
Theorem C22_scheduled_once_partial : forall E s0 s n l,
  order_ok E -> start s0 -> reach E s0 s -> s_stack s = [] ->
  In (EvSched n l) (s_log s) -> hook_calls n s = 1.
Proof.
  intros E s0 s n l HE H0 HR Z Hn. apply (proj2 (at_rest E s0 s HE H0 HR Z)).
  now apply (inv_sched _ _ (h_inv _ _ (reach_history E s0 s HE H0 HR)) n l).
Qed.

(** Nodes that were made by a call, if no exception occurred during that call;
    whatever happened earlier. *)
Theorem C22_call_partial : forall E s0 s fuel a ans s',
  order_ok E -> start s0 -> reach E s0 s -> top_call E fuel a s = Some (ans, s') ->
  draining a = true -> ok_answer ans = true -> no_exception s s' ->
  forall n, built s' n -> ~ in_graph s n -> hook_calls n s' = 1.
Proof.
  intros E s0 s fuel a ans s' HE H0 HR HC D O N n Hb Hn.
  pose proof (reach_call E s0 s fuel a ans s' HR HC) as R'.
  destruct (built_added E s0 s' n HE H0 R' Hb) as (l & A).
  apply (C22_scheduled_once_partial E s0 s' n l HE H0 R').
  - eapply top_call_drains; eassumption.
  - apply (call_pays E s0 s fuel a ans s' HE H0 HR HC N (OSched n l)); [exact A|].
    intros K. apply Hn. eapply (h_linv _ _ (reach_history E s0 s HE H0 HR)). exact K.
Qed.

(** All nodes, as long as nothing has raised.  Missing: histories with
    exceptions (refuted). *)
Theorem C22_post_processed_partial : forall E s0 s,
  order_ok E -> start s0 -> user_reach E s0 s -> ~ In EvErr (s_log s) ->
  s_stack s = [] /\ forall n, built s n -> hook_calls n s = 1.
Proof.
  intros E s0 s HE H0 HU N. pose proof (user_is_reach _ _ _ HU) as HR.
  pose proof (user_reach_empty E s0 s HE H0 HU N) as Z. split; [exact Z|].
  intros n (k & K1 & K2 & K3). unfold kind_of in K1. destruct (gfind (s_graph s) n) as [x|] eqn:Ex; [|discriminate].
  injection K1 as <-. pose proof (reach_origins E s0 s HE H0 HR) as O.
  destruct (or_nodes _ O n x Ex) as [(l & A)|[A|A]]; [|contradiction|contradiction].
  destruct (h_paid _ _ (reach_history E s0 s HE H0 HR)) as [B|B]; [contradiction|].
  eapply C22_scheduled_once_partial; try eassumption. exact (B (OSched n l) A).
Qed.

(** ** C25: every import statement becomes an edge *)

(** Statement [i] of node [n] has its edge. *)
Definition import_edge (s : st) (n : string) (i : iinfo) : Prop :=
  (exists b name m, pkg_node s n b /\ imports_name n b i name /\ resolves s name m
     /\ has_edge (s_graph s) n m (import_dep i))
  \/ (exists b, pkg_node s n b /\ beyond_top n b i /\ kind_of s (invalid_name i) = Some InvalidRelativeImport
     /\ has_edge (s_graph s) n (invalid_name i) (invalid_dep i)).

Definition C25_statement : Prop := forall E s0 s fuel a ans s',
  order_ok E -> start s0 -> reach E s0 s -> top_call E fuel a s = Some (ans, s') ->
  draining a = true -> ok_answer ans = true ->
  forall n l i, In (EvAdd n l) (s_log s') -> In i l -> import_edge s' n i.

(** The same history: the import of [x] in [q.p] is lost. *)
Theorem C25_refuted : ~ C25_statement.
Proof.
  intros H. set (i := IInfo (IName "x" None) 0 [] false false false false).
  assert (K : import_edge broken_next "q.p" i).
  { apply (H broken_world new broken 60 (AAddModule "m") (AnsId "m") broken_next
      (world_order _ _ _) new_start broken_reach broken_call eq_refl eq_refl "q.p" [i]); [cbn; intuition|now left]. }
  destruct K as [(b & name & m & _ & _ & _ & ds & K & _)|(b & _ & _ & _ & ds & K & _)]; exact K.
Qed.

Lemma done_import_edge E s0 s n i : order_ok E -> start s0 -> reach E s0 s ->
  In (EvDone (DoImport n i)) (s_log s) -> import_edge s n i.
Proof.
  intros HE H0 HR H. apply (f_results _ (reach_facts E s0 s HE H0 HR)) in H. cbn in H.
  destruct H as [(b & A1 & A2 & A3 & A4)|(m & (b & name & A1 & A2 & A3) & B & _)]; [right|left].
  - exists b. auto.
  - exists b, name, m. auto.
Qed.

(** For every statement that was handed to the work stack, also after exceptions:
    its edge is there unless processing that statement itself raised. *)
Theorem C25_scheduled_partial : forall E s0 s n i,
  order_ok E -> start s0 -> reach E s0 s -> s_stack s = [] -> scheduled s n i ->
  import_edge s n i \/ In (EvFail (DoImport n i)) (s_log s).
Proof.
  intros E s0 s n i HE H0 HR Z (l & A & B).
  destruct (f_entered _ (reach_facts E s0 s HE H0 HR)) as (T & _ & _).
  destruct (proj1 (at_rest E s0 s HE H0 HR Z) _ (T n l i A B)) as [K|K]; [left|now right].
  eapply done_import_edge; eassumption.
Qed.

(** For every statement of a node that was made by a call without exception. *)
Theorem C25_call_partial : forall E s0 s fuel a ans s',
  order_ok E -> start s0 -> reach E s0 s -> top_call E fuel a s = Some (ans, s') ->
  draining a = true -> ok_answer ans = true -> no_exception s s' ->
  forall n l i, In (EvAdd n l) (s_log s') -> ~ in_graph s n -> In i l -> import_edge s' n i.
Proof.
  intros E s0 s fuel a ans s' HE H0 HR HC D O N n l i A Hn Hi.
  pose proof (reach_call E s0 s fuel a ans s' HR HC) as R'.
  pose proof (call_pays E s0 s fuel a ans s' HE H0 HR HC N) as P.
  destruct (C25_scheduled_partial E s0 s' n i HE H0 R') as [K|K].
  - eapply top_call_drains; eassumption.
  - exists l. split; [|exact Hi]. apply (P (OSched n l)); [exact A|]. intros K. apply Hn.
    eapply (h_linv _ _ (reach_history E s0 s HE H0 HR)). exact K.
  - exact K.
  - exfalso. apply (P (OFail (DoImport n i)) K). intros F. cbn in F.
    apply (f_legit _ (reach_facts E s0 s HE H0 HR) _ (DoImport n i)) in F; [|right; now right].
    destruct F as [(l' & F & _) _]. apply Hn.
    now apply (inv_sched _ _ (h_inv _ _ (reach_history E s0 s HE H0 HR)) n l').
Qed.

(** For every statement of every node, as long as nothing has raised. *)
Theorem C25_import_edges_partial : forall E s0 s,
  order_ok E -> start s0 -> user_reach E s0 s -> ~ In EvErr (s_log s) ->
  forall n l i, In (EvAdd n l) (s_log s) -> In i l -> import_edge s n i.
Proof.
  intros E s0 s HE H0 HU N n l i A B. pose proof (user_is_reach _ _ _ HU) as HR.
  destruct (h_paid _ _ (reach_history E s0 s HE H0 HR)) as [P|P]; [contradiction|].
  destruct (C25_scheduled_partial E s0 s n i HE H0 HR (user_reach_empty E s0 s HE H0 HU N)) as [K|K].
  - exists l. split; [exact (P (OSched n l) A)|exact B].
  - exact K.
  - destruct (P (OFail (DoImport n i)) K).
Qed.

(** ** C26: no dependency is invented *)

Theorem C26_edges_justified : forall E s0 s a b d,
  order_ok E -> start s0 -> reach E s0 s -> has_edge (s_graph s) a b d -> justified s a b d.
Proof. intros E s0 s a b d HE H0 HR. apply (or_edges _ (reach_origins E s0 s HE H0 HR)). Qed.

(** ** C28: a submodule is linked to its package *)

(** Nodes that have to be linked: made by the builder, and neither scripts,
    invalid relative imports nor missing. *)
Definition linked_kind (k : kind) : Prop :=
  k <> Script /\ k <> InvalidRelativeImport /\ k <> MissingModule.

Definition package_edge (s : st) (id c : string) : Prop :=
  exists p, resolves s c p /\ in_graph s p /\ has_edge (s_graph s) id p (Dep false true false None).

Definition C28_statement : Prop := forall E s0 s fuel a ans s',
  order_ok E -> start s0 -> reach E s0 s -> top_call E fuel a s = Some (ans, s') ->
  draining a = true -> ok_answer ans = true ->
  forall id c k, built s' id -> kind_of s' id = Some k -> linked_kind k -> child_of c id -> package_edge s' id c.

Theorem C28_refuted : ~ C28_statement.
Proof.
  intros H. assert (K : package_edge broken_next "q.p" "q").
  { apply (H broken_world new broken 60 (AAddModule "m") (AnsId "m") broken_next
      (world_order _ _ _) new_start broken_reach broken_call eq_refl eq_refl "q.p" "q"
      (Package false "q.p" MSource (Some "q.p/__init__.py") (Some "pkgutil"))).
    - exists (Package false "q.p" MSource (Some "q.p/__init__.py") (Some "pkgutil")).
      split; [vm_compute; reflexivity|]. split; [discriminate|]. cbn. intuition discriminate.
    - vm_compute. reflexivity.
    - split; [discriminate|]. split; discriminate.
    - apply (child_plain "q" "p"); [discriminate|reflexivity]. }
  destruct K as (p & _ & _ & ds & K & _). exact K.
Qed.

Lemma edge_ends E s0 s a b d : order_ok E -> start s0 -> reach E s0 s -> has_edge (s_graph s) a b d ->
  in_graph s a /\ in_graph s b.
Proof.
  intros HE H0 HR (ds & A & _). apply (wf_ends _ (f_wf _ (reach_facts E s0 s HE H0 HR))) in A.
  unfold in_graph. now rewrite !gfind_ids.
Qed.

Theorem C28_call_partial : forall E s0 s fuel a ans s',
  order_ok E -> start s0 -> reach E s0 s -> top_call E fuel a s = Some (ans, s') -> no_exception s s' ->
  forall id c k, built s' id -> ~ in_graph s id -> kind_of s' id = Some k -> linked_kind k -> child_of c id ->
    package_edge s' id c.
Proof.
  intros E s0 s fuel a ans s' HE H0 HR HC N id c k Hb Hn Hk (L1 & L2 & L3) Hc.
  pose proof (reach_call E s0 s fuel a ans s' HR HC) as R'.
  destruct (call_pays E s0 s fuel a ans s' HE H0 HR HC N (OLink id c)) as (p & A & B).
  - split; [eapply built_added; eassumption|]. split; [exact Hc|]. exists k. split; [exact Hk|].
    destruct k; try reflexivity; congruence.
  - intros ((l & K) & _). apply Hn. eapply (h_linv _ _ (reach_history E s0 s HE H0 HR)). exact K.
  - exists p. split; [exact A|]. split; [|exact B]. now apply (edge_ends E s0 s' _ _ _ HE H0 R') in B.
Qed.

Theorem C28_package_edges_partial : forall E s0 s,
  order_ok E -> start s0 -> reach E s0 s -> ~ In EvErr (s_log s) ->
  forall id c k, built s id -> kind_of s id = Some k -> linked_kind k -> child_of c id -> package_edge s id c.
Proof.
  intros E s0 s HE H0 HR N id c k Hb Hk (L1 & L2 & L3) Hc.
  destruct (h_paid _ _ (reach_history E s0 s HE H0 HR)) as [P|P]; [contradiction|].
  destruct (P (OLink id c)) as (p & A & B).
  - split; [eapply built_added; eassumption|]. split; [exact Hc|]. exists k. split; [exact Hk|].
    destruct k; try reflexivity; congruence.
  - exists p. split; [exact A|]. split; [|exact B]. now apply (edge_ends E s0 s _ _ _ HE H0 HR) in B.
Qed.

(** ** C31: alias and virtual nodes lead to their target *)

Definition C31_statement : Prop := forall E s0 s fuel a ans s',
  order_ok E -> start s0 -> reach E s0 s -> top_call E fuel a s = Some (ans, s') ->
  draining a = true -> ok_answer ans = true ->
  forall id t, built s' id -> kind_of s' id = Some (AliasNode t) \/ kind_of s' id = Some (VirtualNode t) ->
    package_edge s' id t.

Definition alias_world : env := world [("t", EFail EInterrupt); ("m", ESource false [] [])] [] [].
Definition alias_new : st := init [("a", ImpAlias "t")] [] [].
Definition alias_broken : st := Eval vm_compute in snd (the_calls alias_world [AAddModule "a"] alias_new).
Definition alias_next : st := Eval vm_compute in snd (the_calls alias_world [AAddModule "m"] alias_broken).

Theorem C31_refuted : ~ C31_statement.
Proof.
  intros H. assert (K : package_edge alias_next "a" "t").
  { apply (H alias_world alias_new alias_broken 60 (AAddModule "m") (AnsId "m") alias_next).
    - apply world_order.
    - now exists [("a", ImpAlias "t")], [], [].
    - apply (ran _ [AAddModule "a"]). vm_compute. reflexivity.
    - vm_compute. reflexivity.
    - reflexivity.
    - reflexivity.
    - exists (AliasNode "t"). split; [reflexivity|]. split; [discriminate|]. cbn. intuition discriminate.
    - left. reflexivity. }
  destruct K as (p & _ & _ & ds & K & _). exact K.
Qed.

Theorem C31_call_partial : forall E s0 s fuel a ans s',
  order_ok E -> start s0 -> reach E s0 s -> top_call E fuel a s = Some (ans, s') -> no_exception s s' ->
  forall id t, built s' id -> ~ in_graph s id ->
    kind_of s' id = Some (AliasNode t) \/ kind_of s' id = Some (VirtualNode t) -> package_edge s' id t.
Proof.
  intros E s0 s fuel a ans s' HE H0 HR HC N id t Hb Hn Hk.
  pose proof (reach_call E s0 s fuel a ans s' HR HC) as R'.
  destruct (call_pays E s0 s fuel a ans s' HE H0 HR HC N (OTarget id t)) as (p & A & B).
  - split; [eapply built_added; eassumption|exact Hk].
  - intros ((l & K) & _). apply Hn. eapply (h_linv _ _ (reach_history E s0 s HE H0 HR)). exact K.
  - exists p. split; [exact A|]. split; [|exact B]. now apply (edge_ends E s0 s' _ _ _ HE H0 R') in B.
Qed.

Theorem C31_target_edges_partial : forall E s0 s,
  order_ok E -> start s0 -> reach E s0 s -> ~ In EvErr (s_log s) ->
  forall id t, built s id -> kind_of s id = Some (AliasNode t) \/ kind_of s id = Some (VirtualNode t) ->
    package_edge s id t.
Proof.
  intros E s0 s HE H0 HR N id t Hb Hk.
  destruct (h_paid _ _ (reach_history E s0 s HE H0 HR)) as [P|P]; [contradiction|].
  destruct (P (OTarget id t)) as (p & A & B).
  - split; [eapply built_added; eassumption|exact Hk].
  - exists p. split; [exact A|]. split; [|exact B]. now apply (edge_ends E s0 s _ _ _ HE H0 HR) in B.
Qed.

(** ** C35: exceptions do not corrupt later work *)

(** Whatever a call raised, the graph is well formed; of the items that were
    waiting (of every sort [f], counted with multiplicity) the ones that were not
    started are still waiting; the next successful call ends all that wait, and
    if no exception occurs during that call all of them are completed. *)
Theorem C35_pending_survives : forall E s0 s fuel a e s1,
  order_ok E -> start s0 -> reach E s0 s -> top_call E fuel a s = Some (AnsErr e, s1) ->
  well_formed (s_graph s1)
  /\ (forall f, count f (s_stack s) + count (popped f) (s_log s) <= count f (s_stack s1) + count (popped f) (s_log s1))
  /\ forall fuel' a' ans s2, top_call E fuel' a' s1 = Some (ans, s2) -> draining a' = true -> ok_answer ans = true ->
       well_formed (s_graph s2) /\ s_stack s2 = []
       /\ (forall f, count f (s_stack s1) + count (over f) (s_log s1) <= count (over f) (s_log s2))
       /\ (no_exception s1 s2 -> forall w, In (EvFail w) (s_log s2) -> In (EvFail w) (s_log s1)).
Proof.
  intros E s0 s fuel a e s1 HE H0 HR HC.
  pose proof (reach_call E s0 s fuel a _ s1 HR HC) as R1.
  destruct (reach_saved E s0 s1 HE H0 R1) as [Ru1 Sv1].
  split; [exact (C20_well_formed E s0 s1 HE H0 R1)|]. split.
  - intros f.
    destruct (top_call_chain true E (fun l x => proj1 (HE l x)) fuel a s _ s1
      (h_inv _ _ (reach_history E s0 s HE H0 HR)) (or_introl eq_refl) (all_act_ok a) HC) as [C _].
    apply (chain_keeps _ _ f) in C. unfold pend in C.
    rewrite Sv1, (proj2 (reach_saved E s0 s HE H0 HR)), !app_nil_r in C. exact C.
  - intros fuel' a' ans s2 HC2 D O. pose proof (reach_call E s0 s1 fuel' a' _ s2 R1 HC2) as R2.
    destruct (reach_saved E s0 s2 HE H0 R2) as [Ru2 Sv2].
    split; [exact (C20_well_formed E s0 s2 HE H0 R2)|].
    pose proof (top_call_drains E fuel' a' s1 ans s2 HC2 D O) as Z. split; [exact Z|]. split.
    + intros f.
      destruct (top_call_chain true E (fun l x => proj1 (HE l x)) fuel' a' s1 _ s2
        (h_inv _ _ (reach_history E s0 s1 HE H0 R1)) (or_introl eq_refl) (all_act_ok a') HC2) as [C _].
      apply (chain_keeps _ _ f) in C. unfold pend in C. rewrite Sv1, Sv2, Z, !app_nil_r in C. cbn in C.
      pose proof (f_balanced _ (reach_facts E s0 s1 HE H0 R1) f) as B1.
      pose proof (f_balanced _ (reach_facts E s0 s2 HE H0 R2) f) as B2.
      unfold balanced in *. rewrite Ru1 in B1. rewrite Ru2 in B2. cbn in B1, B2. lia.
    + intros N w Hw. destruct (top_call_closes E fuel' a' s1 ans s2 (h_linv _ _ (reach_history E s0 s1 HE H0 R1)) HC2)
        as (_ & _ & [K|K]); [unfold erred, no_exception in *; lia|].
      destruct (K (OFail w) Hw) as [[]|[X|[]]]. exact X.
Qed.

(** ** Examples: the hypotheses are met by histories in which something happens *)

Fixpoint user_calls_of (l : list action) : bool :=
  match l with [] => true | a :: r => user_call a && user_calls_of r end.
Lemma calls_user E fuel l : forall s0 s anss s', user_calls_of l = true ->
  user_reach E s0 s -> calls E fuel l s = Some (anss, s') -> user_reach E s0 s'.
Proof.
  induction l as [|a l IH]; intros s0 s anss s' U R H; cbn in H.
  - now injection H as <- <-.
  - cbn in U. apply andb_true_iff in U as [U1 U2].
    destruct (top_call E fuel a s) as [[ans s1]|] eqn:E1; [|discriminate].
    destruct (calls E fuel l s1) as [[anss' s2]|] eqn:E2; [|discriminate]. injection H as <- <-.
    eapply IH; [exact U2| |exact E2]. eapply user_more; eassumption.
Qed.

(** A package with an import cycle, a relative import, a star import, an import
    that leaves the top level package, a missing module, an alias and an
    implied reference; and a script. *)
Definition good_world : env := world
  [("p", ESource true [from "a" ["f"] 1; imp "nope"] ["g"]);
   ("p.a", ESource false [AImportFrom None [("b", Some "bb")] 1; imp "p"] ["f"]);
   ("p.b", ESource false [from "p" ["*"] 0; AIf [imp "al"]; from "zz" [] 3] []);
   ("t", ESource false [AFunctionDef [imp "p.b"]] [])]
  [("main.py", [imp "p.b"])] [].
Definition good_new : st := init [("al", ImpAlias "t"); ("t", ImpRefs ["extra"])] [] [].
Definition good_actions : list action := [AAddScript "main.py"; AAddModule "t"; AAddModule "no.such"].
Definition good : st := Eval vm_compute in snd (the_calls good_world good_actions good_new).

Lemma good_user : user_reach good_world good_new good.
Proof.
  apply (calls_user good_world 60 good_actions good_new good_new
    [AnsId "main.py"; AnsId "t"; AnsId "no.such"]); [reflexivity|apply user_init|]. vm_compute. reflexivity.
Qed.

Example C19_to_C35_nonvacuous :
  start good_new /\ user_reach good_world good_new good /\ ~ In EvErr (s_log good)
  /\ map fst (node_list good) =
       ["main.py"; "p"; "p.b"; "al"; "t"; "extra"; "...zz"; "nope"; "p.a"; "no"; "no.such"]
  /\ edge_pairs good =
       [("p.b", "p"); ("main.py", "p.b"); ("t", "extra"); ("al", "t"); ("p.b", "al"); ("t", "p.b");
        ("p.b", "...zz"); ("p", "nope"); ("p.a", "p"); ("p", "p.a"); ("p.a", "p.b"); ("no.such", "no")]
  /\ g_roots (s_graph good) = ["main.py"; "t"; "no.such"]
  /\ map (fun n => hook_calls (fst n) good) (node_list good) = [1; 1; 1; 1; 1; 1; 1; 1; 1; 1; 1].
Proof.
  split; [now eexists _, _, _|]. split; [exact good_user|]. 
  split; [vm_compute; intuition discriminate|].
  repeat split; vm_compute; reflexivity.
Qed.

(** After the exception in [broken] (see C22) work is pending; the next call does it. *)
Example C35_nonvacuous :
  top_call broken_world 60 (AAddModule "q.p") new = Some (AnsErr EInterrupt, broken)
  /\ s_stack broken = [DoPost "q"]
  /\ top_call broken_world 60 (AAddModule "m") broken = Some (AnsId "m", broken_next)
  /\ no_exception broken broken_next /\ hook_calls "q" broken_next = 1.
Proof. repeat split; vm_compute; reflexivity. Qed.

Print Assumptions C19_only_adds.
Print Assumptions C20_well_formed.
Print Assumptions C20_refused.
Print Assumptions C21_at_most_once.
Print Assumptions C22_refuted.
Print Assumptions C22_no_work_left_partial.
Print Assumptions C22_scheduled_once_partial.
Print Assumptions C22_call_partial.
Print Assumptions C22_post_processed_partial.
Print Assumptions C25_refuted.
Print Assumptions C25_scheduled_partial.
Print Assumptions C25_call_partial.
Print Assumptions C25_import_edges_partial.
Print Assumptions C26_edges_justified.
Print Assumptions C28_refuted.
Print Assumptions C28_call_partial.
Print Assumptions C28_package_edges_partial.
Print Assumptions C31_refuted.
Print Assumptions C31_call_partial.
Print Assumptions C31_target_edges_partial.
Print Assumptions C35_pending_survives.
