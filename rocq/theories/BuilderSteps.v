(** What building the graph can do to the state: primitive steps. *)
From Verif Require Export BuilderNames.

(** ** Growing states *)

Definition same_node (n n' : node) : Prop :=
  n_name n' = n_name n /\ n_kind n' = n_kind n /\ n_read n' = n_read n /\ n_dist n' = n_dist n
  /\ n_file n' = n_file n /\ n_search n' = n_search n /\ n_data n' = n_data n
  /\ incl (n_written n) (n_written n').

Record grows_graph (g g' : graph) : Prop := {
  gr_nodes : forall id n, gfind g id = Some n -> exists n', gfind g' id = Some n' /\ same_node n n';
  gr_edges : forall a b ds, In (a, b, ds) (g_edges g) -> exists ds', In (a, b, ds') (g_edges g') /\ incl ds ds';
  gr_roots : incl (g_roots g) (g_roots g')
}.

Record grows (s s' : st) : Prop := {
  gw_graph : grows_graph (s_graph s) (s_graph s');
  gw_log : exists l, s_log s' = l ++ s_log s;
  gw_seen : incl (s_seen s) (s_seen s');
  gw_post : exists l, s_post s' = l ++ s_post s;
  gw_missing : exists l, s_missing s' = l ++ s_missing s
}.

Lemma same_node_refl n : same_node n n.
Proof. unfold same_node. do 7 (split; [reflexivity|]). apply incl_refl. Qed.
Lemma same_node_trans a b c : same_node a b -> same_node b c -> same_node a c.
Proof.
  intros (H1&H2&H3&H4&H5&H6&H7&H8) (K1&K2&K3&K4&K5&K6&K7&K8). unfold same_node.
  do 7 (split; [congruence|]). eapply incl_tran; eassumption.
Qed.

Lemma grows_graph_refl g : grows_graph g g.
Proof.
  constructor; [|intros a b ds H; exists ds; split; [exact H|apply incl_refl]|apply incl_refl].
  intros id n H. exists n. split; [exact H|apply same_node_refl].
Qed.
Lemma grows_graph_trans a b c : grows_graph a b -> grows_graph b c -> grows_graph a c.
Proof.
  intros [H1 H2 H3] [K1 K2 K3]. constructor.
  - intros id n H. apply H1 in H as [n1 [A B]]. apply K1 in A as [n2 [C D]].
    exists n2. split; [exact C|]. eapply same_node_trans; eassumption.
  - intros x y ds H. apply H2 in H as [d1 [A B]]. apply K2 in A as [d2 [C D]].
    exists d2. split; [exact C|]. eapply incl_tran; eassumption.
  - eapply incl_tran; eassumption.
Qed.

Lemma app_ext_trans {A} (a b c : list A) :
  (exists l, b = l ++ a) -> (exists l, c = l ++ b) -> exists l, c = l ++ a.
Proof. intros [l ->] [l' ->]. exists (l' ++ l). now rewrite app_assoc. Qed.

Lemma grows_refl s : grows s s.
Proof. constructor; try (now exists []); [apply grows_graph_refl|apply incl_refl]. Qed.
Lemma grows_trans a b c : grows a b -> grows b c -> grows a c.
Proof.
  intros [H1 H2 H3 H4 H5] [K1 K2 K3 K4 K5]. constructor.
  - eapply grows_graph_trans; eassumption.
  - eapply app_ext_trans; eassumption.
  - eapply incl_tran; eassumption.
  - eapply app_ext_trans; eassumption.
  - eapply app_ext_trans; eassumption.
Qed.

(** ** Primitive graph changes only add *)

Lemma gfind_app g n id : gfind (Graph (g_nodes g ++ [n]) (g_edges g) (g_roots g)) id =
  match gfind g id with Some x => Some x | None => if seqb (n_name n) id then Some n else None end.
Proof.
  unfold gfind. cbn [g_nodes]. induction (g_nodes g) as [|x l IH]; [reflexivity|].
  cbn. destruct (seqb (n_name x) id); [reflexivity|exact IH].
Qed.

Lemma gadd_node_spec g n g' : gadd_node g n = ROk g' ->
  gfind g (n_name n) = None /\ g' = Graph (g_nodes g ++ [n]) (g_edges g) (g_roots g).
Proof.
  unfold gadd_node, ghas. destruct (gfind g (n_name n)) eqn:E; intros H; [discriminate|].
  injection H as <-. now split.
Qed.

Lemma grows_add_node g n : grows_graph g (Graph (g_nodes g ++ [n]) (g_edges g) (g_roots g)).
Proof.
  constructor; cbn [g_nodes g_edges g_roots]; [|intros a b ds H; exists ds; split; [exact H|apply incl_refl]|apply incl_refl].
  intros id x H. exists x. rewrite gfind_app, H. split; [reflexivity|apply same_node_refl].
Qed.

Lemma dep_add_In d d' l : In d' (dep_add d l) -> d' = d \/ In d' l.
Proof.
  unfold dep_add. destruct (existsb _ l); intros H; [now right|].
  apply in_app_iff in H as [H|[->|[]]]; auto.
Qed.
Lemma opt_eqb_eq a b : opt_eqb a b = true <-> a = b.
Proof.
  destruct a, b; cbn; split; intros H; try discriminate; try reflexivity.
  - apply seqb_eq in H. now subst.
  - injection H as ->. now apply seqb_eq.
Qed.
Lemma dep_eqb_eq a b : dep_eqb a b = true <-> a = b.
Proof.
  unfold dep_eqb. destruct a as [a1 a2 a3 a4], b as [b1 b2 b3 b4]. cbn. split.
  - intros H. apply andb_true_iff in H as [H H4]. apply andb_true_iff in H as [H H3].
    apply andb_true_iff in H as [H1 H2]. apply Bool.eqb_prop in H1, H2, H3.
    apply opt_eqb_eq in H4. now subst.
  - intros H. injection H as -> -> -> ->. rewrite !Bool.eqb_reflx. cbn. now apply opt_eqb_eq.
Qed.
Lemma dep_add_self d l : In d (dep_add d l).
Proof.
  unfold dep_add. destruct (existsb (dep_eqb d) l) eqn:E.
  - apply existsb_exists in E as [x [H E]]. apply dep_eqb_eq in E. now subst.
  - apply in_app_iff. right. now left.
Qed.
Lemma dep_add_incl d l : incl l (dep_add d l).
Proof. intros x H. unfold dep_add. destruct (existsb _ l); [exact H|]. apply in_app_iff. now left. Qed.

Lemma edges_add_incl l s t d : forall a b ds, In (a, b, ds) l ->
  exists ds', In (a, b, ds') (edges_add l s t d) /\ incl ds ds'.
Proof.
  induction l as [|[[s' t'] ds0] l IH]; intros a b ds H; [destruct H|]. cbn.
  destruct (seqb s s' && seqb t t') eqn:E.
  - destruct H as [H|H].
    + injection H as -> -> ->. exists (dep_add d ds). split; [now left|apply dep_add_incl].
    + exists ds. split; [now right|apply incl_refl].
  - destruct H as [H|H].
    + injection H as -> -> ->. exists ds. split; [now left|apply incl_refl].
    + apply IH in H as [ds' [A B]]. exists ds'. split; [now right|exact B].
Qed.
Lemma edges_add_self l s t d : exists ds, In (s, t, ds) (edges_add l s t d) /\ In d ds.
Proof.
  induction l as [|[[s' t'] ds0] l IH]; cbn.
  - exists [d]. split; now left.
  - destruct (seqb s s' && seqb t t') eqn:E.
    + apply andb_true_iff in E as [E1 E2]. apply seqb_eq in E1, E2. subst.
      exists (dep_add d ds0). split; [now left|apply dep_add_self].
    + destruct IH as [ds [A B]]. exists ds. split; [now right|exact B].
Qed.
(** the only new thing is the edge itself *)
Lemma edges_add_inv l s t d : forall a b ds, In (a, b, ds) (edges_add l s t d) ->
  forall x, In x ds -> (a = s /\ b = t /\ x = d) \/ exists ds0, In (a, b, ds0) l /\ In x ds0.
Proof.
  induction l as [|[[s' t'] ds0] l IH]; cbn; intros a b ds H x Hx.
  - destruct H as [H|[]]. injection H as <- <- <-. destruct Hx as [<-|[]]. left. auto.
  - destruct (seqb s s' && seqb t t') eqn:E.
    + apply andb_true_iff in E as [E1 E2]. apply seqb_eq in E1, E2. subst.
      destruct H as [H|H].
      * injection H as <- <- <-. apply dep_add_In in Hx as [->|Hx]; [now left|].
        right. exists ds0. split; [now left|exact Hx].
      * right. exists ds. split; [now right|exact Hx].
    + destruct H as [H|H].
      * injection H as <- <- <-. right. exists ds0. split; [now left|exact Hx].
      * destruct (IH a b ds H x Hx) as [K|[d0 [K1 K2]]]; [now left|].
        right. exists d0. split; [now right|exact K2].
Qed.

Lemma gadd_edge_spec g a b d g' : gadd_edge g a b d = ROk g' ->
  gfind g a <> None /\ gfind g b <> None /\ g' = Graph (g_nodes g) (edges_add (g_edges g) a b d) (g_roots g).
Proof.
  unfold gadd_edge, ghas. destruct (gfind g a) eqn:E; cbn; [|discriminate].
  destruct (gfind g b) eqn:E'; [|discriminate]. intros H. injection H as <-.
  repeat split; congruence.
Qed.
Lemma grows_add_edge g a b d : grows_graph g (Graph (g_nodes g) (edges_add (g_edges g) a b d) (g_roots g)).
Proof.
  constructor; cbn [g_nodes g_edges g_roots].
  - intros id n H. exists n. split; [exact H|apply same_node_refl].
  - intros x y ds H. now apply edges_add_incl.
  - apply incl_refl.
Qed.
Lemma gadd_root_spec g id g' : gadd_root g id = ROk g' ->
  gfind g id <> None /\ g' = Graph (g_nodes g) (g_edges g) (set_add id (g_roots g)).
Proof.
  unfold gadd_root, ghas. destruct (gfind g id) eqn:E; [|discriminate].
  intros H. injection H as <-. split; [congruence|reflexivity].
Qed.
Lemma grows_add_root g id : grows_graph g (Graph (g_nodes g) (g_edges g) (set_add id (g_roots g))).
Proof.
  constructor; cbn [g_nodes g_edges g_roots].
  - intros x n H. exists n. split; [exact H|apply same_node_refl].
  - intros x y ds H. exists ds. split; [exact H|apply incl_refl].
  - intros x H. apply set_add_In. now right.
Qed.
Lemma upd_written_name id names n : n_name (upd_written id names n) = n_name n.
Proof. unfold upd_written. destruct (seqb _ _); reflexivity. Qed.
Lemma gfind_written g id names x : gfind (gadd_written g id names) x = option_map (upd_written id names) (gfind g x).
Proof.
  unfold gfind, gadd_written. cbn [g_nodes]. induction (g_nodes g) as [|n l IH]; [reflexivity|].
  cbn. rewrite upd_written_name. destruct (seqb (n_name n) x); [reflexivity|exact IH].
Qed.
Lemma upd_written_same id names n : same_node n (upd_written id names n).
Proof.
  unfold upd_written. destruct (seqb (n_name n) id); [|apply same_node_refl].
  unfold same_node. cbn. do 7 (split; [reflexivity|]). intros x H. apply set_union_In. now left.
Qed.
Lemma grows_written g id names : grows_graph g (gadd_written g id names).
Proof.
  constructor.
  - intros x n H. exists (upd_written id names n). rewrite gfind_written, H. split; [reflexivity|apply upd_written_same].
  - intros x y ds H. exists ds. split; [exact H|apply incl_refl].
  - apply incl_refl.
Qed.

(** ** Stability of the specifications *)

Lemma gfind_name g id n : gfind g id = Some n -> n_name n = id.
Proof. unfold gfind. intros H. apply find_some in H as [_ H]. now apply seqb_eq in H. Qed.

Lemma grows_in_graph s s' id : grows s s' -> in_graph s id -> in_graph s' id.
Proof.
  intros G. unfold in_graph. destruct (gfind (s_graph s) id) as [n|] eqn:E; [|congruence].
  intros _. apply (gr_nodes _ _ (gw_graph _ _ G)) in E as [n' [E _]]. congruence.
Qed.
Lemma grows_kind s s' id k : grows s s' -> kind_of s id = Some k -> kind_of s' id = Some k.
Proof.
  intros G. unfold kind_of. destruct (gfind (s_graph s) id) as [n|] eqn:E; [|discriminate].
  intros H. apply (gr_nodes _ _ (gw_graph _ _ G)) in E as [n' [E S]]. rewrite E. cbn in *.
  destruct S as (_&S&_). congruence.
Qed.
Lemma grows_edge s s' a b d : grows s s' -> has_edge (s_graph s) a b d -> has_edge (s_graph s') a b d.
Proof.
  intros G [ds [H1 H2]]. apply (gr_edges _ _ (gw_graph _ _ G)) in H1 as [ds' [A B]].
  exists ds'. split; [exact A|]. now apply B.
Qed.
Lemma grows_log s s' e : grows s s' -> In e (s_log s) -> In e (s_log s').
Proof. intros G H. destruct (gw_log _ _ G) as [l ->]. apply in_app_iff. now right. Qed.
Lemma grows_resolves s s' x y : grows s s' -> resolves s x y -> resolves s' x y.
Proof. intros G [H|H]; [now left|right]. eapply grows_log; eassumption. Qed.
Lemma grows_scheduled s s' n i : grows s s' -> scheduled s n i -> scheduled s' n i.
Proof. intros G [l [H1 H2]]. exists l. split; [|exact H2]. eapply grows_log; eassumption. Qed.
Lemma grows_pkg_node s s' n b : grows s s' -> pkg_node s n b -> pkg_node s' n b.
Proof. intros G [k [H1 H2]]. exists k. split; [|exact H2]. eapply grows_kind; eassumption. Qed.
Lemma grows_target s s' n i m : grows s s' -> import_target s n i m -> import_target s' n i m.
Proof.
  intros G (b & name & H1 & H2 & H3). exists b, name. split; [|split; [exact H2|]].
  - eapply grows_pkg_node; eassumption.
  - eapply grows_resolves; eassumption.
Qed.
Lemma grows_source s s' n i m : grows s s' -> names_source s n i m -> names_source s' n i m.
Proof.
  intros G (m0 & H1 & H2). exists m0. split; [eapply grows_target; eassumption|].
  destruct H2 as [H2|H2]; [now left|right]. eapply grows_kind; eassumption.
Qed.
Lemma grows_provides s s' m nm t : grows s s' -> provides (s_graph s) m nm t -> provides (s_graph s') m nm t.
Proof.
  intros G (ds & H1 & H2). apply (gr_edges _ _ (gw_graph _ _ G)) in H1 as [ds' [A B]].
  exists ds'. split; [exact A|]. destruct H2 as [[d [H2 H3]]|H2]; [left; exists d; split; [now apply B|exact H3]|now right].
Qed.
Lemma grows_global s s' m x : grows s s' -> has_global s m x -> has_global s' m x.
Proof.
  intros G (nd & A & B & C). apply (gr_nodes _ _ (gw_graph _ _ G)) in A as (nd' & A & S).
  destruct S as (_ & S2 & _ & _ & _ & _ & _ & S8). exists nd'. rewrite S2. split; [exact A|]. split; [exact B|]. now apply S8.
Qed.
Lemma grows_hooked s s'  (P P' : Prop) : grows s s' -> (P -> P') -> not_hooked s P -> not_hooked s' P'.
Proof.
  intros G HP [H|H]; [left|right; auto]. destruct (gw_missing _ _ G) as [l ->].
  intros E. apply app_eq_nil in E as [_ E]. congruence.
Qed.
Lemma grows_parent_fine s s' name : grows s s' -> parent_fine s name -> parent_fine s' name.
Proof.
  intros G. unfold parent_fine. apply grows_hooked; [exact G|].
  intros H c Hc. destruct (H c Hc) as (k & H1 & H2). exists k. split; [|exact H2].
  eapply grows_kind; eassumption.
Qed.
Lemma grows_nodup_dist s s' id d : grows s s' ->
  (exists nd, gfind (s_graph s) id = Some nd /\ n_kind nd = Distribution /\ n_dist nd = Some d) ->
  (exists nd, gfind (s_graph s') id = Some nd /\ n_kind nd = Distribution /\ n_dist nd = Some d).
Proof.
  intros G (nd & H1 & H2 & H3). apply (gr_nodes _ _ (gw_graph _ _ G)) in H1 as [n' [E S]].
  exists n'. destruct S as (_&S2&_&S4&_). repeat split; congruence.
Qed.

Lemma grows_justified s s' a b d : grows s s' -> justified s a b d -> justified s' a b d.
Proof.
  intros G J. destruct J.
  - apply j_import; [eapply grows_scheduled|eapply grows_target]; eassumption.
  - eapply j_beyond; [eapply grows_scheduled|eapply grows_pkg_node|]; eassumption.
  - eapply j_name; [eapply grows_scheduled|eapply grows_source| | |eapply grows_kind| |eapply grows_resolves]; eassumption.
  - eapply j_reexport; [eapply grows_scheduled|eapply grows_source| | |eapply grows_global|eapply grows_provides]; eassumption.
  - eapply j_six; [eapply grows_scheduled|eapply grows_source| |eapply grows_kind| |eapply grows_resolves]; eassumption.
  - eapply j_parent; [|eapply grows_resolves|eapply grows_resolves]; eassumption.
  - eapply j_member; [eapply grows_scheduled|eapply grows_source| | |eapply grows_kind| |eapply grows_resolves]; eassumption.
  - eapply j_implied; [eapply grows_log| |eapply grows_resolves|eapply grows_resolves]; eassumption.
  - eapply j_alias; [eapply grows_kind|eapply grows_resolves]; eassumption.
  - eapply j_virtual; [eapply grows_kind|eapply grows_resolves]; eassumption.
  - eapply j_nspkg; [eapply grows_kind| |eapply grows_resolves]; eassumption.
  - eapply j_dist; [eapply grows_nodup_dist| |eapply grows_resolves]; eassumption.
  - eapply j_request; [eapply grows_log|eapply grows_resolves]; eassumption.
  - eapply j_edge; eapply grows_log; eassumption.
  - eapply j_listed; [eapply grows_log|eapply grows_resolves]; eassumption.
Qed.
