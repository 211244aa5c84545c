(** Theorems about the reports: C52-C55. *)
From Verif Require Import ReportProofs BuilderInv BuilderHist World.
From Coq Require Import Permutation Sorted.
Open Scope string_scope.

(** Graphs made by the builder satisfy the contract. *)
Lemma reach_sound E s0 s : order_ok E -> start s0 -> reach E s0 s -> sound (s_graph s).
Proof.
  intros HE H0 HR. pose proof (f_wf _ (reach_facts E s0 s HE H0 HR)) as W. constructor.
  - apply W.
  - apply W.
  - apply W.
  - apply W.
Qed.

(** ** C52 *)

(** A distribution of a module node. *)
Definition used_by (l : node -> Prop) (d : dist) : Prop := exists n, l n /\ n_kind n <> Distribution /\ n_dist n = Some d.

Lemma distributions_spec l : forall seen, let out := distributions_from seen l in
  NoDup (map dist_identifier out) /\
  (forall d, In d out -> ~ In (dist_identifier d) seen /\ used_by (fun n => In n l) d) /\
  (forall d, used_by (fun n => In n l) d -> In (dist_identifier d) seen \/ In (dist_identifier d) (map dist_identifier out)).
Proof.
  induction l as [|n l IH]; intros seen; cbn zeta.
  - split; [constructor|]. split; [intros d []|]. intros d (n & [] & _).
  - cbn [distributions_from]. destruct (is_distribution (n_kind n)) eqn:Ek; [|destruct (n_dist n) as [d|] eqn:Ed].
    + destruct (IH seen) as (A & B & C). split; [exact A|]. split.
      * intros d Hd. destruct (B d Hd) as [B1 (m & Hm & B2)]. split; [exact B1|]. exists m. split; [now right|exact B2].
      * intros d (m & [<-|Hm] & K1 & K2); [destruct (n_kind n); try discriminate; contradiction|]. apply C. exists m. auto.
    + destruct (memb (dist_identifier d) seen) eqn:Em.
      * apply memb_In in Em. destruct (IH seen) as (A & B & C). split; [exact A|]. split.
        -- intros x Hx. destruct (B x Hx) as [B1 (m & Hm & B2)]. split; [exact B1|]. exists m. split; [now right|exact B2].
        -- intros x (m & [<-|Hm] & K1 & K2); [left; congruence|]. apply C. exists m. auto.
      * apply memb_false in Em. destruct (IH (set_add (dist_identifier d) seen)) as (A & B & C). cbn [map]. split; [|split].
        -- constructor; [|exact A]. intros K. apply in_map_iff in K as (x & Kx & K). destruct (B x K) as [B1 _]. apply B1. apply set_add_In. now left.
        -- intros x [<-|Hx].
           ++ split; [exact Em|]. exists n. split; [now left|]. split; [|exact Ed]. intros K. now rewrite K in Ek.
           ++ destruct (B x Hx) as [B1 (m & Hm & B2)]. split; [intros K; apply B1, set_add_In; now right|]. exists m. split; [now right|exact B2].
        -- intros x (m & [<-|Hm] & K1 & K2).
           ++ rewrite Ed in K2. injection K2 as <-. right. now left.
           ++ destruct (C x) as [K|K]; [now exists m| |right; now right]. apply set_add_In in K as [K|K]; [right; left; congruence|now left].
    + destruct (IH seen) as (A & B & C). split; [exact A|]. split.
      * intros d Hd. destruct (B d Hd) as [B1 (m & Hm & B2)]. split; [exact B1|]. exists m. split; [now right|exact B2].
      * intros d (m & [<-|Hm] & K1 & K2); [congruence|]. apply C. exists m. auto.
Qed.

(** [reachable] is the argument of the function. *)
Theorem C52_distributions : forall g it (only_reachable : bool), traversal g it ->
  let out := distributions (if only_reachable then it else g_nodes g) in
  let used := used_by (fun n => if only_reachable then reachable g n else In n (g_nodes g)) in
  NoDup (map dist_identifier out) /\ (forall d, In d out -> used d)
  /\ forall d, used d -> In (dist_identifier d) (map dist_identifier out).
Proof.
  intros g it b T out used. destruct (distributions_spec (if b then it else g_nodes g) []) as (A & B & C).
  assert (X : forall n, In n (if b then it else g_nodes g) <-> if b then reachable g n else In n (g_nodes g)).
  { intros n. destruct b; [apply (tr_all _ _ T)|reflexivity]. }
  split; [exact A|]. split.
  - intros d Hd. destruct (B d Hd) as (_ & n & Hn & K). exists n. split; [now apply X|exact K].
  - intros d (n & Hn & K). destruct (C d) as [[]|K']; [|exact K']. exists n. split; [now apply X|exact K].
Qed.
(** In particular, if each identifier stands for one distribution, the values are
    exactly the distributions of the module nodes. *)
Corollary C52_exactly : forall g it (only_reachable : bool), traversal g it ->
  let used := used_by (fun n => if only_reachable then reachable g n else In n (g_nodes g)) in
  (forall d d', used d -> used d' -> dist_identifier d = dist_identifier d' -> d = d') ->
  forall d, In d (distributions (if only_reachable then it else g_nodes g)) <-> used d.
Proof.
  intros g it b T used U d. destruct (C52_distributions g it b T) as (_ & B & C). split; [apply B|]. intros Hd.
  pose proof (C d Hd) as K. apply in_map_iff in K as (d' & K1 & K2). now rewrite (U d d' Hd (B d' K2) (eq_sym K1)).
Qed.

(** ** C53 *)

(** The line for a node. *)
Definition row (n : node) (text : string) : Prop := exists cls a b,
  class_of (n_kind n) cls /\ column 15 cls a /\ column 25 (n_name n) b /\
  text = a ++ " " ++ b ++ " " ++ match n_file n with Some f => f | None => "" end.
Definition heading : list string :=
  [""; "Class           Name                      File"; "-----           ----                      ----"].

Lemma ljust_column w s : column w s (ljust w s).
Proof.
  unfold ljust. exists (w - String.length s). split; [reflexivity|]. rewrite length_app_s, length_repeat. lia.
Qed.

Lemma class_is k : class_of k (class_name k).
Proof. destruct k as [|[]| |[]| | | | | |]; constructor. Qed.
Theorem C53_report : forall g it, traversal g it ->
  exists l rows, report it = (heading ++ rows)%list /\ Forall2 row l rows
  /\ StronglySorted before (map n_name l)
  /\ forall n, In n l <-> reachable g n /\ n_kind n <> Distribution.
Proof.
  intros g it [T1 T2]. set (keep := fun n => negb (is_distribution (n_kind n))).
  exists (filter keep (sorted n_name it)), (map report_line (filter keep (sorted n_name it))). split; [|split; [|split]].
  - unfold report. f_equal. induction (sorted n_name it) as [|m l IH]; [reflexivity|]. cbn [flat_map filter]. rewrite IH.
    unfold keep. destruct (is_distribution (n_kind m)); reflexivity.
  - induction (filter keep (sorted n_name it)) as [|m l IH]; cbn [map]; constructor; [|exact IH].
    exists (class_name (n_kind m)), (ljust 15 (class_name (n_kind m))), (ljust 25 (n_name m)).
    split; [apply class_is|]. split; [apply ljust_column|]. split; [apply ljust_column|]. reflexivity.
  - apply sorted_filter_before. now apply sorted_before.
  - intros n. rewrite filter_In. unfold keep.
    assert (X : In n (sorted n_name it) <-> reachable g n).
    { rewrite <- T2. split; intros K; [eapply Permutation_in; [symmetry; apply sorted_perm|exact K]|eapply Permutation_in; [apply sorted_perm|exact K]]. }
    rewrite X. split; intros [K1 K2]; (split; [exact K1|]).
    + intros K. now rewrite K in K2.
    + destruct (n_kind n); try reflexivity. contradiction.
Qed.

(** The rows are the lines of the file if no name contains a line separator. *)
Definition clean (chars : list ascii) (s : string) : Prop := forall c, In c chars -> no_char c s.
Theorem C53_text : forall g it, traversal g it ->
  (forall n, reachable g n -> clean [newline] (n_name n) /\ forall f, n_file n = Some f -> clean [newline] f) ->
  lines (printed (report it)) = report it.
Proof.
  intros g it [T1 T2] H. apply lines_printed. rewrite Forall_forall. intros x Hx. unfold report in Hx.
  apply in_app_iff in Hx as [Hx|Hx].
  - destruct Hx as [<-|[<-|[<-|[]]]]; reflexivity.
  - apply in_flat_map in Hx as (n & Hn & Hx). destruct (is_distribution (n_kind n)); [destruct Hx|]. destruct Hx as [<-|[]].
    apply (Permutation_in _ (Permutation_sym (sorted_perm n_name it))) in Hn. apply T2 in Hn. destruct (H n Hn) as [H1 H2].
    unfold report_line, table_line, ljust. rewrite !has_char_app, !has_char_repeat. cbn [Ascii.eqb newline Bool.eqb].
    rewrite !andb_false_r. rewrite (proj1 (no_char_has newline (n_name n)) (H1 newline (or_introl eq_refl))).
    assert (F : has_char newline (match n_file n with Some f => f | None => "" end) = false).
    { destruct (n_file n) as [f|]; [|reflexivity]. now apply no_char_has, (H2 f eq_refl newline); left. }
    rewrite F. destruct (n_kind n) as [|[]| |[]| | | | | |]; reflexivity.
Qed.

(** ** C54 *)

Definition C54_statement : Prop := forall g it1 it2, sound g -> traversal g it1 -> traversal g it2 ->
  exists is cs, read_dot (print_dot g it1 it2) = Some (is, cs) /\ shows g is cs.

(** A script with a peculiar path; identifiers are not escaped. *)
Definition quote_path : string := "a" ++ ch dquote ++ " -> " ++ ch dquote ++ "b".
Definition quote_node : node := Node quote_path Script [] [] None (Some quote_path) [] false.
Definition quote_graph : graph := Graph [quote_node] [] [quote_path].
Lemma quote_traversal : traversal quote_graph [quote_node].
Proof.
  constructor; [repeat constructor; intros []|]. intros n. split.
  - intros [<-|[]]. split; [now left|]. apply re_root. now left.
  - intros [H _]. exact H.
Qed.
Theorem C54_refuted : ~ C54_statement.
Proof.
  intros H. destruct (H quote_graph [quote_node] [quote_node]) as (is & cs & H1 & H2); [|apply quote_traversal|apply quote_traversal|].
  - constructor.
    + repeat constructor; intros [].
    + constructor.
    + intros a b ds [].
    + intros id [<-|[]]. now left.
  - vm_compute in H1. injection H1 as <- <-. destruct (proj2 (sh_nodes _ _ _ H2 quote_path)); [apply re_root; now left].
Qed.

(** *** Attributes *)
(** The values of any function for attributes, in the order of their keys. *)
Lemma pieces_pairs l : (forall x, In x l -> has_char comma x = false) -> l <> [] ->
  pieces comma (join ", " l) = match l with [] => [] | x :: r => x :: map (fun y => String " " y) r end.
Proof.
  induction l as [|x l IH]; intros H Hl; [contradiction|]. destruct l as [|y l].
  - apply pieces_plain. apply H. now left.
  - change (join ", " (x :: y :: l)) with (x ++ String comma (String " " (join ", " (y :: l)))).
    rewrite pieces_app by (apply H; now left). rewrite pieces_sep.
    change (String " " (join ", " (y :: l))) with (" " ++ join ", " (y :: l)). rewrite pieces_app by reflexivity.
    rewrite IH; [|intros z Hz; apply H; now right|discriminate]. rewrite app_nil_r_s. reflexivity.
Qed.
Lemma read_pair k v : has_char "=" k = false -> has_char " " k = false -> forall n,
  lpart "=" (lstrip " " (repeat_char " " n ++ k ++ "=" ++ v)) = Some (k, v).
Proof.
  intros H1 H2. induction n as [|n IH]; [|exact IH]. cbn [repeat_char append].
  destruct k as [|c k]; [reflexivity|]. cbn [has_char] in H2. apply orb_false_iff in H2 as [H2 _].
  change (String c k ++ String "=" v) with (String c (k ++ String "=" v)). cbn [lstrip]. rewrite H2.
  exact (lpart_app "=" (String c k) v H1).
Qed.
Lemma read_pairs_map (l : list (string * string)) f : (forall x, In x l -> lpart "=" (lstrip " " (f x)) = Some x) ->
  read_pairs (map f l) = Some l.
Proof.
  induction l as [|x l IH]; intros H; [reflexivity|]. cbn [map read_pairs]. rewrite H by now left.
  rewrite IH; [reflexivity|]. intros y Hy. apply H. now right.
Qed.
Theorem C54_attributes : forall value, NoDup (map fst value) ->
  (forall k v, In (k, v) value -> clean [comma; "="%char; " "%char] k /\ clean [comma] v) ->
  exists l, read_attrs (format_attributes value) = Some l /\ Permutation value l /\ StronglySorted before (map fst l).
Proof.
  intros value Hd Hc. exists (sorted fst value). split; [|split; [apply sorted_perm|now apply sorted_before]].
  destruct value as [|x0 value0] eqn:Ev; [reflexivity|]. rewrite <- Ev in *.
  assert (Hs : sorted fst value <> []).
  { intros K. pose proof (Permutation_length (sorted_perm fst value)) as P. rewrite K, Ev in P. discriminate. }
  assert (F : format_attributes value = " [" ++ join ", " (map (fun x => fst x ++ "=" ++ snd x) (sorted fst value)) ++ "]") by (rewrite Ev; reflexivity).
  assert (Hc' : forall k v, In (k, v) (sorted fst value) -> has_char comma k = false /\ has_char "=" k = false /\ has_char " " k = false /\ has_char comma v = false).
  { intros k v K. apply (Permutation_in _ (Permutation_sym (sorted_perm fst value))) in K. destruct (Hc k v K) as [H1 H2].
    repeat split; apply no_char_has; [apply H1|apply H1|apply H1|apply H2]; cbn; auto. }
  rewrite F. clear F. revert Hs Hc'. generalize (sorted fst value). intros l Hs Hc'.
  set (j := join ", " (map _ l)).
  assert (U : read_attrs (" [" ++ j ++ "]") = match strip " [" (" [" ++ j ++ "]") with
    | Some r => match strip_end "]" r with Some r => read_pairs (pieces comma r) | None => None end | None => None end) by reflexivity.
  rewrite U. clear U. unfold j.
  rewrite strip_app, strip_end_app, pieces_pairs.
  - destruct l as [|x l]; [contradiction|]. cbn [map read_pairs].
    destruct (Hc' (fst x) (snd x)) as (H1 & H2 & H3 & H4); [left; now destruct x|].
    pose proof (read_pair (fst x) (snd x) H2 H3 0) as R. change (lpart "=" (lstrip " " (fst x ++ "=" ++ snd x)) = Some (fst x, snd x)) in R. rewrite R.
    rewrite map_map, read_pairs_map; [now destruct x|]. intros [k v] K.
    destruct (Hc' k v) as (G1 & G2 & G3 & G4); [now right|]. exact (read_pair k v G2 G3 1).
  - intros y Hy. apply in_map_iff in Hy as ([k v] & <- & K). destruct (Hc' k v K) as (G1 & G2 & G3 & G4).
    cbn [fst snd]. rewrite !has_char_app, G1, G4. reflexivity.
  - destruct l; [contradiction|discriminate].
Qed.
Example C54_attributes_nonvacuous : read_attrs (format_attributes [("shape", "box"); ("label", "a=b c"); ("color", "red")]) =
  Some [("color", "red"); ("label", "a=b c"); ("shape", "box")].
Proof. reflexivity. Qed.
Ltac in_order := repeat (apply SSorted_cons || apply SSorted_nil); repeat (apply Forall_cons || apply Forall_nil); right; exists ""; repeat eexists; cbn; lia.

Lemma node_attrs_read g n : exists l, read_attrs (format_attributes (format_node g n)) = Some l /\ node_attrs g n l.
Proof.
  unfold format_node. destruct (memb (n_name n) (g_roots g)) eqn:Em.
  - apply memb_In in Em. destruct (n_kind n) as [|[]| |[]| | | | | |] eqn:Ek; (eexists; split; [vm_compute; reflexivity|]);
      (constructor; rewrite ?Ek; cbn [map fst shape_of];
       [repeat (constructor; [cbn; intuition discriminate|]); constructor
       |intros v; cbn [In]; intuition (try congruence; try discriminate)..
       |intros k v; cbn [In]; intuition congruence|in_order]).
  - apply memb_false in Em. destruct (n_kind n) as [|[]| |[]| | | | | |] eqn:Ek; (eexists; split; [vm_compute; reflexivity|]);
      (constructor; rewrite ?Ek; cbn [map fst shape_of];
       [repeat (constructor; [cbn; intuition discriminate|]); constructor
       |intros v; cbn [In]; intuition (try congruence; try discriminate)..
       |intros k v; cbn [In]; intuition congruence|in_order]).
Qed.
Lemma edge_attrs_read a b ds : exists l, read_attrs (format_attributes (format_edge a b ds)) = Some l /\ edge_attrs a b ds l.
Proof.
  assert (O : forallb d_optional ds = true <-> forall d, In d ds -> d_optional d = true) by apply forallb_forall.
  assert (P : starts_with (b ++ ".") a = true <-> exists x, a = b ++ "." ++ x).
  { rewrite starts_with_spec. split; intros (x & ->); exists x; now rewrite <- app_assoc_s. }
  unfold format_edge. destruct (forallb d_optional ds); destruct (starts_with (b ++ ".") a);
    (eexists; split; [vm_compute; reflexivity|]);
    (constructor; cbn [map fst];
       [repeat (constructor; [cbn; intuition discriminate|]); constructor
       |intros v; rewrite <- ?O, <- ?P; cbn [In]; intuition (try congruence; try discriminate)..
       |intros k v; cbn [In]; intuition congruence|in_order]).
Qed.
Lemma attrs_no_arrow value : strip " -> " (format_attributes value) = None.
Proof. destruct value; reflexivity. Qed.
Lemma node_attrs_clean g n : has_char newline (format_attributes (format_node g n)) = false.
Proof. unfold format_node. destruct (memb (n_name n) (g_roots g)); destruct (n_kind n) as [|[]| |[]| | | | | |]; reflexivity. Qed.
Lemma edge_attrs_clean a b ds : has_char newline (format_attributes (format_edge a b ds)) = false.
Proof. unfold format_edge. destruct (forallb d_optional ds); destruct (starts_with (b ++ ".") a); reflexivity. Qed.

(** *** Reading back *)
Definition no_quote (s : string) : Prop := has_char dquote s = false.
Definition node_items (g : graph) (n : node) : list item :=
  RNode (n_name n) (read_attrs (format_attributes (format_node g n))) ::
  map (fun e => REdge (n_name n) (snd e) (read_attrs (format_attributes (format_edge (n_name n) (snd e) (fst e))))) (goutgoing g (n_name n)).

Lemma read_node_line id value : no_quote id ->
  read_item ("    " ++ quoted id ++ format_attributes value) = Some (RNode id (read_attrs (format_attributes value))).
Proof.
  intros H. unfold read_item. rewrite strip_app, take_quoted_app by exact H. now rewrite attrs_no_arrow.
Qed.
Lemma read_edge_line a b value : no_quote a -> no_quote b ->
  read_item ("    " ++ quoted a ++ " -> " ++ quoted b ++ format_attributes value) = Some (REdge a b (read_attrs (format_attributes value))).
Proof.
  intros Ha Hb. unfold read_item. rewrite strip_app, take_quoted_app by exact Ha. rewrite strip_app. now rewrite take_quoted_app by exact Hb.
Qed.
Lemma read_items_edges id l rest : no_quote id -> (forall e, In e l -> no_quote (snd e)) ->
  read_items (map (fun e : list dep * string => ("    " ++ quoted id ++ " -> " ++ quoted (snd e) ++
      format_attributes (format_edge id (snd e) (fst e)))%string) l ++ rest)%list =
  let '(is, r) := read_items rest in
  ((map (fun e => REdge id (snd e) (read_attrs (format_attributes (format_edge id (snd e) (fst e))))) l ++ is)%list, r).
Proof.
  intros Hi. induction l as [|e l IH]; intros H; [cbn; now destruct (read_items rest)|]. cbn [map app read_items].
  rewrite read_edge_line; [|exact Hi|apply H; now left]. rewrite IH by (intros x Hx; apply H; now right).
  now destruct (read_items rest).
Qed.
Lemma read_items_nodes g l rest : (forall n, In n l -> no_quote (n_name n)) ->
  (forall n e, In n l -> In e (goutgoing g (n_name n)) -> no_quote (snd e)) ->
  (read_items rest = ([], rest)) ->
  read_items (flat_map (dot_node g (format_node g) format_edge) l ++ rest)%list = (flat_map (node_items g) l, rest).
Proof.
  intros H1 H2 Hr. induction l as [|n l IH]; [exact Hr|].
  cbn [flat_map]. unfold dot_node at 1, node_items at 1. rewrite <- app_assoc. cbn [app read_items].
  rewrite read_node_line by (apply H1; now left).
  rewrite read_items_edges; [|apply H1; now left|intros e He; apply (H2 n e); [now left|exact He]].
  rewrite IH; [reflexivity|intros m Hm; apply H1; now right|intros m e Hm; apply H2; now right].
Qed.

Lemma read_member_line id : no_quote id -> read_member ("   " ++ quoted id) = Some id.
Proof. intros H. unfold read_member. now rewrite strip_app, take_quoted_end by exact H. Qed.
Lemma read_members_lines l rest : (forall n, In n l -> no_quote (n_name n)) ->
  read_members (map (fun n => ("   " ++ quoted (n_name n))%string) l ++ "}" :: rest)%list = (map n_name l, ("}" :: rest)%list).
Proof.
  induction l as [|n l IH]; intros H; [reflexivity|]. cbn [map app read_members].
  rewrite read_member_line by (apply H; now left). rewrite IH by (intros m Hm; apply H; now right). reflexivity.
Qed.
Fixpoint read_back (idx : nat) (l : list cluster) : list rcluster :=
  match l with
  | [] => []
  | (name, icon, items) :: r => ("cluster_" ++ show_nat idx, name, icon, map n_name items) :: read_back (S idx) r
  end.
Lemma read_clusters_lines l : forall idx fuel,
  (forall name icon items, In (name, icon, items) l -> no_quote name /\ forall n, In n items -> no_quote (n_name n)) ->
  List.length (dot_clusters idx l) <= fuel ->
  read_clusters fuel (dot_clusters idx l ++ ["}"])%list = Some (read_back idx l).
Proof.
  induction l as [|[[name icon] items] l IH]; intros idx fuel H Hf; [now destruct fuel|].
  cbn [dot_clusters dot_cluster app List.length] in Hf. destruct fuel as [|fuel]; [lia|].
  cbn [dot_clusters dot_cluster]. rewrite <- !app_assoc. cbn [app]. cbn [read_clusters].
  destruct (H name icon items (or_introl eq_refl)) as [Hn Hi].
  change ("subgraph cluster_" ++ show_nat idx ++ " {") with ("subgraph " ++ ("cluster_" ++ (show_nat idx ++ " {"))).
  rewrite !strip_app. rewrite (app_assoc_s "cluster_" (show_nat idx) " {"), strip_end_app.
  rewrite take_quoted_end by exact Hn. change (seqb "   style=filled; color=lightgray" "   style=filled; color=lightgray") with true.
  rewrite read_members_lines by exact Hi. rewrite IH; [reflexivity|intros a b c Hc; apply (H a b c); now right|].
  rewrite !app_length in Hf. cbn [List.length] in Hf. lia.
Qed.

(** *** Clusters *)
Definition labels (cs : list cluster) : list string := map (fun c => fst (fst c)) cs.
Definition belongs (label : string) (n : node) : bool :=
  (negb (is_distribution (n_kind n)) && match n_dist n with Some d => seqb (dist_name d) label | None => false end)%bool.
Lemma cluster_add_labels dist n cs : labels (cluster_add dist n cs) = if memb dist (labels cs) then labels cs else (labels cs ++ [dist])%list.
Proof.
  induction cs as [|[[name icon] ns] cs IH]; [reflexivity|]. cbn [cluster_add]. destruct (seqb name dist) eqn:E.
  - apply seqb_eq in E as ->. cbn. now rewrite String.eqb_refl.
  - cbn. fold (labels (cluster_add dist n cs)). rewrite IH. assert (F : (dist =? name)%string = false).
    { destruct (dist =? name)%string eqn:F; [|reflexivity]. apply String.eqb_eq in F as ->. now rewrite (proj2 (seqb_eq name name) eq_refl) in E. }
    rewrite F. fold (labels cs). now destruct (memb dist (labels cs)).
Qed.
Lemma cluster_add_in dist n cs lab sh ns : NoDup (labels cs) -> In (lab, sh, ns) (cluster_add dist n cs) ->
  (lab <> dist /\ In (lab, sh, ns) cs) \/
  (lab = dist /\ ((exists ns0, In (lab, sh, ns0) cs /\ ns = (ns0 ++ [n])%list) \/ (~ In dist (labels cs) /\ sh = "tab" /\ ns = [n]))).
Proof.
  induction cs as [|[[name icon] ms] cs IH]; intros N H.
  - cbn in H. destruct H as [H|[]]. injection H as <- <- <-. right. split; [reflexivity|]. right. split; [intros []|auto].
  - cbn in N. apply NoDup_cons_iff in N as [N1 N2]. cbn [cluster_add] in H. destruct (seqb name dist) eqn:E.
    + apply seqb_eq in E as ->. destruct H as [H|H].
      * injection H as <- <- <-. right. split; [reflexivity|]. left. exists ms. split; [now left|reflexivity].
      * left. split; [|now right]. intros ->. apply N1. apply in_map_iff. now exists (dist, sh, ns).
    + assert (D : name <> dist) by (intros ->; now rewrite (proj2 (seqb_eq dist dist) eq_refl) in E).
      destruct H as [H|H].
      * injection H as <- <- <-. left. split; [exact D|now left].
      * destruct (IH N2 H) as [[A B]|[A [(ns0 & B & C)|(B & C)]]].
        -- left. split; [exact A|now right].
        -- right. split; [exact A|]. left. exists ns0. split; [now right|exact C].
        -- right. split; [exact A|]. right. split; [|exact C]. intros [K|K]; [now apply D|now apply B].
Qed.
Lemma group_nodes_spec l :
  NoDup (labels (group_nodes l)) /\
  (forall lab sh ns, In (lab, sh, ns) (group_nodes l) -> sh = "tab" /\ ns = filter (belongs lab) l) /\
  (forall lab n, In n l -> belongs lab n = true -> In lab (labels (group_nodes l))) /\
  (forall lab, In lab (labels (group_nodes l)) -> exists n, In n l /\ belongs lab n = true).
Proof.
  induction l as [|n l IH] using rev_ind.
  - split; [constructor|]. split; [intros lab sh ns []|]. split; [intros lab n []|intros lab []].
  - unfold group_nodes in *. rewrite fold_left_app. cbn [fold_left]. set (cs := fold_left _ l []) in *.
    destruct IH as (A & B & C & D).
    assert (Skip : (forall lab, belongs lab n = false) ->
      NoDup (labels cs) /\ (forall lab sh ns, In (lab, sh, ns) cs -> sh = "tab" /\ ns = filter (belongs lab) (l ++ [n])) /\
      (forall lab m, In m (l ++ [n])%list -> belongs lab m = true -> In lab (labels cs)) /\
      (forall lab, In lab (labels cs) -> exists m, In m (l ++ [n])%list /\ belongs lab m = true)).
    { intros F. split; [exact A|]. split; [|split].
      - intros lab sh ns H. destruct (B lab sh ns H) as [B1 B2]. split; [exact B1|]. rewrite filter_app. cbn. rewrite F, app_nil_r. exact B2.
      - intros lab m H K. apply in_app_iff in H as [H|[<-|[]]]; [eauto|]. rewrite F in K. discriminate.
      - intros lab H. destruct (D lab H) as (m & D1 & D2). exists m. split; [apply in_app_iff; now left|exact D2]. }
    destruct (is_distribution (n_kind n)) eqn:Ek; [apply Skip; intros lab; unfold belongs; now rewrite Ek|].
    destruct (n_dist n) as [d|] eqn:Ed; [|apply Skip; intros lab; unfold belongs; rewrite Ed; apply andb_false_r].
    assert (Bn : forall lab, belongs lab n = seqb (dist_name d) lab) by (intros lab; unfold belongs; now rewrite Ek, Ed).
    assert (Lb : forall lab, In lab (labels (cluster_add (dist_name d) n cs)) <-> In lab (labels cs) \/ lab = dist_name d).
    { intros lab. rewrite cluster_add_labels. destruct (memb (dist_name d) (labels cs)) eqn:Em.
      - apply memb_In in Em. split; [auto|]. intros [H| ->]; auto.
      - rewrite in_app_iff. cbn. intuition congruence. }
    split; [|split; [|split]].
    + rewrite cluster_add_labels. destruct (memb (dist_name d) (labels cs)) eqn:Em; [exact A|]. apply memb_false in Em.
      apply (Permutation_NoDup (Permutation_cons_append (labels cs) (dist_name d))). now constructor.
    + intros lab sh ns H. apply cluster_add_in in H; [|exact A]. rewrite filter_app. cbn [filter]. rewrite Bn.
      destruct H as [[N H]|[-> [(ns0 & H & ->)|(N & -> & ->)]]].
      * destruct (B _ _ _ H) as [B1 B2]. split; [exact B1|]. destruct (seqb (dist_name d) lab) eqn:E; [apply seqb_eq in E; congruence|].
        now rewrite app_nil_r.
      * destruct (B _ _ _ H) as [B1 B2]. split; [exact B1|]. rewrite (proj2 (seqb_eq _ _) eq_refl). now rewrite B2.
      * split; [reflexivity|]. rewrite (proj2 (seqb_eq _ _) eq_refl).
        enough (X : filter (belongs (dist_name d)) l = []) by now rewrite X.
        destruct (filter (belongs (dist_name d)) l) as [|m r] eqn:E; [reflexivity|]. exfalso. apply N.
        assert (X : In m (filter (belongs (dist_name d)) l)) by (rewrite E; now left). apply filter_In in X as [X1 X2]. now apply (C _ m).
    + intros lab m H K. apply Lb. apply in_app_iff in H as [H|[<-|[]]]; [left; eauto|right]. rewrite Bn in K. apply seqb_eq in K. congruence.
    + intros lab H. apply Lb in H as [H| ->].
      * destruct (D lab H) as (m & D1 & D2). exists m. split; [apply in_app_iff; now left|exact D2].
      * exists n. split; [apply in_app_iff; right; now left|]. rewrite Bn. now apply seqb_eq.
Qed.

(** *** The theorem *)
Lemma outgoing_In g id ds t : In (ds, t) (goutgoing g id) <-> In (id, t, ds) (g_edges g).
Proof.
  unfold goutgoing. rewrite in_flat_map. split.
  - intros ([[a b] x] & H & K). destruct (seqb a id) eqn:E; [|destruct K]. apply seqb_eq in E as ->. destruct K as [K|[]].
    injection K as <- <-. exact H.
  - intros H. exists (id, t, ds). split; [exact H|]. rewrite (proj2 (seqb_eq id id) eq_refl). now left.
Qed.
Lemma incoming_In g id ds a : In (ds, a) (gincoming g id) <-> In (a, id, ds) (g_edges g).
Proof.
  unfold gincoming. rewrite in_flat_map. split.
  - intros ([[x b] y] & H & K). destruct (seqb b id) eqn:E; [|destruct K]. apply seqb_eq in E as ->. destruct K as [K|[]].
    injection K as <- <-. exact H.
  - intros H. exists (a, id, ds). split; [exact H|]. rewrite (proj2 (seqb_eq id id) eq_refl). now left.
Qed.
Lemma outgoing_once g id : NoDup (map fst (g_edges g)) -> NoDup (map snd (goutgoing g id)).
Proof.
  unfold goutgoing. induction (g_edges g) as [|[[a b] ds] l IH]; intros N; [constructor|]. cbn in N. apply NoDup_cons_iff in N as [N1 N2].
  cbn [flat_map]. destruct (seqb a id) eqn:E; [|exact (IH N2)]. apply seqb_eq in E as ->. cbn. constructor; [|exact (IH N2)].
  intros K. apply N1. apply in_map_iff in K as ([ds' t] & <- & K). apply (outgoing_In (Graph [] l [])) in K.
  apply in_map_iff. now exists (id, t, ds').
Qed.
Lemma reaches_node g id : sound g -> reaches g id -> exists n, reachable g n /\ n_name n = id.
Proof.
  intros [S1 S2 S3 S4] H. assert (K : In id (map n_name (g_nodes g))).
  { destruct H as [id H|a b ds _ H]; [now apply S4|]. now apply S3 in H as [_ H]. }
  apply in_map_iff in K as (n & <- & K). exists n. split; [now split|reflexivity].
Qed.
Lemma same_node g n m : sound g -> In n (g_nodes g) -> In m (g_nodes g) -> n_name n = n_name m -> n = m.
Proof.
  intros [S1 _ _ _]. revert S1. induction (g_nodes g) as [|x l IH]; intros S1 Hn Hm He; [destruct Hn|].
  cbn in S1. apply NoDup_cons_iff in S1 as [N1 N2]. destruct Hn as [->|Hn], Hm as [->|Hm]; auto.
  - elim N1. rewrite He. now apply in_map.
  - elim N1. rewrite <- He. now apply in_map.
Qed.
Lemma NoDup_app {A} (l r : list A) : NoDup l -> NoDup r -> (forall x, In x l -> ~ In x r) -> NoDup (l ++ r).
Proof.
  intros H1 H2 H3. induction H1 as [|x l H H1 IH]; [exact H2|]. cbn. constructor.
  - intros K. apply in_app_iff in K as [K|K]; [contradiction|]. apply (H3 x); [now left|exact K].
  - apply IH. intros y Hy. apply H3. now right.
Qed.

Lemma node_items_ids g l : node_ids (flat_map (node_items g) l) = map n_name l.
Proof.
  unfold node_ids. induction l as [|n l IH]; [reflexivity|]. cbn [flat_map map]. rewrite flat_map_app, IH. cbn [node_items flat_map app].
  f_equal. generalize (goutgoing g (n_name n)). intros es. induction es as [|e es IHe]; [reflexivity|exact IHe].
Qed.
Lemma edge_items_ids g l : edge_ids (flat_map (node_items g) l) = flat_map (fun n => map (fun e => (n_name n, snd e)) (goutgoing g (n_name n))) l.
Proof.
  unfold edge_ids. induction l as [|n l IH]; [reflexivity|]. cbn [flat_map]. rewrite flat_map_app, IH. cbn [node_items flat_map app].
  f_equal. generalize (goutgoing g (n_name n)). intros es. induction es as [|e es IHe]; [reflexivity|]. cbn. now rewrite IHe.
Qed.
Lemma edge_ids_once g l : NoDup (map fst (g_edges g)) -> NoDup (map n_name l) ->
  NoDup (flat_map (fun n => map (fun e => (n_name n, snd e)) (goutgoing g (n_name n))) l).
Proof.
  intros S2. induction l as [|n l IH]; intros N; [constructor|]. cbn in N. apply NoDup_cons_iff in N as [N1 N2]. cbn [flat_map].
  apply NoDup_app; [|exact (IH N2)|].
  - pose proof (outgoing_once g (n_name n) S2) as K. revert K. generalize (goutgoing g (n_name n)). intros es.
    induction es as [|e es IHe]; intros K; [constructor|]. cbn in *. apply NoDup_cons_iff in K as [K1 K2]. constructor; [|exact (IHe K2)].
    intros X. apply K1. apply in_map_iff in X as (e' & X1 & X2). injection X1 as X1. apply in_map_iff. now exists e'.
  - intros [a b] H K. apply in_map_iff in H as (e & H & _). injection H as <- _. apply in_flat_map in K as (m & Hm & K).
    apply in_map_iff in K as (e' & K & _). injection K as K _. apply N1. rewrite <- K. now apply in_map.
Qed.
Lemma read_back_In idx l name lab sh ids : In (name, lab, sh, ids) (read_back idx l) -> exists ns, In (lab, sh, ns) l /\ ids = map n_name ns.
Proof.
  revert idx. induction l as [|[[lab' sh'] ns] l IH]; intros idx H; [destruct H|]. cbn in H. destruct H as [H|H].
  - injection H as <- <- <- <-. exists ns. split; [now left|reflexivity].
  - destruct (IH _ H) as (ns' & A & B). exists ns'. split; [now right|exact B].
Qed.
Lemma read_back_names l : forall idx i, i < idx -> ~ In ("cluster_" ++ show_nat i) (map (fun c => fst (fst (fst c))) (read_back idx l)).
Proof.
  induction l as [|[[lab sh] ns] l IH]; intros idx i Hi H; [destruct H|]. cbn in H. destruct H as [H|H].
  - injection H as H. apply show_nat_inj in H. lia.
  - revert H. apply IH. lia.
Qed.
Lemma read_back_once l : forall idx, NoDup (map (fun c => fst (fst (fst c))) (read_back idx l)).
Proof.
  induction l as [|[[lab sh] ns] l IH]; intros idx; [constructor|]. cbn [read_back map fst]. constructor; [|apply IH].
  apply (read_back_names l (S idx) idx). lia.
Qed.
Lemma read_back_labels l : forall idx, map (fun c => snd (fst (fst c))) (read_back idx l) = labels l.
Proof. induction l as [|[[lab sh] ns] l IH]; intros idx; [reflexivity|]. cbn. now rewrite IH. Qed.
Lemma map_filter_once {A} (key : A -> string) f l : NoDup (map key l) -> NoDup (map key (filter f l)).
Proof.
  induction l as [|x l IH]; intros N; [constructor|]. cbn in *. apply NoDup_cons_iff in N as [N1 N2]. destruct (f x); [|auto].
  cbn. constructor; [|auto]. intros K. apply N1. apply in_map_iff in K as (y & K1 & K2). apply filter_In in K2 as [K2 _].
  apply in_map_iff. now exists y.
Qed.

(** Identifiers and names of distributions without line separators and double
    quotes.  Missing: others (refuted, they are not escaped). *)
Theorem C54_dot_partial : forall g it1 it2, sound g -> traversal g it1 -> traversal g it2 ->
  (forall n, reachable g n -> clean [newline; dquote] (n_name n) /\ forall d, n_dist n = Some d -> clean [newline; dquote] (dist_name d)) ->
  exists is cs, read_dot (print_dot g it1 it2) = Some (is, cs) /\ shows g is cs.
Proof.
  intros g it1 it2 So [T1 T2] [U1 U2] Cl.
  assert (Cq : forall n, reachable g n -> no_quote (n_name n) /\ has_char newline (n_name n) = false).
  { intros n Hn. destruct (Cl n Hn) as [C1 _]. split; apply no_char_has, C1; cbn; auto. }
  assert (Ce : forall n e, reachable g n -> In e (goutgoing g (n_name n)) -> no_quote (snd e) /\ has_char newline (snd e) = false).
  { intros n [ds t] [Hn Hr] He. apply outgoing_In in He. assert (Ht : reaches g t) by (eapply re_edge; eassumption).
    destruct (reaches_node g t So Ht) as (m & Hm & <-). now apply Cq. }
  assert (Cc : forall lab sh ns, In (lab, sh, ns) (group_nodes it2) ->
     no_quote lab /\ has_char newline lab = false /\ forall n, In n ns -> reachable g n).
  { intros lab sh ns H. destruct (group_nodes_spec it2) as (_ & B & _ & D). destruct (D lab) as (m & M1 & M2).
    { apply in_map_iff. now exists (lab, sh, ns). }
    unfold belongs in M2. apply andb_true_iff in M2 as [_ M2]. destruct (n_dist m) as [d|] eqn:Ed; [|discriminate]. apply seqb_eq in M2 as <-.
    apply U2 in M1. destruct (Cl m M1) as [_ C2]. split; [|split].
    - apply no_char_has, (C2 d Ed). cbn; auto.
    - apply no_char_has, (C2 d Ed). cbn; auto.
    - intros n Hn. apply U2. destruct (B _ _ _ H) as [_ ->]. now apply filter_In in Hn. }
  exists (flat_map (node_items g) it1), (read_back 0 (group_nodes it2)). split.
  - unfold read_dot, print_dot, export_to_dot. rewrite lines_printed.
    + cbn [app]. assert (R : read_items (dot_clusters 0 (group_nodes it2) ++ ["}"]) = ([], (dot_clusters 0 (group_nodes it2) ++ ["}"])%list)).
      { destruct (group_nodes it2) as [|[[lab sh] ns] cs]; reflexivity. }
      rewrite read_items_nodes; [|intros n Hn; now apply Cq, T2|intros n e Hn He; apply (Ce n e); [now apply T2|exact He]|exact R].
      rewrite read_clusters_lines; [reflexivity| |rewrite app_length; cbn; lia].
      intros lab sh ns H. destruct (Cc _ _ _ H) as (C1 & _ & C3). split; [exact C1|]. intros n Hn. now apply Cq, C3.
    + apply Forall_forall. intros x Hx. cbn [app] in Hx. destruct Hx as [<-|Hx]; [reflexivity|].
      apply in_app_iff in Hx as [Hx|Hx]; [|apply in_app_iff in Hx as [Hx|[<-|[]]]; [|reflexivity]].
      * apply in_flat_map in Hx as (n & Hn & Hx). apply T2 in Hn. destruct (Cq n Hn) as [_ Q]. destruct Hx as [<-|Hx].
        -- cbn [has_char append]. unfold quoted. cbn [append has_char]. rewrite !has_char_app, Q, node_attrs_clean. reflexivity.
        -- apply in_map_iff in Hx as (e & <- & He). destruct (Ce n e Hn He) as [_ Q2].
           unfold quoted. cbn [append has_char]. rewrite !has_char_app. cbn [append has_char]. rewrite !has_char_app, Q, Q2, edge_attrs_clean. reflexivity.
      * assert (X : forall cs idx, (forall lab sh ns, In (lab, sh, ns) cs -> In (lab, sh, ns) (group_nodes it2)) ->
          In x (dot_clusters idx cs) -> has_char newline x = false).
        { induction cs as [|[[lab sh] ns] cs IH]; intros idx Hs Hi; [destruct Hi|]. cbn [dot_clusters] in Hi. apply in_app_iff in Hi as [Hi|Hi].
          2:{ apply (IH (S idx)); [|exact Hi]. intros a b c K. apply Hs. now right. }
          pose proof (Hs lab sh ns (or_introl eq_refl)) as Hc. destruct (Cc _ _ _ Hc) as (_ & Q & Qn).
          destruct (group_nodes_spec it2) as (_ & B & _). destruct (B _ _ _ Hc) as [-> _].
          unfold dot_cluster in Hi. cbn [app] in Hi. destruct Hi as [<-|[<-|[<-|[<-|Hi]]]].
          - rewrite !has_char_app. rewrite show_nat_clean by (left; cbn; lia). reflexivity.
          - unfold quoted. cbn [append has_char]. rewrite has_char_app, Q. reflexivity.
          - reflexivity.
          - reflexivity.
          - apply in_app_iff in Hi as [Hi|[<-|[<-|[]]]]; [|reflexivity|reflexivity]. apply in_map_iff in Hi as (n & <- & Hn).
            destruct (Cq n (Qn n Hn)) as [_ Q3]. unfold quoted. cbn [append has_char]. rewrite has_char_app, Q3. reflexivity. }
        eapply X; [|exact Hx]. auto.
  - destruct (group_nodes_spec it2) as (GA & GB & GC & GD).
    assert (Mem : forall id lab, In id (map n_name (filter (belongs lab) it2)) <-> in_dist g id lab).
    { intros id lab. rewrite in_map_iff. split.
      - intros (n & <- & Hn). apply filter_In in Hn as [H1 H2]. unfold belongs in H2. apply andb_true_iff in H2 as [H2 H3].
        destruct (n_dist n) as [d|] eqn:Ed; [|discriminate]. apply seqb_eq in H3. exists n, d. split; [now apply U2|]. split; [reflexivity|].
        split; [intros K; now rewrite K in H2|auto].
      - intros (n & d & H1 & <- & H2 & H3 & H4). exists n. split; [reflexivity|]. apply filter_In. split; [now apply U2|]. unfold belongs.
        rewrite H3. apply andb_true_iff. split; [destruct (n_kind n); try reflexivity; contradiction|now apply seqb_eq]. }
    constructor.
    + rewrite node_items_ids. exact T1.
    + intros id. rewrite node_items_ids. split.
      * intros H. apply in_map_iff in H as (n & <- & H). now apply T2 in H as [_ H].
      * intros H. destruct (reaches_node g id So H) as (n & Hn & <-). now apply in_map, T2.
    + intros id o H. apply in_flat_map in H as (n & Hn & H). destruct H as [H|H]; [|apply in_map_iff in H as (e & H & _); discriminate].
      injection H as <- <-. destruct (node_attrs_read g n) as (l & Hl & K). exists n, l. split; [now apply T2|auto].
    + rewrite edge_items_ids. apply edge_ids_once; [apply So|exact T1].
    + intros a b. rewrite edge_items_ids, in_flat_map. split.
      * intros (n & Hn & H). apply in_map_iff in H as ([ds t] & H & He). injection H as <- <-. apply outgoing_In in He.
        split; [now apply T2 in Hn as [_ Hn]|now exists ds].
      * intros [Hr (ds & He)]. destruct (reaches_node g a So Hr) as (n & Hn & <-). exists n. split; [now apply T2|].
        apply in_map_iff. exists (ds, b). split; [reflexivity|]. now apply outgoing_In.
    + intros a b o H. apply in_flat_map in H as (n & Hn & H). destruct H as [H|H]; [discriminate|]. apply in_map_iff in H as ([ds t] & H & He).
      injection H as <- <- <-. apply outgoing_In in He. destruct (edge_attrs_read (n_name n) t ds) as (l & Hl & K).
      exists ds, l. split; [exact He|]. split; [exact Hl|exact K].
    + apply read_back_once.
    + rewrite read_back_labels. exact GA.
    + intros name lab sh ids H. apply read_back_In in H as (ns & H & ->). destruct (GB _ _ _ H) as [-> ->].
      split; [reflexivity|]. split; [now apply map_filter_once|]. intros id. apply Mem.
    + intros id lab H. pose proof H as (n & d & H1 & H2 & H3 & H4 & H5). assert (Hl : In lab (labels (group_nodes it2))).
      { apply (GC lab n); [now apply U2|]. unfold belongs. rewrite H4. apply andb_true_iff.
        split; [destruct (n_kind n); try reflexivity; contradiction|now apply seqb_eq]. }
      rewrite <- (read_back_labels (group_nodes it2) 0) in Hl. apply in_map_iff in Hl as ([[[name lab'] sh] ids] & Hl & Hi). cbn in Hl. subst lab'.
      exists name, sh, ids. split; [exact Hi|]. apply read_back_In in Hi as (ns & Hi & ->). destruct (GB _ _ _ Hi) as [_ ->]. now apply Mem.
Qed.

(** ** C55 *)

Definition C55_statement : Prop := forall g it1 it2, sound g -> traversal g it1 -> traversal g it2 ->
  forall h, In h (hrefs (export_to_html g it1 it2)) -> In h (anchors (export_to_html g it1 it2)).

(** The graph of a distribution with one module. *)
Definition some_dist : dist := Dist 0 "d 1" "d" "1" [] ["c"].
Definition dist_end : st := Eval vm_compute in snd (the_calls (world [("c", ESource false [] [])] [] []) [AAddDist some_dist] new).
Lemma dist_reach : reach (world [("c", ESource false [] [])] [] []) new dist_end.
Proof. apply (ran _ [AAddDist some_dist]). vm_compute. reflexivity. Qed.
Lemma dist_traversal : traversal (s_graph dist_end) (g_nodes (s_graph dist_end)).
Proof.
  constructor; [cbn; apply NoDup_cons; [cbn; intuition discriminate|apply NoDup_cons; [intros []|apply NoDup_nil]]|]. intros n. split; [|intros [H _]; exact H].
  intros H. split; [exact H|]. assert (R : reaches (s_graph dist_end) "d 1") by (apply re_root; vm_compute; auto).
  destruct H as [<-|[<-|[]]]; [exact R|]. eapply re_edge; [exact R|]. vm_compute. left. reflexivity.
Qed.
Theorem C55_refuted : ~ C55_statement.
Proof.
  intros H. assert (S1 : sound (s_graph dist_end)).
  { apply (reach_sound (world [("c", ESource false [] [])] [] []) new); [intros l x; reflexivity|now exists [], [], []|apply dist_reach]. }
  specialize (H _ _ _ S1 dist_traversal dist_traversal "d 1"). vm_compute in H. intuition discriminate.
Qed.

(** *** Reading tags *)
Definition lt : ascii := "<".
Section scan.
  Variable start : string.
  Hypothesis start_lt : has_char lt start = false.
  Let scan := tag_values start.
  Definition piece_values (t : string) : list string :=
    match strip start t with Some r => match lpart dquote r with Some (v, _) => [v] | None => [] end | None => [] end.
  Lemma scan_eq s : scan s = flat_map piece_values (tl (pieces lt s)).
  Proof. reflexivity. Qed.
  Lemma scan_plain p rest : has_char lt p = false -> scan (p ++ rest) = scan rest.
  Proof.
    intros H. rewrite !scan_eq, pieces_app by exact H. destruct (pieces lt rest) eqn:E; [now apply pieces_not_nil in E|reflexivity].
  Qed.
  Lemma scan_none p : has_char lt p = false -> scan p = [].
  Proof. intros H. rewrite scan_eq, pieces_plain by exact H. reflexivity. Qed.
  Lemma scan_tag p rest : has_char lt p = false -> (forall t, strip start (p ++ t) = None) -> scan (String lt (p ++ rest)) = scan rest.
  Proof.
    intros H K. rewrite !scan_eq, pieces_sep, pieces_app by exact H. destruct (pieces lt rest) as [|x l] eqn:E; [now apply pieces_not_nil in E|].
    cbn [tl flat_map]. unfold piece_values at 1. now rewrite K.
  Qed.
  Lemma pieces_concat c a b : exists front la x l, pieces c a = (front ++ [la])%list /\ pieces c b = x :: l /\
    pieces c (a ++ b) = (front ++ (la ++ x)%string :: l)%list.
  Proof.
    induction a as [|d a (front & la & x & l & H1 & H2 & H3)].
    - destruct (pieces c b) as [|x l] eqn:E; [now apply pieces_not_nil in E|]. exists [], "", x, l. cbn. rewrite E. auto.
    - cbn [append pieces]. rewrite H1, H3. destruct front as [|f front]; cbn [app].
      + destruct (Ascii.eqb d c); [exists [""], la, x, l|exists [], (String d la), x, l]; auto.
      + destruct (Ascii.eqb d c); [exists ("" :: f :: front)%list, la, x, l|exists (String d f :: front)%list, la, x, l]; auto.
  Qed.
  Lemma scan_skip a rest : (forall p, In p (tl (pieces lt a)) -> forall t, strip start (p ++ t) = None) -> scan (a ++ rest) = scan rest.
  Proof.
    intros H. rewrite !scan_eq. destruct (pieces_concat lt a rest) as (front & la & x & l & H1 & H2 & H3). rewrite H1 in H. rewrite H2, H3.
    destruct front as [|f front]; [reflexivity|]. cbn [app tl] in *. rewrite flat_map_app. cbn [flat_map].
    assert (V : forall p t, In p (front ++ [la])%list -> piece_values (p ++ t) = []).
    { intros p t Hp. unfold piece_values. now rewrite H. }
    rewrite V by (apply in_app_iff; right; now left).
    assert (W : flat_map piece_values front = []).
    { clear H1 H3 H. induction front as [|p front IH]; [reflexivity|]. cbn [flat_map]. rewrite <- (app_nil_r_s p), V by now left.
      apply IH. intros q t Hq. apply V. now right. }
    now rewrite W.
  Qed.
  Lemma scan_value v q rest : has_char lt v = false -> has_char dquote v = false -> has_char lt q = false ->
    scan (String lt (start ++ (v ++ String dquote (q ++ rest)))) = v :: scan rest.
  Proof.
    intros H1 H2 H3. rewrite !scan_eq, pieces_sep. rewrite pieces_app by exact start_lt. rewrite pieces_app by exact H1.
    assert (X : pieces lt (String dquote (q ++ rest)) = match pieces lt rest with [] => [] | x :: l => String dquote (q ++ x) :: l end).
    { change (String dquote (q ++ rest)) with (String dquote q ++ rest). now apply pieces_app. }
    rewrite X. destruct (pieces lt rest) as [|x l] eqn:E; [now apply pieces_not_nil in E|]. cbn [tl flat_map]. unfold piece_values at 1.
    rewrite strip_app. now rewrite lpart_app by exact H2.
  Qed.
End scan.

Definition html_clean (s : string) : Prop := has_char lt s = false /\ has_char dquote s = false.
Lemma class_clean k : html_clean (class_name k).
Proof. destruct k as [|[]| |[]| | | | | |]; split; reflexivity. Qed.
Definition is_href : string := "a href=" ++ ch dquote ++ "#".
Definition is_anchor : string := "a name=" ++ ch dquote.

Lemma anchor_text n rest : html_anchor n ++ rest =
  String lt (is_anchor ++ (n_name n ++ String dquote (">" ++ String lt (("h2>" ++ class_name (n_kind n) ++ " " ++ show_name n) ++ String lt ("/h2>" ++ String lt ("/a>" ++ rest)))))).
Proof.
  unfold html_anchor, quoted. cbn [append is_anchor ch]. repeat (rewrite <- ?app_assoc_s; cbn [append ch]). reflexivity.
Qed.
Lemma link_text g id rest : html_link g id ++ rest =
  String lt (is_href ++ (id ++ String dquote ((">" ++ name_of g id) ++ String lt ("/a>" ++ rest)))).
Proof.
  unfold html_link, quoted. cbn [append is_href ch]. repeat (rewrite <- ?app_assoc_s; cbn [append ch]). reflexivity.
Qed.
Lemma anchors_anchor n rest : html_clean (n_name n) -> html_clean (show_name n) -> anchors (html_anchor n ++ rest) = n_name n :: anchors rest.
Proof.
  intros [H1 H2] [H3 H4]. rewrite anchor_text. unfold anchors. rewrite (scan_value is_anchor eq_refl); [|exact H1|exact H2|reflexivity]. f_equal.
  rewrite (scan_tag is_anchor); [| |intros t; reflexivity].
  - rewrite (scan_tag is_anchor "/h2>"); [|reflexivity|intros t; reflexivity]. now rewrite (scan_tag is_anchor "/a>"); [|reflexivity|intros t; reflexivity].
  - rewrite !has_char_app. cbn. destruct (class_clean (n_kind n)) as [-> _]. now rewrite H3.
Qed.
Lemma hrefs_anchor n rest : html_clean (n_name n) -> html_clean (show_name n) -> hrefs (html_anchor n ++ rest) = hrefs rest.
Proof.
  intros [H1 H2] [H3 H4]. rewrite anchor_text. unfold hrefs.
  assert (X : forall r, String lt (is_anchor ++ (n_name n ++ String dquote (">" ++ r))) = String lt ((is_anchor ++ n_name n ++ String dquote ">") ++ r)).
  { intros r. f_equal. rewrite <- !app_assoc_s. reflexivity. }
  rewrite X, (scan_tag is_href); [| |intros t; reflexivity].
  2:{ rewrite !has_char_app, H1. reflexivity. }
  rewrite (scan_tag is_href); [| |intros t; reflexivity].
  - rewrite (scan_tag is_href "/h2>"); [|reflexivity|intros t; reflexivity]. now rewrite (scan_tag is_href "/a>"); [|reflexivity|intros t; reflexivity].
  - rewrite !has_char_app. cbn. destruct (class_clean (n_kind n)) as [-> _]. now rewrite H3.
Qed.
Lemma hrefs_link g id rest : html_clean id -> html_clean (name_of g id) -> hrefs (html_link g id ++ rest) = id :: hrefs rest.
Proof.
  intros [H1 H2] [H3 H4]. rewrite link_text. unfold hrefs. rewrite (scan_value is_href eq_refl); [|exact H1|exact H2|exact H3]. f_equal.
  now rewrite (scan_tag is_href "/a>"); [|reflexivity|intros t; reflexivity].
Qed.
Lemma anchors_link g id rest : html_clean id -> html_clean (name_of g id) -> anchors (html_link g id ++ rest) = anchors rest.
Proof.
  intros [H1 H2] [H3 H4]. rewrite link_text. unfold anchors.
  assert (X : forall r, String lt (is_href ++ (id ++ String dquote ((">" ++ name_of g id) ++ r))) = String lt ((is_href ++ id ++ String dquote (">" ++ name_of g id)) ++ r)).
  { intros r. f_equal. rewrite <- !app_assoc_s. reflexivity. }
  rewrite X, (scan_tag is_anchor); [| |intros t; reflexivity].
  - now rewrite (scan_tag is_anchor "/a>"); [|reflexivity|intros t; reflexivity].
  - rewrite !has_char_app, H1. cbn [has_char]. rewrite has_char_app, H3. reflexivity.
Qed.
Lemma links_scan g l rest : (forall e, In e l -> html_clean (snd e) /\ html_clean (name_of g (snd e))) ->
  hrefs (join ", " (map (fun e : list dep * string => html_link g (snd e)) l) ++ rest) = (map snd l ++ hrefs rest)%list /\
  anchors (join ", " (map (fun e => html_link g (snd e)) l) ++ rest) = anchors rest.
Proof.
  induction l as [|e l IH]; intros H; [auto|]. destruct (H e (or_introl eq_refl)) as [H1 H2]. destruct l as [|e' l].
  - cbn [map join app]. rewrite hrefs_link, anchors_link by assumption. auto.
  - cbn [map]. rewrite join_cons_s by discriminate. rewrite <- !app_assoc_s. rewrite hrefs_link, anchors_link by assumption.
    destruct IH as [I1 I2]; [intros x Hx; apply H; now right|]. cbn [map] in I1, I2. split.
    + cbn [app]. f_equal. unfold hrefs. rewrite scan_plain by reflexivity. exact I1.
    + unfold anchors. rewrite scan_plain by reflexivity. exact I2.
Qed.

Definition node_links (g : graph) (reach : list string) (n : node) : list string :=
  if is_distribution (n_kind n) then []
  else (map snd (goutgoing g (n_name n)) ++ map snd (filter (fun e => memb (snd e) reach) (gincoming g (n_name n))))%list.
Lemma printed_app a b : printed (a ++ b) = printed a ++ printed b.
Proof. induction a as [|x a IH]; [reflexivity|]. cbn. rewrite IH. now rewrite <- app_assoc_s. Qed.

Lemma node_scan g reach n rest : html_clean (n_name n) -> html_clean (show_name n) ->
  (forall e, In e (goutgoing g (n_name n)) -> html_clean (snd e) /\ html_clean (name_of g (snd e))) ->
  (forall e, In e (gincoming g (n_name n)) -> memb (snd e) reach = true -> html_clean (snd e) /\ html_clean (name_of g (snd e))) ->
  hrefs (printed (html_node g reach n) ++ rest) = (node_links g reach n ++ hrefs rest)%list /\
  anchors (printed (html_node g reach n) ++ rest) = ((if is_distribution (n_kind n) then [] else [n_name n]) ++ anchors rest)%list.
Proof.
  intros H1 H2 H3 H4. unfold html_node, node_links. destruct (is_distribution (n_kind n)); [auto|].
  set (dep_part := match goutgoing g (n_name n) with [] => [] | _ => _ end).
  set (use_part := match gincoming g (n_name n) with [] => [] | _ => _ end).
  assert (NL : forall start r, tag_values start (String newline r) = tag_values start r).
  { intros start r. change (String newline r) with (ch newline ++ r). now apply scan_plain. }
  assert (Two : forall head l r, has_char lt head = false -> (forall e, In e l -> html_clean (snd e) /\ html_clean (name_of g (snd e))) ->
    let text := printed [String lt ("p>" ++ head); join ", " (map (fun e : list dep * string => html_link g (snd e)) l)] ++ r in
    hrefs text = (map snd l ++ hrefs r)%list /\ anchors text = anchors r).
  { intros head l r Hh Hl. cbn zeta.
    assert (X : printed [String lt ("p>" ++ head); join ", " (map (fun e : list dep * string => html_link g (snd e)) l)] ++ r =
      String lt (("p>" ++ head) ++ String newline (join ", " (map (fun e : list dep * string => html_link g (snd e)) l) ++ String newline r))).
    { cbn [printed append]. rewrite <- !app_assoc_s. cbn [append]. now rewrite <- app_assoc_s. }
    rewrite X. destruct (links_scan g l (String newline r) Hl) as [L1 L2]. unfold hrefs, anchors in *.
    split; (rewrite scan_tag; [rewrite NL|exact Hh|intros t; reflexivity]).
    - now rewrite L1, NL.
    - now rewrite L2, NL. }
  assert (D : forall r, hrefs (printed dep_part ++ r) = (map snd (goutgoing g (n_name n)) ++ hrefs r)%list /\ anchors (printed dep_part ++ r) = anchors r).
  { intros r. unfold dep_part. destruct (goutgoing g (n_name n)) as [|e l] eqn:El; [auto|].
    exact (Two "Depends on:" (e :: l) r eq_refl H3). }
  assert (U : forall r, hrefs (printed use_part ++ r) = (map snd (filter (fun e => memb (snd e) reach) (gincoming g (n_name n))) ++ hrefs r)%list
     /\ anchors (printed use_part ++ r) = anchors r).
  { intros r. unfold use_part. destruct (gincoming g (n_name n)) as [|e l] eqn:El; [auto|].
    apply (Two "Used by:" (filter (fun e => memb (snd e) reach) (e :: l)) r eq_refl).
    intros x Hx. apply filter_In in Hx as [X1 X2]. auto. }
  rewrite !printed_app. rewrite <- !app_assoc_s. cbn [printed]. rewrite <- !app_assoc_s. cbn [append].
  rewrite hrefs_anchor, anchors_anchor by assumption. unfold hrefs at 1, anchors at 1. rewrite !NL.
  change (tag_values ("a href=" ++ ch dquote ++ "#")) with hrefs. change (tag_values ("a name=" ++ ch dquote)) with anchors.
  destruct (D (printed use_part ++ rest)) as [D1 D2]. destruct (U rest) as [U1 U2].
  rewrite D1, D2, U1, U2. split; [now rewrite app_assoc|reflexivity].
Qed.

Lemma nodes_scan g reach l rest : (forall n, In n l -> html_clean (n_name n) /\ html_clean (show_name n)) ->
  (forall n e, In n l -> In e (goutgoing g (n_name n)) -> html_clean (snd e) /\ html_clean (name_of g (snd e))) ->
  (forall n e, In n l -> In e (gincoming g (n_name n)) -> memb (snd e) reach = true -> html_clean (snd e) /\ html_clean (name_of g (snd e))) ->
  hrefs (printed (flat_map (html_node g reach) l) ++ rest) = (flat_map (node_links g reach) l ++ hrefs rest)%list /\
  anchors (printed (flat_map (html_node g reach) l) ++ rest) = (map n_name (filter (fun n => negb (is_distribution (n_kind n))) l) ++ anchors rest)%list.
Proof.
  induction l as [|n l IH]; intros H1 H2 H3; [auto|]. cbn [flat_map filter]. rewrite printed_app, <- app_assoc_s.
  destruct (H1 n (or_introl eq_refl)) as [C1 C2].
  destruct (node_scan g reach n (printed (flat_map (html_node g reach) l) ++ rest) C1 C2) as [N1 N2].
  { intros e. apply H2. now left. }
  { intros e. apply H3. now left. }
  destruct IH as [I1 I2]; [intros m Hm; apply H1; now right|intros m e Hm; apply H2; now right|intros m e Hm; apply H3; now right|].
  rewrite N1, N2, I1, I2. split; [now rewrite app_assoc|]. destruct (is_distribution (n_kind n)); reflexivity.
Qed.

(** Identifiers and names without [<] and double quotes. *)
Definition html_safe (g : graph) : Prop := forall n, reachable g n -> clean ["<"%char; dquote] (n_name n) /\
  forall d, n_dist n = Some d -> clean ["<"%char; dquote] (dist_name d).
Lemma clean_html s : clean ["<"%char; dquote] s -> html_clean s.
Proof. intros H. split; apply no_char_has, H; cbn; auto. Qed.

Lemma html_scan g it1 it2 : sound g -> traversal g it1 -> traversal g it2 -> html_safe g ->
  hrefs (export_to_html g it1 it2) = flat_map (node_links g (map n_name it1)) (sorted n_name it2) /\
  anchors (export_to_html g it1 it2) = map n_name (filter (fun n => negb (is_distribution (n_kind n))) (sorted n_name it2)).
Proof.
  intros So [T1 T2] [U1 U2] Cl.
  assert (C : forall n, reachable g n -> html_clean (n_name n) /\ html_clean (show_name n)).
  { intros n Hn. destruct (Cl n Hn) as [C1 C2]. split; [now apply clean_html|]. unfold show_name.
    destruct (n_kind n); try (now apply clean_html). destruct (n_dist n) as [d|]; apply clean_html; auto. }
  assert (R : forall id, reaches g id -> html_clean id /\ html_clean (name_of g id)).
  { intros id H. destruct (reaches_node g id So H) as (n & Hn & <-). destruct (C n Hn) as [C1 C2]. split; [exact C1|]. unfold name_of.
    assert (F : gfind g (n_name n) = Some n).
    { destruct (gfind g (n_name n)) as [m|] eqn:F; unfold gfind in F.
      - apply find_some in F as [F1 F2]. apply seqb_eq in F2. f_equal. apply (same_node g m n So F1 (proj1 Hn) F2).
      - pose proof (find_none _ _ F n (proj1 Hn)) as Hf. cbn beta in Hf. rewrite (proj2 (seqb_eq _ _) eq_refl) in Hf. discriminate. }
    now rewrite F. }
  assert (S1 : forall n, In n (sorted n_name it2) -> reachable g n).
  { intros n Hn. apply U2. eapply Permutation_in; [symmetry; apply sorted_perm|exact Hn]. }
  unfold export_to_html. set (body := printed _).
  destruct (nodes_scan g (map n_name it1) (sorted n_name it2) HTML_SUFFIX) as [N1 N2].
  - intros n Hn. now apply C, S1.
  - intros n [ds t] Hn He. apply R. apply outgoing_In in He. eapply re_edge; [apply S1; exact Hn|exact He].
  - intros n [ds t] Hn He Hm. apply R. cbn [snd] in *. apply memb_In in Hm. apply in_map_iff in Hm as (m & <- & Hm). apply T2 in Hm as [_ Hm]. exact Hm.
  - fold body in N1, N2.
    assert (P : forall start r, start = is_href \/ start = is_anchor -> tag_values start (HTML_PREFIX ++ r) = tag_values start r).
    { intros start r Hs. apply scan_skip. intros p Hp t. cbv in Hp. destruct Hs as [-> | ->];
      repeat (destruct Hp as [<-|Hp]; [reflexivity|]); destruct Hp. }
    unfold hrefs, anchors in *. rewrite (P is_href), (P is_anchor) by auto. unfold is_href, is_anchor. rewrite N1, N2.
    split; (etransitivity; [|apply app_nil_r]); f_equal; reflexivity.
Qed.

(** Anchors: exactly the reachable modules.  Links: exactly the other ends of
    their edges. *)
Theorem C55_anchors : forall g it1 it2, sound g -> traversal g it1 -> traversal g it2 -> html_safe g ->
  forall id, In id (anchors (export_to_html g it1 it2)) <-> exists n, reachable g n /\ n_name n = id /\ n_kind n <> Distribution.
Proof.
  intros g it1 it2 So T U Cl id. destruct (html_scan g it1 it2 So T U Cl) as [_ ->]. rewrite in_map_iff. split.
  - intros (n & <- & H). apply filter_In in H as [H1 H2]. exists n. split; [|split; [reflexivity|intros K; now rewrite K in H2]].
    apply (tr_all _ _ U). eapply Permutation_in; [symmetry; apply sorted_perm|exact H1].
  - intros (n & H1 & <- & H2). exists n. split; [reflexivity|]. apply filter_In. split.
    + eapply Permutation_in; [apply sorted_perm|]. now apply (tr_all _ _ U).
    + destruct (n_kind n); try reflexivity. contradiction.
Qed.
Theorem C55_hrefs : forall g it1 it2, sound g -> traversal g it1 -> traversal g it2 -> html_safe g ->
  forall id, In id (hrefs (export_to_html g it1 it2)) <-> reaches g id /\ exists n ds, reachable g n /\ n_kind n <> Distribution
    /\ (In (n_name n, id, ds) (g_edges g) \/ In (id, n_name n, ds) (g_edges g)).
Proof.
  intros g it1 it2 So T U Cl id. destruct (html_scan g it1 it2 So T U Cl) as [-> _]. rewrite in_flat_map. split.
  - intros (n & Hn & H). assert (R : reachable g n).
    { apply (tr_all _ _ U). eapply Permutation_in; [symmetry; apply sorted_perm|exact Hn]. }
    unfold node_links in H. destruct (is_distribution (n_kind n)) eqn:Ek; [destruct H|].
    assert (K : n_kind n <> Distribution) by (intros K; now rewrite K in Ek).
    apply in_app_iff in H as [H|H]; apply in_map_iff in H as ([ds t] & <- & H); cbn [snd].
    + apply outgoing_In in H. split; [eapply re_edge; [apply R|exact H]|]. exists n, ds. auto.
    + apply filter_In in H as [H1 H2]. apply incoming_In in H1. cbn [snd] in H2. apply memb_In, in_map_iff in H2 as (m & <- & H2).
      apply (tr_all _ _ T) in H2 as [_ H2]. split; [exact H2|]. exists n, ds. auto.
  - intros (Hr & n & ds & Hn & K & H). exists n. split.
    + eapply Permutation_in; [apply sorted_perm|]. now apply (tr_all _ _ U).
    + unfold node_links. assert (Ek : is_distribution (n_kind n) = false) by (destruct (n_kind n); try reflexivity; contradiction).
      rewrite Ek. apply in_app_iff. destruct H as [H|H].
      * left. apply in_map_iff. exists (ds, id). split; [reflexivity|]. now apply outgoing_In.
      * right. apply in_map_iff. exists (ds, id). split; [reflexivity|]. apply filter_In. split; [now apply incoming_In|]. cbn [snd].
        apply memb_In. destruct (reaches_node g id So Hr) as (m & Hm & <-). apply in_map. now apply (tr_all _ _ T).
Qed.
(** Links resolve unless they refer to a distribution.  Missing: links to
    distributions (refuted), and names that need escaping. *)
Theorem C55_links_partial : forall g it1 it2, sound g -> traversal g it1 -> traversal g it2 -> html_safe g ->
  forall id, In id (hrefs (export_to_html g it1 it2)) ->
  In id (anchors (export_to_html g it1 it2)) \/ exists n, reachable g n /\ n_name n = id /\ n_kind n = Distribution.
Proof.
  intros g it1 it2 So T U Cl id H. apply (C55_hrefs g it1 it2 So T U Cl) in H as [Hr _].
  destruct (reaches_node g id So Hr) as (n & Hn & <-).
  assert (D : n_kind n = Distribution \/ n_kind n <> Distribution) by (destruct (n_kind n); first [now left|right; discriminate]).
  destruct D as [D|D]; [right; eauto|left]. apply (C55_anchors g it1 it2 So T U Cl). eauto.
Qed.

(** ** Concrete cases *)

Definition shown_node (id : string) (k : kind) (d : option dist) (f : option string) : node := Node id k [] [] d f [] false.
Definition opt_dep : dep := Dep true false false None.
Definition shown_graph : graph := Graph
  [shown_node "pkg.b" (Module MSource) (Some some_dist) (Some "pkg/b.py"); shown_node "pkg" (Package false "pkg" MSource None None) (Some some_dist) None;
   shown_node "alone" (Module MSource) (Some some_dist) None; shown_node "m" MissingModule None None]
  [("pkg.b", "pkg", [default_dep]); ("pkg", "m", [opt_dep])] ["pkg.b"].
Definition shown : list node :=
  [shown_node "pkg.b" (Module MSource) (Some some_dist) (Some "pkg/b.py"); shown_node "pkg" (Package false "pkg" MSource None None) (Some some_dist) None;
   shown_node "m" MissingModule None None].
Lemma shown_sound : sound shown_graph.
Proof.
  constructor; cbn.
  - repeat (apply NoDup_cons; [cbn; intuition discriminate|]). apply NoDup_nil.
  - repeat (apply NoDup_cons; [cbn; intuition discriminate|]). apply NoDup_nil.
  - intros a b ds [H|[H|[]]]; injection H as <- <- <-; auto 10.
  - intros id [<-|[]]. auto.
Qed.
Lemma shown_traversal : traversal shown_graph shown.
Proof.
  assert (R1 : reaches shown_graph "pkg.b") by (apply re_root; now left).
  assert (R2 : reaches shown_graph "pkg") by (eapply re_edge; [exact R1|now left]).
  assert (R3 : reaches shown_graph "m") by (eapply re_edge; [exact R2|right; now left]).
  constructor; [cbn; repeat (apply NoDup_cons; [cbn; intuition discriminate|]); apply NoDup_nil|]. intros n. split.
  - intros [<-|[<-|[<-|[]]]]; (split; [cbn; auto 10|assumption]).
  - intros [[<-|[<-|[<-|[<-|[]]]]] H]; try (cbn; auto 10; fail). exfalso. clear - H. remember (n_name _) as id eqn:Hid.
    cbn in Hid. destruct H as [id H|a b ds _ H]; subst.
    + destruct H as [H|[]]. discriminate.
    + destruct H as [H|[H|[]]]; discriminate.
Qed.
Example C52_nonvacuous : map dist_identifier (distributions shown) = ["d 1"] /\ map dist_identifier (distributions (g_nodes (s_graph dist_end))) = [].
Proof. vm_compute. auto. Qed.
Example C53_nonvacuous : report shown = (heading ++ ["MissingModule   m                         "; "Package         pkg                       ";
  "SourceModule    pkg.b                     pkg/b.py"])%list.
Proof. vm_compute. reflexivity. Qed.
Example C54_nonvacuous : read_dot (print_dot shown_graph shown shown) =
  Some ([RNode "pkg.b" (Some [("penwidth", "2"); ("root", "true"); ("shape", "rectangle")]);
         REdge "pkg.b" "pkg" (Some [("arrowhead", "none"); ("weight", "10")]);
         RNode "pkg" (Some [("shape", "folder")]); REdge "pkg" "m" (Some [("style", "dashed")]);
         RNode "m" (Some [("color", "red"); ("shape", "rectangle")])],
        [("cluster_0", "d", "tab", ["pkg.b"; "pkg"])]).
Proof. vm_compute. reflexivity. Qed.
Example C54_hypotheses : forall n, reachable shown_graph n -> clean [newline; dquote] (n_name n) /\ forall d, n_dist n = Some d -> clean [newline; dquote] (dist_name d).
Proof.
  intros n [H _]. assert (X : Forall (fun n => has_char newline (n_name n) = false /\ has_char dquote (n_name n) = false
    /\ forall d, n_dist n = Some d -> d = some_dist) (g_nodes shown_graph)).
  { repeat (constructor; [cbn; repeat split; intros; congruence|]). constructor. }
  rewrite Forall_forall in X. destruct (X n H) as (A & B & C). split.
  - intros c [<-|[<-|[]]]; now apply no_char_has.
  - intros d Hd c Hc. rewrite (C d Hd). apply no_char_has. destruct Hc as [<-|[<-|[]]]; reflexivity.
Qed.
Example C55_nonvacuous : hrefs (export_to_html shown_graph shown shown) = ["pkg"; "m"; "pkg.b"; "pkg"]
  /\ anchors (export_to_html shown_graph shown shown) = ["m"; "pkg"; "pkg.b"].
Proof. vm_compute. auto. Qed.

Print Assumptions C52_distributions.
Print Assumptions C52_exactly.
Print Assumptions C53_report.
Print Assumptions C53_text.
Print Assumptions C54_refuted.
Print Assumptions C54_dot_partial.
Print Assumptions C54_attributes.
Print Assumptions C55_refuted.
Print Assumptions C55_anchors.
Print Assumptions C55_hrefs.
Print Assumptions C55_links_partial.
