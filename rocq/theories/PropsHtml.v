(** Theorems about the HTML report: C72. *)
From Verif Require Import HtmlSpec ReportProofs PropsReport.
From Coq Require Import Sorted Permutation.
Open Scope string_scope.

(** The file describes the reachable modules, their dependencies and users. *)
Definition C72_statement : Prop := forall g it1 it2, sound g -> traversal g it1 -> traversal g it2 ->
  exists secs, read_html (export_to_html g it1 it2) = Some secs /\ html_tells true g secs.

(** ** Reading back *)

Definition plain_text (s : string) : Prop := has_char lt s = false /\ has_char dquote s = false /\ has_char newline s = false.
Lemma class_plain k : plain_text (class_name k) /\ has_char " " (class_name k) = false.
Proof. destruct k as [|[]| |[]| | | | | |]; repeat split; reflexivity. Qed.

Lemma read_anchor_line n : plain_text (n_name n) -> read_anchor (html_anchor n) = Some (n_name n, class_name (n_kind n), show_name n).
Proof.
  intros (A & B & C). unfold read_anchor, html_anchor. rewrite strip_app, take_quoted_app by exact B. rewrite strip_app.
  change (" " ++ show_name n ++ "</h2></a>") with (String " " (show_name n ++ "</h2></a>")).
  rewrite lpart_app by apply class_plain. now rewrite strip_end_app.
Qed.
Lemma link_tag id name : plain_text id -> read_link ("a href=" ++ quoted ("#" ++ id) ++ ">" ++ name) = Some (id, name).
Proof.
  intros (A & B & C). unfold read_link. rewrite strip_app, take_quoted_app by exact B. now rewrite !strip_app.
Qed.
Definition tag_of (g : graph) (id : string) : string := "a href=" ++ quoted ("#" ++ id) ++ ">" ++ name_of g id.
Lemma link_pieces g id rest x l : plain_text id -> plain_text (name_of g id) -> pieces lt rest = x :: l ->
  pieces lt (html_link g id ++ rest) = "" :: tag_of g id :: ("/a>" ++ x) :: l.
Proof.
  intros (A & B & C) (D & F & G) R. unfold html_link.
  assert (X : ("<a href=" ++ quoted ("#" ++ id) ++ ">" ++ name_of g id ++ "</a>") ++ rest
    = String lt (tag_of g id ++ String lt ("/a>" ++ rest))).
  { unfold tag_of. cbn [append]. f_equal. repeat (rewrite <- ?app_assoc_s; cbn [append]). reflexivity. }
  rewrite X, pieces_sep, pieces_app.
  2:{ unfold tag_of, quoted. cbn [append has_char]. rewrite !has_char_app. cbn [has_char append]. rewrite A, D. reflexivity. }
  rewrite pieces_sep, pieces_app by reflexivity. rewrite R. now rewrite app_nil_r_s.
Qed.
Fixpoint tags_of (g : graph) (ids : list string) : list string :=
  match ids with
  | [] => []
  | id :: r => tag_of g id :: (match r with [] => "/a>" | _ => "/a>, " end) :: tags_of g r
  end.
Definition all_plain (g : graph) (ids : list string) : Prop := forall id, In id ids -> plain_text id /\ plain_text (name_of g id).
Lemma links_pieces g ids : all_plain g ids -> pieces lt (join ", " (map (html_link g) ids)) = "" :: tags_of g ids.
Proof.
  induction ids as [|id ids IH]; intros H; [reflexivity|]. destruct (H id (or_introl eq_refl)) as [H1 H2].
  assert (H' : all_plain g ids) by (intros x Hx; apply H; now right). specialize (IH H'). destruct ids as [|id' ids].
  - cbn [map join tags_of]. rewrite <- (app_nil_r_s (html_link g id)). now rewrite (link_pieces g id "" "" [] H1 H2 eq_refl).
  - cbn [map] in *. rewrite join_cons_s by discriminate.
    rewrite (link_pieces g id _ ", " (tags_of g (id' :: ids)) H1 H2); [reflexivity|].
    rewrite pieces_app by reflexivity. now rewrite IH.
Qed.
Definition link_of (g : graph) (id : string) : string * string := (id, name_of g id).
Lemma read_tags_of g ids : all_plain g ids -> read_tags (tags_of g ids) = Some (map (link_of g) ids).
Proof.
  induction ids as [|id ids IH]; intros H; [reflexivity|]. destruct (H id (or_introl eq_refl)) as [H1 H2].
  assert (H' : all_plain g ids) by (intros x Hx; apply H; now right). specialize (IH H').
  cbn [tags_of read_tags map]. unfold tag_of at 1. rewrite (link_tag _ _ H1), IH. destruct ids; reflexivity.
Qed.
Lemma read_links_line g ids : all_plain g ids -> read_links (join ", " (map (html_link g) ids)) = Some (map (link_of g) ids).
Proof. intros H. unfold read_links. change "<"%char with lt. rewrite (links_pieces g ids H). now apply read_tags_of. Qed.

(** *** Sections *)
Definition part_of (g : graph) (any : list string) (ids : list string) : option (list (string * string)) :=
  match any with [] => None | _ => Some (map (link_of g) ids) end.
Definition used_from (g : graph) (reach : list string) (n : node) : list string :=
  filter (fun id => memb id reach) (map snd (gincoming g (n_name n))).
Definition section_of (g : graph) (reach : list string) (n : node) : html_section :=
  Sec (n_name n) (class_name (n_kind n)) (show_name n)
    (part_of g (map snd (goutgoing g (n_name n))) (map snd (goutgoing g (n_name n))))
    (part_of g (map snd (gincoming g (n_name n))) (used_from g reach n)).
Definition part_lines (g : graph) (head : string) (any ids : list string) : list string :=
  match any with [] => [] | _ => [head; join ", " (map (html_link g) ids)] end.
Lemma filter_snd {A} (f : string -> bool) (l : list (A * string)) : map snd (filter (fun e => f (snd e)) l) = filter f (map snd l).
Proof. induction l as [|x r IH]; [reflexivity|]. cbn [map filter]. destruct (f (snd x)); cbn [map]; now rewrite IH. Qed.
Lemma html_node_lines g reach n : is_distribution (n_kind n) = false -> html_node g reach n =
  html_anchor n :: (part_lines g "<p>Depends on:" (map snd (goutgoing g (n_name n))) (map snd (goutgoing g (n_name n))) ++
                    part_lines g "<p>Used by:" (map snd (gincoming g (n_name n))) (used_from g reach n))%list.
Proof.
  intros H. unfold html_node. rewrite H. cbn [app]. f_equal. unfold part_lines, used_from. f_equal.
  - destruct (goutgoing g (n_name n)); [reflexivity|]. now rewrite map_map.
  - destruct (gincoming g (n_name n)) as [|e l]; [reflexivity|]. cbn [map]. f_equal. f_equal. f_equal.
    rewrite <- (map_map snd (html_link g)). f_equal.
    exact (filter_snd (fun id => memb id reach) (e :: l)).
Qed.

Definition not_next (head : string) (ls : list string) : Prop := match ls with l :: _ => l <> head | [] => True end.
Lemma read_part_lines g head any ids rest : all_plain g ids -> not_next head rest ->
  read_part head (part_lines g head any ids ++ rest) = Some (part_of g any ids, rest).
Proof.
  intros H N. unfold part_lines, part_of. destruct any as [|a any].
  - cbn [app]. unfold read_part. destruct rest as [|l [|m r]]; try reflexivity. destruct (seqb l head) eqn:E; [|reflexivity].
    apply seqb_eq in E. contradiction.
  - cbn [app read_part]. rewrite (proj2 (seqb_eq head head) eq_refl). now rewrite read_links_line.
Qed.
Definition foot : list string := ["  </BODY>"; "</HTML>"].
Definition shown_nodes (l : list node) : list node := filter (fun n => negb (is_distribution (n_kind n))) l.
Lemma next_ok g reach l head : head = "<p>Depends on:" \/ head = "<p>Used by:" -> not_next head (flat_map (html_node g reach) l ++ foot).
Proof.
  intros Hh. induction l as [|n l IH]; [destruct Hh as [-> | ->]; discriminate|]. cbn [flat_map]. destruct (is_distribution (n_kind n)) eqn:E.
  - unfold html_node at 1. rewrite E. exact IH.
  - rewrite html_node_lines by exact E. destruct Hh as [-> | ->]; discriminate.
Qed.
Lemma part_next g any ids rest head : head <> "<p>Used by:" -> not_next head rest -> not_next head (part_lines g "<p>Used by:" any ids ++ rest).
Proof. intros H N. destruct any; [exact N|]. cbn. congruence. Qed.

Lemma read_nodes g reach l : (forall n, In n l -> plain_text (n_name n)) ->
  (forall n, In n l -> all_plain g (map snd (goutgoing g (n_name n))) /\ all_plain g (used_from g reach n)) ->
  forall fuel, List.length (flat_map (html_node g reach) l) < fuel ->
  read_sections fuel (flat_map (html_node g reach) l ++ foot) = Some (map (section_of g reach) (shown_nodes l), foot).
Proof.
  induction l as [|n l IH]; intros H1 H2 fuel Hf.
  - destruct fuel; reflexivity.
  - assert (I1 : forall m, In m l -> plain_text (n_name m)) by (intros m Hm; apply H1; now right).
    assert (I2 : forall m, In m l -> all_plain g (map snd (goutgoing g (n_name m))) /\ all_plain g (used_from g reach m)) by (intros m Hm; apply H2; now right).
    specialize (IH I1 I2). cbn [flat_map shown_nodes filter] in *. destruct (is_distribution (n_kind n)) eqn:E; cbn [negb].
    + unfold html_node at 1 in Hf. unfold html_node at 1. rewrite E in *. exact (IH fuel Hf).
    + destruct (H2 n (or_introl eq_refl)) as [P1 P2]. rewrite html_node_lines in * by exact E.
      destruct fuel as [|fuel]; [inversion Hf|]. cbn [app]. rewrite <- !app_assoc. cbn [read_sections].
      rewrite read_anchor_line by (apply H1; now left).
      rewrite read_part_lines; [|exact P1|].
      2:{ apply part_next; [discriminate|]. apply next_ok. now left. }
      rewrite read_part_lines; [|exact P2|apply next_ok; now right].
      rewrite IH; [reflexivity|]. rewrite app_length in Hf. cbn [List.length] in Hf. lia.
Qed.

(** Identifiers and names without [<], double quotes and newlines. *)
Definition html_plain (g : graph) : Prop := forall n, reachable g n -> clean ["<"%char; dquote; newline] (n_name n) /\
  forall d, n_dist n = Some d -> clean ["<"%char; dquote; newline] (dist_name d).
Lemma clean_plain s : clean ["<"%char; dquote; newline] s -> plain_text s.
Proof. intros H. repeat split; apply no_char_has, H; cbn; auto. Qed.

Lemma incoming_once g id : NoDup (map fst (g_edges g)) -> NoDup (map snd (gincoming g id)).
Proof.
  unfold gincoming. induction (g_edges g) as [|[[a b] ds] l IH]; intros N; [constructor|]. cbn in N. apply NoDup_cons_iff in N as [N1 N2].
  cbn [flat_map]. destruct (seqb b id) eqn:E; [|exact (IH N2)]. apply seqb_eq in E as ->. cbn. constructor; [|exact (IH N2)].
  intros K. apply N1. apply in_map_iff in K as ([ds' t] & <- & K). apply (incoming_In (Graph [] l [])) in K.
  apply in_map_iff. now exists (t, id, ds').
Qed.
Lemma gfind_node g n : sound g -> In n (g_nodes g) -> gfind g (n_name n) = Some n.
Proof.
  intros So Hn. destruct (gfind g (n_name n)) as [m|] eqn:F; unfold gfind in F.
  - apply find_some in F as [F1 F2]. apply seqb_eq in F2. f_equal. apply (same_node g m n So F1 Hn F2).
  - pose proof (find_none _ _ F n Hn) as Hf. cbn beta in Hf. rewrite (proj2 (seqb_eq _ _) eq_refl) in Hf. discriminate.
Qed.
Lemma show_named g n : In n (g_nodes g) -> named_as g (n_name n) (show_name n).
Proof.
  intros Hn. unfold show_name.
  destruct (n_kind n) eqn:K; try (apply (nm_node g (n_name n) n); [exact Hn|reflexivity|left; rewrite K; discriminate]).
  destruct (n_dist n) as [d|] eqn:D; [now apply (nm_dist g (n_name n) n d)|apply (nm_node g (n_name n) n); auto].
Qed.
Lemma name_named g id : sound g -> In id (map n_name (g_nodes g)) -> named_as g id (name_of g id).
Proof.
  intros So H. apply in_map_iff in H as (n & <- & Hn). unfold name_of. rewrite (gfind_node g n So Hn). now apply show_named.
Qed.
Lemma map_link g ids : map fst (map (link_of g) ids) = ids.
Proof. rewrite map_map. cbn. now rewrite map_id. Qed.

Lemma join_plain c l : has_char c ", " = false -> (forall x, In x l -> has_char c x = false) -> has_char c (join ", " l) = false.
Proof.
  intros Hc. induction l as [|x l IH]; intros H; [reflexivity|]. destruct l as [|y l].
  - apply H. now left.
  - rewrite join_cons_s by discriminate. rewrite !has_char_app, Hc, (H x) by now left. apply IH. intros z Hz. apply H. now right.
Qed.
Lemma node_line g reach n : plain_text (n_name n) -> plain_text (show_name n) -> all_plain g (map snd (goutgoing g (n_name n))) ->
  all_plain g (used_from g reach n) -> forall x, In x (html_node g reach n) -> has_char newline x = false.
Proof.
  intros (_ & _ & A) (_ & _ & B) P1 P2 x Hx. destruct (is_distribution (n_kind n)) eqn:E.
  { unfold html_node in Hx. rewrite E in Hx. destruct Hx. }
  rewrite html_node_lines in Hx by exact E.
  assert (L : forall ids, all_plain g ids -> has_char newline (join ", " (map (html_link g) ids)) = false).
  { intros ids H. apply join_plain; [reflexivity|]. intros y Hy. apply in_map_iff in Hy as (id & <- & Hy). destruct (H id Hy) as [(_ & _ & H1) (_ & _ & H2)].
    unfold html_link, quoted. rewrite !has_char_app. cbn [has_char append]. rewrite !has_char_app, H1, H2. reflexivity. }
  destruct Hx as [<-|Hx].
  - unfold html_anchor, quoted. rewrite !has_char_app. cbn [has_char append]. rewrite !has_char_app, A, B.
    destruct (class_plain (n_kind n)) as [(_ & _ & ->) _]. reflexivity.
  - apply in_app_iff in Hx. unfold part_lines in Hx. destruct Hx as [Hx|Hx].
    + destruct (map snd (goutgoing g (n_name n))) eqn:Eo; [destruct Hx|]. destruct Hx as [<-|[<-|[]]]; [reflexivity|now apply L].
    + destruct (map snd (gincoming g (n_name n))) eqn:Eo; [destruct Hx|]. destruct Hx as [<-|[<-|[]]]; [reflexivity|now apply L].
Qed.

(** The report read back; only the headings of empty lists are not as they should be.
    Missing: those, and names that need escaping. *)
Theorem C72_html_partial : forall g it1 it2, sound g -> traversal g it1 -> traversal g it2 -> html_plain g ->
  exists secs, read_html (export_to_html g it1 it2) = Some secs /\ html_tells false g secs.
Proof.
  intros g it1 it2 So T U Cl. pose proof So as [S1 S2 S3 S4]. pose proof T as [T1 T2]. pose proof U as [U1 U2].
  assert (C : forall n, reachable g n -> plain_text (n_name n) /\ plain_text (show_name n)).
  { intros n Hn. destruct (Cl n Hn) as [C1 C2]. split; [now apply clean_plain|]. unfold show_name.
    destruct (n_kind n); try (now apply clean_plain). destruct (n_dist n) as [d|]; apply clean_plain; auto. }
  assert (R : forall id, reaches g id -> plain_text id /\ plain_text (name_of g id)).
  { intros id H. destruct (reaches_node g id So H) as (n & Hn & <-). destruct (C n Hn) as [C1 C2]. split; [exact C1|]. unfold name_of.
    now rewrite (gfind_node g n So (proj1 Hn)). }
  assert (Q : forall n, In n (sorted n_name it2) <-> reachable g n).
  { intros n. rewrite <- U2. split; intros K; [eapply Permutation_in; [symmetry; apply sorted_perm|exact K]|eapply Permutation_in; [apply sorted_perm|exact K]]. }
  set (reach := map n_name it1) in *.
  assert (Rc : forall id, memb id reach = true <-> reaches g id).
  { intros id. rewrite memb_In. unfold reach. rewrite in_map_iff. split.
    - intros (m & <- & Hm). now apply T2 in Hm as [_ Hm].
    - intros H. destruct (reaches_node g id So H) as (n & Hn & <-). exists n. split; [reflexivity|now apply T2]. }
  assert (Out : forall n, reachable g n -> forall id, In id (map snd (goutgoing g (n_name n))) -> reaches g id).
  { intros n [_ Hn] id H. apply in_map_iff in H as ([ds t] & <- & H). apply outgoing_In in H. eapply re_edge; eassumption. }
  assert (Use : forall n id, In id (used_from g reach n) -> reaches g id).
  { intros n id H. unfold used_from in H. apply filter_In in H as [_ H]. now apply Rc. }
  assert (Pl : forall n, In n (sorted n_name it2) -> all_plain g (map snd (goutgoing g (n_name n))) /\ all_plain g (used_from g reach n)).
  { intros n Hn. apply Q in Hn. split; intros id H; apply R; [now apply (Out n Hn)|now apply (Use n)]. }
  exists (map (section_of g reach) (shown_nodes (sorted n_name it2))). split.
  - unfold read_html, export_to_html. fold reach.
    set (head := ["<HTML>"; "  <HEAD>"; "   <TITLE>Modulegraph report</TITLE>"; "  </HEAD>"; "  <BODY>"; "   <H1>Modulegraph report</H1>"]).
    set (body := flat_map (html_node g reach) (sorted n_name it2)).
    assert (X : HTML_PREFIX ++ printed body ++ HTML_SUFFIX = printed (head ++ body ++ foot)%list).
    { now rewrite !printed_app. }
    rewrite X, lines_printed.
    + unfold head. cbn [app]. unfold body. rewrite read_nodes; [reflexivity| |exact Pl|fold body; rewrite app_length; cbn; lia].
      intros n Hn. apply C. now apply Q.
    + apply Forall_app. split; [repeat constructor|]. apply Forall_app. split; [|repeat constructor].
      apply Forall_forall. intros x Hx. apply in_flat_map in Hx as (n & Hn & Hx).
      destruct (Pl n Hn) as [P1 P2]. apply Q in Hn. destruct (C n Hn) as [C1 C2]. exact (node_line g reach n C1 C2 P1 P2 x Hx).
  - constructor.
    + rewrite map_map. cbn [section_of sec_id]. apply sorted_filter_before. now apply sorted_before.
    + intros id. rewrite map_map. cbn [section_of sec_id]. rewrite in_map_iff. unfold shown_nodes. split.
      * intros (n & <- & H). apply filter_In in H as [H1 H2]. exists n. split; [now apply Q|]. split; [reflexivity|].
        intros K. now rewrite K in H2.
      * intros (n & H1 & <- & H2). exists n. split; [reflexivity|]. apply filter_In. split; [now apply Q|].
        destruct (n_kind n); try reflexivity. contradiction.
    + intros x Hx. apply in_map_iff in Hx as (n & <- & H). apply filter_In in H as [H1 H2]. apply Q in H1.
      assert (K : n_kind n <> Distribution) by (intros K; now rewrite K in H2).
      constructor; cbn [section_of sec_id sec_class sec_name sec_deps sec_users].
      * exists n. split; [exact H1|]. split; [reflexivity|]. split; [exact K|apply class_is].
      * apply show_named. apply H1.
      * unfold part_of. destruct (map snd (goutgoing g (n_name n))) as [|a r] eqn:Eo.
        -- intros t ds He. apply outgoing_In in He. apply (in_map snd) in He. now rewrite Eo in He.
        -- rewrite <- Eo. split; [rewrite Eo; discriminate|]. constructor.
           ++ rewrite map_link. now apply outgoing_once.
           ++ intros id. rewrite map_link, in_map_iff. split.
              ** intros ([ds t] & <- & He). exists ds. now apply outgoing_In.
              ** intros (ds & He). exists (ds, id). split; [reflexivity|now apply outgoing_In].
           ++ intros id nm Hi. apply in_map_iff in Hi as (id' & Hi & He). injection Hi as -> <-. apply name_named; [exact So|].
              apply in_map_iff in He as ([ds t] & <- & He). apply outgoing_In in He. now apply S3 in He as [_ He].
      * unfold part_of. destruct (map snd (gincoming g (n_name n))) as [|a r] eqn:Eo.
        -- intros t ds _ He. apply incoming_In in He. apply (in_map snd) in He. now rewrite Eo in He.
        -- split; [discriminate|]. constructor.
           ++ rewrite map_link. apply NoDup_filter. now apply incoming_once.
           ++ intros id. rewrite map_link. unfold used_from. rewrite filter_In, Rc, in_map_iff. split.
              ** intros (([ds t] & <- & He) & Hr). split; [exact Hr|]. exists ds. now apply incoming_In.
              ** intros (Hr & ds & He). split; [|exact Hr]. exists (ds, id). split; [reflexivity|now apply incoming_In].
           ++ intros id nm Hi. apply in_map_iff in Hi as (id' & Hi & He). injection Hi as -> <-. apply name_named; [exact So|].
              apply filter_In in He as [He _]. apply in_map_iff in He as ([ds t] & <- & He). apply incoming_In in He. now apply S3 in He as [He _].
Qed.

(** With a node that is used by unreachable modules only, there is a heading with
    nothing below it. *)
Definition lonely : graph := Graph [shown_node "a" (Module MSource) None None; shown_node "b" (Module MSource) None None]
  [("b", "a", [default_dep])] ["a"].
Lemma lonely_sound : sound lonely.
Proof.
  constructor; cbn.
  - repeat (apply NoDup_cons; [cbn; intuition discriminate|]). apply NoDup_nil.
  - repeat (apply NoDup_cons; [cbn; intuition discriminate|]). apply NoDup_nil.
  - intros a b ds [H|[]]. injection H as <- <- <-. auto.
  - intros id [<-|[]]. auto.
Qed.
Lemma lonely_traversal : traversal lonely [shown_node "a" (Module MSource) None None].
Proof.
  constructor; [repeat constructor; intros []|]. intros n. split.
  - intros [<-|[]]. split; [now left|]. apply re_root. now left.
  - intros [[<-|[<-|[]]] H]; [now left|]. exfalso. cbn [n_name shown_node] in H. inversion H as [id H1|a b ds H1 H2]; subst.
    + destruct H1 as [H1|[]]. discriminate.
    + destruct H2 as [H2|[]]. discriminate.
Qed.
Theorem C72_refuted : ~ C72_statement.
Proof.
  intros H. destruct (H _ _ _ lonely_sound lonely_traversal lonely_traversal) as (secs & R & [_ _ E]).
  vm_compute in R. injection R as <-. destruct (E _ (or_introl eq_refl)) as [_ _ _ D]. cbn in D. destruct D as [D _]. now apply D.
Qed.

Example C72_nonvacuous : read_html (export_to_html shown_graph shown shown) =
  Some [Sec "m" "MissingModule" "m" None (Some [("pkg", "pkg")]);
        Sec "pkg" "Package" "pkg" (Some [("m", "m")]) (Some [("pkg.b", "pkg.b")]);
        Sec "pkg.b" "SourceModule" "pkg.b" (Some [("pkg", "pkg")]) None].
Proof. vm_compute. reflexivity. Qed.
Example C72_hypotheses : html_plain shown_graph.
Proof.
  intros n [H _]. assert (X : Forall (fun n => plain_text (n_name n) /\ forall d, n_dist n = Some d -> d = some_dist) (g_nodes shown_graph)).
  { repeat (constructor; [cbn; repeat split; intros; congruence|]). constructor. }
  rewrite Forall_forall in X. destruct (X n H) as ((A & B & C) & D). split.
  - intros c [<-|[<-|[<-|[]]]]; now apply no_char_has.
  - intros d Hd c Hc. rewrite (D d Hd). apply no_char_has. destruct Hc as [<-|[<-|[<-|[]]]]; reflexivity.
Qed.
Example C72_shown : exists secs, read_html (export_to_html shown_graph shown shown) = Some secs /\ html_tells false shown_graph secs.
Proof. apply C72_html_partial; [apply shown_sound|apply shown_traversal|apply shown_traversal|apply C72_hypotheses]. Qed.

Print Assumptions C72_refuted.
Print Assumptions C72_html_partial.
