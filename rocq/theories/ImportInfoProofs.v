From Coq Require Import Permutation.
From Verif Require Import PyStrFacts ImportInfo.

Lemma in_names_In n l : in_names n l = true <-> In n (map in_name l).
Proof.
  unfold in_names. rewrite existsb_exists, in_map_iff. split.
  - intros (x & H & E). apply seqb_eq in E. eauto.
  - intros (x & E & H). exists x. split; auto. now apply seqb_eq.
Qed.

Lemma in_names_false n l : in_names n l = false <-> ~ In n (map in_name l).
Proof. rewrite <- in_names_In. destruct (in_names n l); split; congruence. Qed.

Lemma names_add_facts x l :
  (forall n, In n (map in_name (names_add x l)) <-> n = in_name x \/ In n (map in_name l))
  /\ (NoDup (map in_name l) -> NoDup (map in_name (names_add x l)))
  /\ (forall y, In y (names_add x l) -> y = x \/ In y l)
  /\ (forall y, In y l -> In y (names_add x l)).
Proof.
  unfold names_add. destruct (in_names (in_name x) l) eqn:E.
  - apply in_names_In in E. repeat split; auto; firstorder (subst; auto).
  - apply in_names_false in E. rewrite map_app. cbn. repeat split.
    + intros H. apply in_app_or in H as [H|[H|[]]]; auto.
    + intros [->|H]; apply in_or_app; cbn; auto.
    + intros H. apply NoDup_rev in H. rewrite <- (rev_involutive (map _ _ ++ _)).
      apply NoDup_rev. rewrite rev_app_distr. cbn. constructor; auto. now rewrite <- in_rev.
    + intros y H. apply in_app_or in H as [H|[H|[]]]; auto.
    + intros y H. apply in_or_app; auto.
Qed.

Lemma names_of_facts l : forall acc,
  let r := fold_left (fun acc x => names_add x acc) l acc in
  (forall n, In n (map in_name r) <-> In n (map in_name acc) \/ In n (map in_name l))
  /\ (NoDup (map in_name acc) -> NoDup (map in_name r))
  /\ (forall y, In y r -> In y acc \/ In y l)
  /\ (forall y, In y acc -> In y r).
Proof.
  induction l as [|x l IH]; intros acc.
  - cbn. repeat split; auto; firstorder.
  - cbn [fold_left]. destruct (IH (names_add x acc)) as (A & B & C & D).
    destruct (names_add_facts x acc) as (A' & B' & C' & D').
    cbn [map In]. repeat split.
    + intros H. apply A in H. rewrite A' in H. intuition (subst; auto).
    + intros H. apply A. rewrite A'. intuition (subst; auto).
    + auto.
    + intros y H. apply C in H as [H|H]; auto. apply C' in H as [H|H]; auto.
    + auto.
Qed.

Lemma names_remove_names n l :
  map in_name (names_remove n l) = filter (fun x => negb (seqb x n)) (map in_name l).
Proof.
  unfold names_remove. induction l as [|x l IH]; [reflexivity|]. cbn.
  destruct (seqb (in_name x) n); cbn; congruence.
Qed.

Lemma create_importinfo_names nm l lv a b c :
  let i := create_importinfo nm (Some l) lv a b c in
  (forall n, In n (map in_name (ii_names i)) <-> n <> "*" /\ In n (map fst l))
  /\ NoDup (map in_name (ii_names i))
  /\ (ii_star i = true <-> In "*" (map fst l))
  /\ (forall x, In x (ii_names i) -> In (in_name x, in_asname x) l).
Proof.
  unfold create_importinfo, names_of.
  destruct (names_of_facts (map from_tuple l) []) as (A & B & C & _).
  set (s := fold_left (fun acc x => names_add x acc) (map from_tuple l) []) in *.
  cbn [map In] in *. cbv zeta.
  assert (forall n, In n (map in_name s) <-> In n (map fst l)) as A'.
  { intros n. rewrite A. rewrite map_map. cbn. tauto. }
  assert (forall x, In x s -> In (in_name x, in_asname x) l) as C'.
  { intros x H. apply C in H as [[]|H]. apply in_map_iff in H as ([p q] & <- & H). exact H. }
  destruct (in_names "*" s) eqn:E; cbn.
  - apply in_names_In in E. rewrite names_remove_names. repeat split.
    + apply filter_In in H as [_ H]. intros ->. discriminate.
    + apply filter_In in H as [H _]. now apply A'.
    + intros [H1 H2]. apply filter_In. split; [now apply A'|].
      destruct (seqb n "*") eqn:Q; auto. apply seqb_eq in Q. congruence.
    + apply NoDup_filter, B. constructor.
    + intros _. now apply A'.
    + intros x H. apply filter_In in H as [H _]. auto.
  - apply in_names_false in E. repeat split.
    + intros ->. auto.
    + now apply A'.
    + intros [_ H]. now apply A'.
    + apply B. constructor.
    + discriminate.
    + intros H. elim E. now apply A'.
    + auto.
Qed.

(** A name listed once keeps its as-name. *)
Lemma create_importinfo_asname nm l lv a b c n asn :
  n <> "*" -> In (n, asn) l -> (forall asn', In (n, asn') l -> asn' = asn) ->
  In (IName n asn) (ii_names (create_importinfo nm (Some l) lv a b c)).
Proof.
  intros Hn Hin Hu.
  destruct (create_importinfo_names nm l lv a b c) as (A & _ & _ & D).
  assert (In n (map in_name (ii_names (create_importinfo nm (Some l) lv a b c)))) as H.
  { apply A. split; auto. apply (in_map fst) in Hin. exact Hin. }
  apply in_map_iff in H as ([n' asn'] & E & H). cbn in E. subst n'.
  pose proof (D _ H) as Q. cbn in Q. apply Hu in Q. now subst.
Qed.
