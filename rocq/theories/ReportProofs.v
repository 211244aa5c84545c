(** Facts about the reports. *)
From Verif Require Export Report ReportSpec PyStrFacts.
From Coq Require Import Permutation Sorted DecimalString DecimalNat.
Open Scope string_scope.

(** ** Sorting *)

Lemma str_leb_refl a : str_leb a a = true.
Proof. induction a as [|x a IH]; [reflexivity|]. cbn. now rewrite Ascii.eqb_refl. Qed.
Lemma before_cons x a b : before a b -> before (String x a) (String x b).
Proof.
  intros [(c & t & ->)|(p & u & v & a' & b' & -> & -> & H)].
  - left. now exists c, t.
  - right. now exists (String x p), u, v, a', b'.
Qed.
Lemma str_leb_before a : forall b, str_leb a b = true -> a = b \/ before a b.
Proof.
  induction a as [|x a IH]; intros [|y b] H; cbn [str_leb] in H; try discriminate.
  - now left.
  - right. left. now exists y, b.
  - destruct (Ascii.eqb x y) eqn:E.
    + apply Ascii.eqb_eq in E as ->. destruct (IH b H) as [->|K]; [now left|right]. now apply before_cons.
    + right. right. exists "", x, y, a, b. split; [reflexivity|]. split; [reflexivity|]. now apply Nat.ltb_lt.
Qed.
Lemma str_leb_total a : forall b, str_leb a b = true \/ str_leb b a = true.
Proof.
  induction a as [|x a IH]; intros [|y b]; cbn [str_leb]; auto. destruct (Ascii.eqb x y) eqn:E.
  - apply Ascii.eqb_eq in E as ->. rewrite Ascii.eqb_refl. apply IH.
  - assert (E' : Ascii.eqb y x = false).
    { destruct (Ascii.eqb y x) eqn:F; [|reflexivity]. apply Ascii.eqb_eq in F as ->. now rewrite Ascii.eqb_refl in E. }
    rewrite E'. rewrite !Nat.ltb_lt. assert (nat_of_ascii x <> nat_of_ascii y); [|lia].
    intros K. apply (f_equal ascii_of_nat) in K. rewrite !ascii_nat_embedding in K. subst. now rewrite Ascii.eqb_refl in E.
Qed.
Lemma str_leb_trans a : forall b c, str_leb a b = true -> str_leb b c = true -> str_leb a c = true.
Proof.
  induction a as [|x a IH]; intros [|y b] [|z c]; cbn [str_leb]; auto; try discriminate.
  destruct (Ascii.eqb x y) eqn:E.
  - apply Ascii.eqb_eq in E as ->. destruct (Ascii.eqb y z); eauto.
  - destruct (Ascii.eqb y z) eqn:F.
    + apply Ascii.eqb_eq in F as ->. rewrite E. auto.
    + destruct (Ascii.eqb x z) eqn:G; rewrite !Nat.ltb_lt.
      * apply Ascii.eqb_eq in G as ->. lia.
      * lia.
Qed.

Section sorted.
  Context {A : Type}.
  Variable key : A -> string.
  Definition le (x y : A) : Prop := str_leb (key x) (key y) = true.
  Lemma insert_perm x l : Permutation (x :: l) (insert_sorted key x l).
  Proof.
    induction l as [|y l IH]; cbn; [reflexivity|]. destruct (str_leb (key x) (key y)); [reflexivity|].
    rewrite perm_swap. now constructor.
  Qed.
  Lemma sorted_perm l : Permutation l (sorted key l).
  Proof.
    induction l as [|x l IH]; [constructor|]. cbn. transitivity (x :: sorted key l); [now constructor|apply insert_perm].
  Qed.
  Lemma insert_sorts x l : StronglySorted le l -> StronglySorted le (insert_sorted key x l).
  Proof.
    intros H. induction H as [|y l H IH F]; cbn; [repeat constructor|]. destruct (str_leb (key x) (key y)) eqn:E.
    - constructor; [constructor; auto|]. constructor; [exact E|]. rewrite Forall_forall in *. intros z Hz.
      unfold le in *. eapply str_leb_trans; [exact E|auto].
    - constructor; [exact IH|]. rewrite Forall_forall in *. intros z Hz.
      apply (Permutation_in _ (Permutation_sym (insert_perm x l))) in Hz as [<-|Hz]; [|auto].
      unfold le. destruct (str_leb_total (key x) (key y)) as [K|K]; [congruence|exact K].
  Qed.
  Lemma sorted_sorts l : StronglySorted le (sorted key l).
  Proof. induction l as [|x l IH]; [constructor|]. cbn. now apply insert_sorts. Qed.
  Lemma sorted_before l : NoDup (map key l) -> StronglySorted before (map key (sorted key l)).
  Proof.
    intros N. apply (Permutation_NoDup (Permutation_map key (sorted_perm l))) in N. pose proof (sorted_sorts l) as S1.
    induction S1 as [|x r S1 IH F]; [constructor|]. cbn in *. inversion N; subst. constructor; [auto|].
    rewrite Forall_forall in *. intros k Hk. apply in_map_iff in Hk as (y & <- & Hy).
    destruct (str_leb_before _ _ (F y Hy)) as [K|K]; [|exact K]. elim H1. rewrite K. now apply in_map.
  Qed.
End sorted.
Lemma sorted_filter_before {A} (key : A -> string) f (l : list A) :
  StronglySorted before (map key l) -> StronglySorted before (map key (filter f l)).
Proof.
  induction l as [|x l IH]; intros H; [constructor|]. cbn in *. inversion H; subst. destruct (f x); [|auto].
  cbn. constructor; [auto|]. rewrite Forall_forall in *. intros k Hk. apply in_map_iff in Hk as (y & <- & Hy).
  apply filter_In in Hy as [Hy _]. apply H3. now apply in_map.
Qed.

(** ** Lines and pieces *)

Lemma no_char_has c s : no_char c s <-> has_char c s = false.
Proof.
  split.
  - intros H. destruct (has_char c s) eqn:E; [|reflexivity]. exfalso. revert H E. induction s as [|x s IH]; cbn; [discriminate|].
    intros H E. destruct (Ascii.eqb x c) eqn:F; cbn in E.
    + apply Ascii.eqb_eq in F as ->. now apply (H "" s).
    + apply IH; [|exact E]. intros a b ->. now apply (H (String x a) b).
  - intros H a b ->. rewrite has_char_app in H. cbn in H. rewrite Ascii.eqb_refl in H. now rewrite orb_true_r in H.
Qed.
Lemma lines_cons x r : has_char newline x = false -> lines (x ++ String newline r) = x :: lines r.
Proof.
  induction x as [|c x IH]; intros H; [reflexivity|]. cbn in H. apply orb_false_iff in H as [H1 H2].
  change (lines (String c (x ++ String newline r)) = String c x :: lines r). cbn [lines].
  change "010"%char with newline. rewrite H1. now rewrite (IH H2).
Qed.
Lemma lines_printed l : Forall (fun x => has_char newline x = false) l -> lines (printed l) = l.
Proof.
  induction l as [|x l IH]; intros H; [reflexivity|]. inversion H; subst. cbn [printed]. rewrite lines_cons; [|assumption]. now rewrite IH.
Qed.

Lemma strip_app p s : strip p (p ++ s) = Some s.
Proof. unfold strip. now rewrite starts_with_app, sdrop_app. Qed.
Lemma strip_end_app p s : strip_end p (s ++ p) = Some s.
Proof. unfold strip_end. now rewrite ends_with_app, sdrop_last_app. Qed.
Lemma lpart_app c x y : has_char c x = false -> lpart c (x ++ String c y) = Some (x, y).
Proof.
  induction x as [|a x IH]; intros H; cbn in *; [now rewrite Ascii.eqb_refl|].
  apply orb_false_iff in H as [H1 H2]. rewrite H1. now rewrite (IH H2).
Qed.
Lemma take_quoted_app s r : has_char dquote s = false -> take_quoted (quoted s ++ r) = Some (s, r).
Proof.
  intros H. unfold take_quoted, quoted. change (String dquote (s ++ ch dquote) ++ r) with (ch dquote ++ ((s ++ ch dquote) ++ r)).
  rewrite strip_app, <- app_assoc_s. apply (lpart_app dquote s r H).
Qed.
Lemma take_quoted_end s : has_char dquote s = false -> take_quoted (quoted s) = Some (s, "").
Proof. intros H. rewrite <- (app_nil_r_s (quoted s)). now apply take_quoted_app. Qed.

Lemma pieces_plain c s : has_char c s = false -> pieces c s = [s].
Proof.
  induction s as [|d s IH]; intros H; [reflexivity|]. cbn in *. apply orb_false_iff in H as [H1 H2]. now rewrite (IH H2), H1.
Qed.
Lemma pieces_not_nil c s : pieces c s <> [].
Proof. induction s as [|d s IH]; cbn; [discriminate|]. destruct (pieces c s); [contradiction|]. destruct (Ascii.eqb d c); discriminate. Qed.
(** Pieces of a text that goes on. *)
Lemma pieces_app c a b : has_char c a = false ->
  pieces c (a ++ b) = match pieces c b with [] => [] | x :: l => (a ++ x) :: l end.
Proof.
  induction a as [|d a IH]; intros H; cbn in *; [now destruct (pieces c b)|].
  apply orb_false_iff in H as [H1 H2]. rewrite (IH H2). destruct (pieces c b) eqn:E; [now apply pieces_not_nil in E|]. now rewrite H1.
Qed.
Lemma pieces_sep c b : pieces c (String c b) = "" :: pieces c b.
Proof. cbn. destruct (pieces c b) eqn:E; [now apply pieces_not_nil in E|]. now rewrite Ascii.eqb_refl. Qed.

(** ** Numbers *)

Lemma to_uint_not_nil n : Nat.to_uint n <> Decimal.Nil.
Proof. intros H. pose proof (Unsigned.of_to n) as K. rewrite H in K. cbn in K. subst n. discriminate. Qed.
Lemma show_nat_inj a b : show_nat a = show_nat b -> a = b.
Proof.
  intros H. unfold show_nat in H. apply (f_equal NilZero.uint_of_string) in H.
  rewrite !NilZero.usu in H by apply to_uint_not_nil.
  injection H as H. now apply Unsigned.to_uint_inj.
Qed.
Lemma show_nat_clean c n : (nat_of_ascii c < 48 \/ 57 < nat_of_ascii c) -> has_char c (show_nat n) = false.
Proof.
  intros H. unfold show_nat, NilZero.string_of_uint.
  assert (X : forall u, has_char c (NilEmpty.string_of_uint u) = false).
  { assert (D : forall d, Ascii.eqb d c = false \/ d = c) by (intros d; destruct (Ascii.eqb d c) eqn:E; [right; now apply Ascii.eqb_eq|now left]).
    induction u; cbn [NilEmpty.string_of_uint has_char]; [reflexivity|..]; rewrite IHu, orb_false_r;
      match goal with |- Ascii.eqb ?d c = false => destruct (D d) as [K|K]; [exact K|subst c; cbn in H; lia] end. }
  destruct (Nat.to_uint n); [|apply X..]. cbn [has_char]. rewrite orb_false_r. destruct (Ascii.eqb "0" c) eqn:E; [|reflexivity].
  apply Ascii.eqb_eq in E as <-. cbn in H. lia.
Qed.
