(** Facts about the string functions of [PyStr]. *)
From Verif Require Export PyStr.

Lemma seqb_eq a b : seqb a b = true <-> a = b.
Proof. apply String.eqb_eq. Qed.

Lemma memb_In x l : memb x l = true <-> In x l.
Proof.
  induction l as [|y l IH]; cbn; [split; [discriminate|tauto]|].
  destruct (String.eqb_spec x y) as [->|Hn]; [tauto|].
  rewrite IH. split; [tauto|]. intros [E|H]; [congruence|exact H].
Qed.

Lemma memb_false x l : memb x l = false <-> ~ In x l.
Proof.
  rewrite <- memb_In. destruct (memb x l); split; try congruence; intros H E;
  try discriminate; now elim H.
Qed.

Lemma set_add_In x y l : In y (set_add x l) <-> y = x \/ In y l.
Proof.
  unfold set_add. destruct (memb x l) eqn:E.
  - apply memb_In in E. split; [tauto|]. intros [->|H]; assumption.
  - rewrite in_app_iff; cbn. intuition (subst; auto).
Qed.

Lemma set_add_NoDup x l : NoDup l -> NoDup (set_add x l).
Proof.
  intros H. unfold set_add. destruct (memb x l) eqn:E; [assumption|].
  apply memb_false in E.
  induction H as [|z l Hz Hl IH]; cbn.
  - constructor; [cbn; tauto|constructor].
  - constructor.
    + rewrite in_app_iff; cbn. intros [Q|[Q|[]]]; [tauto|]. subst. apply E. now left.
    + apply IH. intros Q. apply E. now right.
Qed.

Lemma set_union_In y r : forall l, In y (set_union l r) <-> In y l \/ In y r.
Proof.
  unfold set_union. induction r as [|x r IH]; cbn; intros l; [tauto|].
  rewrite IH, set_add_In. intuition (subst; auto).
Qed.

Lemma set_union_NoDup r : forall l, NoDup l -> NoDup (set_union l r).
Proof.
  unfold set_union. induction r as [|x r IH]; cbn; intros l H; [assumption|].
  apply IH, set_add_NoDup, H.
Qed.

Lemma app_nil_r_s s : (s ++ "")%string = s.
Proof. induction s as [|c s IH]; cbn; [reflexivity|now rewrite IH]. Qed.

Lemma app_assoc_s a b c : (a ++ (b ++ c) = (a ++ b) ++ c)%string.
Proof. induction a as [|x a IH]; cbn; [reflexivity|now rewrite IH]. Qed.

Lemma length_app_s a b : String.length (a ++ b) = String.length a + String.length b.
Proof. induction a as [|x a IH]; cbn; [reflexivity|now rewrite IH]. Qed.

Lemma app_inj_l a b c : (a ++ b = a ++ c)%string -> b = c.
Proof. induction a as [|x a IH]; cbn; intros H; [exact H|]. injection H as H. auto. Qed.

Lemma app_inj_r a : forall b c, (a ++ c = b ++ c)%string -> a = b.
Proof.
  induction a as [|x a IH]; intros [|y b] c H; cbn in H; try reflexivity.
  - exfalso. apply (f_equal String.length) in H. cbn in H. rewrite length_app_s in H. lia.
  - exfalso. apply (f_equal String.length) in H. cbn in H. rewrite length_app_s in H. lia.
  - injection H as -> H. f_equal. eauto.
Qed.

Lemma has_char_app c a b : has_char c (a ++ b) = has_char c a || has_char c b.
Proof. induction a as [|x a IH]; cbn; [reflexivity|]. rewrite IH. now rewrite orb_assoc. Qed.

Lemma starts_with_app p s : starts_with p (p ++ s) = true.
Proof.
  induction p as [|c p IH]; cbn; [destruct s; reflexivity|].
  destruct (ascii_dec c c); [exact IH|congruence].
Qed.

Lemma starts_with_spec p s : starts_with p s = true <-> exists t, s = (p ++ t)%string.
Proof.
  split.
  - revert s. induction p as [|c p IH]; cbn; intros s H; [now exists s|].
    destruct s as [|d s]; [discriminate|].
    cbn in H. destruct (ascii_dec c d) as [->|] in H; [|discriminate H].
    destruct (IH _ H) as [t ->]. now exists t.
  - intros [t ->]. apply starts_with_app.
Qed.

Lemma ends_with_eq p s :
  ends_with p s = String.eqb s p || match s with EmptyString => false | String _ r => ends_with p r end.
Proof. destruct s; reflexivity. Qed.

Lemma ends_with_spec p s : ends_with p s = true <-> exists t, s = (t ++ p)%string.
Proof.
  split.
  - induction s as [|c s IH]; rewrite ends_with_eq; intros H; apply orb_true_iff in H as [H|H].
    + apply String.eqb_eq in H. exists EmptyString. exact H.
    + discriminate.
    + apply String.eqb_eq in H. exists EmptyString. exact H.
    + destruct (IH H) as [t ->]. now exists (String c t).
  - intros [t ->]. induction t as [|c t IH]; rewrite ends_with_eq.
    + change ("" ++ p)%string with p. now rewrite String.eqb_refl.
    + cbn [append]. rewrite IH. now rewrite orb_true_r.
Qed.

Lemma ends_with_app p s : ends_with p (s ++ p) = true.
Proof. apply ends_with_spec. now exists s. Qed.

Lemma has_sub_eq p s :
  has_sub p s = starts_with p s || match s with EmptyString => false | String _ r => has_sub p r end.
Proof. destruct s; reflexivity. Qed.

Lemma has_sub_spec p s : has_sub p s = true <-> exists a b, s = (a ++ p ++ b)%string.
Proof.
  split.
  - induction s as [|c s IH]; rewrite has_sub_eq; intros H; apply orb_true_iff in H as [H|H].
    + apply starts_with_spec in H as [t H]. now exists EmptyString, t.
    + discriminate.
    + apply starts_with_spec in H as [t H]. now exists EmptyString, t.
    + destruct (IH H) as (a & b & ->). now exists (String c a), b.
  - intros (a & b & ->). induction a as [|c a IH]; rewrite has_sub_eq.
    + change ("" ++ p ++ b)%string with (p ++ b)%string. now rewrite starts_with_app.
    + cbn [append]. rewrite IH. apply orb_true_r.
Qed.

(** rpart *)
Lemma rpart_Some c s x y :
  rpart c s = Some (x, y) <-> s = (x ++ String c y)%string /\ has_char c y = false.
Proof.
  revert x y. induction s as [|a r IH]; intros x y; cbn.
  - split; [discriminate|]. intros [H _]. destruct x; discriminate.
  - destruct (rpart c r) as [[u v]|] eqn:E.
    + destruct (proj1 (IH u v) eq_refl) as [-> Hv]. split.
      * intros H. injection H as <- <-. cbn. auto.
      * intros [H Hy]. destruct x as [|z x]; cbn in H.
        -- injection H as -> H.
           exfalso. assert (has_char c y = true) as Q; [|congruence].
           rewrite <- H, has_char_app. cbn. now rewrite Ascii.eqb_refl, orb_true_r.
        -- injection H as -> H.
           assert (Some (u, v) = Some (x, y)) as Q by (apply IH; auto).
           injection Q as -> ->. reflexivity.
    + destruct (Ascii.eqb_spec a c) as [->|Hn]; split.
      * intros H. injection H as <- <-. cbn. split; [reflexivity|].
        clear IH. revert E. induction r as [|z r IHr]; cbn; [reflexivity|].
        destruct (rpart c r) as [[? ?]|]; [discriminate|].
        destruct (Ascii.eqb z c); [discriminate|]. intros _. now apply IHr.
      * intros [H Hy]. destruct x as [|z x]; cbn in H.
        -- injection H as ->. reflexivity.
        -- injection H as -> H.
           assert (None = Some (x, y)) by (apply IH; auto). discriminate.
      * discriminate.
      * intros [H Hy]. destruct x as [|z x]; cbn in H.
        -- injection H as -> H. congruence.
        -- injection H as -> H.
           assert (None = Some (x, y)) by (apply IH; auto). discriminate.
Qed.

Lemma rpart_None c s : rpart c s = None <-> has_char c s = false.
Proof.
  induction s as [|a r IH]; cbn; [tauto|].
  destruct (rpart c r) as [[u v]|] eqn:E.
  - apply rpart_Some in E as [-> _]. split; [discriminate|].
    rewrite has_char_app. cbn. rewrite Ascii.eqb_refl.
    rewrite orb_true_r. destruct (Ascii.eqb a c); discriminate.
  - destruct (Ascii.eqb a c); cbn; [split; discriminate|tauto].
Qed.

Lemma rpart_app_char c x y : has_char c y = false -> rpart c (x ++ String c y) = Some (x, y).
Proof. intros H. now apply rpart_Some. Qed.

Lemma has_char_repeat c d n : has_char c (repeat_char d n) = Nat.ltb 0 n && Ascii.eqb d c.
Proof.
  induction n as [|n IH]; cbn; [reflexivity|]. rewrite IH.
  destruct (Ascii.eqb d c); cbn; [reflexivity|]. now rewrite andb_false_r.
Qed.

Lemma length_repeat c n : String.length (repeat_char c n) = n.
Proof. induction n as [|n IH]; cbn; congruence. Qed.

(** every string is a block of [c]s followed by a string not starting with [c] *)
Lemma lstrip_split c s : exists k, s = (repeat_char c k ++ lstrip c s)%string
    /\ starts_with (ch c) (lstrip c s) = false.
Proof.
  induction s as [|a r IH]; cbn.
  - exists 0. split; reflexivity.
  - destruct (Ascii.eqb_spec a c) as [->|Hn].
    + destruct IH as (k & E & H). exists (S k). cbn. split; [now f_equal|exact H].
    + exists 0. cbn. split; [reflexivity|].
      destruct (ascii_dec c a); [congruence|reflexivity].
Qed.

Lemma lstrip_repeat c k s :
  starts_with (ch c) s = false -> lstrip c (repeat_char c k ++ s) = s.
Proof.
  intros H. induction k as [|k IH]; cbn.
  - destruct s as [|a r]; cbn in *; [reflexivity|].
    destruct (Ascii.eqb_spec a c) as [->|]; [|reflexivity].
    destruct (ascii_dec c c) in H; [destruct r; discriminate H|congruence].
  - rewrite Ascii.eqb_refl. exact IH.
Qed.

Lemma join_cons_s sep x l : l <> [] -> join sep (x :: l) = (x ++ sep ++ join sep l)%string.
Proof. destruct l; [congruence|reflexivity]. Qed.

Lemma join_snoc sep l y : l <> [] -> join sep (l ++ [y]) = (join sep l ++ sep ++ y)%string.
Proof.
  induction l as [|x l IH]; [congruence|]. intros _.
  destruct l as [|z l]; [reflexivity|].
  rewrite <- app_comm_cons, join_cons_s by (cbn; discriminate).
  rewrite IH by discriminate. rewrite (join_cons_s sep x (z :: l)) by discriminate.
  rewrite !app_assoc_s. reflexivity.
Qed.

Lemma undouble_double c s : undouble c (double c s) = s.
Proof.
  induction s as [|a r IH]; [reflexivity|].
  cbn [double]. destruct (Ascii.eqb_spec a c) as [->|Hn].
  - cbn [undouble]. rewrite Ascii.eqb_refl. cbn [andb]. now rewrite IH.
  - assert (forall t, undouble c (String a t) = String a (undouble c t)) as Q.
    { intros [|b t]; [reflexivity|]. cbn [undouble].
      destruct (Ascii.eqb_spec a c); [congruence|]. reflexivity. }
    rewrite Q, IH. reflexivity.
Qed.

Lemma stake_app a b : stake (String.length a) (a ++ b) = a.
Proof. induction a as [|c a IH]; cbn; [now destruct b|now rewrite IH]. Qed.

Lemma sdrop_app a b : sdrop (String.length a) (a ++ b) = b.
Proof. induction a as [|c a IH]; cbn; [now destruct b|exact IH]. Qed.

Lemma sdrop_last_app a b n : n = String.length b -> sdrop_last n (a ++ b) = a.
Proof.
  intros ->. unfold sdrop_last. rewrite length_app_s.
  replace (String.length a + String.length b - String.length b) with (String.length a) by lia.
  apply stake_app.
Qed.
