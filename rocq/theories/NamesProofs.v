From Verif Require Import PyStrFacts Names NamesSpec.

Lemma starts_dot_ch s : starts_with "." s = starts_with (ch dot) s.
Proof. reflexivity. Qed.

Lemma rpartition_cases c s :
  (has_char c s = false /\ rpartition c s = (EmptyString, s)) \/
  (exists x y, s = (x ++ String c y)%string /\ has_char c y = false /\ rpartition c s = (x, y)).
Proof.
  unfold rpartition. destruct (rpart c s) as [[x y]|] eqn:E.
  - apply rpart_Some in E as [-> H]. right. now exists x, y.
  - apply rpart_None in E. now left.
Qed.

Lemma split_package_valid k body :
  wf_name k body ->
  exists p n,
    split_package (repeat_char dot k ++ body)%string = ROk (p, n)
    /\ dotless n
    /\ (p = None <-> k = 0 /\ dotless body)
    /\ glue k body p n = (repeat_char dot k ++ body)%string.
Proof.
  intros (Hne & Hst & Hdd).
  unfold split_package.
  assert (seqb (repeat_char dot k ++ body)%string "" = false) as ->.
  { destruct (seqb _ _) eqn:E; [|reflexivity]. apply seqb_eq in E.
    destruct k; cbn in E; [congruence|discriminate]. }
  rewrite (lstrip_repeat dot k body) by exact Hst.
  rewrite length_app_s, length_repeat.
  replace (k + String.length body - String.length body) with k by lia.
  assert (seqb body "" = false) as ->.
  { destruct (seqb _ _) eqn:E; [|reflexivity]. apply seqb_eq in E. congruence. }
  rewrite Hdd. cbn [orb].
  unfold dotless, glue.
  destruct (rpartition_cases dot body) as [[Hd ->]|(x & y & -> & Hy & ->)].
  - rewrite Hd. destruct k as [|k]; cbn [Nat.eqb].
    + cbn. eexists _, _. split; [reflexivity|]. repeat split; auto.
    + cbn [repeat_char append]. change (seqb (String dot _) "") with false. cbv iota.
      eexists _, _. split; [reflexivity|]. rewrite app_nil_r_s.
      repeat split; auto; try discriminate; try (intros [? ?]; discriminate).
  - assert (has_char dot (x ++ String dot y) = true) as Hd.
    { rewrite has_char_app. cbn. now rewrite orb_true_r. }
    rewrite Hd.
    assert (x <> EmptyString) as Hx.
    { intros ->. cbn in Hst. destruct y; discriminate. }
    destruct k as [|k]; cbn [Nat.eqb].
    + assert (seqb x "" = false) as ->.
      { destruct (seqb _ _) eqn:E; [|reflexivity]. apply seqb_eq in E. congruence. }
      eexists _, _. split; [reflexivity|].
      repeat split; auto; try discriminate; try (intros [_ ?]; congruence).
    + cbn [repeat_char append]. change (seqb (String dot _) "") with false. cbv iota.
      eexists _, _. split; [reflexivity|].
      repeat split; auto; try discriminate; try (intros [? ?]; discriminate).
      cbn. f_equal. now rewrite app_assoc_s.
Qed.

Lemma split_package_invalid name :
  (forall k body, wf_name k body -> name <> (repeat_char dot k ++ body)%string) ->
  split_package name = RErr EValue.
Proof.
  intros H. unfold split_package.
  destruct (seqb name "") eqn:E0; [reflexivity|].
  destruct (lstrip_split dot name) as (k & E & Hst).
  destruct (seqb (lstrip dot name) "") eqn:E1; [reflexivity|].
  destruct (has_sub ".." (lstrip dot name)) eqn:E2; [reflexivity|].
  exfalso. eapply (H k (lstrip dot name)); [|exact E].
  split; [|split; assumption]. intros Q. rewrite Q in E1. discriminate.
Qed.

(** For absolute names: the form the builder relies on. *)
Lemma split_package_abs name p n :
  split_package name = ROk (p, n) ->
  match p with
  | None => name = n /\ dotless name
  | Some q => q <> EmptyString /\ String.length q < String.length name
              \/ lstrip dot name <> name
  end.
Proof.
  intros H.
  destruct (lstrip_split dot name) as (k & E & Hst).
  assert (wf_name k (lstrip dot name)) as W.
  { unfold split_package in H. destruct (seqb name ""); [discriminate|].
    destruct (seqb (lstrip dot name) "") eqn:E1; [discriminate|].
    destruct (has_sub ".." (lstrip dot name)) eqn:E2; [discriminate|].
    split; [|split; assumption]. intros Q. rewrite Q in E1. discriminate. }
  destruct (split_package_valid k _ W) as (p' & n' & H' & Hn & Hp & G).
  rewrite <- E in H'. rewrite H in H'. injection H' as <- <-.
  destruct p as [q|].
  - destruct k as [|k].
    + left. cbn [repeat_char append] in E, G. rewrite <- E in G, W, Hp.
      unfold glue in G. destruct (has_char dot name) eqn:Hc.
      * split.
        -- intros ->. cbn in G. destruct W as (_ & W & _). rewrite <- G in W.
           unfold starts_with in W. cbn in W. destruct n; discriminate.
        -- rewrite <- G. rewrite !length_app_s. cbn. lia.
      * discriminate (proj2 Hp (conj eq_refl Hc)).
    + right. intros Q. apply (f_equal String.length) in Q. rewrite E in Q at 2.
      rewrite length_app_s, length_repeat in Q. lia.
  - destruct (proj1 Hp eq_refl) as [-> Hd]. cbn [repeat_char append glue] in E, G.
    rewrite <- E in G, Hd. split; auto.
Qed.

(** Components view of [rsplit]. *)
Lemma has_char_join l : Forall (fun c => dotless c /\ c <> EmptyString) l ->
  has_char dot (join "." l) = Nat.ltb 1 (List.length l).
Proof.
  induction l as [|x l IH]; [reflexivity|].
  intros H. inversion H as [|? ? [Hx _] Hl]; subst.
  destruct l as [|y l]; [cbn; exact Hx|].
  rewrite join_cons_s by discriminate. rewrite has_char_app. cbn.
  unfold dotless in Hx. now rewrite Hx.
Qed.

Lemma join_nonempty l : components l -> join "." l <> EmptyString.
Proof.
  intros [Hn H]. destruct l as [|x l]; [congruence|].
  inversion H as [|? ? [_ Hx] Hl]; subst.
  destruct l as [|y l]; [exact Hx|].
  rewrite join_cons_s by discriminate. destruct x; [congruence|discriminate].
Qed.

Lemma rsplit_join k : forall l, components l ->
  rsplit dot k (join "." l) =
    join "." (firstn (List.length l - k) l ++ match List.length l - k with 0 => firstn 1 l | _ => [] end)
    :: skipn (Nat.max 1 (List.length l - k)) l.
Proof.
  induction k as [|k IH]; intros l [Hn HF].
  - cbn [rsplit]. rewrite Nat.sub_0_r, firstn_all.
    destruct l as [|x l]; [congruence|]. cbn [List.length].
    rewrite app_nil_r. rewrite skipn_all2; [reflexivity|cbn; lia].
  - cbn [rsplit].
    destruct (exists_last Hn) as (l' & y & ->).
    apply Forall_app in HF as [HF1 HF2]. inversion HF2 as [|? ? [Hy Hy'] _]; subst.
    destruct l' as [|x l'].
    + cbn [app join]. unfold dotless in Hy.
      destruct (rpart dot y) as [[? ?]|] eqn:E.
      * apply rpart_Some in E as [-> _]. rewrite has_char_app in Hy. cbn in Hy.
        rewrite orb_true_r in Hy. discriminate.
      * cbn. reflexivity.
    + rewrite join_snoc by discriminate.
      change ("." ++ y)%string with (String dot y).
      rewrite rpart_app_char by exact Hy.
      rewrite IH by (split; [discriminate|exact HF1]).
      rewrite app_length. cbn [List.length]. set (m := List.length l').
      replace (S m + 1 - S k) with (S m - k) by lia.
      destruct (S m - k) as [|j] eqn:Ej.
      * cbn [firstn app Nat.max skipn]. reflexivity.
      * rewrite (firstn_app (S j)). cbn [List.length].
        replace (S j - S (List.length l')) with 0 by (unfold m in *; lia).
        cbn [firstn]. rewrite !app_nil_r. f_equal.
        rewrite !Nat.max_r by lia. rewrite skipn_app. cbn [List.length].
        replace (S j - S (List.length l')) with 0 by (unfold m in *; lia).
        reflexivity.
Qed.

Lemma relative_package_components l is_pkg level :
  components l -> 1 <= level ->
  relative_package (join "." l) is_pkg level =
    let drop := if is_pkg then level - 1 else level in
    if Nat.ltb drop (List.length l) then Some (join "." (firstn (List.length l - drop) l)) else None.
Proof.
  intros C Hl. unfold relative_package. cbv zeta.
  set (drop := if is_pkg then level - 1 else level).
  rewrite rsplit_join by exact C.
  destruct C as [Hn _].
  cbn [List.length hd]. rewrite skipn_length.
  destruct (Nat.ltb_spec drop (List.length l)) as [H|H].
  - destruct (Nat.ltb_spec (S (List.length l - Nat.max 1 (List.length l - drop))) (drop + 1)) as [H'|H']; [lia|].
    destruct (List.length l - drop) as [|j] eqn:E; [lia|]. rewrite app_nil_r. reflexivity.
  - destruct (Nat.ltb_spec (S (List.length l - Nat.max 1 (List.length l - drop))) (drop + 1)) as [H'|H'].
    + reflexivity.
    + assert (List.length l <> 0) by (destruct l; cbn; [congruence|lia]). lia.
Qed.

Lemma fst_rpartition_join l : components l ->
  fst (rpartition dot (join "." l)) = join "." (removelast l).
Proof.
  intros [Hn HF].
  destruct (exists_last Hn) as (l' & y & ->).
  apply Forall_app in HF as [HF1 HF2]. inversion HF2 as [|? ? [Hy Hy'] _]; subst.
  rewrite removelast_last. unfold rpartition.
  destruct l' as [|x l'].
  - cbn [app join]. destruct (rpart dot y) as [[a b]|] eqn:E; [|reflexivity].
    apply rpart_Some in E as [-> _]. unfold dotless in Hy. rewrite has_char_app in Hy. cbn in Hy.
    rewrite orb_true_r in Hy. discriminate.
  - rewrite join_snoc by discriminate.
    change ("." ++ y)%string with (String dot y).
    now rewrite rpart_app_char by exact Hy.
Qed.

Lemma removelast_length {A} (l : list A) : List.length (removelast l) = List.length l - 1.
Proof.
  induction l as [|x l IH]; [reflexivity|]. destruct l as [|y l]; [reflexivity|].
  cbn [removelast List.length] in *. rewrite IH. cbn. lia.
Qed.

Lemma removelast_Forall {A} (P : A -> Prop) (l : list A) : Forall P l -> Forall P (removelast l).
Proof.
  induction l as [|x l IH]; intros H; [exact H|]. inversion H; subst.
  destruct l as [|y l]; [constructor|]. cbn [removelast]. constructor; auto.
Qed.

Lemma firstn_removelast {A} k (l : list A) : k <= List.length l - 1 -> firstn k (removelast l) = firstn k l.
Proof.
  revert k. induction l as [|x l IH]; intros k H; [reflexivity|].
  destruct l as [|y l].
  - cbn in H. assert (k = 0) as -> by lia. reflexivity.
  - cbn [removelast]. destruct k; [reflexivity|]. cbn [firstn]. f_equal. apply IH. cbn in *. lia.
Qed.

Lemma cpython_resolve_components l level :
  Forall (fun c => dotless c /\ c <> EmptyString) l -> 1 <= level ->
  cpython_resolve (join "." l) level =
    if Nat.leb level (List.length l) then Some (join "." (firstn (List.length l - (level - 1)) l)) else None.
Proof.
  intros HF Hl. unfold cpython_resolve.
  destruct l as [|x l].
  - cbn. destruct level; [lia|reflexivity].
  - assert (components (x :: l)) as C by (split; [discriminate|exact HF]).
    assert (seqb (join "." (x :: l)) "" = false) as ->.
    { destruct (seqb _ _) eqn:E; [|reflexivity]. apply seqb_eq in E.
      now elim (join_nonempty _ C). }
    rewrite rsplit_join by exact C. cbn [hd].
    remember (x :: l) as xl eqn:Exl.
    assert (1 <= List.length xl) by (subst; cbn; lia).
    set (n := List.length xl) in *.
    cbn [List.length].
    rewrite skipn_length. fold n.
    destruct (Nat.leb_spec level n).
    + destruct (Nat.ltb_spec (S (n - Nat.max 1 (n - (level - 1)))) level); [lia|].
      destruct (n - (level - 1)) eqn:E; [lia|]. now rewrite app_nil_r.
    + destruct (Nat.ltb_spec (S (n - Nat.max 1 (n - (level - 1)))) level); [reflexivity|lia].
Qed.

Lemma relative_package_cpython l is_pkg level :
  components l -> 1 <= level ->
  relative_package (join "." l) is_pkg level
  = cpython_resolve (dunder_package (join "." l) is_pkg) level.
Proof.
  intros C Hl. rewrite relative_package_components by assumption. cbv zeta.
  unfold dunder_package. destruct is_pkg.
  - rewrite cpython_resolve_components by (try apply C; assumption).
    destruct (Nat.ltb_spec (level - 1) (List.length l)), (Nat.leb_spec level (List.length l));
      try reflexivity; lia.
  - rewrite fst_rpartition_join by exact C.
    rewrite cpython_resolve_components by (try apply removelast_Forall; try apply C; assumption).
    rewrite removelast_length.
    destruct (Nat.ltb_spec level (List.length l)), (Nat.leb_spec level (List.length l - 1));
      try reflexivity; try lia.
    rewrite firstn_removelast by lia. do 2 f_equal. f_equal. lia.
Qed.
