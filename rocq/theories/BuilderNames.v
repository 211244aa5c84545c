(** Names in graph building: the model's functions meet the specifications. *)
From Verif Require Export BuilderSpec NamesProofs PyStrFacts.

Lemma lstrip_app_ne c s t : lstrip c s <> EmptyString -> lstrip c (s ++ t) = (lstrip c s ++ t)%string.
Proof.
  induction s as [|a s IH]; cbn; [congruence|].
  destruct (Ascii.eqb a c); [exact IH|reflexivity].
Qed.

Lemma lstrip_no c s : starts_with (ch c) s = false -> lstrip c s = s.
Proof. intros H. apply (lstrip_repeat c 0 s H). Qed.

Lemma dotless_starts s : dotless s -> starts_with (ch dot) s = false.
Proof.
  intros H. destruct (starts_with (ch dot) s) eqn:E; [|reflexivity].
  apply starts_with_spec in E as [t ->]. unfold dotless in H. cbn in H. discriminate.
Qed.

Lemma split_child_plain c x : lstrip dot c <> EmptyString -> dotless x ->
  match split_package (c ++ "." ++ x) with
  | ROk r => r = (Some c, x)
  | RErr e => True
  end.
Proof.
  intros Hc Hx. unfold split_package.
  destruct (seqb (c ++ "." ++ x) "") eqn:E0; [exact I|].
  rewrite lstrip_app_ne by exact Hc. cbv zeta.
  destruct (seqb _ "" || has_sub ".." _) eqn:E1; [exact I|].
  replace (lstrip dot c ++ "." ++ x)%string with (lstrip dot c ++ String dot x)%string by reflexivity.
  unfold rpartition. rewrite rpart_app_char by exact Hx.
  destruct (lstrip_split dot c) as [k [Hk Hs]].
  assert (L : String.length (c ++ "." ++ x) - String.length (lstrip dot c ++ String dot x) = k).
  { rewrite Hk at 1. rewrite !length_app_s, length_repeat. cbn. lia. }
  rewrite L.
  destruct k as [|k].
  - cbn in Hk. rewrite <- Hk. cbn [Nat.eqb]. destruct c; [now elim Hc|]. reflexivity.
  - cbn [Nat.eqb]. rewrite <- Hk. destruct c as [|a c]; [now elim Hc|]. reflexivity.
Qed.

Lemma split_child_relative k x : dotless x ->
  match split_package (repeat_char dot (S k) ++ x) with
  | ROk r => r = (Some (repeat_char dot (S k)), x)
  | RErr e => True
  end.
Proof.
  intros Hx. unfold split_package.
  destruct (seqb (repeat_char dot (S k) ++ x) "") eqn:E0; [exact I|].
  rewrite lstrip_repeat by now apply dotless_starts. cbv zeta.
  destruct (seqb x "" || has_sub ".." x) eqn:E1; [exact I|].
  unfold rpartition. rewrite (proj2 (rpart_None dot x) Hx).
  rewrite length_app_s, length_repeat.
  replace (S k + String.length x - String.length x) with (S k) by lia.
  cbn [Nat.eqb]. rewrite app_nil_r_s. reflexivity.
Qed.

Lemma split_child name c po x : child_of c name -> split_package name = ROk (po, x) -> po = Some c.
Proof.
  intros [y Hc Hy|k y Hc Hy] H.
  - pose proof (split_child_plain c y Hc Hy) as P. rewrite H in P. congruence.
  - subst c. pose proof (split_child_relative k y Hy) as P. rewrite H in P. congruence.
Qed.

Lemma split_child_of name c x : split_package name = ROk (Some c, x) -> child_of c name.
Proof.
  unfold split_package.
  destruct (seqb name "") eqn:E0; [discriminate|].
  destruct (lstrip_split dot name) as [k [Hk Hs]].
  remember (lstrip dot name) as b eqn:Hb. cbv zeta.
  destruct (seqb b "" || has_sub ".." b) eqn:E1; [discriminate|].
  assert (L : String.length name - String.length b = k).
  { rewrite Hk, length_app_s, length_repeat. lia. }
  rewrite L. clear L.
  apply orb_false_iff in E1 as [E1 E2].
  destruct (rpartition_cases dot b) as [[Hd Hr]|[u [v [Hu [Hv Hr]]]]]; rewrite Hr.
  - destruct k as [|k]; cbn [Nat.eqb].
    + cbn. discriminate.
    + rewrite app_nil_r_s. cbn [repeat_char seqb String.eqb].
      intros H. injection H as <- <-. rewrite Hk. now apply (child_relative _ k).
  - assert (Hu0 : starts_with (ch dot) u = false /\ u <> EmptyString).
    { destruct u as [|a u].
      - exfalso. rewrite Hu in Hs. pose proof (starts_with_app (ch dot) v) as P.
        cbn [append ch] in P, Hs. congruence.
      - split; [|discriminate]. destruct (starts_with (ch dot) (String a u)) eqn:E3; [|reflexivity].
        apply starts_with_spec in E3 as [t E3]. rewrite Hu, E3, <- app_assoc_s, starts_with_app in Hs. discriminate. }
    destruct Hu0 as [Hu1 Hu2].
    set (pk := if Nat.eqb k 0 then u else (repeat_char dot k ++ u)%string).
    assert (Hpk : pk = (repeat_char dot k ++ u)%string) by (unfold pk; destruct k; reflexivity).
    intros H. assert (c = pk /\ x = v) as [-> ->].
    { destruct (seqb pk "") eqn:Ep; [discriminate|]. now injection H as <- <-. }
    rewrite Hk, Hu, Hpk.
    replace (repeat_char dot k ++ u ++ String dot v)%string
      with ((repeat_char dot k ++ u) ++ "." ++ v)%string by now rewrite <- app_assoc_s.
    constructor; [|exact Hv]. now rewrite lstrip_repeat.
Qed.

Lemma split_none_no_child name x c : split_package name = ROk (None, x) -> ~ child_of c name.
Proof. intros H Hc. pose proof (split_child _ _ _ _ Hc H). discriminate. Qed.

Lemma child_of_unique name c c' po x : split_package name = ROk (po, x) ->
  child_of c name -> child_of c' name -> c = c'.
Proof.
  intros H A B. pose proof (split_child _ _ _ _ A H). pose proof (split_child _ _ _ _ B H). congruence.
Qed.

(** ** relative imports *)

Lemma app_dot_inj p c p' c' : dotless c -> dotless c' ->
  (p ++ "." ++ c = p' ++ "." ++ c')%string -> p = p' /\ c = c'.
Proof.
  intros H H' E.
  assert (A : rpart dot (p ++ String dot c) = Some (p, c)) by now apply rpart_app_char.
  assert (B : rpart dot (p' ++ String dot c') = Some (p', c')) by now apply rpart_app_char.
  cbn in E. unfold dot in *. rewrite E in A. rewrite A in B. injection B as -> ->. now split.
Qed.

Lemma rsplit_up k : forall n,
  (forall q, up k n q -> List.length (rsplit dot k n) = S k /\ hd EmptyString (rsplit dot k n) = q) /\
  ((forall q, ~ up k n q) -> List.length (rsplit dot k n) < S k).
Proof.
  induction k as [|k IH]; intros n.
  - split.
    + intros q H. inversion H; subst. now split.
    + intros H. elim (H n). constructor.
  - cbn [rsplit]. destruct (rpart dot n) as [[x y]|] eqn:E.
    + apply rpart_Some in E as [-> Hy]. destruct (IH x) as [A B]. split.
      * intros q H. inversion H as [|k' p c q' Hc Hu E1 E2 E3]; subst.
        apply app_dot_inj in E2 as [-> ->]; [|assumption|assumption].
        apply A in Hu as [L Hh]. rewrite app_length, L. split; [cbn; lia|].
        destruct (rsplit dot k x); [discriminate|exact Hh].
      * intros H. rewrite app_length. cbn [List.length].
        assert (L : List.length (rsplit dot k x) < S k).
        { apply B. intros q Hq. apply (H q). replace (x ++ String dot y)%string with (x ++ "." ++ y)%string by reflexivity.
          now constructor. }
        lia.
    + apply rpart_None in E. split.
      * intros q H. inversion H as [|k' p c q' Hc Hu E1 E2 E3]; subst.
        rewrite has_char_app in E. cbn in E. rewrite orb_true_r in E. discriminate.
      * intros _. cbn. lia.
Qed.

Lemma up_dec k : forall n, (exists q, up k n q) \/ (forall q, ~ up k n q).
Proof.
  induction k as [|k IH]; intros n; [left; exists n; constructor|].
  destruct (rpart dot n) as [[x y]|] eqn:E.
  - apply rpart_Some in E as [-> Hy]. destruct (IH x) as [[q Hq]|H].
    + left. exists q. replace (x ++ String dot y)%string with (x ++ "." ++ y)%string by reflexivity.
      now constructor.
    + right. intros q Hu. inversion Hu as [|k' p c q' Hc Hu' E1 E2 E3]; subst.
      apply app_dot_inj in E2 as [-> ->]; [|assumption|assumption]. now apply (H q).
  - right. apply rpart_None in E. intros q Hu. inversion Hu as [|k' p c q' Hc Hu' E1 E2 E3]; subst.
    rewrite has_char_app in E. cbn in E. rewrite orb_true_r in E. discriminate.
Qed.

Lemma relative_package_up n b level :
  match relative_package n b level with
  | Some q => up (climb b level) n q
  | None => forall q, ~ up (climb b level) n q
  end.
Proof.
  unfold relative_package. fold (climb b level). cbv zeta. set (k := climb b level).
  destruct (rsplit_up k n) as [A B].
  destruct (up_dec k n) as [[q Hq]|H].
  - destruct (A q Hq) as [L Hh]. rewrite L.
    replace (Nat.ltb (S k) (k + 1)) with false by (symmetry; apply Nat.ltb_ge; lia).
    now rewrite Hh.
  - specialize (B H).
    replace (Nat.ltb _ _) with true by (symmetry; apply Nat.ltb_lt; lia). exact H.
Qed.

Lemma up_unique k : forall n q q', up k n q -> up k n q' -> q = q'.
Proof.
  intros n q q' H H'. destruct (rsplit_up k n) as [A _].
  destruct (A q H) as [_ <-]. destruct (A q' H') as [_ <-]. reflexivity.
Qed.

Lemma absolute_name_spec n b i :
  match absolute_name n b i with
  | inl x => beyond_top n b i /\ x = invalid_name i
  | inr x => imports_name n b i x
  end.
Proof.
  unfold absolute_name. destruct (Nat.eqb_spec (ii_level i) 0) as [E|E]; [now constructor|].
  pose proof (relative_package_up n b (ii_level i)) as H.
  destruct (relative_package n b (ii_level i)) as [q|].
  - destruct (seqb (in_name (ii_module i)) "") eqn:Em.
    + apply seqb_eq in Em. now apply imports_package.
    + apply imports_relative; auto. intros Ec. rewrite Ec in Em. discriminate.
  - split; [split; assumption|reflexivity].
Qed.

Lemma imports_name_unique n b i x y : imports_name n b i x -> imports_name n b i y -> x = y.
Proof.
  intros H H'. destruct H; destruct H'; try congruence; try (pose proof (up_unique _ _ _ _ H0 H3); congruence).
Qed.

Lemma imports_not_beyond n b i x : imports_name n b i x -> ~ beyond_top n b i.
Proof. intros H [H1 H2]. destruct H; [congruence|eapply H2; eassumption|eapply H2; eassumption]. Qed.
