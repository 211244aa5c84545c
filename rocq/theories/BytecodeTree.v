From Verif Require Import PyStrFacts ImportInfo ImportInfoProofs BytecodeSpec BytecodeProofs.

Lemma all_codes_eq c : all_codes c = c :: flat_map all_codes (child_codes c).
Proof.
  destruct c as [k n ks i]. unfold child_codes. cbn [all_codes co_consts]. f_equal.
  induction ks as [|x ks IH]; [reflexivity|]. cbn [flat_map].
  rewrite IH. rewrite flat_map_app. destruct x; cbn; now rewrite ?app_nil_r.
Qed.

Definition csize (q : list code) : nat := list_sum (map code_size q).

Lemma csize_app a b : csize (a ++ b) = csize a + csize b.
Proof. unfold csize. rewrite map_app. unfold list_sum. induction a; cbn in *; lia. Qed.

Lemma csize_cons c q : csize (c :: q) = code_size c + csize q.
Proof. reflexivity. Qed.

Lemma code_size_eq c : code_size c = S (csize (child_codes c)).
Proof.
  destruct c as [k n ks i]. unfold child_codes. cbn [code_size co_consts]. f_equal.
  induction ks as [|x ks IH]; [reflexivity|]. cbn [flat_map].
  rewrite IH, csize_app. destruct x; cbn; unfold csize; cbn; lia.
Qed.

(** ** Breadth first order *)

Fixpoint bfs (fuel : nat) (q : list code) : list code :=
  match q, fuel with
  | c :: q', S f => c :: bfs f (q' ++ child_codes c)
  | _, _ => []
  end.

Lemma push_children_q cur ks : forall q d, fst (push_children cur ks q d) = q ++ ks.
Proof.
  induction ks as [|v ks IH]; intros q d; cbn; [now rewrite app_nil_r|].
  rewrite IH, <- app_assoc. reflexivity.
Qed.

Lemma all_code_loop_bfs : forall fuel q d, csize q <= fuel ->
  exists l, all_code_loop fuel q d = Some l /\ map fst l = bfs fuel q.
Proof.
  induction fuel as [|fuel IH]; intros [|c q] d H; try (exists []; split; reflexivity).
  - rewrite csize_cons, code_size_eq in H. lia.
  - cbn [all_code_loop].
    pose proof (push_children_q c (child_codes c) q d) as E.
    destruct (push_children c (child_codes c) q d) as [q2 d2]. cbn in E. subst q2.
    destruct (IH (q ++ child_codes c) d2) as (l & -> & El).
    { rewrite csize_app. rewrite csize_cons, code_size_eq in H. lia. }
    eexists. split; [reflexivity|]. cbn. now rewrite El.
Qed.

Lemma bfs_perm : forall fuel q, csize q <= fuel ->
  Permutation (bfs fuel q) (flat_map all_codes q).
Proof.
  induction fuel as [|fuel IH]; intros [|c q] H; try constructor.
  - rewrite csize_cons, code_size_eq in H. lia.
  - cbn [bfs flat_map]. rewrite all_codes_eq. cbn. constructor.
    rewrite IH.
    + rewrite flat_map_app. apply Permutation_app_comm.
    + rewrite csize_app. rewrite csize_cons, code_size_eq in H. lia.
Qed.

(** Processing a whole queue. *)
Lemma bfs_front : forall q1 q2 fuel, csize (q1 ++ q2) <= fuel ->
  bfs fuel (q1 ++ q2) = q1 ++ bfs (fuel - List.length q1) (q2 ++ flat_map child_codes q1).
Proof.
  induction q1 as [|c q1 IH]; intros q2 fuel H.
  - cbn. now rewrite Nat.sub_0_r, app_nil_r.
  - cbn [app] in H. rewrite csize_cons, csize_app, code_size_eq in H.
    destruct fuel as [|fuel]; [lia|]. cbn [app bfs List.length]. f_equal.
    rewrite <- app_assoc. rewrite IH by (rewrite !csize_app; lia).
    cbn [Nat.sub flat_map]. now rewrite <- app_assoc.
Qed.

Lemma bfs_fuel : forall f1 f2 q, csize q <= f1 -> csize q <= f2 -> bfs f1 q = bfs f2 q.
Proof.
  induction f1 as [|f1 IH]; intros [|f2] [|c q] H1 H2; try reflexivity.
  - rewrite csize_cons, code_size_eq in H1. lia.
  - rewrite csize_cons, code_size_eq in H2. lia.
  - cbn. f_equal. apply IH; rewrite csize_app; rewrite csize_cons, code_size_eq in *; lia.
Qed.

Lemma csize_children q : csize (flat_map child_codes q) + List.length q = csize q.
Proof.
  induction q as [|c q IH]; [reflexivity|]. cbn [flat_map List.length].
  rewrite csize_app, csize_cons, code_size_eq. lia.
Qed.

Lemma levels_S q n : flat_map (level (S n)) q = flat_map (level n) (flat_map child_codes q).
Proof. induction q as [|c q IH]; [reflexivity|]. cbn [flat_map]. rewrite flat_map_app, IH. reflexivity. Qed.

Lemma levels_nil n : flat_map (level n) [] = [].
Proof. reflexivity. Qed.

Lemma flat_map_level0 q : flat_map (level 0) q = q.
Proof. induction q as [|c q IH]; [reflexivity|]. cbn in *. now rewrite IH. Qed.

Lemma flat_map_seq_S {A} (g : nat -> list A) n :
  flat_map g (seq 0 (S n)) = g 0 ++ flat_map (fun i => g (S i)) (seq 0 n).
Proof.
  cbn [seq flat_map]. f_equal. rewrite <- seq_shift. rewrite (flat_map_concat_map _ (map S _)), map_map.
  now rewrite flat_map_concat_map.
Qed.

Lemma bfs_levels : forall n q, csize q <= n ->
  bfs n q = flat_map (fun i => flat_map (level i) q) (seq 0 n).
Proof.
  induction n as [n IH] using lt_wf_ind. intros q H.
  destruct q as [|c q].
  - destruct n; cbn; [reflexivity|]. induction (seq 1 n); auto.
  - destruct n as [|n]; [rewrite csize_cons, code_size_eq in H; lia|].
    rewrite <- (app_nil_r (c :: q)) at 1. rewrite bfs_front by (rewrite app_nil_r; exact H).
    rewrite flat_map_seq_S, flat_map_level0. f_equal. cbn [app List.length].
    pose proof (csize_children (c :: q)) as HC. cbn [List.length] in HC.
    rewrite (bfs_fuel _ n) by lia.
    rewrite (IH n) by lia.
    apply flat_map_ext. intros i. now rewrite levels_S.
Qed.

Lemma all_code_objects_levels c :
  exists l, all_code_objects c = Some l
    /\ map fst l = flat_map (fun n => level n c) (seq 0 (code_size c))
    /\ Permutation (map fst l) (all_codes c).
Proof.
  unfold all_code_objects.
  assert (csize [c] <= code_size c) as H by (unfold csize; cbn; lia).
  destruct (all_code_loop_bfs (code_size c) [c] [] H) as (l & E & El).
  exists l. split; [exact E|]. rewrite El. split.
  - rewrite bfs_levels by exact H. apply flat_map_ext. intros n. cbn. now rewrite app_nil_r.
  - rewrite bfs_perm by exact H. cbn. now rewrite app_nil_r.
Qed.

(** ** Paths *)

Lemma descends_snoc p c d e : descends p c d -> In e (child_codes d) -> descends (p ++ [e]) c e.
Proof. induction 1; intros He; cbn; econstructor; eauto; constructor. Qed.

Lemma descends_snoc_inv p : forall c d e, descends (p ++ [e]) c d ->
  e = d /\ exists x, descends p c x /\ In e (child_codes x).
Proof.
  induction p as [|y p IH]; intros c d e H; inv H.
  - match goal with H : descends [] _ _ |- _ => inv H end. split; auto. eexists. split; [constructor|auto].
  - match goal with H : descends (_ ++ _) _ _ |- _ => apply IH in H as (-> & x & Hx & Hi) end.
    split; auto. exists x. split; auto. econstructor; eauto.
Qed.

Lemma descends_det p : forall c d d', descends p c d -> descends p c d' -> d = d'.
Proof. induction p; intros c d d' H H'; inv H; inv H'; eauto. Qed.

Lemma descends_app p q : forall c d, descends (p ++ q) c d <-> exists x, descends p c x /\ descends q x d.
Proof.
  induction p as [|e p IH]; intros c d; cbn.
  - split; [intros H; exists c; split; [constructor|auto]|].
    intros (x & H & H'). now inv H.
  - split.
    + intros H. inv H. match goal with H : descends (_ ++ _) _ _ |- _ => apply IH in H as (x & ? & ?) end.
      exists x. split; auto. econstructor; eauto.
    + intros (x & H & H'). inv H. econstructor; eauto. apply IH. eauto.
Qed.

Lemma descends_In p : forall c d, descends p c d -> In d (all_codes c).
Proof.
  induction p as [|e p IH]; intros c d H; rewrite all_codes_eq; inv H; cbn; auto.
  right. apply in_flat_map. eauto.
Qed.

Lemma NoDup_app_l {A} (l r : list A) : NoDup (l ++ r) -> NoDup l.
Proof. induction l; intros H; [constructor|]. inv H. constructor; auto. intros Hi. apply H2, in_or_app. auto. Qed.
Lemma NoDup_app_r {A} (l r : list A) : NoDup (l ++ r) -> NoDup r.
Proof. induction l; intros H; [exact H|]. inv H. auto. Qed.
Lemma NoDup_app_disj {A} (l r : list A) x : NoDup (l ++ r) -> In x l -> In x r -> False.
Proof.
  induction l; intros H Hl Hr; [contradiction|]. inv H. destruct Hl as [->|Hl]; auto.
  apply H2, in_or_app. auto.
Qed.

Lemma NoDup_flat_map_same {A B} (g : A -> list B) l x y k :
  NoDup (flat_map g l) -> In x l -> In y l -> In k (g x) -> In k (g y) -> x = y.
Proof.
  induction l as [|a l IH]; intros H Hx Hy Kx Ky; [contradiction|].
  cbn in H. destruct Hx as [->|Hx], Hy as [->|Hy]; auto.
  - exfalso. eapply NoDup_app_disj; [exact H|exact Kx|]. apply in_flat_map. eauto.
  - exfalso. eapply NoDup_app_disj; [exact H|exact Ky|]. apply in_flat_map. eauto.
  - apply IH; auto. eapply NoDup_app_r; eauto.
Qed.

Lemma NoDup_flat_map_in {A B} (g : A -> list B) l x : NoDup (flat_map g l) -> In x l -> NoDup (g x).
Proof.
  induction l as [|a l IH]; intros H []; cbn in H.
  - subst. eapply NoDup_app_l; eauto.
  - apply IH; auto. eapply NoDup_app_r; eauto.
Qed.

Definition keys (c : code) : list nat := map key (all_codes c).

Lemma keys_eq c : keys c = key c :: flat_map keys (child_codes c).
Proof.
  unfold keys at 1. rewrite all_codes_eq. cbn. f_equal.
  induction (child_codes c) as [|x l IH]; [reflexivity|]. cbn. now rewrite map_app, IH.
Qed.

Lemma key_in_keys c : In (key c) (keys c).
Proof. rewrite keys_eq. cbn. auto. Qed.

Lemma descends_key p c d : descends p c d -> In (key d) (keys c).
Proof. intros H. unfold keys. apply in_map. eapply descends_In; eauto. Qed.

Lemma path_unique p : forall c, NoDup (keys c) -> forall q d d',
  descends p c d -> descends q c d' -> key d = key d' -> p = q /\ d = d'.
Proof.
  induction p as [|e p IH]; intros c H q d d' Hd Hd' E.
  - inv Hd. destruct q as [|e' q]; [inv Hd'; auto|].
    inv Hd'. exfalso. rewrite keys_eq in H. apply NoDup_cons_iff in H as [HX _]. apply HX. rewrite E. apply in_flat_map.
    exists e'. split; auto. eapply descends_key; eauto.
  - inv Hd. destruct q as [|e' q].
    + inv Hd'. exfalso. rewrite keys_eq in H. apply NoDup_cons_iff in H as [HX _]. apply HX. rewrite <- E. apply in_flat_map.
      exists e. split; auto. eapply descends_key; eauto.
    + inv Hd'. rewrite keys_eq in H. apply NoDup_cons_iff in H as [_ H].
      assert (e = e') as <-.
      { eapply (NoDup_flat_map_same keys); eauto using descends_key.
        rewrite E. eapply descends_key; eauto. }
      destruct (IH e) with (q := q) (d := d) (d' := d') as [-> ->]; auto.
      eapply NoDup_flat_map_in; eauto.
Qed.

(** ** Queue with paths *)

Notation pitem := (list code * code)%type.

Definition pkids (x : pitem) : list pitem := map (fun e => (fst x ++ [e], e)) (child_codes (snd x)).

Fixpoint bfsp (fuel : nat) (q : list pitem) : list pitem :=
  match q, fuel with
  | x :: q', S f => x :: bfsp f (q' ++ pkids x)
  | _, _ => []
  end.

Lemma push_children_d cur ks : forall q d,
  ~ In (key cur) (map key ks) -> NoDup (map key ks) ->
  (forall v, In v ks -> pget (snd (push_children cur ks q d)) (key v) = pget d (key cur) ++ [key v])
  /\ (forall k, ~ In k (map key ks) -> pget (snd (push_children cur ks q d)) k = pget d k).
Proof.
  induction ks as [|v ks IH]; intros q d Hc Hn; cbn [push_children map In] in *.
  - split; [contradiction|reflexivity].
  - inv Hn. assert (~ In (key cur) (map key ks)) as Hc' by tauto.
    destruct (IH (q ++ [v]) ((key v, pget d (key cur) ++ [key v]) :: d) Hc' H2) as [A B].
    assert (forall k, k <> key v -> pget ((key v, pget d (key cur) ++ [key v]) :: d) k = pget d k) as G.
    { intros k Hk. cbn. destruct (Nat.eqb_spec k (key v)); congruence. }
    split.
    + intros w [<-|Hw].
      * rewrite B by exact H1. cbn. now rewrite Nat.eqb_refl.
      * rewrite A by exact Hw. rewrite G; [reflexivity|]. intros E. apply Hc. auto.
    + intros k Hk. rewrite B by tauto. apply G. intros ->. tauto.
Qed.

Lemma keys_children_NoDup l : NoDup (flat_map keys l) -> NoDup (map key l).
Proof.
  induction l as [|x l IH]; intros H; [constructor|]. cbn in *. constructor.
  - intros Hi. apply in_map_iff in Hi as (y & E & Hy).
    eapply NoDup_app_disj; [exact H|apply key_in_keys|].
    apply in_flat_map. exists y. split; auto. rewrite <- E. apply key_in_keys.
  - apply IH. eapply NoDup_app_r; eauto.
Qed.

Lemma Permutation_NoDup' {A} (l r : list A) : Permutation l r -> NoDup l -> NoDup r.
Proof. apply Permutation_NoDup. Qed.

Lemma all_code_loop_paths : forall fuel (q : list pitem) d,
  csize (map snd q) <= fuel ->
  NoDup (flat_map keys (map snd q)) ->
  (forall x, In x q -> pget d (key (snd x)) = map key (fst x)) ->
  all_code_loop fuel (map snd q) d = Some (map (fun x => (snd x, map key (fst x))) (bfsp fuel q)).
Proof.
  induction fuel as [|fuel IH]; intros [|[p c] q] d Hf Hn Hd; try reflexivity.
  - cbn [map snd] in Hf. rewrite csize_cons, code_size_eq in Hf. lia.
  - cbn [map snd] in *. cbn [all_code_loop bfsp].
    cbn [flat_map] in Hn. rewrite keys_eq in Hn. cbn [app] in Hn. inv Hn.
    assert (~ In (key c) (map key (child_codes c))) as Hc.
    { intros Hi. apply H1. apply in_or_app. left. apply in_map_iff in Hi as (y & E & Hy).
      apply in_flat_map. exists y. rewrite <- E. split; auto using key_in_keys. }
    assert (NoDup (map key (child_codes c))) as Hk
      by (apply keys_children_NoDup; eapply NoDup_app_l; eauto).
    pose proof (push_children_q c (child_codes c) (map snd q) d) as E.
    destruct (push_children_d c (child_codes c) (map snd q) d Hc Hk) as [A B].
    destruct (push_children c (child_codes c) (map snd q) d) as [q2 d2]. cbn in E, A, B. subst q2.
    assert (child_codes c = @map pitem code (@snd (list code) code) (pkids (p, c))) as EC
      by (unfold pkids; rewrite map_map; cbn; now rewrite map_id).
    replace (map snd q ++ child_codes c) with (map snd (q ++ pkids (p, c))) by (rewrite map_app, <- EC; reflexivity).
    rewrite (IH (q ++ pkids (p, c)) d2).
    + cbn. f_equal. f_equal. f_equal. apply (Hd (p, c)). now left.
    + rewrite map_app, csize_app, <- EC. rewrite csize_cons, code_size_eq in Hf. lia.
    + rewrite map_app, flat_map_app, <- EC. eapply Permutation_NoDup'; [apply Permutation_app_comm|exact H2].
    + intros x Hx. apply in_app_or in Hx as [Hx|Hx].
      * rewrite B; [apply Hd; now right|]. intros Hi.
        eapply (NoDup_app_disj _ _ (key (snd x))); [exact H2| |].
        -- apply in_map_iff in Hi as (y & Ey & Hy). apply in_flat_map. exists y. split; [exact Hy|].
           rewrite <- Ey. apply key_in_keys.
        -- apply in_flat_map. exists (snd x). split; [now apply in_map|]. apply key_in_keys.
      * unfold pkids in Hx. cbn in Hx. apply in_map_iff in Hx as (e & <- & He). cbn.
        rewrite A by exact He. pose proof (Hd (p, c) (or_introl eq_refl)) as E1. cbn in E1. rewrite E1, map_app. reflexivity.
Qed.

(** Parents come first. *)
Definition parent_in (root : code) (V : list pitem) (x : pitem) : Prop :=
  (fst x = [] /\ snd x = root) \/
  (exists p d, In (p, d) V /\ fst x = p ++ [snd x] /\ In (snd x) (child_codes d)).

Fixpoint ordered (root : code) (V L : list pitem) : Prop :=
  match L with
  | [] => True
  | x :: L' => parent_in root V x /\ ordered root (V ++ [x]) L'
  end.

Lemma parent_in_mono root V V' x : (forall y, In y V -> In y V') -> parent_in root V x -> parent_in root V' x.
Proof. intros H [?|(p & d & ? & ?)]; [now left|right]. exists p, d. auto. Qed.

Lemma bfsp_ordered root : forall fuel q V,
  (forall x, In x q -> parent_in root V x) -> ordered root V (bfsp fuel q).
Proof.
  induction fuel as [|fuel IH]; intros [|x q] V H; cbn; auto.
  split; [apply H; now left|]. apply IH. intros y Hy. apply in_app_or in Hy as [Hy|Hy].
  - eapply parent_in_mono; [|apply H; now right]. intros z Hz. apply in_or_app. auto.
  - unfold pkids in Hy. apply in_map_iff in Hy as (e & <- & He). right. cbn.
    exists (fst x), (snd x). repeat split; auto. apply in_or_app. right. left. now destruct x.
Qed.

Lemma bfsp_complete : forall fuel q p c p' d, csize (map snd q) <= fuel ->
  In (p, c) q -> descends p' c d -> In (p ++ p', d) (bfsp fuel q).
Proof.
  induction fuel as [|fuel IH]; intros [|x q] p c p' d Hf Hi Hd; try contradiction.
  - cbn [map] in Hf. rewrite csize_cons, code_size_eq in Hf. lia.
  - cbn [bfsp].
    assert (csize (map snd (q ++ pkids x)) <= fuel) as Hf'.
    { rewrite map_app, csize_app. unfold pkids. rewrite map_map. cbn. rewrite map_id.
      cbn [map] in Hf. rewrite csize_cons, code_size_eq in Hf. lia. }
    destruct Hi as [->|Hi].
    + inv Hd; [left; now rewrite app_nil_r|]. right.
      change (p ++ e :: p0) with (p ++ [e] ++ p0). rewrite app_assoc.
      apply (IH _ _ e); auto. apply in_or_app. right. unfold pkids. cbn.
      apply in_map_iff. exists e. auto.
    + right. eapply IH; eauto. apply in_or_app. auto.
Qed.

Definition closed (root : code) (V : list pitem) : Prop := forall x, In x V -> parent_in root V x.

Lemma closed_descends root V : closed root V -> forall n p d, List.length p <= n -> In (p, d) V -> descends p root d.
Proof.
  intros HC. induction n as [|n IH]; intros p d Hl Hi.
  - destruct p; [|cbn in Hl; lia]. destruct (HC _ Hi) as [[_ E]|(q & e & _ & E & _)]; cbn in E.
    + subst. constructor.
    + destruct q; discriminate.
  - destruct (HC _ Hi) as [[E1 E2]|(q & e & Hq & E & He)]; cbn in *.
    + subst. constructor.
    + subst p. apply descends_snoc with e; auto. apply IH; auto. rewrite app_length in Hl. cbn in Hl. lia.
Qed.

(** All proper prefixes of a path have been visited. *)
Lemma prefixes_visited root V : closed root V -> forall p2 x p1 y,
  parent_in root V x -> fst x = p1 ++ p2 -> p2 <> [] -> descends p1 root y -> In (p1, y) V.
Proof.
  intros HC. induction p2 as [|e p2 IH] using rev_ind; intros x p1 y Hx E Hne Hy; [congruence|].
  destruct Hx as [[E1 _]|(p & d & Hd & E1 & He)].
  - rewrite E1 in E. destruct p1, p2; discriminate.
  - rewrite E1 in E. rewrite app_assoc in E. apply app_inj_tail in E as [-> _].
    destruct p2 as [|e' p2] using rev_ind.
    + rewrite app_nil_r in Hd. assert (descends p1 root d) as Hd'.
      { eapply closed_descends; eauto. }
      now rewrite (descends_det _ _ _ _ Hy Hd').
    + apply (IH (p1 ++ p2 ++ [e'], d)); auto.
      destruct p2; discriminate.
Qed.

(** ** Function context *)

Lemma in_function_split v p : forall c d, in_function v p c d <->
  descends p c d /\ exists p1 x e p2, p = p1 ++ e :: p2 /\ descends p1 c x
     /\ In e (child_codes x) /\ makes_function v x (key e).
Proof.
  induction p as [|e p IH]; intros c d; split.
  - intros H. inv H.
  - intros (_ & p1 & x & e & p2 & E & _). destruct p1; discriminate.
  - intros H. inv H.
    + split; [econstructor; eauto|]. exists [], c, e, p. repeat split; auto. constructor.
    + match goal with H : in_function _ _ _ _ |- _ => apply IH in H as (Hd & p1 & x & e1 & p2 & -> & Q1 & Q2 & Q3) end.
      split; [econstructor; eauto|]. exists (e :: p1), x, e1, p2. repeat split; auto. econstructor; eauto.
  - intros (Hd & p1 & x & e1 & p2 & E & H1 & H2 & H3). inv Hd.
    destruct p1 as [|e2 p1]; cbn in E; injection E as <- ->.
    + inv H1. now constructor.
    + inv H1. apply inf_below; auto. apply IH. split; auto. exists p1, x, e1, p2. auto.
Qed.

Lemma is_class_body_split v p : forall c d, is_class_body v p c d <->
  exists p1 x, p = p1 ++ [d] /\ descends p1 c x /\ In d (child_codes x) /\ makes_class v x (key d).
Proof.
  induction p as [|e p IH]; intros c d; split.
  - intros H. inv H.
  - intros (p1 & x & E & _). destruct p1; discriminate.
  - intros H. inv H.
    + exists [], c. repeat split; auto. constructor.
    + match goal with H : is_class_body _ _ _ _ |- _ => apply IH in H as (p1 & x & -> & Q1 & Q2 & Q3) end.
      exists (e :: p1), x. repeat split; auto. econstructor; eauto.
  - intros (p1 & x & E & H1 & H2 & H3).
    destruct p1 as [|e2 p1]; cbn in E; injection E as <- ->.
    + inv H1. now constructor.
    + inv H1. apply cls_below; auto. apply IH. exists p1, x. auto.
Qed.

Lemma creates_child v c i k : creates v c i k -> exists e, In e (child_codes c) /\ key e = k.
Proof.
  intros (_ & j & x & n & d & _ & _ & _ & Hn & <-). exists d. split; auto.
  unfold child_codes. apply in_flat_map. exists (CCode d). split; [eapply nth_error_In; eauto|now left].
Qed.

Lemma nmemb_In k l : nmemb k l = true <-> In k l.
Proof.
  unfold nmemb. rewrite existsb_exists. split.
  - intros (x & H & E). apply Nat.eqb_eq in E. now subst.
  - intros H. exists k. split; auto. apply Nat.eqb_refl.
Qed.

Section flags.
  Variables (v : bool) (root : code) (V : list pitem) (fs cs : list nat).
  Hypothesis Hnd : NoDup (keys root).
  Hypothesis HC : closed root V.
  Hypothesis Hfs : forall k, In k fs <-> exists p d, In (p, d) V /\ makes_function v d k.
  Hypothesis Hcs : forall k, In k cs <-> exists p d, In (p, d) V /\ makes_class v d k.

  Lemma made_parent x p' d' k : parent_in root V x -> In k (key (snd x) :: map key (fst x)) ->
    In (p', d') V -> (exists e, In e (child_codes d') /\ key e = k) ->
    exists e p2, fst x = p' ++ e :: p2 /\ In e (child_codes d') /\ key e = k.
  Proof.
    intros Hx Hk Hd' (e' & He' & Ek).
    assert (descends p' root d') as D' by (eapply closed_descends; eauto).
    assert (descends (p' ++ [e']) root e') as DE by (eapply descends_snoc; eauto).
    assert (descends (fst x) root (snd x)) as DX.
    { destruct Hx as [[-> ->]|(p & d & Hd & -> & He)]; [constructor|].
      eapply descends_snoc; eauto. eapply closed_descends; eauto. }
    assert (exists p1 e p2, fst x = p1 ++ e :: p2 /\ key e = k \/ (fst x = [] /\ key root = k)) as HE.
    { cbn in Hk. destruct Hk as [Hk|Hk].
      - destruct Hx as [[E1 E2]|(p & d & Hd & E & He)].
        + exists [], root, []. right. split; congruence.
        + exists p, (snd x), []. left. auto.
      - apply in_map_iff in Hk as (e & Ee & Hi). apply in_split in Hi as (p1 & p2 & E).
        exists p1, e, p2. left. auto. }
    destruct HE as (p1 & e & p2 & [[E Ee]|[E Er]]).
    - rewrite E in DX. change (p1 ++ e :: p2) with (p1 ++ [e] ++ p2) in DX.
      rewrite app_assoc in DX. apply descends_app in DX as (y & DY & _).
      pose proof (descends_snoc_inv _ _ _ _ DY) as (<- & z & Dz & Hz).
      destruct (path_unique _ _ Hnd _ _ _ DY DE) as [Ep <-]; [congruence|].
      apply app_inj_tail in Ep as [-> _]. exists e, p2. auto.
    - exfalso. destruct (path_unique [] _ Hnd (p' ++ [e']) root e') as [Ep _]; auto.
      + constructor.
      + congruence.
      + destruct p'; discriminate.
  Qed.

  Lemma flag_function x : parent_in root V x ->
    is_code_for_function (snd x) (map key (fst x)) fs = true <-> in_function v (fst x) root (snd x).
  Proof.
    intros Hx. unfold is_code_for_function.
    assert (descends (fst x) root (snd x)) as DX.
    { destruct Hx as [[-> ->]|(p & d & Hd & -> & He)]; [constructor|].
      eapply descends_snoc; eauto. eapply closed_descends; eauto. }
    rewrite orb_true_iff, nmemb_In, existsb_exists, in_function_split. split.
    - intros H.
      assert (exists k, In k (key (snd x) :: map key (fst x)) /\ In k fs) as (k & Hk & Hf).
      { destruct H as [H|(k & Hk & H)]; [exists (key (snd x)); cbn; auto|].
        apply nmemb_In in H. exists k. cbn; auto. }
      apply Hfs in Hf as (p' & d' & Hd' & Hm).
      destruct (made_parent x p' d' k Hx Hk Hd') as (e & p2 & E & He & Ek).
      { destruct Hm as (i & Hc & _). eapply creates_child; eauto. }
      split; auto. exists p', d', e, p2. repeat split; auto.
      + eapply closed_descends; eauto.
      + now rewrite Ek.
    - intros (_ & p1 & y & e & p2 & E & D1 & He & Hm). right. exists (key e). split.
      + rewrite E, map_app. cbn. apply in_or_app. right. now left.
      + apply nmemb_In, Hfs. exists p1, y. split; auto.
        eapply (prefixes_visited root V HC (e :: p2) x); eauto. discriminate.
  Qed.

  Lemma flag_class x : parent_in root V x ->
    nmemb (key (snd x)) cs = true <-> is_class_body v (fst x) root (snd x).
  Proof.
    intros Hx.
    rewrite nmemb_In, is_class_body_split. split.
    - intros H. apply Hcs in H as (p' & d' & Hd' & Hm).
      destruct (made_parent x p' d' (key (snd x)) Hx) as (e & p2 & E & He & Ek); auto.
      { cbn; auto. }
      { destruct Hm as (i & Hc & _). eapply creates_child; eauto. }
      assert (descends (fst x) root (snd x)) as DX.
      { destruct Hx as [[-> ->]|(p & d & Hd & -> & He')]; [constructor|].
        eapply descends_snoc; eauto. eapply closed_descends; eauto. }
      assert (descends p' root d') as D' by (eapply closed_descends; eauto).
      assert (descends (p' ++ [e]) root e) as DE by (eapply descends_snoc; eauto).
      destruct (path_unique _ _ Hnd _ _ _ DX DE (eq_sym Ek)) as [Ep Ee].
      exists p', d'. rewrite Ee in *. auto.
    - intros (p1 & y & E & D1 & He & Hm). apply Hcs. exists p1, y. split; auto.
      eapply (prefixes_visited root V HC [snd x] x); eauto. discriminate.
  Qed.
End flags.

(** ** The whole scan *)

Definition flag_ok (v : bool) (root : code) (x : pitem) (b : bool * bool) : Prop :=
  (fst b = true <-> in_function v (fst x) root (snd x))
  /\ (snd b = true <-> is_class_body v (fst x) root (snd x)).

Lemma closed_snoc root V x : closed root V -> parent_in root V x -> closed root (V ++ [x]).
Proof.
  intros HC Hx y Hy. apply in_app_or in Hy as [Hy|[<-|[]]].
  - eapply parent_in_mono; [|apply HC; exact Hy]. intros; apply in_or_app; auto.
  - eapply parent_in_mono; [|exact Hx]. intros; apply in_or_app; auto.
Qed.

Lemma info_loop_flags v root : NoDup (keys root) -> forall L V acc f,
  ordered root V L -> closed root V ->
  (forall d, In d (map snd L) -> operands_first v d) ->
  (forall k, In k (f_funcs acc) <-> exists p d, In (p, d) V /\ makes_function v d k) ->
  (forall k, In k (f_classes acc) <-> exists p d, In (p, d) V /\ makes_class v d k) ->
  info_loop v (map (fun x => (snd x, map key (fst x))) L) acc = ROk f ->
  exists bs gs, Forall2 (flag_ok v root) L bs
    /\ Forall2 (fun xb g => extract_single v (snd (fst xb)) (fst (snd xb)) (snd (snd xb)) = ROk g)
               (combine L bs) gs
    /\ f_imports f = f_imports acc ++ flat_map f_imports gs
    /\ (forall n, In n (f_written f) <-> In n (f_written acc) \/ In n (flat_map f_written gs))
    /\ (forall n, In n (f_read f) <-> In n (f_read acc) \/ In n (flat_map f_read gs)).
Proof.
  intros Hnd. induction L as [|x L IH]; intros V acc f HO HC Hof Hfs Hcs H.
  - cbn in H. injection H as <-. exists [], []. cbn. rewrite app_nil_r.
    repeat split; auto; try constructor; tauto.
  - cbn [map info_loop] in H. destruct acc as [im wr rd fs cs]. cbn [f_funcs f_classes] in *.
    destruct HO as [Hx HO].
    apply rbind_ok in H as ([im1 wr1 rd1 fs1 cs1] & E & H).
    set (b1 := is_code_for_function (snd x) (map key (fst x)) fs) in *.
    set (b2 := nmemb (key (snd x)) cs) in *.
    assert (operands_first v (snd x)) as Hofx by (apply Hof; now left).
    destruct (single_funcs _ _ _ _ _ E Hofx) as [F1 F2]. cbn in F1, F2.
    apply (IH (V ++ [x])) in H as (bs & gs & B & G & G1 & G2 & G3).
    + exists ((b1, b2) :: bs), (Found im1 wr1 rd1 fs1 cs1 :: gs). split; [|split].
      * constructor; auto. split; cbn.
        -- apply (flag_function v root V fs Hnd HC Hfs x Hx).
        -- apply (flag_class v root V cs Hnd HC Hcs x Hx).
      * cbn [combine]. constructor; auto.
      * cbn [flat_map f_imports f_written f_read] in *. rewrite G1, <- app_assoc. split; [reflexivity|].
        split; intros n; rewrite ?G2, ?G3, ?set_union_In, ?in_app_iff; tauto.
    + exact HO.
    + now apply closed_snoc.
    + intros d Hd. apply Hof. now right.
    + cbn. intros k. rewrite in_app_iff, Hfs, F1. split.
      * intros [(p & d & Hd & Hm)|Hm].
        -- exists p, d. rewrite in_app_iff. auto.
        -- exists (fst x), (snd x). rewrite in_app_iff. split; auto. right. left. now destruct x.
      * intros (p & d & Hd & Hm). apply in_app_or in Hd as [Hd|[->|[]]]; eauto.
    + cbn. intros k. rewrite in_app_iff, Hcs, F2. split.
      * intros [(p & d & Hd & Hm)|Hm].
        -- exists p, d. rewrite in_app_iff. auto.
        -- exists (fst x), (snd x). rewrite in_app_iff. split; auto. right. left. now destruct x.
      * intros (p & d & Hd & Hm). apply in_app_or in Hd as [Hd|[->|[]]]; eauto.
Qed.

Lemma Forall2_fst_nth {A B} (R : A -> B -> Prop) l r : Forall2 R l r -> List.length l = List.length r.
Proof. induction 1; cbn; congruence. Qed.

(** Result of the scan for trees of pairwise different code objects. *)
Lemma extract_bytecode_spec v root im wr rd :
  NoDup (keys root) -> (forall d, In d (all_codes root) -> operands_first v d) ->
  extract_bytecode_info v root = Some (ROk (im, wr, rd)) ->
  exists L bs gs,
    map snd L = flat_map (fun n => level n root) (seq 0 (code_size root))
    /\ (forall p d, In (p, d) L <-> descends p root d)
    /\ Forall2 (flag_ok v root) L bs
    /\ Forall2 (fun xb g => extract_single v (snd (fst xb)) (fst (snd xb)) (snd (snd xb)) = ROk g)
               (combine L bs) gs
    /\ im = flat_map f_imports gs
    /\ (forall n, In n wr <-> In n (flat_map f_written gs))
    /\ (forall n, In n rd <-> In n (flat_map f_read gs)).
Proof.
  intros Hnd Hof H. unfold extract_bytecode_info in H.
  set (L := bfsp (code_size root) [([], root)]).
  assert (all_code_objects root = Some (map (fun x => (snd x, map key (fst x))) L)) as E.
  { unfold all_code_objects, L. apply (all_code_loop_paths _ [([], root)] []).
    - unfold csize; cbn; lia.
    - cbn. now rewrite app_nil_r.
    - intros x [<-|[]]. reflexivity. }
  destruct (all_code_objects_levels root) as (l & E' & El & Ep). rewrite E in E'. injection E' as <-.
  rewrite map_map in El, Ep. cbn in El, Ep.
  rewrite E in H. injection H as H.
  destruct (info_loop v _ found0) as [f|] eqn:EI; [|discriminate]. injection H as <- <- <-.
  assert (ordered root [] L) as HO.
  { apply bfsp_ordered. intros x [<-|[]]. left. auto. }
  assert (forall L V, ordered root V L -> closed root V -> closed root (V ++ L)) as HOC.
  { clear. induction L as [|x L IH]; intros V H HC; [now rewrite app_nil_r|]. destruct H as [Hx H].
    change (V ++ x :: L) with (V ++ [x] ++ L). rewrite app_assoc. apply IH; auto. now apply closed_snoc. }
  assert (closed root L) as HCL by (apply (HOC L [] HO); intros x []).
  destruct (info_loop_flags v root Hnd L [] found0 f HO) as (bs & gs & B & G & G1 & G2 & G3); auto.
  - intros x [].
  - intros d Hd. apply Hof. eapply Permutation_in; [exact Ep|exact Hd].
  - cbn. intros k. split; [contradiction|]. intros (p & d & [] & _).
  - cbn. intros k. split; [contradiction|]. intros (p & d & [] & _).
  - exists L, bs, gs. split; [exact El|]. split; [|split; [exact B|split; [exact G|]]].
    + intros p d. split.
      * intros Hi. eapply closed_descends; eauto.
      * intros Hd. change p with ([] ++ p). eapply bfsp_complete; [|now left|exact Hd]. unfold csize; cbn; lia.
    + split; [exact G1|]. split; intros n; rewrite ?G2, ?G3; cbn; tauto.
Qed.
