From Verif Require Import PyStrFacts ImportInfo ImportInfoProofs BytecodeSpec.

Lemma op_eqb_eq a b : op_eqb a b = true <-> a = b.
Proof.
  destruct a, b; cbn; split; intros H; try discriminate; try reflexivity.
  - apply seqb_eq in H. now subst.
  - injection H as ->. now apply seqb_eq.
Qed.

Lemma op_eqb_neq a b : op_eqb a b = false <-> a <> b.
Proof. rewrite <- op_eqb_eq. destruct (op_eqb a b); split; congruence. Qed.

Ltac inv H := inversion H; subst; clear H.

Lemma rbind_ok {A B} (r : result A) (f : A -> result B) b :
  rbind r f = ROk b -> exists a, r = ROk a /\ f a = ROk b.
Proof. destruct r; cbn; [eauto|discriminate]. Qed.

Lemma or_err_ok {A} (o : option A) e a : or_err o e = ROk a -> o = Some a.
Proof. destruct o; cbn; congruence. Qed.

Ltac binds H :=
  repeat match type of H with
  | rbind _ _ = ROk _ => let a := fresh "a" in let E := fresh "E" in
      apply rbind_ok in H as (a & E & H);
      try apply or_err_ok in E
  | (if ?b then RErr _ else _) = ROk _ => let E := fresh "E" in destruct b eqn:E; [discriminate|]
  | (let '(_, _) := ?p in _) = ROk _ => destruct p
  end.

(** ** Positions *)

Lemma pyback_app {A} (pre suf : list A) x k n :
  n = List.length pre + k -> pyback (pre ++ x :: suf) n k = Some x.
Proof.
  intros ->. unfold pyback. assert (Nat.leb k (List.length pre + k) = true) as -> by (apply Nat.leb_le; lia).
  replace (List.length pre + k - k) with (List.length pre) by lia.
  rewrite nth_error_app2 by lia. now rewrite Nat.sub_diag.
Qed.

Lemma pyback_in {A} (l : list A) i k : k <= i -> pyback l i k = nth_error l (i - k).
Proof. intros H. unfold pyback. now assert (Nat.leb k i = true) as -> by now apply Nat.leb_le. Qed.

(** ** Contributions of the single instructions *)

Definition gain v c fn cls i x : found :=
  match single_step v c fn cls i x found0 with ROk g => g | RErr _ => found0 end.

Definition adds (acc g f : found) : Prop :=
  f_imports f = f_imports acc ++ f_imports g
  /\ (forall n, In n (f_written f) <-> In n (f_written acc) \/ In n (f_written g))
  /\ (forall n, In n (f_read f) <-> In n (f_read acc) \/ In n (f_read g))
  /\ f_funcs f = f_funcs acc ++ f_funcs g
  /\ f_classes f = f_classes acc ++ f_classes g.

Lemma adds_0_r f : adds f found0 f.
Proof. unfold adds, found0. cbn. rewrite !app_nil_r. repeat split; tauto. Qed.

Lemma add_const_app k l : add_const k l = l ++ add_const k [].
Proof. destruct k; cbn; now rewrite ?app_nil_r. Qed.

Lemma step_gain v c fn cls i x acc f :
  single_step v c fn cls i x acc = ROk f ->
  single_step v c fn cls i x found0 = ROk (gain v c fn cls i x)
  /\ adds acc (gain v c fn cls i x) f.
Proof.
  intros H. unfold gain, single_step in *. destruct acc as [im wr rd fs cs]. cbn [found0].
  unfold found0. cbv beta iota.
  destruct (i_op x) eqn:Eo; try (injection H as <-; split; [reflexivity|apply adds_0_r]).
  - (* IMPORT_NAME *)
    apply rbind_ok in H as ([info names] & E & H). rewrite E. cbn. split; [reflexivity|].
    injection H as <-. unfold adds; cbn. rewrite !app_nil_r.
    repeat split; auto; try tauto;
      destruct (fn || cls); try destruct names; rewrite ?set_union_In; cbn; tauto.
  - (* STORE_NAME *)
    destruct (cls || fn); [injection H as <-; split; [reflexivity|apply adds_0_r]|].
    apply rbind_ok in H as (n & E & H). rewrite E. cbn. split; [reflexivity|].
    injection H as <-. unfold adds; cbn. rewrite !app_nil_r.
    repeat split; auto; rewrite ?set_add_In; cbn; intuition auto.
  - destruct cls; [injection H as <-; split; [reflexivity|apply adds_0_r]|].
    apply rbind_ok in H as (n & E & H). rewrite E. cbn. split; [reflexivity|].
    injection H as <-. unfold adds; cbn. rewrite !app_nil_r.
    repeat split; auto; rewrite ?set_add_In; cbn; intuition auto.
  - destruct cls; [injection H as <-; split; [reflexivity|apply adds_0_r]|].
    apply rbind_ok in H as (n & E & H). rewrite E. cbn. split; [reflexivity|].
    injection H as <-. unfold adds; cbn. rewrite !app_nil_r.
    repeat split; auto; rewrite ?set_add_In; cbn; intuition auto.
  - apply rbind_ok in H as (n & E & H). rewrite E. cbn. split; [reflexivity|].
    injection H as <-. unfold adds; cbn. rewrite !app_nil_r.
    repeat split; auto; rewrite ?set_add_In; cbn; intuition auto.
  - apply rbind_ok in H as ([is_class k] & E & H). rewrite E. cbn.
    destruct is_class; injection H as <-; (split; [reflexivity|]); unfold adds; cbn;
      rewrite !app_nil_r; (repeat split; auto; try tauto); apply add_const_app.
Qed.

(** Combined result of the positions from [o] on. *)
Definition gains v c fn cls o (l : list instr) : list found :=
  map (fun p => gain v c fn cls (fst p) (snd p)) (combine (seq o (List.length l)) l).

Lemma gains_cons v c fn cls o x l :
  gains v c fn cls o (x :: l) = gain v c fn cls o x :: gains v c fn cls (S o) l.
Proof. reflexivity. Qed.

Lemma gains_app v c fn cls l r : forall o,
  gains v c fn cls o (l ++ r) = gains v c fn cls o l ++ gains v c fn cls (o + List.length l) r.
Proof.
  induction l as [|x l IH]; intros o.
  - cbn. now rewrite Nat.add_0_r.
  - rewrite <- app_comm_cons, !gains_cons, IH. cbn. do 3 f_equal. lia.
Qed.

Lemma loop_gains v c fn cls l : forall o acc f,
  single_loop v c fn cls o l acc = ROk f ->
  Forall (fun p => single_step v c fn cls (fst p) (snd p) found0
                   = ROk (gain v c fn cls (fst p) (snd p))) (combine (seq o (List.length l)) l)
  /\ f_imports f = f_imports acc ++ flat_map f_imports (gains v c fn cls o l)
  /\ (forall n, In n (f_written f) <-> In n (f_written acc) \/ In n (flat_map f_written (gains v c fn cls o l)))
  /\ (forall n, In n (f_read f) <-> In n (f_read acc) \/ In n (flat_map f_read (gains v c fn cls o l)))
  /\ f_funcs f = f_funcs acc ++ flat_map f_funcs (gains v c fn cls o l)
  /\ f_classes f = f_classes acc ++ flat_map f_classes (gains v c fn cls o l).
Proof.
  induction l as [|x l IH]; intros o acc f H.
  - cbn in H. injection H as <-. cbn. rewrite !app_nil_r. repeat split; auto; tauto.
  - cbn [single_loop] in H. apply rbind_ok in H as (acc' & E & H).
    apply step_gain in E as [E (A1 & A2 & A3 & A4 & A5)].
    apply IH in H as (B0 & B1 & B2 & B3 & B4 & B5).
    rewrite gains_cons. cbn [flat_map].
    split; [constructor; auto|].
    rewrite B1, A1, B4, A4, B5, A5, <- !app_assoc.
    split; [reflexivity|].
    split; [intros n; rewrite B2, A2, in_app_iff; tauto|].
    split; [intros n; rewrite B3, A3, in_app_iff; tauto|]. auto.
Qed.

Lemma nth_error_seq_combine {A} (l : list A) : forall o i x,
  nth_error l i = Some x -> In (o + i, x) (combine (seq o (List.length l)) l).
Proof.
  induction l as [|y l IH]; intros o [|i] x H; try discriminate; cbn in *.
  - injection H as ->. left. now rewrite Nat.add_0_r.
  - right. replace (o + S i) with (S o + i) by lia. auto.
Qed.

Lemma In_seq_combine {A} (l : list A) : forall o i x,
  In (i, x) (combine (seq o (List.length l)) l) -> o <= i /\ nth_error l (i - o) = Some x.
Proof.
  induction l as [|y l IH]; intros o i x H; [contradiction|]. cbn in H. destruct H as [H|H].
  - injection H as <- <-. now rewrite Nat.sub_diag.
  - apply IH in H as [H1 H2]. split; [lia|]. replace (i - o) with (S (i - S o)) by lia. exact H2.
Qed.

Lemma In_gains {B} v c fn cls (g : found -> list B) (n : B) :
  In n (flat_map g (gains v c fn cls 0 (co_ins c))) <->
  exists i x, nth_error (co_ins c) i = Some x /\ In n (g (gain v c fn cls i x)).
Proof.
  unfold gains. rewrite in_flat_map. split.
  - intros (f & Hf & Hn). apply in_map_iff in Hf as ([i x] & <- & Hi).
    apply In_seq_combine in Hi as [_ Hi]. rewrite Nat.sub_0_r in Hi. eauto.
  - intros (i & x & Hi & Hn). exists (gain v c fn cls i x). split; auto.
    apply in_map_iff. exists (i, x). split; auto. apply (nth_error_seq_combine _ 0 i x Hi).
Qed.

Lemma single_ok_step v c fn cls f i x :
  extract_single v c fn cls = ROk f -> nth_error (co_ins c) i = Some x ->
  single_step v c fn cls i x found0 = ROk (gain v c fn cls i x).
Proof.
  intros H Hi. apply loop_gains in H as (H & _). rewrite Forall_forall in H.
  apply (H (i, x)). apply (nth_error_seq_combine _ 0 i x Hi).
Qed.

(** ** Functions and classes of one code object *)

Lemma op_back_ok l i k o : op_back l i k = ROk o -> k <= i ->
  exists x, nth_error l (i - k) = Some x /\ i_op x = o.
Proof.
  unfold op_back. intros H Hk. apply rbind_ok in H as (x & E & H). apply or_err_ok in E.
  rewrite pyback_in in E by exact Hk. injection H as <-. eauto.
Qed.

Lemma decode_function_spec v c i b k x :
  decode_function v c i = ROk (b, k) -> (if v then 1 else 2) <= i ->
  nth_error (co_ins c) i = Some x -> i_op x = MAKE_FUNCTION ->
  (b = true <-> class_prefix v c i)
  /\ exists j y n, j + (if v then 1 else 2) = i /\ nth_error (co_ins c) j = Some y
       /\ i_arg y = Some n /\ nth_error (co_consts c) n = Some k.
Proof.
  intros H Hi Hx Ho. unfold decode_function in H.
  apply rbind_ok in H as (ci & E1 & H). apply or_err_ok in E1.
  rewrite pyback_in in E1 by exact Hi.
  apply rbind_ok in H as (n & E2 & H). apply or_err_ok in E2.
  apply rbind_ok in H as (b' & E3 & H).
  apply rbind_ok in H as (k' & E4 & H). apply or_err_ok in E4. injection H as -> ->.
  split; [|exists (i - (if v then 1 else 2)), ci, n; repeat split; auto; destruct v; lia].
  unfold class_prefix, op_at. destruct v.
  - apply rbind_ok in E3 as (a & E5 & E3).
    assert (a = true <-> exists j, j + 2 = i /\ exists y, nth_error (co_ins c) j = Some y /\ i_op y = LOAD_BUILD_CLASS) as Ha.
    { destruct (Nat.leb_spec 2 i).
      - apply rbind_ok in E5 as (o & E5 & E6). injection E6 as <-.
        apply op_back_ok in E5 as (y & Hy & <-); [|lia]. rewrite op_eqb_eq. split.
        + intros Hb. exists (i - 2). split; [lia|]. eauto.
        + intros (j & Hj & z & Hz & Hb). replace (i - 2) with j in Hy by lia. congruence.
      - injection E5 as <-. split; [discriminate|]. intros (j & Hj & _). lia. }
    destruct a.
    + injection E3 as <-. split; auto. intros _. left. now apply Ha.
    + assert (~ exists j, j + 2 = i /\ exists y, nth_error (co_ins c) j = Some y /\ i_op y = LOAD_BUILD_CLASS) as Hn
        by (rewrite <- Ha; discriminate).
      destruct (Nat.leb_spec 3 i).
      * apply rbind_ok in E3 as (o2 & E6 & E3). apply rbind_ok in E3 as (o3 & E7 & E3). injection E3 as <-.
        apply op_back_ok in E6 as (y2 & Hy2 & <-); [|lia].
        apply op_back_ok in E7 as (y3 & Hy3 & <-); [|lia].
        rewrite andb_true_iff, !op_eqb_eq. split.
        -- intros [H2 H3]. right. exists (i - 3). split; [lia|].
           replace (i - 3 + 1) with (i - 2) by lia. eauto 6.
        -- intros [H'|(j & Hj & (z & Hz & Hb) & (w & Hw & Hb'))]; [now elim Hn|].
           replace (i - 3) with j in Hy3 by lia. replace (i - 2) with (j + 1) in Hy2 by lia. split; congruence.
      * injection E3 as <-. split; [discriminate|].
        intros [H'|(j & Hj & _)]; [now elim Hn|lia].
  - destruct (Nat.leb_spec 3 i).
    + apply rbind_ok in E3 as (o & E5 & E6). injection E6 as <-.
      apply op_back_ok in E5 as (y & Hy & <-); [|lia]. rewrite op_eqb_eq. split.
      * intros Hb. exists (i - 3). split; [lia|]. eauto.
      * intros (j & Hj & z & Hz & Hb). replace (i - 3) with j in Hy by lia. congruence.
    + injection E3 as <-. split; [discriminate|]. intros (j & Hj & _). lia.
Qed.

Lemma gain_funcs v c fn cls f i x :
  extract_single v c fn cls = ROk f -> operands_first v c -> nth_error (co_ins c) i = Some x ->
  (forall k, In k (f_funcs (gain v c fn cls i x)) <-> creates v c i k /\ ~ class_prefix v c i)
  /\ (forall k, In k (f_classes (gain v c fn cls i x)) <-> creates v c i k /\ class_prefix v c i).
Proof.
  intros H Hof Hx. pose proof (single_ok_step _ _ _ _ _ _ _ H Hx) as E.
  destruct (op_eqb (i_op x) MAKE_FUNCTION) eqn:Eo.
  - apply op_eqb_eq in Eo. unfold single_step in E. rewrite Eo in E. unfold found0 in E at 1.
    cbv beta iota in E.
    apply rbind_ok in E as ([b k0] & E1 & E2).
    assert ((if v then 1 else 2) <= i) as Hi by (apply (proj1 Hof); exists x; auto).
    destruct (decode_function_spec _ _ _ _ _ _ E1 Hi Hx Eo) as (Hb & j & y & n & Hj & Hy & Hn & Hk).
    assert (forall k, creates v c i k <-> exists d, k0 = CCode d /\ key d = k) as Hc.
    { intros k. unfold creates. split.
      - intros (_ & j' & y' & n' & d & Hj' & Hy' & Hn' & Hk' & <-).
        assert (j' = j) as -> by (destruct v; lia). assert (y' = y) as -> by congruence.
        assert (n' = n) as -> by congruence. exists d. split; congruence.
      - intros (d & -> & <-). split; [exists x; auto|]. exists j, y, n, d. auto. }
    destruct b; injection E2 as E2; rewrite <- E2; cbn; split; intros k; rewrite Hc.
    + split; [contradiction|]. intros [_ Hn']. elim Hn'. now apply Hb.
    + destruct k0; cbn; split; try contradiction; try (intros [(d & Q & _) _]; discriminate).
      * intros [<-|[]]. split; [eauto|now apply Hb].
      * intros [(d & Q & <-) _]. injection Q as ->. auto.
    + destruct k0; cbn; split; try contradiction; try (intros [(d & Q & _) _]; discriminate).
      * intros [<-|[]]. split; [eauto|]. intros Hp. apply Hb in Hp. discriminate.
      * intros [(d & Q & <-) _]. injection Q as ->. auto.
    + split; [contradiction|]. intros [_ Hp]. apply Hb in Hp. discriminate.
  - assert (~ exists k, creates v c i k) as Hn.
    { intros (k & (x' & Hx' & Ho) & _). rewrite Hx in Hx'. injection Hx' as <-.
      apply op_eqb_neq in Eo. congruence. }
    assert (f_funcs (gain v c fn cls i x) = [] /\ f_classes (gain v c fn cls i x) = []) as [-> ->].
    { unfold single_step in E. unfold found0 in E at 1. cbv beta iota in E.
      destruct (i_op x); try discriminate Eo;
        repeat match type of E with
        | (if ?b then _ else _) = _ => destruct b
        | rbind _ _ = ROk _ => let a := fresh in apply rbind_ok in E as (a & _ & E)
        | (let (_, _) := ?p in _) = _ => destruct p
        end; injection E as <-; auto. }
    cbn. split; intros k; (split; [contradiction|]); intros [Hc _]; elim Hn; eauto.
Qed.

Lemma single_funcs v c fn cls f :
  extract_single v c fn cls = ROk f -> operands_first v c ->
  (forall k, In k (f_funcs f) <-> makes_function v c k)
  /\ (forall k, In k (f_classes f) <-> makes_class v c k).
Proof.
  intros H Hof. pose proof H as H0. apply loop_gains in H0 as (_ & _ & _ & _ & E1 & E2).
  rewrite E1, E2. cbn [f_funcs f_classes found0 app]. unfold makes_function, makes_class.
  split; intros k; rewrite In_gains; split.
  - intros (i & x & Hx & Hk). exists i. now apply (gain_funcs _ _ _ _ _ _ _ H Hof Hx).
  - intros (i & Hc & Hp). destruct (proj1 Hc) as (x & Hx & _). exists i, x. split; auto.
    now apply (gain_funcs _ _ _ _ _ _ _ H Hof Hx).
  - intros (i & x & Hx & Hk). exists i. now apply (gain_funcs _ _ _ _ _ _ _ H Hof Hx).
  - intros (i & Hc & Hp). destruct (proj1 Hc) as (x & Hx & _). exists i, x. split; auto.
    now apply (gain_funcs _ _ _ _ _ _ _ H Hof Hx).
Qed.

(** ** Names of one code object *)

Lemma name_arg_spec c x n : name_arg c x = ROk n <-> names_arg c x n.
Proof.
  unfold name_arg, names_arg, rbind, or_err. split.
  - destruct (i_arg x) as [a|]; [|discriminate]. destruct (nth_error (co_names c) a) eqn:E; [|discriminate].
    intros H. injection H as ->. eauto.
  - intros (a & -> & ->). reflexivity.
Qed.

Lemma div2_div n : Nat.div2 n = n / 2.
Proof. apply Nat.div2_div. Qed.

Lemma global_arg_spec v c x n : global_arg v c x = ROk n <-> names_garg v c x n.
Proof.
  unfold global_arg, names_garg, rbind, or_err. split.
  - destruct (i_arg x) as [a|]; [|discriminate]. rewrite div2_div.
    destruct (nth_error (co_names c) _) eqn:E; [|discriminate].
    intros H. injection H as ->. eauto.
  - intros (a & -> & H). rewrite div2_div. now rewrite H.
Qed.

Lemma decode_import_from v c i x fn info names :
  operands_first v c -> nth_error (co_ins c) i = Some x -> i_op x = IMPORT_NAME ->
  decode_import c i x fn = ROk (info, names) ->
  from_const c i (match names with Some l => CTuple l | None => CNone end).
Proof.
  intros [_ Hof] Hx Ho H.
  destruct (Hof i) as [H1 H2]; [exists x; auto|].
  unfold decode_import in H.
  apply rbind_ok in H as (o1 & E1 & H). apply op_back_ok in E1 as (x1 & Hx1 & <-); [|exact H1].
  set (k := if op_eqb (i_op x1) EXTENDED_ARG then 2 else 1) in *.
  assert (k <= i) as Hk.
  { unfold k. destruct (op_eqb (i_op x1) EXTENDED_ARG) eqn:E; [|lia]. apply op_eqb_eq in E.
    apply H2. exists x1. auto. }
  apply rbind_ok in H as (o2 & _ & H).
  apply rbind_ok in H as (of & E3 & H). apply op_back_ok in E3 as (xf & Hxf & <-); [|exact Hk].
  destruct (negb (op_eqb (i_op xf) LOAD_CONST)) eqn:E4; [discriminate|].
  apply negb_false_iff, op_eqb_eq in E4.
  apply rbind_ok in H as (ol & _ & H).
  destruct (negb _); [discriminate|].
  apply rbind_ok in H as (fi & E5 & H). apply or_err_ok in E5. rewrite pyback_in in E5 by exact Hk.
  rewrite Hxf in E5. injection E5 as <-.
  apply rbind_ok in H as (a & E6 & H). apply or_err_ok in E6.
  apply rbind_ok in H as (? & _ & H).
  apply rbind_ok in H as (? & _ & H).
  apply rbind_ok in H as (kc & E7 & H). apply or_err_ok in E7.
  apply rbind_ok in H as (? & _ & H).
  apply rbind_ok in H as (nms & E8 & H).
  apply rbind_ok in H as (? & _ & H).
  apply rbind_ok in H as (? & _ & H).
  injection H as _ <-.
  exists (i - k), xf, a. repeat split; auto.
  - unfold k in *. destruct (op_eqb (i_op x1) EXTENDED_ARG) eqn:E; [right|left; lia].
    split; [lia|]. apply op_eqb_eq in E. exists x1. replace (i - 2 + 1) with (i - 1) by lia. auto.
  - destruct kc; try discriminate; injection E8 as <-; exact E7.
Qed.

Lemma from_const_det c i k k' : from_const c i k -> from_const c i k' -> k = k'.
Proof.
  intros (j & x & a & Hj & Hx & Ho & Ha & Hk) (j' & x' & a' & Hj' & Hx' & Ho' & Ha' & Hk').
  assert (j = j') as <-.
  { destruct Hj as [Hj|[Hj (y & Hy & Hyo)]], Hj' as [Hj'|[Hj' (y' & Hy' & Hyo')]]; try lia.
    - replace (j' + 1) with j in Hy' by lia. rewrite Hx in Hy'. injection Hy' as <-. congruence.
    - replace (j + 1) with j' in Hy by lia. rewrite Hx' in Hy. injection Hy as <-. congruence. }
  congruence.
Qed.

Lemma set_union_nil_In n l : In n (set_union [] l) <-> In n l.
Proof. rewrite set_union_In. cbn. tauto. Qed.

Lemma single_written v c fn cls f : extract_single v c fn cls = ROk f -> operands_first v c ->
  forall n, In n (f_written f) <-> writes fn cls c n.
Proof.
  intros H Hof n. pose proof H as H0. apply loop_gains in H0 as (_ & _ & E & _). rewrite E.
  cbn [f_written found0 In]. rewrite In_gains.
  assert (forall i x, nth_error (co_ins c) i = Some x ->
    (In n (f_written (gain v c fn cls i x)) <->
     (i_op x = STORE_NAME /\ fn = false /\ cls = false /\ names_arg c x n)
      \/ (i_op x = STORE_GLOBAL /\ cls = false /\ names_arg c x n)
      \/ (i_op x = IMPORT_NAME /\ fn = false /\ cls = false /\ n <> "*"
          /\ exists l, from_const c i (CTuple l) /\ In n l))) as HG.
  { intros i x Hx. pose proof (single_ok_step _ _ _ _ _ _ _ H Hx) as S.
    unfold single_step in S. unfold found0 in S at 1. cbv beta iota in S.
    destruct (i_op x) eqn:Eo;
      try (injection S as <-; cbn; split; [contradiction|]; intros [[Q _]|[[Q _]|[Q _]]]; discriminate).
    - (* IMPORT_NAME *)
      apply rbind_ok in S as ([info names] & E1 & S). injection S as <-. cbn.
      pose proof (decode_import_from _ _ _ _ _ _ _ Hof Hx Eo E1) as Hf.
      destruct fn, cls; cbn;
        try (split; [contradiction|]; intros [[Q _]|[[Q _]|(_ & Q & Q' & _)]]; discriminate).
      destruct names as [l|]; cbn.
      + rewrite set_union_nil_In, filter_In. split.
        * intros [Hn Hs]. right; right. repeat split; auto.
          -- intros ->. discriminate.
          -- exists l. auto.
        * intros [[Q _]|[[Q _]|(_ & _ & _ & Hn & l' & Hl & Hi)]]; try discriminate.
          pose proof (from_const_det _ _ _ _ Hf Hl) as Q. injection Q as <-. split; auto.
          destruct (seqb n "*") eqn:Es; auto. apply seqb_eq in Es. congruence.
      + split; [contradiction|]. intros [[Q _]|[[Q _]|(_ & _ & _ & Hn & l' & Hl & Hi)]]; try discriminate.
        pose proof (from_const_det _ _ _ _ Hf Hl) as Q. discriminate.
    - (* STORE_NAME *)
      destruct (cls || fn) eqn:Ec.
      + injection S as <-. cbn. split; [contradiction|].
        intros [(_ & -> & -> & _)|[[Q _]|[Q _]]]; discriminate.
      + apply orb_false_iff in Ec as [-> ->].
        apply rbind_ok in S as (m & E1 & S). injection S as <-. cbn.
        apply name_arg_spec in E1. split.
        * intros [<-|[]]. left. auto.
        * intros [(_ & _ & _ & Hn)|[[Q _]|[Q _]]]; try discriminate. left.
          destruct E1 as (? & ? & ?), Hn as (? & ? & ?). congruence.
    - destruct cls.
      + injection S as <-. cbn. split; [contradiction|].
        intros [[Q _]|[(_ & Q & _)|[Q _]]]; discriminate.
      + apply rbind_ok in S as (m & E1 & S). injection S as <-. cbn.
        apply name_arg_spec in E1. split.
        * intros [<-|[]]. right; left. auto.
        * intros [[Q _]|[(_ & _ & Hn)|[Q _]]]; try discriminate. left.
          destruct E1 as (? & ? & ?), Hn as (? & ? & ?). congruence.
    - destruct cls; [|apply rbind_ok in S as (m & E1 & S)]; injection S as <-; cbn;
        (split; [contradiction|]; intros [[Q _]|[[Q _]|[Q _]]]; discriminate).
    - apply rbind_ok in S as (m & E1 & S); injection S as <-; cbn;
        (split; [contradiction|]; intros [[Q _]|[[Q _]|[Q _]]]; discriminate).
    - apply rbind_ok in S as ([b k] & E1 & S); destruct b; injection S as <-; cbn;
        (split; [contradiction|]; intros [[Q _]|[[Q _]|[Q _]]]; discriminate). }
  unfold writes. split.
  - intros [[]|(i & x & Hx & Hn)]. exists i, x. split; auto. now apply (HG i x Hx).
  - intros (i & x & Hx & Hn). right. exists i, x. split; auto. now apply (HG i x Hx).
Qed.

Lemma single_read v c fn cls f : extract_single v c fn cls = ROk f ->
  forall n, In n (f_read f) <-> reads v cls c n.
Proof.
  intros H n. pose proof H as H0. apply loop_gains in H0 as (_ & _ & _ & E & _). rewrite E.
  cbn [f_read found0 In]. rewrite In_gains.
  assert (forall i x, nth_error (co_ins c) i = Some x ->
    (In n (f_read (gain v c fn cls i x)) <->
     (i_op x = LOAD_NAME /\ cls = false /\ names_arg c x n)
      \/ (i_op x = LOAD_GLOBAL /\ names_garg v c x n))) as HG.
  { intros i x Hx. pose proof (single_ok_step _ _ _ _ _ _ _ H Hx) as S.
    unfold single_step in S. unfold found0 in S at 1. cbv beta iota in S.
    destruct (i_op x) eqn:Eo;
      try (injection S as <-; cbn; split; [contradiction|]; intros [[Q _]|[Q _]]; discriminate).
    - apply rbind_ok in S as ([info names] & E1 & S). injection S as <-. cbn.
      split; [contradiction|]; intros [[Q _]|[Q _]]; discriminate.
    - destruct (cls || fn); [|apply rbind_ok in S as (m & E1 & S)]; injection S as <-; cbn;
      (split; [contradiction|]; intros [[Q _]|[Q _]]; discriminate).
    - destruct cls; [|apply rbind_ok in S as (m & E1 & S)]; injection S as <-; cbn;
      (split; [contradiction|]; intros [[Q _]|[Q _]]; discriminate).
    - destruct cls.
      + injection S as <-. cbn. split; [contradiction|]. intros [(_ & Q & _)|[Q _]]; discriminate.
      + apply rbind_ok in S as (m & E1 & S). injection S as <-. cbn.
        apply name_arg_spec in E1. split.
        * intros [<-|[]]. left. auto.
        * intros [(_ & _ & Hn)|[Q _]]; try discriminate. left.
          destruct E1 as (? & ? & ?), Hn as (? & ? & ?). congruence.
    - apply rbind_ok in S as (m & E1 & S). injection S as <-. cbn.
      apply global_arg_spec in E1. split.
      + intros [<-|[]]. right. auto.
      + intros [[Q _]|[_ Hn]]; try discriminate. left.
        destruct E1 as (? & ? & ?), Hn as (? & ? & ?). destruct v; congruence.
    - apply rbind_ok in S as ([b k] & E1 & S); destruct b; injection S as <-; cbn;
        (split; [contradiction|]; intros [[Q _]|[Q _]]; discriminate). }
  unfold reads. split.
  - intros [[]|(i & x & Hx & Hn)]. exists i, x. split; auto. now apply (HG i x Hx).
  - intros (i & x & Hx & Hn). right. exists i, x. split; auto. now apply (HG i x Hx).
Qed.

(** All records of one code object carry its function flag and no other flag. *)
Lemma create_flags nm fl lv a b d : let i := create_importinfo nm fl lv a b d in
  ii_in_function i = a /\ ii_in_conditional i = b /\ ii_in_tryexcept i = d
  /\ ii_module i = from_tuple nm /\ ii_level i = lv.
Proof. unfold create_importinfo. destruct fl; cbn; [destruct (in_names _ _)|]; cbn; auto. Qed.

Lemma single_flags v c fn cls f i : extract_single v c fn cls = ROk f -> In i (f_imports f) ->
  ii_in_function i = fn /\ ii_in_conditional i = false /\ ii_in_tryexcept i = false.
Proof.
  intros H Hi. pose proof H as H0. apply loop_gains in H0 as (_ & E & _). rewrite E in Hi.
  cbn [f_imports found0 app] in Hi. apply In_gains in Hi as (p & x & Hx & Hi).
  pose proof (single_ok_step _ _ _ _ _ _ _ H Hx) as S.
  unfold single_step in S. unfold found0 in S at 1. cbv beta iota in S.
  destruct (i_op x) eqn:Eo;
    repeat match type of S with
    | (if ?b then _ else _) = _ => destruct b
    | rbind (decode_import _ _ _ _) _ = ROk _ => apply rbind_ok in S as ([info names] & E1 & S)
    | rbind _ _ = ROk _ => let a := fresh in apply rbind_ok in S as (a & _ & S)
    | (let (_, _) := ?p in _) = _ => destruct p
    end; injection S as S; rewrite <- S in Hi; cbn in Hi; try contradiction.
  destruct Hi as [<-|[]].
  unfold decode_import in E1.
  repeat match type of E1 with
    | rbind _ _ = ROk _ => let a := fresh in apply rbind_ok in E1 as (a & _ & E1)
    | (if ?b then RErr _ else _) = _ => destruct b; [discriminate|]
    end.
  injection E1 as <- _.
  match goal with |- ii_in_function (create_importinfo ?a ?b ?d _ _ _) = _ /\ _ =>
    destruct (create_flags a b d fn false false) as (-> & -> & -> & _) end. auto.
Qed.

(** ** Structured code *)

Lemma single_loop_app v c fn cls l r : forall o acc,
  single_loop v c fn cls o (l ++ r) acc
  = rbind (single_loop v c fn cls o l acc) (single_loop v c fn cls (o + List.length l) r).
Proof.
  induction l as [|x l IH]; intros o acc.
  - cbn. now rewrite Nat.add_0_r.
  - cbn [app single_loop List.length]. destruct (single_step v c fn cls o x acc); cbn [rbind]; [|reflexivity].
    rewrite IH. now replace (S o + List.length l) with (o + S (List.length l)) by lia.
Qed.

Definition idle (x : instr) : Prop :=
  match i_op x with
  | IMPORT_NAME | STORE_NAME | STORE_GLOBAL | LOAD_NAME | LOAD_GLOBAL | MAKE_FUNCTION => False
  | _ => True
  end.

Lemma single_loop_idle v c fn cls l : forall o acc, Forall idle l ->
  single_loop v c fn cls o l acc = ROk acc.
Proof.
  induction l as [|x l IH]; intros o acc H; [reflexivity|]. inv H.
  cbn [single_loop]. unfold single_step. unfold idle in H2. destruct acc.
  destruct (i_op x); try contradiction; cbn [rbind]; auto.
Qed.

Lemma idle_ext l : Forall idle (map ext l).
Proof. induction l; constructor; cbn; auto. Qed.

(** Tail of the instructions before a piece. *)
Definition tail_ok (pre : list instr) : Prop :=
  (forall p x, pre = p ++ [x] -> i_op x <> LOAD_BUILD_CLASS)
  /\ (forall p x y, pre = p ++ [x; y] -> ~ (i_op x = LOAD_BUILD_CLASS /\ i_op y = PUSH_NULL)).

Lemma app_last_inv {A} (l l' : list A) x y : l ++ [x] = l' ++ [y] -> l = l' /\ x = y.
Proof. apply app_inj_tail. Qed.

Lemma tail_ok_app pre l x : i_op x <> LOAD_BUILD_CLASS -> i_op x <> PUSH_NULL -> tail_ok (pre ++ l ++ [x]).
Proof.
  intros H1 H2. split.
  - intros p y E. rewrite app_assoc in E. apply app_last_inv in E as [_ <-]. exact H1.
  - intros p a y E [_ Hy]. rewrite app_assoc in E.
    change (p ++ [a; y]) with (p ++ [a] ++ [y]) in E. rewrite (app_assoc p) in E.
    apply app_last_inv in E as [_ <-]. congruence.
Qed.

Lemma tail_ok_snoc pre x : tail_ok pre -> i_op x <> LOAD_BUILD_CLASS -> tail_ok (pre ++ [x]).
Proof.
  intros [H1 H2] Hx. split.
  - intros p y E. apply app_last_inv in E as [_ <-]. exact Hx.
  - intros p a y E [Ha Hy].
    change (p ++ [a; y]) with (p ++ [a] ++ [y]) in E. rewrite (app_assoc p) in E.
    apply app_last_inv in E as [-> <-]. now apply (H1 p a eq_refl).
Qed.

Lemma enc_tail v c h pre : chunk_ok v c h -> tail_ok pre -> tail_ok (pre ++ enc v h).
Proof.
  intros Hok Ht. destruct h as [s|i es q|i nl q|x]; cbn [enc].
  - unfold enc_import. rewrite !app_assoc. rewrite <- app_assoc. rewrite app_assoc.
    rewrite <- (app_nil_l [Ins IMPORT_NAME _]). apply tail_ok_app; discriminate.
  - rewrite !app_assoc. rewrite <- (app_nil_l [Ins MAKE_FUNCTION _]). apply tail_ok_app; discriminate.
  - rewrite !app_assoc. rewrite <- (app_nil_l [Ins MAKE_FUNCTION _]). apply tail_ok_app; discriminate.
  - apply tail_ok_snoc; auto. cbn in Hok. destruct (i_op x); congruence.
Qed.

(** Effect of one piece. *)
Definition chunk_funcs (c : code) (h : chunk) : list nat :=
  match h with
  | ChFunction i _ _ => match nth_error (co_consts c) i with Some k => add_const k [] | None => [] end
  | _ => []
  end.
Definition chunk_classes (c : code) (h : chunk) : list nat :=
  match h with
  | ChClass i _ _ => match nth_error (co_consts c) i with Some k => add_const k [] | None => [] end
  | _ => []
  end.

Ltac lens := rewrite ?app_length, ?map_length; cbn [List.length]; lia.

Lemma op_back_app pre x suf n k : n = List.length pre + k ->
  op_back (pre ++ x :: suf) n k = ROk (i_op x).
Proof. intros H. unfold op_back. now rewrite pyback_app. Qed.

Lemma import_chunk v c fn cls pre suf s name from acc :
  co_ins c = pre ++ enc_import s ++ suf -> stmt_is c s name from ->
  exists i wr, single_loop v c fn cls (List.length pre) (enc_import s) acc
      = ROk (Found (f_imports acc ++ [i]) wr (f_read acc) (f_funcs acc) (f_classes acc))
    /\ i = create_importinfo (name, None) (option_map (map (fun nm => (nm, None))) from) (st_level s) fn false false.
Proof.
  intros Hc (Hn & Hf & Hl). destruct s as [lc lv le fi fe ni ne]. cbn in Hn, Hf, Hl.
  unfold enc_import in *. cbn [st_level_const st_level st_level_ext st_from_idx st_from_ext st_name_idx st_name_ext] in *.
  set (LV := match lc with Some i => Ins LOAD_CONST (Some i) | None => Ins LOAD_SMALL_INT (Some lv) end) in *.
  set (FR := Ins LOAD_CONST (Some fi)) in *.
  set (IM := Ins IMPORT_NAME (Some ni)) in *.
  set (P := map ext le ++ [LV] ++ opt_ext fe ++ [FR] ++ opt_ext ne).
  assert (map ext le ++ [LV] ++ opt_ext fe ++ [FR] ++ opt_ext ne ++ [IM] = P ++ [IM]) as EP
    by (unfold P; rewrite <- ?app_assoc; reflexivity).
  rewrite EP, single_loop_app.
  rewrite single_loop_idle.
  2:{ unfold P. repeat apply Forall_app_2 || (apply Forall_app; split).
      all: try apply idle_ext.
      - repeat constructor. unfold LV. destruct lc; exact I.
      - destruct fe; repeat constructor.
      - repeat constructor.
      - destruct ne; repeat constructor. }
  cbn [rbind single_loop].
  set (N := List.length pre + List.length P).
  assert (decode_import c N IM fn =
    ROk (create_importinfo (name, None) (option_map (map (fun nm => (nm, None))) from) lv fn false false, from)) as HD.
  { unfold decode_import.
    assert (exists X o1, op_back (co_ins c) N 1 = ROk o1
       /\ co_ins c = X ++ FR :: (opt_ext ne ++ [IM] ++ suf)
       /\ List.length X + (if op_eqb o1 EXTENDED_ARG then 2 else 1) = N
       /\ X = (pre ++ map ext le) ++ LV :: opt_ext fe) as (X & o1 & HO1 & HX & HN & EX).
    { exists ((pre ++ map ext le) ++ LV :: opt_ext fe).
      assert (co_ins c = ((pre ++ map ext le) ++ LV :: opt_ext fe) ++ FR :: opt_ext ne ++ [IM] ++ suf) as EC.
      { rewrite Hc. rewrite EP. unfold P. rewrite <- !app_assoc. cbn. rewrite <- ?app_assoc. cbn. rewrite <- ?app_assoc. reflexivity. }
      rewrite EC. destruct ne as [e|]; cbn [opt_ext app].
      - exists EXTENDED_ARG. split; [|split; [reflexivity|split; [|reflexivity]]].
        + assert (forall Z, ((pre ++ map ext le) ++ LV :: opt_ext fe) ++ FR :: ext e :: IM :: Z =
            (((pre ++ map ext le) ++ LV :: opt_ext fe) ++ [FR]) ++ ext e :: IM :: Z) as ->
            by (intros; rewrite <- !app_assoc; reflexivity).
          rewrite op_back_app; [reflexivity|]. unfold N, P. destruct fe; cbn [opt_ext]; lens.
        + cbn [op_eqb]. unfold N, P. destruct fe; cbn [opt_ext]; lens.
      - exists LOAD_CONST. split; [|split; [reflexivity|split; [|reflexivity]]].
        + rewrite op_back_app; [reflexivity|]. unfold N, P. destruct fe; cbn [opt_ext]; lens.
        + cbn [op_eqb]. unfold N, P. destruct fe; cbn [opt_ext]; lens. }
    rewrite HO1. cbn [rbind]. set (fo := if op_eqb o1 EXTENDED_ARG then 2 else 1) in *.
    assert (exists o2, op_back (co_ins c) N (fo + 1) = ROk o2
       /\ (if op_eqb o2 EXTENDED_ARG then fo + 2 else fo + 1) = fo + 1 + List.length (opt_ext fe)) as (o2 & HO2 & HLO).
    { rewrite HX, EX. destruct fe as [e|]; cbn [opt_ext].
      - exists EXTENDED_ARG. split; [|cbn; lia].
        assert (forall Z, ((pre ++ map ext le) ++ [LV; ext e]) ++ Z = ((pre ++ map ext le) ++ [LV]) ++ ext e :: Z) as ->
          by (intros; rewrite <- !app_assoc; reflexivity).
        rewrite op_back_app; [reflexivity|]. rewrite EX in HN. revert HN. cbn [opt_ext]. lens.
      - exists (i_op LV). split.
        + assert (forall Z, ((pre ++ map ext le) ++ [LV]) ++ Z = (pre ++ map ext le) ++ LV :: Z) as ->
            by (intros; rewrite <- !app_assoc; reflexivity).
          rewrite op_back_app; [reflexivity|]. rewrite EX in HN. revert HN. cbn [opt_ext]. lens.
        + unfold LV. destruct lc; cbn; lia. }
    rewrite HO2. cbn [rbind]. rewrite HLO. set (lo := fo + 1 + List.length (opt_ext fe)).
    assert (op_back (co_ins c) N fo = ROk LOAD_CONST) as ->.
    { rewrite HX. rewrite op_back_app; [reflexivity|]. lia. }
    cbn [rbind op_eqb negb].
    assert (forall Z, X ++ Z = (pre ++ map ext le) ++ LV :: opt_ext fe ++ Z) as EXZ
      by (intros; rewrite EX, <- app_assoc; reflexivity).
    assert (N = List.length (pre ++ map ext le) + lo) as HNL.
    { unfold lo. rewrite EX in HN. revert HN. lens. }
    assert (op_back (co_ins c) N lo = ROk (i_op LV)) as ->.
    { rewrite HX, EXZ. rewrite op_back_app; [reflexivity|exact HNL]. }
    cbn [rbind].
    assert (op_eqb (i_op LV) LOAD_CONST || op_eqb (i_op LV) LOAD_SMALL_INT = true) as ->
      by (unfold LV; destruct lc; reflexivity).
    cbn [negb].
    assert (pyback (co_ins c) N fo = Some FR) as ->.
    { rewrite HX. rewrite pyback_app; [reflexivity|]. lia. }
    cbn [or_err rbind FR i_arg].
    assert (pyback (co_ins c) N lo = Some LV) as ->.
    { rewrite HX, EXZ. rewrite pyback_app; [reflexivity|exact HNL]. }
    cbn [or_err rbind].
    unfold LV. destruct lc as [li|]; cbn [i_arg i_op or_err rbind op_eqb]; rewrite Hf; cbn [or_err rbind].
    - rewrite Hl. cbn [or_err rbind].
      destruct from as [l|]; cbn [rbind]; change (i_arg IM) with (Some ni); cbn [or_err rbind]; rewrite Hn; reflexivity.
    - destruct from as [l|]; cbn [rbind]; change (i_arg IM) with (Some ni); cbn [or_err rbind]; rewrite Hn; reflexivity. }
  unfold single_step. destruct acc as [im wr rd fs cs]. cbn [i_op IM].
  rewrite HD. cbn [rbind f_imports f_read f_funcs f_classes].
  eexists _, _. split; reflexivity.
Qed.
