From Verif Require Import PyStrFacts ImportInfo ImportInfoProofs BytecodeSpec BytecodeProofs.

Lemma tail_ok_ext pre es : tail_ok pre -> tail_ok (pre ++ map ext es).
Proof.
  revert pre. induction es as [|e es IH]; intros pre H; cbn; [now rewrite app_nil_r|].
  change (ext e :: map ext es) with ([ext e] ++ map ext es). rewrite app_assoc. apply IH.
  apply tail_ok_snoc; auto. discriminate.
Qed.

Lemma leb_t (a b : nat) : a <= b -> Nat.leb a b = true. Proof. apply Nat.leb_le. Qed.
Lemma leb_f (a b : nat) : (b < a)%nat -> Nat.leb a b = false. Proof. apply Nat.leb_gt. Qed.

Lemma decode_function_plain (v : bool) c X i q suf k :
  co_ins c = X ++ [Ins LOAD_CONST (Some i)] ++ (if v then [] else [Ins LOAD_CONST (Some q)])
             ++ Ins MAKE_FUNCTION (Some 0) :: suf ->
  tail_ok X -> nth_error (co_consts c) i = Some k ->
  decode_function v c (List.length X + (if v then 1 else 2)) = ROk (false, k).
Proof.
  intros Hc [T1 T2] Hk. unfold decode_function. rewrite Hc.
  assert (pyback (X ++ [Ins LOAD_CONST (Some i)] ++ (if v then [] else [Ins LOAD_CONST (Some q)])
             ++ Ins MAKE_FUNCTION (Some 0) :: suf) (List.length X + (if v then 1 else 2)) (if v then 1 else 2)
          = Some (Ins LOAD_CONST (Some i))) as ->.
  { cbn [app]. apply pyback_app. reflexivity. }
  cbn [or_err rbind i_arg].
  destruct v; cbn [app].
  - destruct X as [|x0 X0] using rev_ind; [cbn; rewrite Hk; reflexivity|]. clear IHX0.
    rewrite !app_length. cbn [List.length].
    rewrite leb_t by lia.
    rewrite <- !app_assoc. cbn [app].
    rewrite op_back_app by lia. cbn [rbind].
    assert (op_eqb (i_op x0) LOAD_BUILD_CLASS = false) as ->
      by (apply op_eqb_neq; now apply (T1 X0)).
    destruct X0 as [|y0 Y0] using rev_ind; [cbn; rewrite Hk; reflexivity|]. clear IHY0.
    rewrite !app_length. cbn [List.length]. rewrite leb_t by lia.
    rewrite <- !app_assoc. cbn [app].
    rewrite (op_back_app Y0 y0 _ _ 3) by lia. cbn [rbind].
    assert (op_eqb (i_op x0) PUSH_NULL && op_eqb (i_op y0) LOAD_BUILD_CLASS = false) as ->.
    { destruct (_ && _) eqn:E; [|reflexivity]. apply andb_true_iff in E as [E1 E2].
      apply op_eqb_eq in E1, E2. elim (T2 Y0 y0 x0); [|auto]. now rewrite <- app_assoc. }
    rewrite Hk. reflexivity.
  - destruct X as [|x0 X0] using rev_ind; [cbn; rewrite Hk; reflexivity|]. clear IHX0.
    rewrite !app_length. cbn [List.length].
    rewrite leb_t by lia.
    rewrite <- !app_assoc. cbn [app].
    rewrite op_back_app by lia. cbn [rbind].
    assert (op_eqb (i_op x0) LOAD_BUILD_CLASS = false) as ->
      by (apply op_eqb_neq; now apply (T1 X0)).
    rewrite Hk. reflexivity.
Qed.

Definition class_pre (v null : bool) : list instr :=
  [Ins LOAD_BUILD_CLASS None] ++ (if v && null then [Ins PUSH_NULL None] else []).

Lemma decode_function_class (v null : bool) c pre i q suf k :
  co_ins c = pre ++ class_pre v null ++ [Ins LOAD_CONST (Some i)]
             ++ (if v then [] else [Ins LOAD_CONST (Some q)])
             ++ Ins MAKE_FUNCTION (Some 0) :: suf ->
  nth_error (co_consts c) i = Some k ->
  decode_function v c (List.length pre + List.length (class_pre v null) + (if v then 1 else 2)) = ROk (true, k).
Proof.
  intros Hc Hk. unfold decode_function. rewrite Hc.
  unfold class_pre. destruct v, null; cbn [andb app List.length].
  - assert (forall Z, pre ++ Ins LOAD_BUILD_CLASS None :: Ins PUSH_NULL None :: Ins LOAD_CONST (Some i) :: Z
             = (pre ++ [Ins LOAD_BUILD_CLASS None; Ins PUSH_NULL None]) ++ Ins LOAD_CONST (Some i) :: Z) as ->
      by (intros; now rewrite <- app_assoc).
    rewrite pyback_app by (rewrite app_length; cbn; lia). cbn [or_err rbind i_arg].
    rewrite <- !app_assoc. cbn [app].
    rewrite leb_t by lia. rewrite (leb_t 3) by lia.
    assert (forall Z, pre ++ Ins LOAD_BUILD_CLASS None :: Ins PUSH_NULL None :: Z
             = (pre ++ [Ins LOAD_BUILD_CLASS None]) ++ Ins PUSH_NULL None :: Z) as EQ
      by (intros; now rewrite <- app_assoc).
    rewrite EQ. rewrite !(op_back_app (pre ++ [_])) by (rewrite app_length; cbn; lia).
    rewrite <- EQ. rewrite op_back_app by lia. cbn. rewrite Hk. reflexivity.
  - assert (forall Z, pre ++ Ins LOAD_BUILD_CLASS None :: Ins LOAD_CONST (Some i) :: Z
             = (pre ++ [Ins LOAD_BUILD_CLASS None]) ++ Ins LOAD_CONST (Some i) :: Z) as ->
      by (intros; now rewrite <- app_assoc).
    rewrite pyback_app by (rewrite app_length; cbn; lia). cbn [or_err rbind i_arg].
    rewrite <- !app_assoc. cbn [app].
    rewrite leb_t by lia. rewrite op_back_app by lia. cbn. rewrite Hk. reflexivity.
  - assert (forall Z, pre ++ Ins LOAD_BUILD_CLASS None :: Ins LOAD_CONST (Some i) :: Z
             = (pre ++ [Ins LOAD_BUILD_CLASS None]) ++ Ins LOAD_CONST (Some i) :: Z) as ->
      by (intros; now rewrite <- app_assoc).
    rewrite pyback_app by (rewrite app_length; cbn; lia). cbn [or_err rbind i_arg].
    rewrite <- !app_assoc. cbn [app].
    rewrite leb_t by lia. rewrite op_back_app by lia. cbn. rewrite Hk. reflexivity.
  - assert (forall Z, pre ++ Ins LOAD_BUILD_CLASS None :: Ins LOAD_CONST (Some i) :: Z
             = (pre ++ [Ins LOAD_BUILD_CLASS None]) ++ Ins LOAD_CONST (Some i) :: Z) as ->
      by (intros; now rewrite <- app_assoc).
    rewrite pyback_app by (rewrite app_length; cbn; lia). cbn [or_err rbind i_arg].
    rewrite <- !app_assoc. cbn [app].
    rewrite leb_t by lia. rewrite op_back_app by lia. cbn. rewrite Hk. reflexivity.
Qed.

Definition chunk_records (c : code) (fn : bool) (h : chunk) (is : list iinfo) : Prop :=
  match h with
  | ChImport s => exists name from,
      stmt_is c s name from /\
      is = [create_importinfo (name, None) (option_map (map (fun nm => (nm, None))) from) (st_level s) fn false false]
  | _ => is = []
  end.

Lemma chunk_effect v c fn cls pre suf h acc :
  co_ins c = pre ++ enc v h ++ suf -> tail_ok pre -> chunk_ok v c h ->
  exists f is, single_loop v c fn cls (List.length pre) (enc v h) acc = ROk f
    /\ chunk_records c fn h is
    /\ f_imports f = f_imports acc ++ is
    /\ f_funcs f = f_funcs acc ++ chunk_funcs c h
    /\ f_classes f = f_classes acc ++ chunk_classes c h.
Proof.
  intros Hc Ht Hok. destruct h as [s|i es q|i nl q|x].
  - destruct Hok as (name & from & Hs). cbn [enc] in *.
    destruct (import_chunk v c fn cls pre suf s name from acc Hc Hs) as (i & wr & -> & ->).
    eexists _, [_]. split; [reflexivity|]. cbn [chunk_funcs chunk_classes f_imports f_funcs f_classes]. rewrite !app_nil_r. split; [exists name, from; split; [exact Hs|reflexivity]|]. auto.
  - destruct Hok as (k & Hk). cbn [enc] in *.
    set (X := pre ++ map ext es).
    assert (tail_ok X) as TX by now apply tail_ok_ext.
    assert (co_ins c = X ++ [Ins LOAD_CONST (Some i)] ++ (if v then [] else [Ins LOAD_CONST (Some q)])
             ++ Ins MAKE_FUNCTION (Some 0) :: suf) as HX.
    { rewrite Hc. unfold X. rewrite <- !app_assoc. destruct v; reflexivity. }
    pose proof (decode_function_plain _ _ _ _ _ _ _ HX TX Hk) as HD.
    rewrite !app_assoc. rewrite single_loop_app, single_loop_idle.
    2:{ repeat (apply Forall_app; split); try apply idle_ext; try destruct v; repeat constructor. }
    cbn [rbind single_loop].
    rewrite !app_length, map_length. cbn [List.length].
    replace (List.length pre + (List.length es + 1 + List.length (if v then [] else [Ins LOAD_CONST (Some q)])))
      with (List.length X + (if v then 1 else 2))
      by (unfold X; rewrite app_length, map_length; destruct v; cbn; lia).
    unfold single_step. cbn [i_op]. rewrite HD. destruct acc. cbn.
    eexists _, []. split; [reflexivity|]. cbn. rewrite Hk, !app_nil_r, (add_const_app k). auto.
  - destruct Hok as (k & Hk). cbn [enc] in *.
    assert (co_ins c = pre ++ class_pre v nl ++ [Ins LOAD_CONST (Some i)]
             ++ (if v then [] else [Ins LOAD_CONST (Some q)])
             ++ Ins MAKE_FUNCTION (Some 0) :: suf) as HX.
    { rewrite Hc. unfold class_pre. rewrite <- !app_assoc. destruct v, nl; reflexivity. }
    pose proof (decode_function_class _ _ _ _ _ _ _ _ HX Hk) as HD.
    rewrite !app_assoc. rewrite single_loop_app, single_loop_idle.
    2:{ repeat (apply Forall_app; split); try destruct v; try destruct nl; repeat constructor. }
    cbn [rbind single_loop].
    replace (List.length pre + List.length
      ((([Ins LOAD_BUILD_CLASS None] ++ (if v && nl then [Ins PUSH_NULL None] else [])) ++ [Ins LOAD_CONST (Some i)])
       ++ (if v then [] else [Ins LOAD_CONST (Some q)])))
      with (List.length pre + List.length (class_pre v nl) + (if v then 1 else 2))
      by (unfold class_pre; rewrite !app_length; destruct v, nl; cbn; lia).
    unfold single_step. cbn [i_op]. rewrite HD. destruct acc. cbn.
    eexists _, []. split; [reflexivity|]. cbn. rewrite Hk, !app_nil_r, (add_const_app k). auto.
  - cbn [enc chunk_ok] in *. cbn [single_loop]. unfold single_step. destruct acc as [im wr rd fs cs].
    destruct (i_op x) eqn:Eo; try contradiction;
      try (eexists _, []; split; [reflexivity|]; cbn; rewrite !app_nil_r; auto; fail).
    + destruct Hok as (n & Hn). apply name_arg_spec in Hn. rewrite Hn. destruct (cls || fn); cbn;
        (eexists _, []; split; [reflexivity|]; cbn; rewrite !app_nil_r; auto).
    + destruct Hok as (n & Hn). apply name_arg_spec in Hn. rewrite Hn. destruct cls; cbn;
        (eexists _, []; split; [reflexivity|]; cbn; rewrite !app_nil_r; auto).
    + destruct Hok as (n & Hn). apply name_arg_spec in Hn. rewrite Hn. destruct cls; cbn;
        (eexists _, []; split; [reflexivity|]; cbn; rewrite !app_nil_r; auto).
    + destruct Hok as (n & Hn). apply global_arg_spec in Hn. rewrite Hn. cbn.
        (eexists _, []; split; [reflexivity|]; cbn; rewrite !app_nil_r; auto).
Qed.

Lemma create_records fn name lv from :
  records fn name lv from
    (create_importinfo (name, None) (option_map (map (fun nm => (nm, None))) from) lv fn false false).
Proof.
  unfold records.
  destruct (create_flags (name, None) (option_map (map (fun nm => (nm, None))) from) lv fn false false)
    as (-> & -> & -> & -> & ->).
  repeat split; auto. destruct from as [l|]; cbn [option_map]; [|split; reflexivity].
  destruct (create_importinfo_names (name, None) (map (fun nm => (nm, None)) l) lv fn false false)
    as (A & B & C & D).
  assert (map fst (map (fun nm : string => (nm, @None string)) l) = l) as E.
  { rewrite map_map. cbn. apply map_id. }
  rewrite E in A, C. repeat split; try apply A; try apply C; auto. intros x Hx.
  apply D in Hx. apply in_map_iff in Hx as (y & Hy & _). now injection Hy.
Qed.

Lemma chunks_loop v c fn cls : forall hs pre acc,
  co_ins c = pre ++ flat_map (enc v) hs -> tail_ok pre -> Forall (chunk_ok v c) hs ->
  exists f is, single_loop v c fn cls (List.length pre) (flat_map (enc v) hs) acc = ROk f
    /\ Forall2 (fun s i => exists name from, stmt_is c s name from /\ records fn name (st_level s) from i)
               (stmts hs) is
    /\ f_imports f = f_imports acc ++ is
    /\ f_funcs f = f_funcs acc ++ flat_map (chunk_funcs c) hs
    /\ f_classes f = f_classes acc ++ flat_map (chunk_classes c) hs.
Proof.
  induction hs as [|h hs IH]; intros pre acc Hc Ht Hok.
  - cbn. exists acc, []. rewrite !app_nil_r. repeat split; auto.
  - inv Hok. cbn [flat_map]. rewrite single_loop_app.
    destruct (chunk_effect v c fn cls pre (flat_map (enc v) hs) h acc Hc Ht H1)
      as (f1 & is1 & -> & R1 & E1 & E2 & E3).
    cbn [rbind]. rewrite <- app_length.
    destruct (IH (pre ++ enc v h) f1) as (f2 & is2 & -> & R2 & G1 & G2 & G3).
    { rewrite Hc. cbn. now rewrite app_assoc. }
    { eapply enc_tail; eauto. }
    { exact H2. }
    exists f2, (is1 ++ is2). split; [reflexivity|].
    rewrite G1, E1, G2, E2, G3, E3, <- !app_assoc. repeat split; auto.
    destruct h as [s| | |]; cbn in R1 |- *; try (subst; exact R2).
    destruct R1 as (name & from & Hs & ->). cbn. constructor; auto.
    exists name, from. split; auto. apply create_records.
Qed.

Lemma chunks_single v c fn cls hs :
  co_ins c = flat_map (enc v) hs -> Forall (chunk_ok v c) hs ->
  exists f, extract_single v c fn cls = ROk f
    /\ Forall2 (fun s i => exists name from, stmt_is c s name from /\ records fn name (st_level s) from i)
               (stmts hs) (f_imports f)
    /\ f_funcs f = flat_map (chunk_funcs c) hs
    /\ f_classes f = flat_map (chunk_classes c) hs.
Proof.
  intros Hc Hok. unfold extract_single. rewrite Hc.
  destruct (chunks_loop v c fn cls hs [] found0) as (f & is & E & R & E1 & E2 & E3); auto.
  { split; intros; destruct p; discriminate. }
  exists f. split; [exact E|]. rewrite E1, E2, E3. cbn. auto.
Qed.
