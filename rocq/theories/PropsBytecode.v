(** Properties C09 - C13: the bytecode scan. *)
From Verif Require Import PyStrFacts ImportInfo BytecodeSpec BytecodeProofs BytecodeChunks BytecodeTree.

(** C09: in code made of compiled import statements, function and class
    statements and any other instructions, one record per import statement, in
    order, each saying what the statement says. *)
Theorem C09_imports_decoded : forall v c fn cls hs,
  co_ins c = flat_map (enc v) hs -> Forall (chunk_ok v c) hs ->
  exists f, extract_single v c fn cls = ROk f
    /\ Forall2 (fun s i => exists name from, stmt_is c s name from /\ records fn name (st_level s) from i)
               (stmts hs) (f_imports f).
Proof.
  intros v c fn cls hs H H'. destruct (chunks_single v c fn cls hs H H') as (f & E & R & _).
  exists f. auto.
Qed.

(** from ..pkg import a, * with a wide from-list constant; then import os. *)
Definition c09_stmts : list chunk :=
  [ChOther (Ins (OTHER "RESUME") (Some 0));
   ChImport (IStmt (Some 0) 2 [] 1 (Some 1) 0 None);
   ChOther (Ins STORE_NAME (Some 0));
   ChImport (IStmt (Some 2) 0 [] 3 None 1 (Some 7))].
Definition c09_code : code :=
  Code 0 ["pkg"; "os"] [CInt 2; CTuple ["a"; "*"]; CInt 0; CNone] (flat_map (enc true) c09_stmts).

Example C09_nonvacuous :
  Forall (chunk_ok true c09_code) c09_stmts
  /\ option_map f_imports (match extract_single true c09_code false false with ROk f => Some f | _ => None end)
     = Some [IInfo (IName "pkg" None) 2 [IName "a" None] true false false false;
             IInfo (IName "os" None) 0 [] false false false false].
Proof.
  split; [|reflexivity]. repeat constructor.
  - exists "pkg", (Some ["a"; "*"]). repeat split.
  - exists "pkg", 0. auto.
  - exists "os", None. repeat split.
Qed.

(** C10: every occurrence of a code object is visited once, level by level. *)
Theorem C10_visits_tree : forall c, exists l, all_code_objects c = Some l
  /\ map fst l = flat_map (fun n => level n c) (seq 0 (code_size c))
  /\ Permutation (map fst l) (all_codes c).
Proof. exact all_code_objects_levels. Qed.

Lemma info_loop_union v : forall l acc f, info_loop v l acc = ROk f ->
  exists bs gs, List.length bs = List.length l
    /\ Forall2 (fun cb g => extract_single v (fst (fst cb)) (fst (snd cb)) (snd (snd cb)) = ROk g)
               (combine l bs) gs
    /\ f_imports f = f_imports acc ++ flat_map f_imports gs
    /\ (forall n, In n (f_written f) <-> In n (f_written acc) \/ In n (flat_map f_written gs))
    /\ (forall n, In n (f_read f) <-> In n (f_read acc) \/ In n (flat_map f_read gs)).
Proof.
  induction l as [|[c ps] l IH]; intros acc f H.
  - cbn in H. injection H as <-. exists [], []. cbn. rewrite app_nil_r.
    split; [reflexivity|]. split; [constructor|]. split; [reflexivity|]. split; intros n; tauto.
  - cbn [info_loop] in H. destruct acc as [im wr rd fs cs].
    apply rbind_ok in H as ([im1 wr1 rd1 fs1 cs1] & E & H).
    apply IH in H as (bs & gs & B & G & G1 & G2 & G3).
    exists ((is_code_for_function c ps fs, nmemb (key c) cs) :: bs), (Found im1 wr1 rd1 fs1 cs1 :: gs). split; [cbn; now rewrite B|]. split.
    + cbn [combine]. constructor; [|exact G]. cbn. exact E.
    + cbn [flat_map f_imports f_written f_read] in *. rewrite G1, <- app_assoc. split; [reflexivity|].
      split; intros n; rewrite ?G2, ?G3, ?set_union_In, ?in_app_iff; tauto.
Qed.

(** The result is the union of what the code objects contribute, imports in the
    order of the levels. *)
Theorem C10_union : forall v c im wr rd,
  extract_bytecode_info v c = Some (ROk (im, wr, rd)) ->
  exists bs gs, let cs := flat_map (fun n => level n c) (seq 0 (code_size c)) in
    List.length bs = List.length cs
    /\ Forall2 (fun cb g => extract_single v (fst cb) (fst (snd cb)) (snd (snd cb)) = ROk g)
               (combine cs bs) gs
    /\ im = flat_map f_imports gs
    /\ (forall n, In n wr <-> In n (flat_map f_written gs))
    /\ (forall n, In n rd <-> In n (flat_map f_read gs)).
Proof.
  intros v c im wr rd H. unfold extract_bytecode_info in H.
  destruct (all_code_objects_levels c) as (l & E & El & _). rewrite E in H.
  destruct (info_loop v l found0) as [f|] eqn:EI; [|discriminate]. injection H as <- <- <-.
  apply info_loop_union in EI as (bs & gs & B & G & G1 & G2 & G3).
  exists bs, gs. cbv zeta. rewrite <- El. rewrite map_length. split; [exact B|]. split.
  - clear - G. revert bs gs G. induction l as [|x l IH]; intros bs gs G; cbn in *; [inv G; constructor|].
    destruct bs as [|b bs]; [inv G; constructor|]. inv G. constructor; auto.
  - split; [exact G1|]. split; intros n; rewrite ?G2, ?G3; cbn; tauto.
Qed.

(** The scan always comes to an end. *)
Theorem C10_total : forall v c, extract_bytecode_info v c <> None.
Proof.
  intros v c. unfold extract_bytecode_info. destruct (all_code_objects_levels c) as (l & -> & _). discriminate.
Qed.

(** C11, C13 on trees: every code object contributes with the flags that its
    place in the tree determines, and nothing else is reported. *)
Theorem C11_function_context : forall v root im wr rd,
  NoDup (map key (all_codes root)) -> (forall d, In d (all_codes root) -> operands_first v d) ->
  extract_bytecode_info v root = Some (ROk (im, wr, rd)) ->
  (forall p d, descends p root d -> exists fn cls g,
      (fn = true <-> in_function v p root d) /\ (cls = true <-> is_class_body v p root d)
      /\ extract_single v d fn cls = ROk g
      /\ (forall i, In i (f_imports g) -> In i im /\ ii_in_function i = fn))
  /\ (forall i, In i im -> exists p d fn cls g,
      descends p root d /\ (fn = true <-> in_function v p root d)
      /\ (cls = true <-> is_class_body v p root d)
      /\ extract_single v d fn cls = ROk g /\ In i (f_imports g) /\ ii_in_function i = fn).
Proof.
  intros v root im wr rd Hnd Hof H.
  destruct (extract_bytecode_spec v root im wr rd Hnd Hof H) as (L & bs & gs & _ & HL & B & G & -> & _).
  assert (forall x, In x L -> exists b g, flag_ok v root x b
            /\ extract_single v (snd x) (fst b) (snd b) = ROk g /\ In g gs) as HA.
  { clear - B G. revert gs G. induction B as [|x b L bs Hb B IH]; intros gs G y Hy; [contradiction|].
    cbn in G. inv G. destruct Hy as [<-|Hy].
    - exists b, y0. cbn in *. auto.
    - destruct (IH _ H3 y Hy) as (b' & g & ? & ? & ?). exists b', g. cbn. auto. }
  assert (forall g, In g gs -> exists x b, In x L /\ flag_ok v root x b
            /\ extract_single v (snd x) (fst b) (snd b) = ROk g) as HB.
  { clear - B G. revert gs G. induction B as [|x b L bs Hb B IH]; intros gs G y Hy; cbn in G; inv G; [contradiction|].
    destruct Hy as [<-|Hy].
    - exists x, b. cbn in *. auto.
    - destruct (IH _ H3 y Hy) as (x' & b' & ? & ? & ?). exists x', b'. cbn. auto. }
  split.
  - intros p d Hd. apply HL in Hd. destruct (HA _ Hd) as ([fn cls] & g & [F1 F2] & E & Hg).
    cbn in *. exists fn, cls, g. repeat (split; [assumption|]). intros i Hi. split.
    + apply in_flat_map. eauto.
    + eapply single_flags; eauto.
  - intros i Hi. apply in_flat_map in Hi as (g & Hg & Hi).
    destruct (HB g Hg) as ([p d] & [fn cls] & Hx & [F1 F2] & E). cbn in *.
    exists p, d, fn, cls, g. apply HL in Hx. repeat (split; [assumption|]). eapply single_flags; eauto.
Qed.

(** C13, one code object. *)
Theorem C13_written : forall v c fn cls f, extract_single v c fn cls = ROk f -> operands_first v c ->
  forall n, In n (f_written f) <-> writes fn cls c n.
Proof. exact single_written. Qed.

Theorem C13_read : forall v c fn cls f, extract_single v c fn cls = ROk f ->
  forall n, In n (f_read f) <-> reads v cls c n.
Proof. exact single_read. Qed.

(** C13 for the whole tree: where [fn] and [cls] are what the place says. *)
Theorem C13_tree : forall v root im wr rd,
  NoDup (map key (all_codes root)) -> (forall d, In d (all_codes root) -> operands_first v d) ->
  extract_bytecode_info v root = Some (ROk (im, wr, rd)) ->
  (forall n, In n wr <-> exists p d fn cls, descends p root d
      /\ (fn = true <-> in_function v p root d) /\ (cls = true <-> is_class_body v p root d)
      /\ writes fn cls d n)
  /\ (forall n, In n rd <-> exists p d cls, descends p root d
      /\ (cls = true <-> is_class_body v p root d) /\ reads v cls d n).
Proof.
  intros v root im wr rd Hnd Hof H.
  destruct (extract_bytecode_spec v root im wr rd Hnd Hof H) as (L & bs & gs & _ & HL & B & G & _ & EW & ER).
  assert (forall x, In x L -> exists b g, flag_ok v root x b
            /\ extract_single v (snd x) (fst b) (snd b) = ROk g /\ In g gs) as HA.
  { clear - B G. revert gs G. induction B as [|x b L bs Hb B IH]; intros gs G y Hy; [contradiction|].
    cbn in G. inv G. destruct Hy as [<-|Hy].
    - exists b, y0. cbn in *. auto.
    - destruct (IH _ H3 y Hy) as (b' & g & ? & ? & ?). exists b', g. cbn. auto. }
  assert (forall g, In g gs -> exists x b, In x L /\ flag_ok v root x b
            /\ extract_single v (snd x) (fst b) (snd b) = ROk g) as HB.
  { clear - B G. revert gs G. induction B as [|x b L bs Hb B IH]; intros gs G y Hy; cbn in G; inv G; [contradiction|].
    destruct Hy as [<-|Hy].
    - exists x, b. cbn in *. auto.
    - destruct (IH _ H3 y Hy) as (x' & b' & ? & ? & ?). exists x', b'. cbn. auto. }
  assert (forall p d, descends p root d -> operands_first v d) as HOF.
  { intros p d Hd. apply Hof. eapply descends_In; eauto. }
  assert (forall a b : bool, (a = true <-> b = true) -> a = b) as HAB.
  { intros [] [] Hab; auto; [symmetry|]; apply Hab; reflexivity. }
  split; intros n.
  - rewrite EW, in_flat_map. split.
    + intros (g & Hg & Hn). destruct (HB g Hg) as ([p d] & [fn cls] & Hx & [F1 F2] & E). cbn in *.
      apply HL in Hx. exists p, d, fn, cls. repeat (split; [assumption|]).
      apply (single_written _ _ _ _ _ E (HOF _ _ Hx)). exact Hn.
    + intros (p & d & fn & cls & Hd & F1 & F2 & Hw).
      destruct (HA (p, d)) as ([fn' cls'] & g & [F1' F2'] & E & Hg); [now apply HL|]. cbn in *.
      assert (fn' = fn) as -> by (apply HAB; rewrite F1', F1; reflexivity).
      assert (cls' = cls) as -> by (apply HAB; rewrite F2', F2; reflexivity).
      exists g. split; auto. apply (single_written _ _ _ _ _ E (HOF _ _ Hd)). exact Hw.
  - rewrite ER, in_flat_map. split.
    + intros (g & Hg & Hn). destruct (HB g Hg) as ([p d] & [fn cls] & Hx & [F1 F2] & E). cbn in *.
      apply HL in Hx. exists p, d, cls. repeat (split; [assumption|]).
      apply (single_read _ _ _ _ _ E). exact Hn.
    + intros (p & d & cls & Hd & F2 & Hw).
      destruct (HA (p, d)) as ([fn' cls'] & g & [F1' F2'] & E & Hg); [now apply HL|]. cbn in *.
      assert (cls' = cls) as -> by (apply HAB; rewrite F2', F2; reflexivity).
      exists g. split; auto. apply (single_read _ _ _ _ _ E). exact Hw.
Qed.

(** A module with a class (import a in its body), whose method imports b, and
    a function with a nested function that imports c; the module writes x. *)
Definition imp (i : nat) : list instr :=
  enc_import (IStmt None 0 [] 0 None i None).
Definition c11_meth := Code 3 ["b"] [CNone] (imp 0 ++ [Ins STORE_GLOBAL (Some 0)]).
Definition c11_cls := Code 2 ["a"; "meth"] [CNone; CCode c11_meth]
  (imp 0 ++ [Ins STORE_NAME (Some 0)] ++ enc true (ChFunction 1 [] 0) ++ [Ins STORE_NAME (Some 1)]).
Definition c11_inner := Code 5 ["c"; "y"] [CNone] (imp 0 ++ [Ins LOAD_GLOBAL (Some 3)]).
Definition c11_fun := Code 4 [] [CCode c11_inner] (enc true (ChFunction 0 [] 0)).
Definition c11_mod := Code 1 ["x"; "C"; "f"] [CCode c11_cls; CCode c11_fun]
  (enc true (ChClass 0 false 0) ++ [Ins STORE_NAME (Some 1)]
   ++ enc true (ChFunction 1 [] 0) ++ [Ins STORE_NAME (Some 2); Ins STORE_NAME (Some 0)]).

Ltac positions H := repeat (destruct H as [H|H]; [try discriminate H|]).

Example C11_nonvacuous :
  NoDup (map key (all_codes c11_mod))
  /\ (forall d, In d (all_codes c11_mod) -> operands_first true d)
  /\ in_function true [c11_fun; c11_inner] c11_mod c11_inner
  /\ is_class_body true [c11_cls] c11_mod c11_cls
  /\ extract_bytecode_info true c11_mod
     = Some (ROk ([IInfo (IName "a" None) 0 [] false false false false;
                   IInfo (IName "b" None) 0 [] false true false false;
                   IInfo (IName "c" None) 0 [] false true false false],
                  ["C"; "f"; "x"; "b"], ["y"])).
Proof.
  split; [repeat constructor; cbn; intuition discriminate|].
  split; [|split; [|split; [|reflexivity]]].
  - intros d Hd.
    assert (forall c, match co_ins c with
              | x :: y :: _ => i_op x <> MAKE_FUNCTION /\ i_op x <> IMPORT_NAME
                  /\ (i_op x = EXTENDED_ARG -> i_op y <> IMPORT_NAME)
              | _ => False end -> operands_first true c) as K.
    { intros c Hc. destruct (co_ins c) as [|x [|y r]] eqn:E; try contradiction.
      destruct Hc as (H1 & H2 & H3). split.
      - intros [|i] (z & Hz & Hop); [|cbn; lia]. rewrite E in Hz. injection Hz as <-. contradiction.
      - intros [|[|i]] (z & Hz & Hop); rewrite E in Hz.
        + injection Hz as <-. contradiction.
        + injection Hz as <-. split; [lia|]. intros (w & Hw & Ho). cbn in Hw. rewrite E in Hw.
          injection Hw as <-. exfalso. apply H3; auto.
        + split; lia. }
    apply K. cbn in Hd. destruct Hd as [<-|[<-|[<-|[<-|[<-|[]]]]]]; cbn; repeat split; discriminate.
  - apply inf_here; [cbn; auto| |].
    + exists 5. split.
      * split; [exists (Ins MAKE_FUNCTION (Some 0)); auto|].
        exists 4, (Ins LOAD_CONST (Some 1)), 1, c11_fun. repeat split.
      * intros [(j & E & x & Hx & Ho)|(j & E & (x & Hx & Ho) & _)];
          do 5 (destruct j as [|j]; [try discriminate E; injection Hx as <-; discriminate|]); discriminate E || (exfalso; lia).
    + econstructor; [cbn; auto|constructor].
  - apply cls_here; [cbn; auto|]. exists 2. split.
    + split; [exists (Ins MAKE_FUNCTION (Some 0)); auto|].
      exists 1, (Ins LOAD_CONST (Some 0)), 0, c11_cls. repeat split.
    + left. exists 0. split; [reflexivity|]. exists (Ins LOAD_BUILD_CLASS None). auto.
Qed.

(** C12, full statement: the code of a class statement, with any EXTENDED_ARG
    prefixes before the load of the body, adds the body to the classes and not
    to the functions (unless something else makes a function of it). *)
Definition class_code (v : bool) (es : list nat) (i q : nat) : list instr :=
  [Ins LOAD_BUILD_CLASS None] ++ (if v then [Ins PUSH_NULL None] else [])
  ++ map ext es ++ [Ins LOAD_CONST (Some i)]
  ++ (if v then [] else [Ins LOAD_CONST (Some q)]) ++ [Ins MAKE_FUNCTION (Some 0)].

Definition C12_statement : Prop := forall v c fn cls f pre post es i q d,
  co_ins c = pre ++ class_code v es i q ++ post ->
  nth_error (co_consts c) i = Some (CCode d) ->
  extract_single v c fn cls = ROk f ->
  In (key d) (f_classes f).

(** A module with more than 256 constants before the class body. *)
Definition c12_body := Code 1 ["a"] [CNone] (imp 0).
Definition c12_mod := Code 0 [] (repeat CNone 256 ++ [CCode c12_body]) (class_code true [1] 256 0).

Theorem C12_extended_arg_refuted : ~ C12_statement.
Proof.
  intros H.
  specialize (H true c12_mod false false (Found [] [] [] [1] []) [] [] [1] 256 0 c12_body
    eq_refl eq_refl eq_refl).
  exact H.
Qed.

(** Consequence: the import in the body of a module level class is reported as
    being in a function. *)
Example C12_refuted_effect : extract_bytecode_info true c12_mod
  = Some (ROk ([IInfo (IName "a" None) 0 [] false true false false], [], [])).
Proof. reflexivity. Qed.

(** C12, the part that holds: class statements whose body is loaded without
    EXTENDED_ARG prefix.  Missing: bodies with constant index above 255, and
    classes with closure cells (BUILD_TUPLE before the load). *)
Theorem C12_class_partial : forall v c fn cls hs i null q d,
  co_ins c = flat_map (enc v) hs -> Forall (chunk_ok v c) hs ->
  In (ChClass i null q) hs -> nth_error (co_consts c) i = Some (CCode d) ->
  exists f, extract_single v c fn cls = ROk f
    /\ In (key d) (f_classes f)
    /\ ((forall j es qq e, In (ChFunction j es qq) hs -> nth_error (co_consts c) j = Some (CCode e) ->
           key e <> key d) -> ~ In (key d) (f_funcs f)).
Proof.
  intros v c fn cls hs i null q d H H' Hi Hd.
  destruct (chunks_single v c fn cls hs H H') as (f & E & _ & Ef & Ec).
  exists f. split; [exact E|]. rewrite Ef, Ec. split.
  - apply in_flat_map. exists (ChClass i null q). split; auto. cbn. rewrite Hd. cbn. auto.
  - intros Hno Hin. apply in_flat_map in Hin as ([s|j es qq|j nl qq|x] & Hh & Hk); cbn in Hk; try contradiction.
    destruct (nth_error (co_consts c) j) as [[| | |e|]|] eqn:Ej; cbn in Hk; try contradiction.
    destruct Hk as [Hk|[]]. eapply Hno; eauto.
Qed.

Example C12_nonvacuous :
  extract_single true c11_mod false false
  = ROk (Found [] ["C"; "f"; "x"] [] [4] [2])
  /\ co_ins c11_mod = flat_map (enc true)
       [ChClass 0 false 0; ChOther (Ins STORE_NAME (Some 1)); ChFunction 1 [] 0;
        ChOther (Ins STORE_NAME (Some 2)); ChOther (Ins STORE_NAME (Some 0))].
Proof. split; reflexivity. Qed.

Print Assumptions C09_imports_decoded.
Print Assumptions C10_visits_tree.
Print Assumptions C10_union.
Print Assumptions C10_total.
Print Assumptions C11_function_context.
Print Assumptions C12_extended_arg_refuted.
Print Assumptions C12_class_partial.
Print Assumptions C13_written.
Print Assumptions C13_read.
Print Assumptions C13_tree.
