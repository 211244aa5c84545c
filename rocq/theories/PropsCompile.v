(** C71: the code of a module has the imports of its source. *)
From Verif Require Import BuilderSource BuilderHist BuilderInv BuilderCalls CompileSpec CompileProofs AstProofs PyStrFacts BytecodeProofs BytecodeChunks BytecodeTree World PropsBuilder PropsAst PropsBytecode PropsSource.
Open Scope string_scope.

Lemma codes_descend c d : In d (all_codes c) -> exists p, descends p c d.
Proof.
  remember (code_size c) as n eqn:En. assert (H : code_size c <= n) by lia. clear En. revert c H d.
  induction n as [|n IH]; intros c H d Hd; rewrite code_size_eq in H; [lia|].
  rewrite all_codes_eq in Hd. destruct Hd as [<-|Hd]; [exists []; constructor|].
  apply in_flat_map in Hd as (e & He & Hd). destruct (IH e) with (d := d) as (p & Hp); [|exact Hd|exists (e :: p); now econstructor].
  assert (K : forall l, In e l -> code_size e <= csize l).
  { induction l as [|x l IHl]; intros []; [subst|specialize (IHl H0)]; rewrite csize_cons; lia. }
  specialize (K _ He). lia.
Qed.

Lemma info_loop_ok v l : (forall c ps, In (c, ps) l -> forall fn cls, exists f, extract_single v c fn cls = ROk f) ->
  forall acc, exists f, info_loop v l acc = ROk f.
Proof.
  induction l as [|[c ps] l IH]; intros H [im wr rd fs cs]; [now eexists|]. cbn [info_loop].
  destruct (H c ps (or_introl eq_refl) (is_code_for_function c ps fs) (nmemb (key c) cs)) as ([im' wr' rd' fs' cs'] & ->). cbn [rbind].
  apply IH. intros c' ps' Hi. eapply H. right. exact Hi.
Qed.

Section compiler.
  Variables (v : bool) (dead : ast -> Prop) (generic : bool).

  Lemma body_shown c ts : body v dead generic c ts -> shown v dead generic c ts.
  Proof.
    intros []. eapply shown_body; [|apply all_shown; eassumption]. repeat (split; [eassumption|]). assumption.
  Qed.

  (** The scan of the code of a module never fails. *)
  Lemma compiled_scan c ts : body v dead generic c ts -> exists im wr rd, extract_bytecode_info v c = Some (ROk (im, wr, rd)).
  Proof.
    intros H. apply body_shown in H as [H _]. unfold extract_bytecode_info.
    destruct (all_code_objects_levels c) as (l & -> & _ & L).
    destruct (info_loop_ok v l) with (acc := found0) as (f & ->); [|eauto].
    intros d ps Hi fn cls. assert (Hd : In d (all_codes c)).
    { eapply Permutation_in; [exact L|]. apply in_map_iff. now exists (d, ps). }
    apply codes_descend in Hd as (p & Hd). destruct (H p d Hd) as (ts' & hs & (A & B & _) & _).
    destruct (chunks_single v d fn cls hs A B) as (f & F & _). eauto.
  Qed.

  Lemma same_recorded fn fn' opt n lv from w i j : records fn n lv from i -> alike (code_what n lv from) w -> recorded fn' opt w j ->
    same_import i j.
  Proof.
    intros R A (W & _). apply records_recorded in R as (R & _).
    destruct w as [n' a|m l k]; cbn [states_what] in W; destruct (code_what n lv from) as [n1 a1|m1 l1 k1] eqn:E; cbn [alike] in A; try contradiction.
    - subst n1. destruct R as (R1 & R2 & R3 & R4), W as (W1 & W2 & W3 & W4). repeat split; rewrite ?R1, ?W1, ?R3, ?W3; auto; congruence.
    - destruct A as (A1 & A2 & ->). cbn [states_what] in R. destruct R as (R1 & R2 & R3 & R4 & R5 & R6), W as (W1 & W2 & W3 & W4 & W5 & W6).
      split; [|split; [congruence|split]].
      + rewrite R1, W1. exact A1.
      + eapply iff_true_eq; [exact R5|]. now rewrite A2.
      + intros x. now rewrite R3, W3, A2.
  Qed.

  Lemma in_stmts st hs : In st (stmts hs) <-> In (ChImport st) hs.
  Proof.
    induction hs as [|h hs IH]; [reflexivity|]. destruct h as [st'|i es q|i nl q|x]; cbn [stmts In].
    - rewrite IH. split; (intros [E|H]; [left; congruence|now right]).
    - rewrite IH. split; [now right|]. intros [E|H]; [discriminate|exact H].
    - rewrite IH. split; [now right|]. intros [E|H]; [discriminate|exact H].
    - rewrite IH. split; [now right|]. intros [E|H]; [discriminate|exact H].
  Qed.

  Lemma told_one fn w t : In (fn, w) (flat_map (tells false) [t]) <-> In (fn, w) (tells false t).
  Proof. cbn. now rewrite app_nil_r. Qed.

  Lemma told_says fn w t : In (fn, w) (tells false t) -> exists opt, tree_says t fn opt w.
  Proof.
    intros H. apply told_sites in H as (p & A & B).
    exists (existsb (fun k => match k with KDef | KIf | KTry => true | _ => false end) p). exists p. split; [exact A|]. split; [exact B|].
    rewrite existsb_exists. split.
    - intros (k & Hk & E). destruct k; try discriminate; auto.
    - intros [H|[H|H]]; eexists; (split; [exact H|reflexivity]).
  Qed.

  Lemma scan_code t c order l im wr rd : compiles v dead generic t c -> set_order order ->
    extract_ast_info order t = Some l -> extract_bytecode_info v c = Some (ROk (im, wr, rd)) ->
    (forall i, In i im -> exists j, In j l /\ same_import i j /\ contexts generic (ii_in_function j) (ii_in_function i = true))
    /\ ((forall t, dead t -> import_free [t]) ->
        forall j, In j l -> exists i, In i im /\ same_import i j /\ contexts generic (ii_in_function j) (ii_in_function i = true)).
  Proof.
    intros [Hb Hn] HO Hl Hx. destruct (tree_covers order t l HO Hl) as [T1 T2].
    apply body_shown in Hb as [B1 B2].
    destruct (C11_function_context v c im wr rd Hn) with (2 := Hx) as [A B].
    { intros d Hd. apply codes_descend in Hd as (p & Hd). destruct (B1 p d Hd) as (ts & hs & (P1 & P2 & _) & _). eapply chunks_operands; eassumption. }
    split.
    - intros i Hi. destruct (B i Hi) as (p & d & fn & cls & g & Hd & F & _ & Hs & Hg & Ei).
      destruct (B1 p d Hd) as (ts & hs & (P1 & P2 & _ & _ & P3) & W).
      destruct (C09_imports_decoded v d fn cls hs P1 P2) as (f & Hf & R). rewrite Hs in Hf. injection Hf as <-.
      destruct (PropsSource.Forall2_right _ _ _ _ R Hg) as (st & I1 & n & from & I2 & I3).
      apply in_stmts in I1. destruct (proj1 (all_shown _ _ _ _ _ _ P3) st I1) as (n' & from' & w & I4 & I5 & I6).
      destruct (stmt_is_unique _ _ _ _ _ _ I2 I4) as [<- <-].
      destruct (W false w I6) as (fn' & I7 & I8). apply told_one in I7. destruct (told_says _ _ _ I7) as (opt & I9).
      destruct (T1 _ _ _ I9) as (j & J1 & J2). exists j. split; [exact J1|]. split; [eapply same_recorded; eassumption|].
      destruct J2 as (_ & -> & _). eapply contexts_iff; [|exact I8]. rewrite Ei, F. split; [intros [?|?]; [discriminate|assumption]|now right].
    - intros Hf j Hj. destruct (T2 j Hj) as (fn' & opt & w & J1 & J2).
      assert (J3 : In (fn', w) (tells false t)). { apply told_sites. destruct J1 as (p & X & Y & _). eauto. }
      apply told_one in J3. destruct (B2 Hf _ _ J3) as (p & d & ts & hs & Hd & (P1 & P2 & _) & (st & n & from & S1 & S2 & S3) & Hc).
      destruct (A p d Hd) as (fn & cls & g & F & _ & Hs & Hg).
      destruct (C09_imports_decoded v d fn cls hs P1 P2) as (f & Hf' & R). rewrite Hs in Hf'. injection Hf' as <-.
      apply in_stmts in S1. destruct (PropsSource.Forall2_left _ _ _ _ R S1) as (i & I1 & n' & from' & I2 & I3).
      destruct (stmt_is_unique _ _ _ _ _ _ I2 S2) as [-> ->]. destruct (Hg i I1) as [I4 I5].
      exists i. split; [exact I4|]. split; [eapply same_recorded; eassumption|].
      destruct J2 as (_ & -> & _). eapply contexts_iff; [|exact Hc]. now rewrite I5, F.
  Qed.
End compiler.

Definition none_dead (t : ast) : Prop := False.

(** C71, full statement: both scans report the same imports, in the same context. *)
Definition C71_statement : Prop := forall v t c order l im wr rd,
  compiles v none_dead true t c -> set_order order -> extract_ast_info order t = Some l ->
  extract_bytecode_info v c = Some (ROk (im, wr, rd)) ->
  (forall i, In i im -> exists j, In j l /\ same_import i j /\ ii_in_function i = ii_in_function j)
  /\ (forall j, In j l -> exists i, In i im /\ same_import i j /\ ii_in_function i = ii_in_function j).

(** The code of every module can be scanned; every import found there is one of
    the source, and unless the compiler has left it out every import of the
    source is found.  An import in a function is found to be in a function. *)
Theorem C71_same_imports : forall v dead generic t c order l,
  compiles v dead generic t c -> set_order order -> extract_ast_info order t = Some l ->
  exists im wr rd, extract_bytecode_info v c = Some (ROk (im, wr, rd))
  /\ (forall i, In i im -> exists j, In j l /\ same_import i j /\ (ii_in_function j = true -> ii_in_function i = true))
  /\ ((forall t, dead t -> import_free [t]) ->
      forall j, In j l -> exists i, In i im /\ same_import i j /\ (ii_in_function j = true -> ii_in_function i = true)).
Proof.
  intros v dead generic t c order l Hc HO Hl. destruct (compiled_scan _ _ _ _ _ (proj1 Hc)) as (im & wr & rd & Hx).
  exists im, wr, rd. split; [exact Hx|]. destruct (scan_code _ _ _ _ _ _ _ _ _ _ Hc HO Hl Hx) as [A B]. split.
  - intros i Hi. destruct (A i Hi) as (j & J1 & J2 & J3 & _). eauto.
  - intros Hf j Hj. destruct (B Hf j Hj) as (i & J1 & J2 & J3 & _). eauto.
Qed.

(** Without classes that have type parameters the context is the same, too. *)
Theorem C71_context_partial : forall v dead t c order l im wr rd,
  compiles v dead false t c -> set_order order -> extract_ast_info order t = Some l ->
  extract_bytecode_info v c = Some (ROk (im, wr, rd)) ->
  (forall i, In i im -> exists j, In j l /\ same_import i j /\ ii_in_function i = ii_in_function j)
  /\ ((forall t, dead t -> import_free [t]) ->
      forall j, In j l -> exists i, In i im /\ same_import i j /\ ii_in_function i = ii_in_function j).
Proof.
  intros v dead t c order l im wr rd Hc HO Hl Hx. destruct (scan_code _ _ _ _ _ _ _ _ _ _ Hc HO Hl Hx) as [A B].
  assert (K : forall a b : bool, contexts false b (a = true) -> a = b).
  { intros a b [X Y]. destruct a, b; auto. now rewrite Y. }
  split.
  - intros i Hi. destruct (A i Hi) as (j & J1 & J2 & J3). exists j. auto.
  - intros Hf j Hj. destruct (B Hf j Hj) as (i & J1 & J2 & J3). exists i. auto.
Qed.

(** ** In the graph *)

Lemma bytecode_told E x T : code_kind x = Some MBytecode -> told_by E x T -> exists c, bytecode_of E x c /\ T = code_says (e_ge311 E) c.
Proof.
  intros Hk [tree Ht|c Ht|Ht].
  - exfalso. destruct Ht as [t K _|sp fz text code file t mk _ _ _ _ _ _ K1 K2].
    + unfold code_kind in Hk. rewrite K in Hk. discriminate.
    + rewrite Hk in K1. injection K1 as <-. destruct K2 as [K2|[K2 _]]; [destruct fz; discriminate|discriminate].
  - eauto.
  - exfalso. destruct Ht as [K1 K2|[K1|K1]|f ty K1|sp fz src code K1 _ _ _ _]; unfold code_kind in *; try congruence.
    rewrite K1 in Hk. discriminate.
Qed.

(** A module of which only the code is installed has the edges of its source. *)
Theorem C71_edges : forall E implies s,
  order_ok E -> set_order (e_names_order E) -> compiled_env E -> plain_history E implies True s ->
  forall x t, gfind (s_graph s) (n_name x) = Some x -> code_kind x = Some MBytecode ->
    (forall c, bytecode_of E x c -> compiles (e_ge311 E) none_dead false t c) ->
    forall p w, In (p, w) (sites [] t) -> exists fn w', (fn = true <-> In KDef p) /\ alike w' w
      /\ module_edge (s_graph s) x fn fn w' /\ name_edges (s_graph s) x fn fn w'.
Proof.
  intros E implies s HE HO HC HH x t Hx Hk Ht p w Hp. destruct (C64_exact E implies True s HE HO HC HH x Hx) as (T & HT & _ & B).
  destruct (bytecode_told E x T Hk HT) as (c & Hc & ->). specialize (Ht c Hc). destruct Ht as [Ht _]. apply body_shown in Ht as [_ Ht].
  assert (W : In (has_def p, w) (flat_map (tells false) [t])).
  { apply told_one, told_sites. exists p. split; [exact Hp|apply has_def_in]. }
  destruct (Ht (fun t F => match F : False with end) _ _ W) as (q & d & ts & hs & Hd & (P1 & P2 & _) & (st & n & from & S1 & S2 & S3) & C1 & C2).
  exists (has_def p), (code_what n (st_level st) from). split; [apply has_def_in|]. split; [exact S3|].
  apply (B Logic.I). exists q, d, hs, st, n, from. rewrite in_stmts. repeat (split; [assumption|]). split; [reflexivity|].
  split; [|reflexivity]. split; [exact C1|]. now apply C2.
Qed.

(** ** Examples *)

(** A module:
    import os, sys as s;
    try: from . import a as z
    finally: import b
    class C: import c; def m(self): from d import *
    def f[T](): import e *)
Definition im0 (name : nat) : istmt := IStmt (Some 0) 0 [] 1 None name None.
Definition store (n : nat) : chunk := ChOther (Ins STORE_NAME (Some n)).

Definition code_of (k : nat) (names : list string) (consts : list const) (hs : list chunk) : code :=
  Code k names consts (flat_map (enc true) hs).

Definition hs_m : list chunk := [ChImport (IStmt (Some 0) 0 [] 1 None 0 None); ChOther (Ins (OTHER "CALL_INTRINSIC_1") (Some 2))].
Definition code_m : code := code_of 3 ["d"] [CInt 0; CTuple ["*"]] hs_m.
Definition hs_c : list chunk := [ChImport (im0 0); store 0; ChFunction 2 [] 0; store 1].
Definition code_c : code := code_of 2 ["c"; "m"] [CInt 0; CNone; CCode code_m] hs_c.
Definition hs_f : list chunk := [ChImport (im0 0); ChOther (Ins (OTHER "STORE_FAST") (Some 0))].
Definition code_f : code := code_of 5 ["e"] [CInt 0; CNone] hs_f.
Definition hs_t : list chunk := [ChFunction 0 [] 0].
Definition code_t : code := code_of 4 [] [CCode code_f] hs_t.
Definition hs_top : list chunk :=
  [ChImport (im0 0); store 0; ChImport (im0 1); store 2;
   ChImport (IStmt (Some 2) 1 [] 3 None 3 None); store 4; ChImport (im0 5); store 5; ChImport (im0 5); store 5;
   ChClass 4 true 0; store 6; ChFunction 5 [1] 0; store 7].
Definition code_top : code :=
  code_of 1 ["os"; "sys"; "s"; ""; "z"; "b"; "C"; "f"] [CInt 0; CNone; CInt 1; CTuple ["a"]; CCode code_c; CCode code_t] hs_top.

Definition tree_m := AFunctionDef [AOther []; AImportFrom (Some "d") [("*", None)] 0].
Definition tree_top : ast := AOther
  [AImport [("os", None); ("sys", Some "s")];
   ATry [AImportFrom None [("a", Some "z")] 1] [] [] [AImport [("b", None)]];
   AOther [AImport [("c", None)]; tree_m];
   AFunctionDef [AOther []; AImport [("e", None)]]].

Ltac at_front h := match goal with |- emits ?v ?d ?g ?c ?ts ?l => let k := eval hnf in l in
  match k with ?x :: ?r => change (emits v d g c ts ([] ++ x :: r)) end end; eapply h.
Ltac noise := at_front em_noise; cbn [app].
Ltac chunks_fine :=
  repeat (constructor; [cbn; try exact Logic.I; first
    [ eexists; exists None; repeat split; reflexivity | eexists; eexists (Some _); repeat split; reflexivity
    | eexists; eexists; split; reflexivity | eexists; reflexivity ]|]); constructor.
Ltac apart := intros i es q i' nl q' e e' A B C D; cbn in A, B; repeat (destruct A as [A|A]; try discriminate A); repeat (destruct B as [B|B]; try discriminate B);
  try contradiction; injection A as <- <- <-; injection B as <- <- <-; cbn in C, D; injection C as <-; injection D as <-; discriminate.
Ltac children := let e := fresh in let H := fresh in intros e H; cbn in H; repeat destruct H as [<-|H]; try contradiction.

Lemma ex_m : body true none_dead false code_m [AImportFrom (Some "d") [("*", None)] 0].
Proof.
  apply (body_of true none_dead false code_m _ hs_m); [reflexivity|chunks_fine|apart|children|].
  at_front em_from; [repeat split|reflexivity|]. cbn [app]. noise. constructor.
Qed.
Lemma ex_c : body true none_dead false code_c [AImport [("c", None)]; tree_m].
Proof.
  apply (body_of true none_dead false code_c _ hs_c); [reflexivity|chunks_fine|apart|children|].
  - eexists. split; [right; right; now left|reflexivity].
  - at_front em_import; [repeat split|reflexivity|]. cbn [app]. apply em_imported. noise.
    at_front (em_def true none_dead false code_c [AOther []; AImportFrom (Some "d") [("*", None)] 0] [AOther []] [AImportFrom (Some "d") [("*", None)] 0]);
      [apply Permutation_refl|reflexivity|reflexivity|exact ex_m|]. cbn [app]. apply em_other. noise. constructor.
Qed.
Lemma ex_f : body true none_dead false code_f [AImport [("e", None)]].
Proof.
  apply (body_of true none_dead false code_f _ hs_f); [reflexivity|chunks_fine|apart|children|].
  at_front em_import; [repeat split|reflexivity|]. cbn [app]. apply em_imported. noise. constructor.
Qed.
Lemma ex_t : body true none_dead false code_t [AFunctionDef [AOther []; AImport [("e", None)]]].
Proof.
  apply (body_of true none_dead false code_t _ hs_t); [reflexivity|chunks_fine|apart|children|].
  - eexists. split; [now left|reflexivity].
  - at_front (em_def true none_dead false code_t [AOther []; AImport [("e", None)]] [AOther []] [AImport [("e", None)]]);
      [apply Permutation_refl|reflexivity|reflexivity|exact ex_f|]. cbn [app]. apply em_other. constructor.
Qed.
Lemma ex_top : compiles true none_dead false tree_top code_top.
Proof.
  split.
  - apply (body_of true none_dead false code_top _ hs_top); [reflexivity|chunks_fine|apart|children|].
    + exists (ChClass 4 true 0). split; [cbn; tauto|reflexivity].
    + exists (ChFunction 5 [1] 0). split; [cbn; tauto|reflexivity].
    + apply em_other. cbn [app].
      at_front em_import; [repeat split|reflexivity|]. cbn [app]. noise.
      at_front em_import; [repeat split|reflexivity|]. cbn [app]. apply em_imported. noise.
      apply em_try. cbn [app]. at_front em_from; [repeat split|reflexivity|]. cbn [app]. noise.
      apply em_again. at_front em_import; [repeat split|reflexivity|]. cbn [app]. apply em_imported. noise.
      at_front em_import; [repeat split|reflexivity|]. cbn [app]. apply em_imported. noise.
      at_front (em_class true none_dead false code_top [AImport [("c", None)]; tree_m] [] [AImport [("c", None)]; tree_m]);
        [apply Permutation_refl|reflexivity|reflexivity|exact ex_c|]. cbn [app]. noise.
      at_front em_generic_def; [exact Logic.I|reflexivity|exact ex_t|]. cbn [app]. noise. constructor.
  - cbn. repeat constructor; cbn; intuition discriminate.
Qed.

Example C71_nonvacuous :
  extract_bytecode_info true code_top
  = Some (ROk ([IInfo (IName "os" None) 0 [] false false false false; IInfo (IName "sys" None) 0 [] false false false false;
                IInfo (IName "" None) 1 [IName "a" None] false false false false; IInfo (IName "b" None) 0 [] false false false false;
                IInfo (IName "b" None) 0 [] false false false false; IInfo (IName "c" None) 0 [] false false false false;
                IInfo (IName "d" None) 0 [] true true false false; IInfo (IName "e" None) 0 [] false true false false],
               ["os"; "s"; "a"; "z"; "b"; "C"; "f"], []))
  /\ extract_ast_info (fun l => l) tree_top
  = Some [IInfo (IName "os" None) 0 [] false false false false; IInfo (IName "sys" (Some "s")) 0 [] false false false false;
          IInfo (IName "" None) 1 [IName "a" (Some "z")] false false false true; IInfo (IName "b" None) 0 [] false false false false;
          IInfo (IName "c" None) 0 [] false false false false; IInfo (IName "e" None) 0 [] false true false false;
          IInfo (IName "d" None) 0 [] true true false false].
Proof. split; vm_compute; reflexivity. Qed.

(** class C[T]: import x *)
Definition hs_x : list chunk := [ChImport (im0 0); store 0].
Definition code_x : code := code_of 2 ["x"] [CInt 0; CNone] hs_x.
Definition hs_gen : list chunk := [ChClass 0 true 0].
Definition code_gen : code := code_of 1 [] [CCode code_x] hs_gen.
Definition hs_mod : list chunk := [ChFunction 0 [] 0; store 0].
Definition code_mod : code := code_of 0 ["C"] [CCode code_gen] hs_mod.
Definition tree_mod : ast := AOther [AOther [AImport [("x", None)]]].

Lemma ex_x : body true none_dead true code_x [AImport [("x", None)]].
Proof.
  apply (body_of true none_dead true code_x _ hs_x); [reflexivity|chunks_fine|apart|children|].
  at_front em_import; [repeat split|reflexivity|]. cbn [app]. apply em_imported. noise. constructor.
Qed.
Lemma ex_gen : body true none_dead true code_gen [AOther [AImport [("x", None)]]].
Proof.
  apply (body_of true none_dead true code_gen _ hs_gen); [reflexivity|chunks_fine|apart|children|].
  - eexists. split; [now left|reflexivity].
  - at_front (em_class true none_dead true code_gen [AImport [("x", None)]] [] [AImport [("x", None)]]);
      [apply Permutation_refl|reflexivity|reflexivity|exact ex_x|]. constructor.
Qed.
Lemma ex_mod : compiles true none_dead true tree_mod code_mod.
Proof.
  split; [|repeat constructor; cbn; intuition discriminate].
  apply (body_of true none_dead true code_mod _ hs_mod); [reflexivity|chunks_fine|apart|children|].
  - eexists. split; [now left|reflexivity].
  - apply em_other. cbn [app]. at_front em_generic_class; [reflexivity|reflexivity|exact ex_gen|]. cbn [app]. noise. constructor.
Qed.

(** The import in the body of the class is said to be in a function. *)
Theorem C71_refuted : ~ C71_statement.
Proof.
  intros H. destruct (H true tree_mod code_mod (fun l => l) _ _ _ _ ex_mod (fun l => Permutation_refl l) eq_refl eq_refl) as [A _].
  destruct (A _ (or_introl eq_refl)) as (j & [<-|[]] & _ & E). discriminate E.
Qed.

(** The module above, without source. *)
Definition top_spec : spec := Spec "top" (LInspect false (ROk None) (ROk (Some code_top))) (Some "top.pyc") None true (ROk false).
Definition top_world : env := world [("top", ESpec top_spec); ("os", ESource false [] []); ("d", ESource true [World.imp "e"] [])] [] [].
Definition top_end : st := Eval vm_compute in snd (the_calls top_world [AAddModule "top"] new).
Definition top_node : node := match gfind (s_graph top_end) "top" with Some x => x | None => plain_node Script "" end.

Lemma top_compiled : compiled_env top_world.
Proof.
  apply world_compiled. intros n sp fz src c K Hl. cbn in K.
  assert (sp = top_spec) as -> by (clear Hl; intuition congruence). injection Hl as _ _ <-.
  destruct ex_top as [H N]. split; [exact N|]. intros d Hd. apply codes_descend in Hd as (p & Hd).
  apply body_shown in H as [H _]. destruct (H p d Hd) as (ts & hs & (P1 & P2 & _) & _). eauto.
Qed.

Example C71_edges_nonvacuous :
  plain_history top_world [] True top_end /\ gfind (s_graph top_end) "top" = Some top_node /\ code_kind top_node = Some MBytecode
  /\ (forall c, bytecode_of top_world top_node c -> compiles true none_dead false tree_top c)
  /\ has_edge (s_graph top_end) "top" "os" (Dep false true false None)
  /\ has_edge (s_graph top_end) "top" "d" (Dep true false false None)
  /\ map snd (edge_pairs top_end) = ["e"; "d"; "e"; "c"; "b"; "."; "sys"; "os"].
Proof.
  split. { eapply (ph_call _ _ _ (init [] [] []) 60 (AAddModule "top")); [apply ph_init, incl_refl|exact Logic.I|vm_compute; reflexivity|discriminate]. }
  split; [reflexivity|]. split; [reflexivity|]. split; [|split; [|split]].
  - intros c [sp fz src mk (t & f & name & Hi) Hn Hl Hk Hw]. cbn in Hi, Hn.
    destruct (seqb name "top") eqn:E1; [injection Hi as <-; injection Hl as _ _ <-; exact ex_top|].
    destruct (seqb name "os") eqn:E2; [injection Hi as <-; apply seqb_eq in E2 as ->; discriminate|].
    destruct (seqb name "d") eqn:E3; [injection Hi as <-; apply seqb_eq in E3 as ->; discriminate|discriminate].
  - vm_compute. eexists. split; [repeat (try (left; reflexivity); right)|now left].
  - vm_compute. eexists. split; [repeat (try (left; reflexivity); right)|now left].
  - vm_compute. reflexivity.
Qed.

Print Assumptions C71_edges.
Print Assumptions C71_refuted.
Print Assumptions C71_same_imports.
Print Assumptions C71_context_partial.
