(** C73: global names of modules and what happens when the module runs. *)
From Verif Require Import PyStrFacts BytecodeProofs BytecodeChunks BytecodeTree BuilderSource BuilderHist BuilderInv BuilderCalls World
  PropsBuilder PropsImports PropsBytecode PropsSource BuilderAttr AttrSpec PropsAttr NodeAttrs RunSpec.
Local Open Scope list_scope.

Section run.
  Variables (v : bool) (optimized : code -> bool).

  Definition below (c d : code) : Prop := exists p e, descends (p ++ [e]) c d.
  (** Frames belong to code objects of the module, with the scope that they have. *)
  Definition frame_in (c : code) (f : frame) : Prop :=
    fr_code f = c /\ fr_scope f = SModule
    \/ below c (fr_code f) /\ if optimized (fr_code f) then fr_scope f = SFunction else exists own, fr_scope f = SClass own.
  Definition run_in (c : code) (r : run) : Prop :=
    (forall f, In f (r_frames r) -> frame_in c f) /\ (forall d, In d (r_made r) -> below c d).

  Lemma below_child c d e : (d = c \/ below c d) -> In e (child_codes d) -> below c e.
  Proof.
    intros [->|(p & x & H)] He.
    - exists [], e. econstructor; [exact He|constructor].
    - exists (p ++ [x]), e. eapply descends_snoc; eassumption.
  Qed.
  Lemma frame_code c f : frame_in c f -> fr_code f = c \/ below c (fr_code f).
  Proof. intros [[H _]|[H _]]; auto. Qed.
  Lemma does_scope c k x e k' : does v c k x e k' ->
    k' = k \/ exists own own', k = SClass own /\ k' = SClass own'.
  Proof. intros []; eauto. Qed.

  Lemma step_in c r e r' : run_in c r -> step v optimized r e r' -> run_in c r'.
  Proof.
    intros [F M] H. destruct H as [a d k b m x i e k' _ Hd|fs d k e m Hf He|fs m d Hd|a f b m]; split; cbn [r_frames r_made] in *; auto.
    - intros f Hf. apply in_app_iff in Hf as [Hf|[<-|Hf]]; [apply F, in_or_app; auto| |apply F, in_or_app; right; now right].
      assert (K : frame_in c (Frame d k)) by (apply F, in_or_app; right; now left).
      apply does_scope in Hd as [->|(own & own' & -> & ->)]; [exact K|].
      destruct K as [[_ K]|[K1 K2]]; [discriminate|]. right. split; [exact K1|]. cbn in *. destruct (optimized d); [discriminate|eauto].
    - intros d' [<-|Hd]; [|auto]. eapply below_child; [|exact He]. apply (frame_code c (Frame d k)), F, Hf.
    - intros f [<-|Hf]; [|auto]. right. split; [now apply M|]. cbn. unfold scope_of. destruct (optimized d); eauto.
    - intros f' Hf. apply F. apply in_app_iff in Hf as [Hf|Hf]; apply in_or_app; [auto|right; now right].
  Qed.
  Lemma runs_in c es r : runs v optimized c es r -> run_in c r.
  Proof.
    induction 1 as [|es r e r' _ IH Hs]; [|eapply step_in; eassumption].
    split; [|intros d []]. intros f [<-|[]]. now left.
  Qed.

  (** An event is an instruction of a frame. *)
  Lemma event_is c e : may v optimized c e -> e <> Quiet ->
    exists d k i x k', frame_in c (Frame d k) /\ nth_error (co_ins d) i = Some x /\ does v d k x e k'.
  Proof.
    intros (es & r & H & He) Hq. induction H as [|es r e' r' H IH Hs]; [destruct He|].
    apply in_app_iff in He as [He|[->|[]]]; [auto|].
    pose proof (runs_in _ _ _ H) as [F _].
    destruct Hs as [a d k b m x i e k' Hi Hd|fs d k e m Hf He|fs m d Hd|a f b m]; try congruence.
    exists d, k, i, x, k'. split; [|auto]. apply F, in_or_app. right. now left.
  Qed.

  (** Every code object of the module may run. *)
  Lemma may_run c p : forall d, descends p c d -> exists es r, runs v optimized c es r
    /\ In (Frame d (match p with [] => SModule | _ => scope_of optimized d end)) (r_frames r).
  Proof.
    induction p as [|e p IH] using rev_ind; intros d Hd.
    - inv Hd. exists [], (Run [Frame d SModule] []). split; [constructor|now left].
    - apply descends_snoc_inv in Hd as (<- & d0 & Hd0 & He). destruct (IH d0 Hd0) as (es & [fs m] & Hr & Hf).
      exists ((es ++ [Quiet]) ++ [Quiet]), (Run (Frame e (scope_of optimized e) :: fs) (e :: m)). split.
      + eapply runs_step; [eapply runs_step; [exact Hr|]|].
        * eapply step_make; [exact Hf|exact He].
        * apply step_call. now left.
      + left. destruct p; reflexivity.
  Qed.
  Lemma may_do c p d i x e k' : descends p c d -> nth_error (co_ins d) i = Some x ->
    does v d (match p with [] => SModule | _ => scope_of optimized d end) x e k' -> may v optimized c e.
  Proof.
    intros Hd Hi He. destruct (may_run c p d Hd) as (es & [fs m] & Hr & Hf). cbn in Hf. apply in_split in Hf as (a & b & ->).
    exists (es ++ [e]), (Run (a ++ Frame d k' :: b) m). split; [|apply in_or_app; right; now left].
    eapply runs_step; [exact Hr|]. eapply step_instr; eassumption.
  Qed.

  Lemma child_made c p d : as_compiled v optimized c -> descends p c d -> p <> [] ->
    in_function v p c d \/ is_class_body v p c d.
  Proof.
    intros (_ & _ & _ & _ & H) Hd Hp. destruct p as [|e p] using rev_ind; [congruence|clear IHp].
    pose proof Hd as Hd'. apply descends_snoc_inv in Hd as (-> & d0 & Hd0 & He).
    destruct (H d0 d (descends_In _ _ _ Hd0) He) as [K|K].
    - left. apply in_function_split. split; [exact Hd'|]. exists p, d0, d, []. auto.
    - right. apply is_class_body_split. exists p, d0. auto.
  Qed.
  Lemma class_flag c p d : as_compiled v optimized c -> is_class_body v p c d -> optimized d = false /\ p <> [].
  Proof.
    intros (_ & _ & H & _) K. apply is_class_body_split in K as (p1 & x & -> & A & B & C). split.
    - eapply H; [eapply descends_In; exact A|exact B|exact C].
    - now destruct p1.
  Qed.
  Lemma frame_path c f : frame_in c f -> exists p, descends p c (fr_code f)
    /\ (class_scope (fr_scope f) = false -> p = [] \/ optimized (fr_code f) = true).
  Proof.
    intros [[A B]|[(p & e & A) B]].
    - exists []. rewrite A. split; [constructor|auto].
    - exists (p ++ [e]). split; [exact A|]. destruct (optimized (fr_code f)); [auto|]. destruct B as (own & ->). discriminate.
  Qed.
End run.

(** C73, full statement: the global names read and written are those that the code
    looks up and binds when it runs. *)
Definition C73_statement : Prop := forall v optimized c im wr rd, as_compiled v optimized c ->
  extract_bytecode_info v c = Some (ROk (im, wr, rd)) ->
  forall n, (In n rd <-> looks_up_global v optimized c n) /\ (In n wr <-> binds_global v optimized c n).

(** Whatever a run binds or looks up is known, bodies of classes excepted; there
    only the names of global statements that are read are known. *)
Theorem C73_runs_partial : forall v optimized c im wr rd, as_compiled v optimized c ->
  extract_bytecode_info v c = Some (ROk (im, wr, rd)) ->
  (forall o k n, may v optimized c (Looks o k n) -> o = LOAD_GLOBAL \/ o = LOAD_NAME /\ class_scope k = false -> In n rd)
  /\ (forall o k n, may v optimized c (Binds o k n) -> class_scope k = false -> In n wr).
Proof.
  intros v optimized c im wr rd HC Hx. pose proof HC as (N & O & _ & _).
  destruct (C13_tree v c im wr rd N O Hx) as [W R]. destruct (C11_function_context v c im wr rd N O Hx) as [F _].
  assert (K : forall d k, frame_in optimized c (Frame d k) -> exists p fn cls, descends p c d
     /\ (fn = true <-> in_function v p c d) /\ (cls = true <-> is_class_body v p c d) /\ (class_scope k = false -> cls = false)
     /\ (k = SModule -> fn = false)).
  { intros d k Hf. destruct (frame_path _ _ _ Hf) as (p & P1 & P2). cbn in P1, P2.
    assert (X : exists p, descends p c d /\ (class_scope k = false -> p = [] \/ optimized d = true) /\ (k = SModule -> p = [])).
    { destruct Hf as [[A B]|[_ B]]; cbn in *; [subst; exists []; repeat split; auto; constructor|].
      exists p. repeat split; auto. intros ->. destruct (optimized d); [discriminate|]. now destruct B. }
    clear p P1 P2. destruct X as (p & P1 & P2 & P3). destruct (F p d P1) as (fn & cls & _ & F1 & F2 & _). exists p, fn, cls.
    repeat (split; [assumption|]). split.
    - intros Hk. destruct cls; [|reflexivity]. destruct (class_flag _ _ _ _ _ HC (proj1 F2 eq_refl)) as [Q1 Q2].
      destruct (P2 Hk); [contradiction|congruence].
    - intros Hk. destruct fn; [|reflexivity]. apply P3 in Hk as ->. exfalso. apply proj1 in F1. specialize (F1 eq_refl). inversion F1. }
  split.
  - intros o k n Hm Ho. destruct (event_is v optimized c _ Hm) as (d & k0 & i & x & k' & Hf & Hi & Hd); [discriminate|].
    destruct (K d k0 Hf) as (p & fn & cls & P & _ & F2 & C & _). apply R. exists p, d, cls. split; [exact P|]. split; [exact F2|].
    exists i, x. split; [exact Hi|]. inversion Hd; subst; try (destruct Ho as [Ho|[_ Ho]]; discriminate).
    + left. auto.
    + right. auto.
    + destruct Ho as [Ho|[Ho _]]; congruence.
  - intros o k n Hm Ho. destruct (event_is v optimized c _ Hm) as (d & k0 & i & x & k' & Hf & Hi & Hd); [discriminate|].
    destruct (K d k0 Hf) as (p & fn & cls & P & F1 & F2 & C & D). apply W. exists p, d, fn, cls. repeat (split; [assumption|]).
    exists i, x. split; [exact Hi|]. inversion Hd; subst.
    + left. auto.
    + right. left. auto.
Qed.

(** Names that are known are looked up by some run, and bound by some run or in a
    from list of the module. *)
Theorem C73_known_partial : forall v optimized c im wr rd, as_compiled v optimized c ->
  extract_bytecode_info v c = Some (ROk (im, wr, rd)) ->
  (forall n, In n rd -> looks_up_global v optimized c n)
  /\ (forall n, In n wr -> binds_global v optimized c n \/ from_listed c n).
Proof.
  intros v optimized c im wr rd HC Hx. pose proof HC as (N & O & _ & L & _).
  destruct (C13_tree v c im wr rd N O Hx) as [W R]. split; intros n Hn.
  - apply R in Hn as (p & d & cls & P & F & i & x & Hi & [(Ho & -> & Ha)|(Ho & Ha)]).
    + assert (M : exists k, may v optimized c (Looks LOAD_NAME k n)); [|destruct M as (k & M); now exists LOAD_NAME, k].
      destruct p as [|e p].
      * eexists. eapply may_do; [exact P|exact Hi|]. now apply do_load_module.
      * eexists. eapply may_do; [exact P|exact Hi|]. cbn. unfold scope_of. destruct (optimized d) eqn:Eo.
        -- exfalso. destruct (L d x n) as [_ Q]; auto; [eapply descends_In; exact P|eapply nth_error_In; exact Hi].
        -- apply do_load_class; auto.
    + exists LOAD_GLOBAL. eexists. eapply may_do; [exact P|exact Hi|]. now apply do_load_global.
  - apply W in Hn as (p & d & fn & cls & P & F1 & F2 & i & x & Hi & H).
    assert (T : fn = false -> cls = false -> p = [] /\ d = c).
    { intros -> ->. destruct p as [|e p]; [inversion P; auto|].
      destruct (child_made v optimized c _ d HC P) as [Q|Q]; [discriminate|apply F1 in Q; discriminate|apply F2 in Q; discriminate]. }
    destruct H as [(Ho & Hf & Hc & Ha)|[(Ho & Hc & Ha)|(Ho & Hf & Hc & Hs & l & Hl & Hn)]].
    + destruct (T Hf Hc) as [-> ->]. left. exists STORE_NAME, SModule. eapply may_do; [exact P|exact Hi|]. now apply do_store_module.
    + left. exists STORE_GLOBAL. eexists. eapply may_do; [exact P|exact Hi|]. now apply do_store_global.
    + destruct (T Hf Hc) as [-> ->]. right. exists i, x, l. auto.
Qed.

(** ** In the graph *)

Lemma known_names E x c : code_object_of E x c -> exists im wr rd, extract_bytecode_info (e_ge311 E) c = Some (ROk (im, wr, rd)).
Proof. intros [sp fz src mk [[im wr] rd] _ _ _ H _ _]. eauto. Qed.

(** uses_dunder_import and uses_dunder_file of a module with code are true if a run
    of the code looks up the name outside of class bodies, and only if one looks it
    up at all; the global names that a run binds outside of class bodies are there. *)
Theorem C73_nodes_partial : forall E s0 s, order_ok E -> compiled_env E -> start s0 -> reach E s0 s ->
  forall x, gfind (s_graph s) (n_name x) = Some x -> ~ In (EvGiven (n_name x)) (s_log s) ->
  n_kind x = Module MSource \/ n_kind x = Module MBytecode ->
  exists c, code_object_of E x c /\ forall optimized, as_compiled (e_ge311 E) optimized c ->
    (forall o k n, may (e_ge311 E) optimized c (Binds o k n) -> class_scope k = false -> In n (n_written x))
    /\ forall ask name, In (ask, name) [(uses_dunder_import, "__import__"%string); (uses_dunder_file, "__file__"%string)] ->
       exists b, ask x = ROk b /\ (b = true -> looks_up_global (e_ge311 E) optimized c name)
       /\ (forall o k, may (e_ge311 E) optimized c (Looks o k name) -> o = LOAD_GLOBAL \/ o = LOAD_NAME /\ class_scope k = false -> b = true).
Proof.
  intros E s0 s HE HC H0 HR x Hx Hg Hk.
  assert (Hk' : code_kind x = Some MSource \/ code_kind x = Some MBytecode) by (unfold code_kind; destruct Hk as [-> | ->]; auto).
  assert (Hd : n_kind x <> Distribution) by (destruct Hk; congruence).
  destruct (C69_code_partial E s0 s HE HC H0 HR x Hx Hg Hd) as (R & W & K1 & K2 & K3).
  destruct K1 as [c K1|f ty K|[K|K|sp fz src code K _ _ _ _]].
  2: { exfalso. destruct Hk; congruence. }
  2, 3, 4: exfalso; destruct Hk'; solve [congruence|destruct K; congruence].
  exists c. split; [exact K1|]. intros optimized HO. destruct (known_names E x c K1) as (im & wr & rd & Hi).
  pose proof HO as (N & O & _). destruct (C13_tree (e_ge311 E) c im wr rd N O Hi) as [TW TR].
  destruct (C73_runs_partial _ _ _ _ _ _ HO Hi) as [A B]. destruct (C73_known_partial _ _ _ _ _ _ HO Hi) as [C _].
  assert (Q : forall n, In n (n_read x) <-> In n rd). { intros n. now rewrite K2, TR. }
  split.
  - intros o k n Hm Hc. apply K3. red. apply TW. eapply B; eassumption.
  - intros ask name Hin.
    assert (Hb : ask x = ROk (memb name (n_read x))).
    { unfold uses_dunder_import, uses_dunder_file in Hin. destruct Hin as [Hin|[Hin|[]]]; injection Hin as <- <-; destruct Hk as [-> | ->]; reflexivity. }
    exists (memb name (n_read x)). split; [exact Hb|]. rewrite !memb_In, !Q. split; [apply C|].
    intros o k Hm Ho. rewrite memb_In, Q. eapply A; eassumption.
Qed.

(** ** Examples *)
Open Scope string_scope.

(** A module:
    class C: global g; p = __file__; g = p
    def f(): return __import__
    from b import c as d *)
Definition run_cls : code := Code 1 ["__file__"; "p"; "g"] []
  [Ins LOAD_NAME (Some 0); Ins STORE_NAME (Some 1); Ins LOAD_NAME (Some 1); Ins STORE_GLOBAL (Some 2)].
Definition run_fun : code := Code 2 ["__import__"] [] [Ins LOAD_GLOBAL (Some 1)].
Definition run_hs : list chunk :=
  [ChClass 0 true 0; ChOther (Ins STORE_NAME (Some 0)); ChFunction 1 [] 0; ChOther (Ins STORE_NAME (Some 1));
   ChImport (IStmt (Some 2) 0 [] 3 None 2 None); ChOther (Ins (OTHER "IMPORT_FROM") (Some 3)); ChOther (Ins STORE_NAME (Some 4))].
Definition run_mod : code := Code 0 ["C"; "f"; "b"; "c"; "d"] [CCode run_cls; CCode run_fun; CInt 0; CTuple ["c"]] (flat_map (enc true) run_hs).
Definition run_opt (c : code) : bool := Nat.eqb (key c) 2.

Lemma run_pieces d : In d (all_codes run_mod) -> exists hs, co_ins d = flat_map (enc true) hs /\ Forall (chunk_ok true d) hs.
Proof.
  intros [<-|[<-|[<-|[]]]].
  - exists run_hs. split; [reflexivity|]. repeat (constructor; [cbn; try exact Logic.I; first
      [now eexists | exists "b", (Some ["c"]); now repeat split | eexists; eexists; split; reflexivity]|]). constructor.
  - exists (map ChOther (co_ins run_cls)). split; [reflexivity|]. repeat (constructor; [cbn; eexists; eexists; split; reflexivity|]). constructor.
  - exists (map ChOther (co_ins run_fun)). split; [reflexivity|]. repeat (constructor; [cbn; eexists; eexists; split; reflexivity|]). constructor.
Qed.
Lemma run_compiled : as_compiled true run_opt run_mod.
Proof.
  assert (O : forall d, In d (all_codes run_mod) -> operands_first true d).
  { intros d Hd. destruct (run_pieces d Hd) as (hs & A & B). eapply chunks_operands; eassumption. }
  assert (S0 : extract_single true run_mod false false = ROk (Found [IInfo (IName "b" None) 0 [IName "c" None] false false false false] ["C"; "f"; "c"; "d"] [] [2] [1])) by reflexivity.
  destruct (single_funcs _ _ _ _ _ S0 (O _ (or_introl eq_refl))) as [F C]. cbn in F, C.
  split; [cbn; repeat constructor; cbn; intuition discriminate|]. split; [exact O|]. split; [|split].
  - intros d e [<-|[<-|[<-|[]]]] He; cbn in He; try contradiction. destruct He as [<-|[<-|[]]]; [reflexivity|].
    intros K. apply C in K as [K|[]]. discriminate.
  - intros d x n [<-|[<-|[<-|[]]]] Ho; try discriminate. intros [<-|[]] _. split; discriminate.
  - intros d e [<-|[<-|[<-|[]]]] He; cbn in He; try contradiction. destruct He as [<-|[<-|[]]]; [right; apply C|left; apply F]; now left.
Qed.

Lemma run_descends : descends [run_cls] run_mod run_cls /\ descends [run_fun] run_mod run_fun.
Proof. split; (econstructor; [|constructor]); cbn; auto. Qed.

(** The class looks up __file__ and binds g, the function looks up __import__, and
    the module binds d. *)
Example C73_nonvacuous :
  as_compiled true run_opt run_mod
  /\ may true run_opt run_mod (Looks LOAD_NAME (SClass []) "__file__")
  /\ may true run_opt run_mod (Binds STORE_GLOBAL (SClass []) "g")
  /\ may true run_opt run_mod (Looks LOAD_GLOBAL SFunction "__import__")
  /\ may true run_opt run_mod (Binds STORE_NAME SModule "d")
  /\ ~ binds_global true run_opt run_mod "c" /\ from_listed run_mod "c"
  /\ option_map (fun r => match r with ROk (_, wr, rd) => (wr, rd) | RErr _ => ([], []) end) (extract_bytecode_info true run_mod)
     = Some (["C"; "f"; "c"; "d"], ["__import__"]).
Proof.
  destruct run_descends as [D1 D2].
  split; [exact run_compiled|]. split; [|split; [|split; [|split; [|split; [|split]]]]].
  - eapply (may_do true run_opt run_mod _ _ 0); [exact D1|reflexivity|]. apply do_load_class; [reflexivity|now exists 0|intros []].
  - eapply (may_do true run_opt run_mod _ _ 3); [exact D1|reflexivity|]. apply do_store_global; [reflexivity|now exists 2].
  - eapply (may_do true run_opt run_mod _ _ 0); [exact D2|reflexivity|]. apply do_load_global; [reflexivity|now exists 1].
  - eapply (may_do true run_opt run_mod _ _ 12); [constructor|reflexivity|]. apply do_store_module; [reflexivity|now exists 4].
  - intros (o & k & H). destruct (event_is _ _ _ _ H) as (d & k0 & i & x & k' & Hf & Hi & Hd); [discriminate|].
    assert (Hc : In d (all_codes run_mod)). { destruct (frame_path _ _ _ Hf) as (p & P & _). eapply descends_In; exact P. }
    assert (K : stores_ins d "c" x = true).
    { unfold stores_ins. inversion Hd; subst; match goal with A : names_arg _ _ _ |- _ => destruct A as (a & -> & ->) end;
        (match goal with A : i_op x = _ |- _ => rewrite A end); reflexivity. }
    apply nth_error_In in Hi. assert (X : existsb (stores_ins d "c") (co_ins d) = true) by (apply existsb_exists; eauto).
    destruct Hc as [<-|[<-|[<-|[]]]]; discriminate X.
  - exists 10, (Ins IMPORT_NAME (Some 2)), ["c"]. repeat split; [|now left|discriminate].
    exists 9, (Ins LOAD_CONST (Some 3)), 3. repeat split. now left.
  - reflexivity.
Qed.

Theorem C73_refuted : ~ C73_statement.
Proof.
  intros H. destruct (H true run_opt run_mod _ _ _ run_compiled eq_refl "__file__") as [[_ A] _].
  cbn in A. destruct A as [A|[]]; [|discriminate]. exists LOAD_NAME, (SClass []). apply C73_nonvacuous.
Qed.

(** In the graph: uses_dunder_file of the module is false. *)
Definition run_world : env := world [("m", ESpec (names_spec "m" run_mod)); ("b", ESource false [] ["c"])]
  [("m", [AOther []; AFunctionDef []; AImportFrom (Some "b") [("c", Some "d")] 0])] [].
Definition run_end : st := Eval vm_compute in snd (the_calls run_world [AAddModule "m"] new).
Definition run_node : node := match gfind (s_graph run_end) "m" with Some x => x | None => plain_node Script "" end.
Example C73_nodes_nonvacuous :
  order_ok run_world /\ compiled_env run_world /\ start new /\ reach run_world new run_end
  /\ gfind (s_graph run_end) "m" = Some run_node /\ n_name run_node = "m" /\ n_kind run_node = Module MSource
  /\ ~ In (EvGiven "m") (s_log run_end) /\ code_object_of run_world run_node run_mod
  /\ uses_dunder_import run_node = ROk true /\ uses_dunder_file run_node = ROk false
  /\ n_written run_node = ["C"; "f"; "c"; "d"].
Proof.
  split; [apply world_order|]. split; [|split; [now exists [], [], []|split; [apply (ran _ [AAddModule "m"]); vm_compute; reflexivity|]]].
  - apply world_compiled. intros n sp fz src c K Hl. cbn in K. destruct K as [K|[K|[]]]; [|discriminate].
    injection K as _ <-. injection Hl as _ _ <-. split; [apply run_compiled|exact run_pieces].
  - split; [reflexivity|]. split; [reflexivity|]. split; [reflexivity|]. split; [cbn; intuition discriminate|].
    split; [|repeat split; reflexivity].
    eapply (cb_module run_world run_node run_mod (names_spec "m" run_mod)); try reflexivity; [now exists 0, [], "m"|now right].
Qed.

Print Assumptions C73_runs_partial.
Print Assumptions C73_known_partial.
Print Assumptions C73_nodes_partial.
Print Assumptions C73_refuted.
