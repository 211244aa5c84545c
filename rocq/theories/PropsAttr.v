(** Theorems about the attributes of nodes: C69 and C70. *)
From Verif Require Import BuilderSource BuilderHist BuilderInv BuilderCalls World PropsBuilder PropsImports PropsBytecode PropsSource BuilderAttr.
Open Scope string_scope.

(** ** C70: attributes are those of the module *)

Lemma node_added E s0 s x : order_ok E -> start s0 -> reach E s0 s -> gfind (s_graph s) (n_name x) = Some x ->
  ~ In (EvGiven (n_name x)) (s_log s) -> n_kind x <> Distribution -> exists l y, In (EvAdd (n_name x) l) (s_log s) /\ added E y l /\ same_node y x.
Proof.
  intros HE H0 HR Hx Hg Hk. assert (Hb : built s (n_name x)) by (exists (n_kind x); unfold kind_of; rewrite Hx; auto).
  destruct (built_added E s0 s _ HE H0 HR Hb) as (l & A). exists l.
  destruct (at_made _ _ (attrs_reach E s0 s H0 HR) _ _ _ A Hx) as (y & Y1 & Y2). eauto.
Qed.

Theorem C70_attributes : forall E s0 s, order_ok E -> start s0 -> reach E s0 s ->
  forall x, gfind (s_graph s) (n_name x) = Some x -> ~ In (EvGiven (n_name x)) (s_log s) ->
    (n_kind x <> Distribution -> described E x)
    /\ (n_kind x = Distribution -> exists d, n_name x = dist_identifier d /\ n_dist x = Some d
          /\ n_file x = None /\ n_search x = [] /\ n_data x = false /\ n_read x = []).
Proof.
  intros E s0 s HE H0 HR x Hx Hg. split; intros Hk.
  - destruct (node_added E s0 s x HE H0 HR Hx Hg Hk) as (l & y & _ & A & B). eapply described_same; [exact B|]. eapply added_attrs; exact A.
  - destruct (at_dist _ _ (attrs_reach E s0 s H0 HR) _ _ Hx Hk) as [K|(d & (A & _ & B & C & D & F & G & _))]; [contradiction|].
    exists d. now rewrite A, B, C, D, F, G.
Qed.

(** A package of the old kind with its submodule, a builtin, an extension module, a
    namespace package and a script; everything belongs to a distribution.  The
    import of the package gives its search path. *)
Definition attr_dist : dist := Dist 0 "d-1" "D" "1" [] [].
Definition attr_base : env := world
  [("p", EText true "import pkgutil" [World.imp "sys"] ["__import__"] ["__path__"]);
   ("p.a", ESource false [World.from "p.b" ["*"] 0; World.imp "n.x"] ["f"]);
   ("p.b", ESource false [World.from "sys" ["argv"] 0] ["v"]);
   ("sys", ESpec (Spec "sys" LBuiltin (Some "built-in") None true (ROk false)));
   ("n", ENamespace); ("n.x", EExtension)]
  [("main.py", [World.imp "p.a"])] [].
Definition attr_world : env := Env
  (e_find_spec attr_base) (e_sysmod attr_base) (fun _ f => ROk (if seqb f "n.x.so" then None else Some attr_dist)) (e_dist_named attr_base)
  (e_parse attr_base) (e_script attr_base)
  (fun _ n => if seqb n "p" then ROk ["p"; "elsewhere/p"] else RErr EImport)
  (fun _ d => OnDisk (TDir (if seqb d "p" then [("a.py", TFile); ("logo.png", TFile)] else []))) (e_suffixes attr_base)
  (e_glob_py attr_base) (e_subdirs attr_base) (e_is_file attr_base) (e_read attr_base) (e_parent attr_base)
  (e_isidentifier attr_base) (e_names_order attr_base) (e_order attr_base) (e_ge311 attr_base).
Definition attr_end : st := Eval vm_compute in snd (the_calls attr_world [AAddScript "main.py"; AAddDist attr_dist] new).
Definition attr_node (n : string) : node :=
  match gfind (s_graph attr_end) n with Some x => x | None => plain_node Script "" end.
Example C70_nonvacuous :
  reach attr_world new attr_end
  /\ (forall n, In n ["main.py"; "p"; "p.a"; "sys"; "n"; "n.x"; "pkgutil"; "d-1"] ->
        gfind (s_graph attr_end) n = Some (attr_node n) /\ n_name (attr_node n) = n /\ ~ In (EvGiven n) (s_log attr_end))
  /\ n_kind (attr_node "p") = Package false "p" MSource (Some "p/__init__.py") (Some "pkgutil")
  /\ n_search (attr_node "p") = ["p"; "elsewhere/p"] /\ n_data (attr_node "p") = true /\ n_dist (attr_node "p") = Some attr_dist
  /\ n_kind (attr_node "sys") = Module MBuiltin /\ n_file (attr_node "sys") = None /\ n_dist (attr_node "sys") = None
  /\ n_kind (attr_node "n") = NamespacePackage /\ n_search (attr_node "n") = ["n"]
  /\ n_file (attr_node "n.x") = Some "n.x.so" /\ n_dist (attr_node "n.x") = None
  /\ n_kind (attr_node "d-1") = Distribution /\ n_dist (attr_node "d-1") = Some attr_dist.
Proof.
  split; [apply (ran _ [AAddScript "main.py"; AAddDist attr_dist]); vm_compute; reflexivity|]. split; [|repeat split; reflexivity].
  intros n Hn. assert (G : ~ In (EvGiven n) (s_log attr_end)) by (cbn; clear; intuition discriminate).
  cbn in Hn. repeat (destruct Hn as [<-|Hn]; [now repeat split|]). destruct Hn.
Qed.

(** ** C69: globals read and written *)

Lemma compiled_operands E sp fz src c : compiled_env E -> importable E sp -> sp_loader sp = LInspect fz src (ROk (Some c)) ->
  NoDup (map key (all_codes c)) /\ forall d, In d (all_codes c) -> operands_first (e_ge311 E) d.
Proof.
  intros HC Hi Hl. destruct (HC sp fz src c Hi Hl) as [A B]. split; [exact A|]. intros d Hd.
  destruct (B d Hd) as (hs & B1 & B2). eapply chunks_operands; eassumption.
Qed.
Lemma scanned_told E y : compiled_env E -> scanned E y -> exists R W, names_told E y R W
  /\ (forall n, In n (n_read y) <-> R n) /\ (forall n, In n (n_written y) <-> W n).
Proof.
  intros HC [c l Hc Hx|f ty H1 H2 H3|H1 H2 H3].
  - destruct Hc as [sp fz src mk info K1 K2 K3 K4 K5 K6]. destruct (compiled_operands E sp fz (ROk src) c HC K1 K3) as [A B].
    destruct (C13_tree (e_ge311 E) c _ _ _ A B Hx) as [W R].
    exists (code_reads (e_ge311 E) c), (code_writes (e_ge311 E) c). split; [apply nt_code; eapply cb_module; eassumption|]. split; [exact R|exact W].
  - exists (fun _ => False), (fun n => In n SIX_MOVES_GLOBALS). split; [now apply (nt_six E y f ty)|]. rewrite H2, H3. split; reflexivity.
  - exists (fun _ => False), (fun _ => False). split; [now apply nt_none|]. rewrite H2, H3. split; reflexivity.
Qed.
Lemma told_same E x y R W : same_node x y -> names_told E x R W -> names_told E y R W.
Proof.
  intros (A & B & _) H. assert (Ck : code_kind y = code_kind x) by (unfold code_kind; now rewrite B).
  destruct H as [c [sp fz src mk info K1 K2 K3 K4 K5 K6]|f ty K|[K|K|sp fz src code K1 K2 K3 K4 K5]].
  - apply nt_code. apply (cb_module E y c sp fz src mk info); congruence.
  - apply (nt_six E y f ty). congruence.
  - apply nt_none, nn_class. congruence.
  - apply nt_none, nn_binary. now rewrite Ck.
  - apply nt_none. apply (nn_invalid E y sp fz src code); congruence.
Qed.

(** What the code of a node reads is exact, what it writes is there. *)
Theorem C69_code_partial : forall E s0 s, order_ok E -> compiled_env E -> start s0 -> reach E s0 s ->
  forall x, gfind (s_graph s) (n_name x) = Some x -> ~ In (EvGiven (n_name x)) (s_log s) -> n_kind x <> Distribution ->
  exists R W, names_told E x R W /\ (forall n, In n (n_read x) <-> R n) /\ forall n, W n -> In n (n_written x).
Proof.
  intros E s0 s HE HC H0 HR x Hx Hg Hk. destruct (node_added E s0 s x HE H0 HR Hx Hg Hk) as (l & y & _ & A & B).
  destruct (added_attrs E y l A) as [_ Sc]. destruct (scanned_told E y HC Sc) as (R & W & K1 & K2 & K3).
  exists R, W. split; [eapply told_same; eassumption|]. destruct B as (_ & _ & B1 & _ & _ & _ & _ & B2). split.
  - now rewrite B1.
  - intros n Hn. apply B2. now apply K3.
Qed.

(** Other names come from import statements. *)
Lemma held_global E s id n : compiled_env E -> legit s -> held E s id n -> global_of E s id n.
Proof.
  intros HC HL H. induction H as [id l y x n A B C D F|id n A|id m i n A B C|id m i z n A B C D _ IH].
  - destruct (added_attrs E y l B) as [_ Sc]. destruct (scanned_told E y HC Sc) as (R & W & K1 & _ & K3).
    pose proof (gfind_name _ _ _ C) as <-. eapply (go_code E s x R W); [exact C|eapply told_same; eassumption|now apply K3].
  - now apply go_given.
  - destruct (HL _ _ A (or_introl eq_refl)) as (K1 & _ & K2 & _). eapply go_list; eassumption.
  - destruct (HL _ _ A (or_introl eq_refl)) as (K1 & _ & K2 & _). eapply go_star; eassumption.
Qed.
Theorem C69_reasons_partial : forall E s0 s, order_ok E -> compiled_env E -> start s0 -> reach E s0 s ->
  forall x n, gfind (s_graph s) (n_name x) = Some x -> In n (n_written x) -> global_of E s (n_name x) n.
Proof.
  intros E s0 s HE HC H0 HR x n Hx Hn. apply held_global; [exact HC|exact (f_legit _ (reach_facts E s0 s HE H0 HR))|].
  exact (at_names _ _ (attrs_reach E s0 s H0 HR) _ _ _ Hx Hn).
Qed.

(** Without hooks: import statements in the code. *)
Lemma plain_told E implies fine s x : order_ok E -> set_order (e_names_order E) -> compiled_env E -> plain_history E implies fine s ->
  gfind (s_graph s) (n_name x) = Some x -> exists T, told_by E x T /\
  forall i, scheduled s (n_name x) i -> exists fn opt w, T fn opt w /\ recorded fn opt w i.
Proof.
  intros HE HO HC HH Hx.
  destruct (plain_is_user _ _ _ _ HH) as (first & HU). set (s0 := init first [] []) in HU. assert (H0 : start s0) by (now exists first, [], []).
  pose proof (user_is_reach _ _ _ HU) as HR.
  pose proof (plain_holds _ _ _ _ HH) as P. pose proof (sourced_reach E s0 s H0 HR) as (_ & So & Un).
  assert (Sch : forall i, scheduled s (n_name x) i -> exists l, In (EvAdd (n_name x) l) (s_log s) /\ In i l).
  { intros i (l & A & B). destruct (sched_from E s0 s _ _ HE H0 HR A) as [K|K]; [eauto|]. now apply (pl_asked _ _ _ P) in K. }
  assert (Hk : n_kind x = Distribution \/ n_kind x <> Distribution) by (destruct (n_kind x); auto; right; discriminate).
  destruct Hk as [Hk|Hk].
  - exists (fun _ _ _ => False). split; [now apply no_text_dist|]. intros i Hi. destruct (Sch i Hi) as (l & A & B). exfalso.
    assert (Hc : code_kind x = None) by (unfold code_kind; now rewrite Hk).
    destruct (So _ _ _ A Hx) as [tree [t K _|sp fz text code file t mk _ _ _ _ _ _ K _] _|c wr rd [sp fz src mk _ _ _ K _] _|_ ->]; try congruence.
    destruct B.
  - assert (Hb : built s (n_name x)).
    { exists (n_kind x). unfold kind_of. rewrite Hx. split; [reflexivity|]. split; [exact Hk|]. intros K. now apply (pl_asked _ _ _ P) in K. }
    destruct (built_added E s0 s _ HE H0 HR Hb) as (l & A).
    destruct (added_covers E s0 s x l HO HC H0 HR Hx A) as (T & HT & Hc). exists T. split; [exact HT|].
    intros i Hi. destruct (Sch i Hi) as (l' & A' & B). assert (l' = l) as -> by (eapply Un; eassumption). now apply (proj2 Hc).
Qed.

Lemma recorded_star fn opt w i : recorded fn opt w i -> ii_star i = true -> In "*" (map fst (w_names w)).
Proof.
  intros (Hw & _) Hs. destruct w as [n a|m names lv]; cbn in Hw.
  - destruct Hw as (_ & _ & _ & K). congruence.
  - destruct Hw as (_ & _ & _ & _ & K & _). now apply K.
Qed.

Theorem C69_plain_partial : forall E implies fine s,
  order_ok E -> set_order (e_names_order E) -> compiled_env E -> plain_history E implies fine s ->
  forall x n, gfind (s_graph s) (n_name x) = Some x -> In n (n_written x) -> global_in E (s_graph s) (n_name x) n.
Proof.
  intros E implies fine s HE HO HC HH x n Hx Hn.
  destruct (plain_is_user _ _ _ _ HH) as (first & HU). set (s0 := init first [] []) in HU. assert (H0 : start s0) by (now exists first, [], []).
  pose proof (user_is_reach _ _ _ HU) as HR.
  pose proof (plain_holds _ _ _ _ HH) as P.
  assert (R : forall name m, resolves s name m -> m = name) by (intros name m; apply (reach_resolves E s0 s name m HE H0 HR (pl_missing _ _ _ P))).
  pose proof (C69_reasons_partial E s0 s HE HC H0 HR x n Hx Hn) as G. clear Hn. remember (n_name x) as id eqn:Eid. revert x Hx Eid.
  induction G as [x0 R0 W0 n A B C|id i m n A B C D|id i m z n A B C D F _ IH|id n A]; intros x Hx ->.
  - rewrite Hx in A. injection A as <-. eapply gi_code; eassumption.
  - destruct (plain_told E implies fine s x HE HO HC HH Hx) as (T & HT & K). destruct (K i A) as (fn & opt & w & Hw & Hrec).
    apply in_map_iff in D as (nm & <- & D). destruct (recorded_nm fn opt w i nm Hrec D) as [N1 N2].
    eapply gi_list; try eassumption. apply in_map_iff. now exists (in_name nm, in_asname nm).
  - destruct (plain_told E implies fine s x HE HO HC HH Hx) as (T & HT & K). destruct (K i A) as (fn & opt & w & Hw & Hrec).
    eapply (gi_star E (s_graph s) x T fn opt w m z n); try eassumption.
    + eapply recorded_star; eassumption.
    + destruct B as (b' & name & B1 & B2 & B3). apply R in B3 as ->. apply (own_pkg_unique s x b' Hx) in B1 as ->.
      now apply (recorded_names s x fn opt w i name Hrec Hx).
    + pose proof (gfind_name _ _ _ D) as Hm. apply (IH z); [exact D|now symmetry].
  - now apply (pl_asked _ _ _ P) in A.
Qed.

(** Names bound by the code of a module are there, unless they are bound by a
    global statement in the body of a class. *)
Definition class_global (v : bool) (c : code) (n : string) : Prop := exists p d i x,
  descends p c d /\ is_class_body v p c d /\ nth_error (co_ins d) i = Some x /\ i_op x = STORE_GLOBAL /\ names_arg d x n.
Lemma stores_writes v c l wr rd n : NoDup (map key (all_codes c)) -> (forall d, In d (all_codes c) -> operands_first v d) ->
  extract_bytecode_info v c = Some (ROk (l, wr, rd)) -> code_stores v c n -> code_writes v c n \/ class_global v c n.
Proof.
  intros A B H (p & d & i & x & Hd & Hi & Hn & Ho). destruct (C11_function_context v c l wr rd A B H) as [C _].
  destruct (C p d Hd) as (fn & cls & g & F1 & F2 & _). destruct Ho as [(Ho & N1 & N2)|Ho].
  - left. exists p, d, fn, cls. split; [exact Hd|]. split; [exact F1|]. split; [exact F2|]. exists i, x. split; [exact Hi|]. left.
    repeat split; auto; [destruct fn|destruct cls]; auto; exfalso; [apply N1, F1|apply N2, F2]; reflexivity.
  - destruct cls; [right; exists p, d, i, x; repeat split; auto; now apply F2|left].
    exists p, d, fn, false. split; [exact Hd|]. split; [exact F1|]. split; [exact F2|]. exists i, x. split; [exact Hi|]. right. left. auto.
Qed.
Theorem C69_stores_partial : forall E s0 s, order_ok E -> compiled_env E -> start s0 -> reach E s0 s ->
  forall x, gfind (s_graph s) (n_name x) = Some x -> ~ In (EvGiven (n_name x)) (s_log s) ->
  code_kind x = Some MSource \/ code_kind x = Some MBytecode ->
  exists c, code_object_of E x c /\ (forall n, In n (n_read x) <-> code_reads (e_ge311 E) c n)
    /\ forall n, code_stores (e_ge311 E) c n -> ~ class_global (e_ge311 E) c n -> In n (n_written x).
Proof.
  intros E s0 s HE HC H0 HR x Hx Hg Hk.
  assert (Hd : n_kind x <> Distribution) by (intros K; unfold code_kind in Hk; rewrite K in Hk; destruct Hk; discriminate).
  destruct (C69_code_partial E s0 s HE HC H0 HR x Hx Hg Hd) as (R & W & K1 & K2 & K3).
  destruct K1 as [c K1|f ty K|[K|K|sp fz src code K _ _ _ _]].
  - exists c. split; [exact K1|]. split; [exact K2|]. intros n Hn Hc. apply K3.
    destruct K1 as [sp fz src mk [[l wr] rd] A1 A2 A3 A4 A5 A6]. destruct (compiled_operands E sp fz (ROk src) c HC A1 A3) as [B1 B2].
    destruct (stores_writes _ _ _ _ _ n B1 B2 A4 Hn); [assumption|contradiction].
  - exfalso. unfold code_kind in Hk. rewrite K in Hk. destruct Hk; discriminate.
  - exfalso. destruct Hk; congruence.
  - exfalso. destruct Hk, K; congruence.
  - exfalso. destruct Hk; congruence.
Qed.

(** The full claim: the sets are those of the code of modules and of scripts. *)
Definition names_exact (E : env) (x : node) (c : code) : Prop := forall n,
  (In n (n_read x) <-> code_reads (e_ge311 E) c n) /\ (In n (n_written x) <-> code_stores (e_ge311 E) c n).
Definition C69_statement : Prop := forall E script_code implies fine s,
  order_ok E -> set_order (e_names_order E) -> compiled_env E ->
  (forall path, compiled (e_ge311 E) (script_code path)) -> plain_history E implies fine s ->
  forall x, gfind (s_graph s) (n_name x) = Some x ->
    (forall c, code_object_of E x c -> names_exact E x c) /\ (n_kind x = Script -> names_exact E x (script_code (n_name x))).

(** A script [print(x)], whose names nobody looks at. *)
Definition script_world : env := world [] [("main.py", [])] [].
Definition script_end : st := Eval vm_compute in snd (the_calls script_world [AAddScript "main.py"] new).
Definition script_node : node := Node "main.py" Script [] [] None (Some "main.py") [] false.
Lemma script_history : plain_history script_world [] True script_end.
Proof. eapply (ph_call _ _ _ (init [] [] []) 60 (AAddScript "main.py")); [apply ph_init, incl_refl|exact Logic.I|vm_compute; reflexivity|discriminate]. Qed.
Theorem C69_refuted : ~ C69_statement.
Proof.
  intros H. destruct (H script_world (fun _ => code_of ["print"; "x"] []) [] True script_end (world_order _ _ _) (fun l => Permutation_refl l)) with (x := script_node) as [_ K].
  - apply world_compiled. intros n sp fz src c [].
  - intros path. apply code_of_compiled.
  - exact script_history.
  - reflexivity.
  - destruct (K eq_refl "print") as [[_ R] _]. cbn [n_read script_node] in R. apply R.
    exists [], (code_of ["print"; "x"] []), false. split; [constructor|]. split; [split; [discriminate|intros C; inversion C]|].
    exists 0, (Ins LOAD_NAME (Some 0)). split; [reflexivity|]. left. repeat split. now exists 0.
Qed.

(** Names that are not bound: [from b import c as d], and an import in a function. *)
Definition names_a : code := Code 0 ["b"; "c"; "d"] [CInt 0; CTuple ["c"]]
  (enc_import (IStmt (Some 0) 0 [] 1 None 0 None) ++ [Ins (OTHER "IMPORT_FROM") (Some 1); Ins STORE_NAME (Some 2)]).
Definition names_f : code := Code 1 ["b"; "e"] [CInt 0; CTuple ["e"]]
  (enc_import (IStmt (Some 0) 0 [] 1 None 0 None) ++ [Ins (OTHER "IMPORT_FROM") (Some 1); Ins (OTHER "STORE_FAST") (Some 0)]).
Definition names_g : code := Code 2 ["f"] [CCode names_f] (enc true (ChFunction 0 [] 0) ++ [Ins STORE_NAME (Some 0)]).
Definition names_spec (n : string) (c : code) : spec :=
  Spec n (LInspect false (ROk (Some n)) (ROk (Some c))) (Some (n ++ ".py")) None true (ROk false).
Definition names_world : env := world
  [("a", ESpec (names_spec "a" names_a)); ("g", ESpec (names_spec "g" names_g)); ("b", ESource false [] ["c"; "e"])]
  [("a", [AImportFrom (Some "b") [("c", Some "d")] 0]); ("g", [AFunctionDef [AImportFrom (Some "b") [("e", None)] 0]])] [].
Definition names_end : st := Eval vm_compute in snd (the_calls names_world [AAddModule "a"; AAddModule "g"] new).
Definition names_node (n : string) : node :=
  match gfind (s_graph names_end) n with Some x => x | None => plain_node Script "" end.
Lemma names_compiled : compiled_env names_world.
Proof.
  assert (A : Forall (chunk_ok true names_a) [ChImport (IStmt (Some 0) 0 [] 1 None 0 None); ChOther (Ins (OTHER "IMPORT_FROM") (Some 1)); ChOther (Ins STORE_NAME (Some 2))]).
  { constructor; [exists "b", (Some ["c"]); now repeat split|]. constructor; [exact Logic.I|]. constructor; [|constructor]. cbn. now exists "d", 2. }
  assert (F : Forall (chunk_ok true names_f) [ChImport (IStmt (Some 0) 0 [] 1 None 0 None); ChOther (Ins (OTHER "IMPORT_FROM") (Some 1)); ChOther (Ins (OTHER "STORE_FAST") (Some 0))]).
  { constructor; [exists "b", (Some ["e"]); now repeat split|]. repeat constructor. }
  assert (G : Forall (chunk_ok true names_g) [ChFunction 0 [] 0; ChOther (Ins STORE_NAME (Some 0))]).
  { constructor; [now eexists|]. constructor; [|constructor]. cbn. now exists "f", 0. }
  apply world_compiled. intros n sp fz src c K Hl. cbn in K. destruct K as [K|[K|[K|[]]]]; [| |discriminate].
  - injection K as _ <-. injection Hl as _ _ <-. split; [cbn; repeat constructor; intros []|].
    intros d [<-|[]]. eexists. split; [|exact A]. reflexivity.
  - injection K as _ <-. injection Hl as _ _ <-. split; [cbn; repeat constructor; cbn; intuition discriminate|].
    intros d [<-|[<-|[]]]; eexists; (split; [|eassumption]); reflexivity.
Qed.
Lemma names_history : plain_history names_world [] True names_end.
Proof.
  eapply (ph_call _ _ _ (snd (the_calls names_world [AAddModule "a"] new)) 60 (AAddModule "g"));
    [eapply (ph_call _ _ _ (init [] [] []) 60 (AAddModule "a")); [apply ph_init, incl_refl|exact Logic.I|vm_compute; reflexivity|discriminate]|exact Logic.I|vm_compute; reflexivity|discriminate].
Qed.
(** Instructions that store the name [n]. *)
Definition stores_ins (d : code) (n : string) (x : instr) : bool :=
  match i_op x with
  | STORE_NAME | STORE_GLOBAL =>
      match i_arg x with Some a => match nth_error (co_names d) a with Some m => seqb m n | None => false end | None => false end
  | _ => false
  end.
Lemma few_stores c n : (forall p d, descends p c d -> existsb (stores_ins d n) (co_ins d) = false) -> ~ code_stores true c n.
Proof.
  intros H (p & d & i & x & A & B & (a & C1 & C2) & D). assert (K : existsb (stores_ins d n) (co_ins d) = true).
  { apply existsb_exists. exists x. split; [now apply nth_error_In in B|]. unfold stores_ins, seqb. rewrite C1, C2, String.eqb_refl.
    destruct D as [(D & _)|D]; now rewrite D. }
  rewrite (H p d A) in K. discriminate.
Qed.
Theorem C69_not_bound : compiled_env names_world /\ plain_history names_world [] True names_end
  /\ gfind (s_graph names_end) "a" = Some (names_node "a") /\ code_object_of names_world (names_node "a") names_a
  /\ In "c" (n_written (names_node "a")) /\ ~ code_stores true names_a "c"
  /\ gfind (s_graph names_end) "g" = Some (names_node "g") /\ code_object_of names_world (names_node "g") names_g
  /\ In "e" (n_written (names_node "g")) /\ ~ code_stores true names_g "e".
Proof.
  split; [exact names_compiled|]. split; [exact names_history|]. split; [reflexivity|]. split.
  { eapply (cb_module names_world (names_node "a") names_a (names_spec "a" names_a)); try reflexivity; [now exists 0, [], "a"|now right]. }
  split; [vm_compute; tauto|]. split.
  { apply few_stores. intros p d Hd. inversion Hd as [|? e ? ? He]; subst; [reflexivity|destruct He]. }
  split; [reflexivity|]. split.
  { eapply (cb_module names_world (names_node "g") names_g (names_spec "g" names_g)); try reflexivity; [now exists 0, [], "g"|now right]. }
  split; [vm_compute; tauto|].
  apply few_stores. intros p d Hd. inversion Hd as [|? e ? ? He Hd']; subst; [reflexivity|].
  destruct He as [<-|[]]. inversion Hd' as [|? e ? ? He]; subst; [reflexivity|destruct He].
Qed.

(** The world of C70: [p.a] gets [v] and [argv] from [p.b]. *)
Lemma attr_compiled : compiled_env attr_world.
Proof. apply (world_compiled _ [("main.py", [World.imp "p.a"])] []). intros n sp fz src c K Hl. cbn in K.
  repeat (destruct K as [K|K]; [try discriminate K; injection K as _ <-; discriminate Hl|]). destruct K.
Qed.
Lemma attr_history : plain_history attr_world [] True attr_end.
Proof.
  eapply (ph_call _ _ _ (snd (the_calls attr_world [AAddScript "main.py"] new)) 60 (AAddDist attr_dist));
    [eapply (ph_call _ _ _ (init [] [] []) 60 (AAddScript "main.py")); [apply ph_init, incl_refl|exact Logic.I|vm_compute; reflexivity|discriminate]|exact Logic.I|vm_compute; reflexivity|discriminate].
Qed.
Example C69_nonvacuous :
  compiled_env attr_world /\ plain_history attr_world [] True attr_end
  /\ gfind (s_graph attr_end) "p.a" = Some (attr_node "p.a") /\ code_kind (attr_node "p.a") = Some MSource
  /\ ~ In (EvGiven "p.a") (s_log attr_end)
  /\ n_written (attr_node "p.a") = ["f"; "v"; "argv"] /\ global_in attr_world (s_graph attr_end) "p.a" "argv"
  /\ n_read (attr_node "p") = ["__import__"].
Proof.
  split; [exact attr_compiled|]. split; [exact attr_history|]. split; [reflexivity|]. split; [reflexivity|].
  split; [cbn; clear; intuition discriminate|]. split; [reflexivity|]. split; [|reflexivity].
  apply (C69_plain_partial attr_world [] True attr_end (world_order [] [] []) (fun l => Permutation_refl l) attr_compiled attr_history (attr_node "p.a"));
    [reflexivity|vm_compute; tauto].
Qed.

Print Assumptions C69_refuted.
Print Assumptions C69_not_bound.
Print Assumptions C69_code_partial.
Print Assumptions C69_stores_partial.
Print Assumptions C69_reasons_partial.
Print Assumptions C69_plain_partial.
Print Assumptions C70_attributes.
