(** Theorem about [node_for_spec]: C43. *)
From Verif Require Import AstSpec AstProofs BuilderKinds World.
Open Scope string_scope.

(** One of the three sources of information reports a SyntaxError. *)
Inductive bad_syntax (E : env) (sp : spec) : Prop :=
| bad_get_source f gc : sp_loader sp = LInspect f (RErr ESyntax) gc -> bad_syntax E sp
| bad_compile f text gc file t : sp_loader sp = LInspect f (ROk (Some text)) gc -> sp_origin sp = Some file ->
    e_parse E t file text = RErr ESyntax -> bad_syntax E sp
| bad_get_code f gs : sp_loader sp = LInspect f gs (RErr ESyntax) -> bad_syntax E sp.

(** The class of a module (or of the [__init__] of a package), by loader and source. *)
Inductive module_class (E : env) (sp : spec) : mkind -> Prop :=
| mc_builtin : sp_loader sp = LBuiltin -> module_class E sp MBuiltin
| mc_extension : sp_loader sp = LExtension -> module_class E sp MExtension
| mc_invalid : bad_syntax E sp -> module_class E sp MInvalid
| mc_frozen source c : sp_loader sp = LInspect true (ROk source) (ROk (Some c)) -> module_class E sp MFrozen
| mc_source text c : sp_loader sp = LInspect false (ROk (Some text)) (ROk (Some c)) -> module_class E sp MSource
| mc_bytecode c : sp_loader sp = LInspect false (ROk None) (ROk (Some c)) -> module_class E sp MBytecode.

(** Loaders that stand for another module. *)
Definition moves (l : loader) : bool := match l with LSix | LVendor _ | LDistutils => true | _ => false end.
Definition is_frozen (l : loader) : bool := match l with LInspect true _ _ => true | _ => false end.

Inductive node_class (E : env) (sp : spec) : kind -> Prop :=
| nc_namespace : sp_loader sp = LNone \/ sp_loader sp = LNamespace -> node_class E sp NamespacePackage
| nc_module k : module_class E sp k -> sp_ispkg sp = ROk false \/ (exists f gc, sp_loader sp = LInspect f (RErr ESyntax) gc) ->
    node_class E sp (Module k)
| nc_package k file ns : module_class E sp k -> sp_ispkg sp = ROk true ->
    node_class E sp (Package (is_frozen (sp_loader sp)) (sp_name sp) k file ns)
| nc_six : sp_loader sp = LSix -> ends_with ".moves" (sp_name sp) = true ->
    node_class E sp (Package false "@@SIX_MOVES@@" MFrozen None None)
| nc_gone : moves (sp_loader sp) = true -> node_class E sp MissingModule
| nc_moved t fakes name sp' k : moves (sp_loader sp) = true -> e_find_spec E t fakes name = ROk (Some sp') ->
    sp_name sp' <> sp_name sp -> node_class E sp' k -> node_class E sp k.

(** ** The class of the node *)

Lemma bind_ok {A B} (m : M A) (f : A -> M B) s b s' : bind m f s = Some (ROk b, s') ->
  exists a s1, m s = Some (ROk a, s1) /\ f a s1 = Some (ROk b, s').
Proof. unfold bind. intros H. destruct (m s) as [[[a|e] s1]|]; try discriminate. now exists a, s1. Qed.

Lemma not_syntax_or {A} (o : option A) e : e <> ESyntax -> or_err o e <> RErr ESyntax.
Proof. intros H. destruct o; cbn; congruence. Qed.
Lemma not_syntax_bind {A B} (r : result A) (f : A -> result B) :
  r <> RErr ESyntax -> (forall a, f a <> RErr ESyntax) -> rbind r f <> RErr ESyntax.
Proof. intros H K. destruct r; cbn; [apply K|congruence]. Qed.
Ltac ns := repeat first
  [ match goal with |- rbind _ _ <> _ => apply not_syntax_bind; [|intros ?] end
  | apply not_syntax_or; discriminate
  | progress unfold name_arg, global_arg, op_back
  | match goal with
    | |- (if ?b then _ else _) <> _ => destruct b
    | |- (let '(_, _) := ?x in _) <> _ => destruct x
    | |- match ?x with _ => _ end <> _ => destruct x
    end
  | discriminate ].
Lemma code_no_syntax b c : extract_bytecode_info b c <> Some (RErr ESyntax).
Proof.
  unfold extract_bytecode_info. destruct (all_code_objects c) as [l|]; [|discriminate].
  assert (X : forall l acc, info_loop b l acc <> RErr ESyntax).
  { clear. induction l as [|[cur ps] l IH]; intros acc; cbn [info_loop]; [discriminate|]. destruct acc as [im wr rd fs cs].
    apply not_syntax_bind.
    - unfold extract_single. generalize (is_code_for_function cur ps fs), (nmemb (key cur) cs), 0, found0. generalize (co_ins cur).
      induction l0 as [|i rest IHr]; intros b1 b2 k acc; cbn [single_loop]; [discriminate|].
      apply not_syntax_bind; [|intros; apply IHr]. unfold single_step. destruct acc, (i_op i); try discriminate; ns.
      + unfold decode_import. ns.
      + unfold decode_function. ns.
    - intros [im' wr' rd' fs' cs']. apply IH. }
  specialize (X l found0). destruct (info_loop b l found0); [discriminate|congruence].
Qed.

Lemma wrap_class E sp frozen source mk n imports s n' l s' :
  wrap_package E sp frozen source mk n imports s = Some (ROk (n', l), s') -> n_kind n = Module mk -> n_name n = sp_name sp ->
  n_name n' = sp_name sp /\
  ((sp_ispkg sp = ROk false /\ n_kind n' = Module mk) \/
   (sp_ispkg sp = ROk true /\ exists file ns, n_kind n' = Package frozen (sp_name sp) mk file ns)).
Proof.
  unfold wrap_package. intros H Hk Hn. apply bind_ok in H as (p & s1 & H1 & H). injection H1 as H1 ->. destruct p; cbn [negb] in H.
  2:{ injection H as <- <- <-. auto. }
  apply bind_ok in H as (search & s2 & _ & H). destruct search; [|discriminate].
  apply bind_ok in H as (d & s3 & _ & H). injection H as <- <- <-. cbn [n_name n_kind]. rewrite Hn. split; [reflexivity|].
  right. split; [exact H1|]. eauto.
Qed.

Lemma nfs_class E rec :
  (forall sp s n l s', rec sp s = Some (ROk (n, l), s') -> node_class E sp (n_kind n)) ->
  forall sp s n l s', nfs_body E rec sp s = Some (ROk (n, l), s') -> node_class E sp (n_kind n).
Proof.
  intros Hrec sp s n l s' H.
  assert (Moved : forall nm m s0 s1 s2 n l s', moves (sp_loader sp) = true -> find_spec E nm s0 = Some (ROk (Some m), s1) ->
    (do assert (negb (seqb (sp_name sp) (sp_name m))) ;; rec m) s2 = Some (ROk (n, l), s') -> node_class E sp (n_kind n)).
  { intros nm m t0 t1 t2 n' l' t' Mv Hf H'. apply bind_ok in H' as (u & t3 & Ha & H').
    unfold assert in Ha. destruct (seqb (sp_name sp) (sp_name m)) eqn:Es; [discriminate|]. injection Ha as <- <-.
    injection Hf as Hf _. eapply nc_moved; [exact Mv|exact Hf| |eapply Hrec; exact H'].
    intros Q. rewrite Q in Es. assert (seqb (sp_name sp) (sp_name sp) = true) by now apply seqb_eq. congruence. }
  unfold nfs_body in H. destruct (sp_loader sp) as [| | | |frozen gs gc| |[[root vendor]|]| |] eqn:El.
  - destruct (sp_search sp); [|discriminate]. injection H as <- <- <-. apply nc_namespace. now left.
  - destruct (sp_search sp); [|discriminate]. injection H as <- <- <-. apply nc_namespace. now right.
  - apply wrap_class in H as (_ & [[H1 H2]|[H1 (file & nst & H2)]]); [| |reflexivity|reflexivity]; rewrite H2.
    + apply nc_module; [now apply mc_builtin|now left].
    + pose proof (nc_package E sp MBuiltin file nst) as K. rewrite El in K. apply K; [now apply mc_builtin|exact H1].
  - apply bind_ok in H as (d & s1 & _ & H).
    apply wrap_class in H as (_ & [[H1 H2]|[H1 (file & nst & H2)]]); [| |reflexivity|reflexivity]; rewrite H2.
    + apply nc_module; [now apply mc_extension|now left].
    + pose proof (nc_package E sp MExtension file nst) as K. rewrite El in K. apply K; [now apply mc_extension|exact H1].
  - destruct gs as [source|e].
    2:{ destruct e; try discriminate. apply bind_ok in H as (d & s1 & _ & H). injection H as <- <- <-.
        apply nc_module; [eapply mc_invalid, bad_get_source; exact El|]. right. eauto. }
    apply bind_ok in H as (si & s1 & Hsi & H). apply bind_ok in H as (ci & s2 & Hci & H). apply bind_ok in H as (d & s3 & _ & H).
    set (mk := match si with inl _ => MInvalid | inr _ => _ end) in H.
    destruct (match ci with Some x => x | None => ([], [], []) end) as [[bi wr] rd].
    assert (C : module_class E sp mk).
    { unfold mk. destruct si as [[]|si].
      - apply mc_invalid. unfold source_imports in Hsi. destruct source as [text|]; [|discriminate].
        destruct (sp_origin sp) as [file|] eqn:Eo; [|discriminate]. apply bind_ok in Hsi as (r & s4 & Hr & Hsi).
        unfold attempt, askr in Hr. injection Hr as Hr _. destruct r as [t|e].
        + destruct (extract_ast_info (e_names_order E) t); discriminate.
        + destruct e; try discriminate. eapply bad_compile; [exact El|exact Eo|exact Hr].
      - destruct ci as [x|].
        + assert (K : exists c, gc = ROk (Some c)).
          { destruct gc as [[c|]|e]; [now exists c|discriminate|destruct e; discriminate]. }
          destruct K as (c & ->). destruct frozen; [eapply mc_frozen; exact El|].
          destruct source; [eapply mc_source; exact El|eapply mc_bytecode; exact El].
        + apply mc_invalid. eapply bad_get_code. rewrite El. f_equal. unfold code_info in Hci.
          destruct gc as [[c|]|e]; [|discriminate|destruct e; try discriminate; reflexivity].
          pose proof (code_no_syntax (e_ge311 E) c) as N. destruct (extract_bytecode_info (e_ge311 E) c) as [[x|e]|]; try discriminate.
          destruct e; try discriminate. now elim N. }
    apply wrap_class in H as (_ & [[H1 H2]|[H1 (file & nst & H2)]]); [| |reflexivity|reflexivity]; rewrite H2.
    + apply nc_module; [exact C|now left].
    + pose proof (nc_package E sp mk file nst C H1) as K. rewrite El in K. cbn [is_frozen] in K. destruct frozen; exact K.
  - unfold six_spec in H. destruct (ends_with ".moves" (sp_name sp)) eqn:Em.
    { apply bind_ok in H as (d & s1 & _ & H). injection H as <- <- <-. now apply nc_six. }
    destruct (assoc _ SIX_MOVES_TO) as [actual|].
    2:{ injection H as <- <- <-. apply nc_gone. now rewrite El. }
    apply bind_ok in H as (m1 & s1 & Hm & H). destruct m1 as [moved|].
    2:{ injection H as <- <- <-. apply nc_gone. now rewrite El. }
    apply bind_ok in H as (m2 & s2 & Hm2 & H). destruct m2 as [moved2|].
    2:{ injection H as <- <- <-. apply nc_gone. now rewrite El. }
    destruct (seqb (sp_name moved) (sp_name sp)).
    + apply bind_ok in Hm2 as (u & s3 & _ & Hm2). eapply Moved; [reflexivity|exact Hm2|exact H].
    + injection Hm2 as <- <-. eapply Moved; [reflexivity|exact Hm|exact H].
  - unfold vendor_spec in H. set (full := (vendor ++ _)%string) in H. apply bind_ok in H as (r & s1 & Hr & H).
    apply bind_ok in H as (m2 & s2 & Hm & H). destruct m2 as [moved|].
    2:{ injection H as <- <- <-. apply nc_gone. now rewrite El. }
    destruct r as [x|e].
    + injection Hm as -> <-. unfold attempt in Hr.
      destruct (bind _ _ s) as [[x s3]|] eqn:Eb; [|discriminate]. injection Hr as -> <-.
      apply bind_ok in Eb as (m & s4 & Hf & Eb). destruct m as [m|]; [|discriminate].
      destruct (seqb (sp_name m) (sp_name sp)).
      * apply bind_ok in Eb as (u & s5 & _ & Eb). eapply Moved; [reflexivity|exact Eb|exact H].
      * injection Eb as <- <-. eapply Moved; [reflexivity|exact Hf|exact H].
    + destruct e; try discriminate. eapply Moved; [reflexivity|exact Hm|exact H].
  - discriminate.
  - unfold distutils_spec in H. apply bind_ok in H as (u & s1 & _ & H). apply bind_ok in H as (u2 & s2 & _ & H).
    apply bind_ok in H as (m & s3 & Hm & H). destruct m as [moved|].
    2:{ injection H as <- <- <-. apply nc_gone. now rewrite El. }
    eapply Moved; [reflexivity|exact Hm|exact H].
  - discriminate.
Qed.

(** The class of the node is that of the table above. *)
Theorem C43_class : forall E k sp s n l s',
  f_nfs (exec E k) sp s = Some (ROk (n, l), s') -> node_class E sp (n_kind n).
Proof.
  intros E k. induction k as [|k IH]; [discriminate|]. intros sp s n l s' H.
  apply (nfs_class E (f_nfs (exec E k)) IH sp s n l s' H).
Qed.

(** ** Invalid syntax *)

Definition invalid_kind (k : kind) : bool :=
  match k with Module MInvalid => true | Package _ _ MInvalid _ _ => true | _ => false end.

(** A SyntaxError that does not depend on the time. *)
Inductive bad_always (E : env) (sp : spec) : Prop :=
| ba_get_source f gc : sp_loader sp = LInspect f (RErr ESyntax) gc -> bad_always E sp
| ba_compile f text gc file : sp_loader sp = LInspect f (ROk (Some text)) gc -> sp_origin sp = Some file ->
    (forall t, e_parse E t file text = RErr ESyntax) -> bad_always E sp
| ba_get_code f gs : sp_loader sp = LInspect f gs (RErr ESyntax) -> bad_always E sp.

Definition C43_statement : Prop := forall E k sp s, bad_always E sp ->
  exists n l s', f_nfs (exec E (S k)) sp s = Some (ROk (n, l), s') /\ invalid_kind (n_kind n) = true.

(** A loader that has source for a module without origin: AssertionError. *)
Definition no_origin : spec := Spec "m" (LInspect false (ROk (Some "def")) (RErr ESyntax)) None None true (ROk false).
Theorem C43_refuted : ~ C43_statement.
Proof.
  intros H. destruct (H (world [] [] []) 0 no_origin new) as (n & l & s' & K & _).
  - eapply ba_get_code. reflexivity.
  - vm_compute in K. discriminate.
Qed.

(** Nothing but a SyntaxError happens: [no] exception of another kind from the
    loader, compile or the metadata; specs are complete. *)
Record only_syntax (E : env) (sp : spec) : Prop := {
  os_source : forall f gs gc, sp_loader sp = LInspect f gs gc -> match gs with RErr e => e = ESyntax | ROk (Some _) => sp_origin sp <> None | _ => True end;
  os_parse : forall t f text e, e_parse E t f text = RErr e -> e = ESyntax;
  os_code : forall f gs gc, sp_loader sp = LInspect f gs gc ->
    match gc with
    | RErr e => e = ESyntax
    | ROk None => False
    | ROk (Some c) => exists x, extract_bytecode_info (e_ge311 E) c = Some (ROk x)
    end;
  os_dist : forall t f, exists d, e_dist_for_file E t f = ROk d;
  os_package : exists p, sp_ispkg sp = ROk p /\ (p = true -> sp_search sp <> None);
  os_import : forall t name e, e_import E t name = RErr e -> e = EImport \/ exists b, e = ENotFound b;
  os_files : forall t d, exists b, contains_datafiles (e_suffixes E) (e_location E t d) = ROk b
}.

Lemma dist_of_ok E sp origin use s : only_syntax E sp -> exists d s', dist_of E origin use s = Some (ROk d, s').
Proof.
  intros O. destruct origin as [f|]; [|now eexists _, _]. destruct use; [|now eexists _, _].
  destruct (os_dist _ _ O (s_clock s) f) as [d Hd]. exists d, (tick s). unfold dist_of, askr. now rewrite Hd.
Qed.
Lemma wrap_ok E sp frozen source mk n imports s : only_syntax E sp ->
  exists n' l s', wrap_package E sp frozen source mk n imports s = Some (ROk (n', l), s').
Proof.
  intros O. destruct (os_package _ _ O) as (p & Hp & Hs). unfold wrap_package. rewrite Hp.
  destruct p; [|now eexists _, _, _]. cbn [of_result bind negb]. unfold of_result, bind at 1. cbn [negb].
  specialize (Hs eq_refl). destruct (sp_search sp) as [locs|] eqn:Es; [|now elim Hs].
  set (ex := (match source with Some _ => true | None => false end && _ && _)%bool).
  unfold bind at 1.
  match goal with |- exists n' l s', match ?m s with _ => _ end = _ => assert (X : exists locs' s1, m s = Some (ROk (Some locs'), s1)) end.
  { destruct ex; [|now exists locs, s]. unfold attempt, askr, bind. destruct (e_import E (s_clock s) (n_name n)) as [l|e] eqn:Ei.
    - now exists l, (tick s).
    - exists locs, (tick s). destruct (os_import _ _ O _ _ _ Ei) as [->|[b ->]]; reflexivity. }
  destruct X as (locs' & s1 & X). rewrite X. unfold bind.
  destruct (option_map (e_parent E) (n_file n)) as [d|]; [|now eexists _, _, _].
  destruct (os_files _ _ O (s_clock s1) d) as [b Hb]. unfold askr. rewrite Hb. now eexists _, _, _.
Qed.

Theorem C43_no_exception_partial : forall E k sp s, set_order (e_names_order E) -> only_syntax E sp -> bad_always E sp ->
  exists n l s', f_nfs (exec E (S k)) sp s = Some (ROk (n, l), s') /\ invalid_kind (n_kind n) = true.
Proof.
  intros E k sp s HO O B.
  assert (L : exists f gs gc, sp_loader sp = LInspect f gs gc).
  { destruct B; repeat eexists; eassumption. }
  destruct L as (f & gs & gc & El).
  change (f_nfs (exec E (S k)) sp s) with (nfs_body E (f_nfs (exec E k)) sp s). unfold nfs_body. rewrite El.
  pose proof (os_source _ _ O _ _ _ El) as O1. destruct gs as [source|e].
  2:{ subst e. unfold bind. destruct (dist_of_ok E sp (sp_origin sp) (negb f) s O) as (d & s1 & Hd). rewrite Hd. now eexists _, _, _. }
  (* the source and the code *)
  assert (P : exists si s1, source_imports E sp source s = Some (ROk si, s1) /\
    ((exists text file, source = Some text /\ sp_origin sp = Some file /\ forall t, e_parse E t file text = RErr ESyntax) -> si = inl tt)).
  { unfold source_imports. destruct source as [text|]; [|eexists _, _; split; [reflexivity|intros (? & ? & K & _); discriminate]].
    destruct (sp_origin sp) as [file|]; [|now elim O1]. unfold bind, attempt, askr.
    destruct (e_parse E (s_clock s) file text) as [t|e] eqn:Ep.
    - destruct (extract_complete (e_names_order E) t HO) as (out & _ & Hx & _). rewrite Hx.
      eexists _, _. split; [reflexivity|]. intros (tx & fl & K1 & K2 & K3). congruence.
    - apply (os_parse _ _ O) in Ep. subst e. eexists _, _. split; [reflexivity|auto]. }
  destruct P as (si & s1 & P1 & P2). unfold bind at 1. rewrite P1.
  assert (Q : exists ci, (forall s1, code_info E gc s1 = Some (ROk ci, s1)) /\ (gc = RErr ESyntax -> ci = None)).
  { pose proof (os_code _ _ O _ _ _ El) as O2. unfold code_info. destruct gc as [[c|]|e]; [|destruct O2|].
    - destruct O2 as (x & ->). exists (Some x). split; [reflexivity|discriminate].
    - subst e. now exists None. }
  destruct Q as (ci & Q1 & Q2). unfold bind at 1. rewrite Q1.
  destruct (dist_of_ok E sp (sp_origin sp) (negb f) s1 O) as (d & s2 & Hd). unfold bind at 1. rewrite Hd.
  set (mk := match si with inl _ => MInvalid | inr _ => _ end).
  assert (Mk : mk = MInvalid).
  { unfold mk. destruct B as [f' gc' K|f' text gc' file K1 K2 K3|f' gs' K].
    - rewrite El in K. discriminate.
    - rewrite El in K1. injection K1 as <- -> <-. rewrite P2; [reflexivity|]. now exists text, file.
    - rewrite El in K. injection K as <- <- ->. rewrite Q2 by reflexivity. now destruct si. }
  destruct (match ci with Some x => x | None => ([], [], []) end) as [[bi wr] rd].
  edestruct (wrap_ok E sp f source mk) as (n' & l' & s' & Hw); [exact O|]. exists n', l', s'. split; [exact Hw|].
  apply wrap_class in Hw as (_ & [[H1 H2]|[H1 (file & nst & H2)]]); [| |reflexivity|reflexivity]; rewrite H2, Mk; reflexivity.
Qed.

(** A package whose source does not compile. *)
Definition bad_package : spec :=
  Spec "p" (LInspect false (ROk (Some "def")) (RErr ESyntax)) (Some "p/__init__.py") (Some ["p"]) true (ROk true).
Example C43_nonvacuous :
  bad_always (world [] [] []) bad_package /\ only_syntax (world [] [] []) bad_package
  /\ option_map fst (f_nfs (exec (world [] [] []) 1) bad_package new) =
     Some (ROk (Node "p" (Package false "p" MInvalid (Some "p/__init__.py") None) [] [] None (Some "p") ["p"] false, [])).
Proof.
  split; [eapply ba_get_code; reflexivity|]. split; [|vm_compute; reflexivity]. constructor.
  - intros f gs gc K. injection K as <- <- <-. cbn. discriminate.
  - intros t f text e K. cbn in K. now injection K as <-.
  - intros f gs gc K. now injection K as <- <- <-.
  - intros t f. now exists None.
  - exists true. split; [reflexivity|discriminate].
  - intros t name e K. cbn in K. injection K as <-. now left.
  - intros t d. now exists false.
Qed.
(** The table has entries of every kind. *)
Example C43_class_nonvacuous :
  map (fun sp => option_map (fun x => match fst x with ROk (n, _) => Some (n_kind n) | RErr _ => None end)
                   (f_nfs (exec (world [("io", ESource false [] [])] [("src", [])] []) 2) sp new))
    [Spec "a" LNone None (Some ["x"]) false (ROk true);
     Spec "a" LExtension (Some "a.so") None true (ROk false);
     Spec "a" (LInspect true (ROk None) (ROk (Some (code_of [] [])))) None None true (ROk false);
     Spec "a" (LInspect false (ROk (Some "src")) (ROk (Some (code_of [] [])))) (Some "a.py") None true (ROk false);
     Spec "a" (LInspect false (ROk None) (ROk (Some (code_of [] [])))) (Some "a.pyc") None true (ROk false);
     Spec "six.moves" LSix None None true (ROk true);
     Spec "six.moves.cStringIO" LSix None None true (ROk false)]
  = [Some (Some NamespacePackage); Some (Some (Module MExtension)); Some (Some (Module MFrozen)); Some (Some (Module MSource));
     Some (Some (Module MBytecode)); Some (Some (Package false "@@SIX_MOVES@@" MFrozen None None)); Some (Some (Module MSource))].
Proof. vm_compute. reflexivity. Qed.

Print Assumptions C43_class.
Print Assumptions C43_refuted.
Print Assumptions C43_no_exception_partial.
