(** Theorems about the exceptions of calls: C83. *)
From Verif Require Import BuilderErr PyStrFacts World.
Open Scope string_scope.

(** A graph whose first hooks raise exceptions of [X] only. *)
Definition hooks_within (E : env) (X : err -> Prop) (s : st) : Prop := (forall h n, In h (s_post s) -> within E X (h n))
  /\ (forall h importing name, In h (s_missing s) -> within E X (h importing name)).

(** An exception that gets out of a call is one that the package raises itself, one
    that the import system, a loader or a file raised, one of a hook, or it is about
    what the call was given. *)
Theorem C83_call : forall E (X : err -> Prop) s0 s fuel a e s', (forall e, own e -> X e) -> (forall e, heard E e -> X e) ->
  hooks_within E X s0 -> within_history E X s0 s -> within_call E X a ->
  top_call E fuel a s = Some (AnsErr e, s') -> X e \/ of_call E a e.
Proof.
  intros E X s0 s fuel a e s' HO HH H0 W Wa T. pose proof (history_hooked E X HO HH s0 s H0 W) as H.
  destruct (top_told E X HO HH fuel a s _ s' H Wa T) as [_ K]. destruct a; exact K.
Qed.

(** ** The hooks of every new graph *)

(** What these can add: the source next to a compiled module cannot be read; a
    module with an empty name exists. *)
Inductive hooks_fail (E : env) : err -> Prop :=
| hf_read t file e : e_read E t file = RErr e -> hooks_fail E e
| hf_nameless t fakes sp : e_find_spec E t fakes "" = ROk (Some sp) -> hooks_fail E EImport.
Definition without_hooks (E : env) (e : err) : Prop := own e \/ heard E e.
Definition with_hooks (E : env) (e : err) : Prop := own e \/ heard E e \/ hooks_fail E e.

Section builtin.
  Variable E : env.
  Notation X := (with_hooks E).
  Ltac plain_call := apply wc_other; intros; discriminate.

  Lemma swig_found_within missing o : (forall sp, o = Some sp -> importable E sp) -> within E X (swig_found missing o).
  Proof.
    intros H. destruct o as [sp|]; cbn [swig_found]; [|constructor]. constructor; [plain_call|]. intros ans Hans. destruct ans; try constructor.
    - cbn [told] in Hans. destruct Hans as [K|K]; [exact K|]. right. left. apply hd_loader with sp; auto.
    - destruct (negb _); [constructor|]. destruct imports; [|constructor; left; now left]. constructor; [plain_call|]. intros ans Ha. destruct ans; try constructor.
      cbn [told of_call] in Ha. now destruct Ha.
  Qed.
  Lemma swig_retry_within missing to : within E X (swig_retry missing to).
  Proof.
    unfold swig_retry. constructor; [plain_call|]. intros ans Hans. destruct ans as [|e| | |[sp|]| | |]; try constructor.
    - cbn [told of_call] in Hans. now destruct Hans.
    - cbn [told] in Hans. destruct Hans as (t & f & Hf). destruct (sp_origin sp); [|constructor; left; now left]. constructor; [plain_call|]. intros _ _. constructor; [plain_call|].
      intros ans Ha. destruct ans as [|e| | |o| | |]; try constructor.
      + cbn [told of_call] in Ha. destruct Ha as [K|[-> ->]]; [exact K|]. right. right. eapply hf_nameless. exact Hf.
      + plain_call.
      + intros a2 Ha2. assert (G : within E X (swig_found missing o)) by (apply swig_found_within; intros q ->; cbn [told] in Ha; destruct Ha as (t' & f' & Ha); eexists; eauto).
        destruct a2; try exact G. constructor. cbn [told of_call] in Ha2. now destruct Ha2.
    - left. now left.
  Qed.
  Lemma swig_within importing missing : within E X (swig_hook importing missing).
  Proof.
    unfold swig_hook. destruct importing as [id|]; [|constructor]. constructor; [plain_call|]. intros ans _. destruct ans; try constructor. destruct (gfind g id) as [n|]; [|constructor].
    destruct (negb _); [constructor|]. destruct (negb _); [constructor|]. destruct (negb _); [constructor|]. constructor; [plain_call|]. intros ans Ha. destruct ans as [|e| | |o| | |]; try constructor.
    - destruct (is_import_error e) eqn:Ei; [apply swig_retry_within|]. constructor. cbn [told of_call] in Ha. destruct Ha as [K|[_ ->]]; [exact K|discriminate].
    - apply swig_found_within. intros sp ->. cbn [told] in Ha. destruct Ha as (t & f & Ha). eexists. eauto.
  Qed.
  Lemma mypyc_source_within id source : within E X (mypyc_source id source).
  Proof.
    unfold mypyc_source. constructor; [plain_call|]. intros ans Ha. destruct ans as [|e| | | | | |l]; try constructor.
    - assert (G : e <> ESyntax -> X e).
      { intros N. cbn [told of_call] in Ha. destruct Ha as [K|[[t K]|(t & text & K)]]; [exact K|right; right; eapply hf_read; exact K|right; left; eapply hd_parse; eassumption]. }
      destruct e; constructor; apply G; discriminate.
    - destruct l; [constructor|]. constructor; [plain_call|]. intros a2 Ha2. assert (G : within E X (PDo ARunStack (fun a => match a with AnsErr e => PRaise e | _ => PRet None end))).
      { constructor; [plain_call|]. intros a3 Ha3. destruct a3; constructor. cbn [told of_call] in Ha3. now destruct Ha3. }
      destruct a2; try exact G. constructor. cbn [told of_call] in Ha2. now destruct Ha2.
  Qed.
  Lemma mypyc_within P id : within E X (mypyc_hook P id).
  Proof.
    unfold mypyc_hook. constructor; [plain_call|]. intros ans _. destruct ans; try constructor. destruct (gfind g id) as [n|]; [|constructor]. destruct (extension_file n); [|constructor].
    destruct (n_dist n); [|constructor]. destruct (helper_of P d) as [h|]; [|constructor]. unfold mypyc_found. constructor; [plain_call|]. intros ans _. destruct ans as [| | | | | |[|]|]; try constructor; [plain_call|].
    intros ans Ha. destruct ans; try constructor; [cbn [told of_call] in Ha; now destruct Ha|plain_call|]. intros a2 Ha2. destruct a2; try apply mypyc_source_within. constructor. cbn [told of_call] in Ha2. now destruct Ha2.
  Qed.
End builtin.

(** Calls that hand over no program. *)
Definition no_program (a : action) : Prop := match a with AHookContext _ | AAddPost _ | AAddMissing _ => False | _ => True end.
Inductive plain_history (E : env) (s0 : st) : st -> Prop :=
| ph_start : plain_history E s0 s0
| ph_call s fuel a ans s' : plain_history E s0 s -> no_program a -> top_call E fuel a s = Some (ans, s') -> plain_history E s0 s'.
Lemma plain_within E X a : no_program a -> within_call E X a.
Proof. intros H. apply wc_other; intros p ->; exact H. Qed.
Lemma plain_history_within E X s0 s : plain_history E s0 s -> within_history E X s0 s.
Proof. induction 1 as [|s fuel a ans s' H IH N T]; [constructor|]. apply (wh_call E X s0 s fuel a ans s' IH); [now apply plain_within|exact T]. Qed.

Theorem C83_new : forall E implies s fuel a e s', plain_history E (init implies [] []) s -> no_program a ->
  top_call E fuel a s = Some (AnsErr e, s') -> own e \/ heard E e \/ of_call E a e.
Proof.
  intros E implies s fuel a e s' H N T. cut (without_hooks E e \/ of_call E a e); [unfold without_hooks; tauto|].
  apply (C83_call E (without_hooks E) (init implies [] []) s fuel a e s'); [now left|now right|split; cbn; intros; contradiction|now apply plain_history_within|now apply plain_within|exact T].
Qed.
Theorem C83_builtin : forall E P win32 ospath sysconfigdata s fuel a e s', plain_history E (builtin_start P win32 ospath sysconfigdata) s -> no_program a ->
  top_call E fuel a s = Some (AnsErr e, s') -> own e \/ heard E e \/ hooks_fail E e \/ of_call E a e.
Proof.
  intros E P w o y s fuel a e s' H N T. cut (with_hooks E e \/ of_call E a e); [unfold with_hooks; tauto|].
  apply (C83_call E (with_hooks E) (builtin_start P w o y) s fuel a e s'); [now left|right; now left| |now apply plain_history_within|now apply plain_within|exact T].
  split; cbn; [intros h n [<-|[]]; apply mypyc_within|intros h i n [<-|[]]; apply swig_within].
Qed.

(** ** Consequences *)

(** The import system, metadata and directories raise no SyntaxError (the texts of
    modules may be anything). *)
Record no_syntax (E : env) : Prop := {
  nx_find : forall t fakes name, e_find_spec E t fakes name <> RErr ESyntax;
  nx_ispkg : forall sp, importable E sp -> sp_ispkg sp <> RErr ESyntax;
  nx_dist : forall t file, e_dist_for_file E t file <> RErr ESyntax;
  nx_import : forall t name, e_import E t name <> RErr ESyntax;
  nx_modules : forall t dir, e_glob_py E t dir <> RErr ESyntax;
  nx_dirs : forall t dir, e_subdirs E t dir <> RErr ESyntax;
  nx_read : forall t file, e_read E t file <> RErr ESyntax
}.
Lemma no_syntax_heard E : no_syntax E -> ~ heard E ESyntax.
Proof.
  intros [H1 H2 H3 H4 H5 H6 H7] H. inversion H; subst; try congruence; try (now eapply H1; eassumption); try (now eapply H3; eassumption).
  - inversion H8; subst; try congruence; [|now elim (H2 sp H0)]. match goal with K : scanned _ |- _ => now destruct K as [K|[K|K]] end.
Qed.
(** A module with invalid syntax never ends a call: a SyntaxError is about the text
    that the call was given. *)
Theorem C83_syntax : forall E P win32 ospath sysconfigdata s fuel a s', no_syntax E ->
  plain_history E (builtin_start P win32 ospath sysconfigdata) s -> no_program a ->
  top_call E fuel a s = Some (AnsErr ESyntax, s') -> of_call E a ESyntax.
Proof.
  intros E P w o y s fuel a s' N H Na T. destruct (C83_builtin E P w o y s fuel a ESyntax s' H Na T) as [K|[K|[K|K]]]; [|now elim (no_syntax_heard E N)| |exact K].
  - now destruct K as [K|[K|K]].
  - inversion K; subst. now elim (nx_read E N t file).
Qed.
(** Listing a package, adding a module or importing one is not about the argument
    alone. *)
Corollary C83_module : forall E P win32 ospath sysconfigdata s fuel name s', no_syntax E ->
  plain_history E (builtin_start P win32 ospath sysconfigdata) s -> top_call E fuel (AAddModule name) s <> Some (AnsErr ESyntax, s').
Proof. intros E P w o y s fuel name s' N H T. exact (C83_syntax E P w o y s fuel (AAddModule name) s' N H I T). Qed.

(** ** Examples *)

(** [bad] has invalid syntax, [noplace] is a namespace package without locations,
    [odd] has an unknown loader. *)
Definition err_world : env := world [("ok", ESource false [imp "bad"] []); ("bad", ESpec (Spec "bad" (LInspect false (ROk (Some "def")) (RErr ESyntax)) (Some "bad.py") None true (ROk false)));
  ("noplace", ESpec (Spec "noplace" LNamespace None None true (ROk true))); ("odd", ESpec (Spec "odd" LOther None None true (ROk false)));
  ("short", ESpec (Spec "short" (LInspect false (ROk None) (ROk (Some (Code 0 [] [] [Ins IMPORT_NAME (Some 0)])))) (Some "short.pyc") None true (ROk false)))] [("main.py", [imp "ok"])] [].
Definition err_hook : post_hook := fun n => if seqb n "ok" then PRaise (EUser "hook") else PRet None.
Example C83_nonvacuous :
  (* a module with invalid syntax raises nothing, a text with invalid syntax does *)
  fst (the_calls err_world [AAddModule "ok"; AAddSource "def"] new) = [AnsId "ok"; AnsErr ESyntax]
  /\ of_call err_world (AAddSource "def") ESyntax
  (* exceptions of the package *)
  /\ fst (the_calls err_world [AAddScript "main.py"; AAddScript "main.py"; AAddModule "noplace"; AAddEdge "ok" "nowhere" default_dep; AAddModule ""] new)
     = [AnsId "main.py"; AnsErr EValue; AnsErr EAssert; AnsErr EKey; AnsErr EValue]
  (* exceptions about a loader, and of a hook *)
  /\ fst (the_calls err_world [AAddModule "odd"; AAddModule "short"] new) = [AnsErr ERuntime; AnsErr EIndex]
  /\ heard err_world ERuntime /\ heard err_world EIndex
  /\ fst (the_calls err_world [AAddPost err_hook; AAddModule "ok"] new) = [AnsUnit; AnsErr (EUser "hook")]
  /\ within_call err_world (fun e => without_hooks err_world e \/ e = EUser "hook") (AAddPost err_hook)
  /\ no_syntax err_world.
Proof.
  split; [vm_compute; reflexivity|]. split; [now exists 0|]. split; [vm_compute; reflexivity|]. split; [vm_compute; reflexivity|]. split.
  { eapply hd_loader; [exists 0, [], "odd"; reflexivity|]. now apply lf_unknown. }
  split.
  { eapply hd_loader; [exists 0, [], "short"; reflexivity|]. eapply lf_scan; [reflexivity|]. right. now left. }
  split; [vm_compute; reflexivity|]. split.
  - apply wc_post. intros n. unfold err_hook. destruct (seqb n "ok"); constructor. now right.
  - assert (F : forall t fakes name, match e_find_spec err_world t fakes name with RErr e => False | ROk (Some sp) => sp_ispkg sp <> RErr ESyntax | _ => True end).
    { intros t f name. cbn [e_find_spec err_world world assoc]. repeat match goal with |- context [seqb ?a ?b] => destruct (seqb a b); [cbn; discriminate|] end. exact I. }
    constructor; try discriminate.
    + intros t f name K. specialize (F t f name). now rewrite K in F.
    + intros sp (t & f & name & K). specialize (F t f name). now rewrite K in F.
Qed.

Print Assumptions C83_call.
Print Assumptions C83_new.
Print Assumptions C83_builtin.
Print Assumptions C83_syntax.
Print Assumptions C83_module.
