(** C83: where exceptions come from, stated on the environment, the calls and the
    programs of hooks. *)
From Verif Require Export SourceSpec BuiltinHooks.
Open Scope string_scope.

(** Exceptions of the package itself: AssertionError, KeyError, ValueError. *)
Definition own (e : err) : Prop := e = EAssert \/ e = EKey \/ e = EValue.

(** Exceptions of the scan of a code object that is not laid out as expected:
    AssertionError, IndexError, TypeError. *)
Definition scanned (e : err) : Prop := e = EAssert \/ e = EIndex \/ e = EType.
(** What is wrong with the loader of a module.  SyntaxErrors are not part of it. *)
Inductive loader_fails (E : env) (sp : spec) : err -> Prop :=
| lf_source f e gc : sp_loader sp = LInspect f (RErr e) gc -> e <> ESyntax -> loader_fails E sp e
| lf_code f gs e : sp_loader sp = LInspect f gs (RErr e) -> e <> ESyntax -> loader_fails E sp e
| lf_scan f gs c e : sp_loader sp = LInspect f gs (ROk (Some c)) -> scanned e -> loader_fails E sp e
| lf_ispkg e : sp_ispkg sp = RErr e -> loader_fails E sp e
| lf_unknown : sp_loader sp = LOther -> loader_fails E sp ERuntime.

(** Exceptions of the import system, of the loaders of its modules, and of files; a
    text that cannot be compiled is no reason, nor is a package that cannot be
    imported. *)
Inductive heard (E : env) : err -> Prop :=
| hd_find t fakes name e : e_find_spec E t fakes name = RErr e -> heard E e
| hd_loader sp e : importable E sp -> loader_fails E sp e -> heard E e
| hd_parse t file text e : e_parse E t file text = RErr e -> e <> ESyntax -> heard E e
| hd_import t name e : e_import E t name = RErr e -> is_import_error e = false -> heard E e
| hd_dist t file e : e_dist_for_file E t file = RErr e -> heard E e
| hd_location t dir : e_location E t dir = Nowhere -> heard E EOS
| hd_modules t dir e : e_glob_py E t dir = RErr e -> heard E e
| hd_dirs t dir e : e_subdirs E t dir = RErr e -> heard E e.

(** Exceptions about what a call is given. *)
Definition of_call (E : env) (a : action) (e : err) : Prop := match a with
  | AAddScript f => exists t, e_script E t f = RErr e
  | AAddSource text => exists t, e_parse E t "-source-code-" text = RErr e
  | AAddDistNamed name => exists t, e_dist_named E t name = RErr e
  | AFindSpecRel _ package => package = "" /\ e = EImport
  | ANodeForSpec sp => loader_fails E sp e
  | AParseFile file => (exists t, e_read E t file = RErr e) \/ exists t text, e_parse E t file text = RErr e
  | _ => False
  end.

(** Answers that a program can get. *)
Definition told (E : env) (X : err -> Prop) (a : action) (ans : answer) : Prop := match a, ans with
  | _, AnsErr e => X e \/ of_call E a e
  | AFindSpec name, AnsSpec (Some sp) => exists t fakes, e_find_spec E t fakes name = ROk (Some sp)
  | AFindSpecRel name package, AnsSpec (Some sp) => exists t fakes, e_find_spec E t fakes (package ++ "." ++ name) = ROk (Some sp)
  | _, _ => True
  end.
(** Programs that raise exceptions of [X] only, whatever they are told. *)
Inductive within (E : env) (X : err -> Prop) : prog -> Prop :=
| wi_ret o : within E X (PRet o)
| wi_raise e : X e -> within E X (PRaise e)
| wi_do a k : within_call E X a -> (forall ans, told E X a ans -> within E X (k ans)) -> within E X (PDo a k)
(** The same for hooks and programs that are handed over. *)
with within_call (E : env) (X : err -> Prop) : action -> Prop :=
| wc_context p : within E X p -> within_call E X (AHookContext p)
| wc_post h : (forall n, within E X (h n)) -> within_call E X (AAddPost h)
| wc_missing h : (forall importing name, within E X (h importing name)) -> within_call E X (AAddMissing h)
| wc_other a : (forall p, a <> AHookContext p) -> (forall h, a <> AAddPost h) -> (forall h, a <> AAddMissing h) -> within_call E X a.

(** States after such calls, whatever their outcome. *)
Inductive within_history (E : env) (X : err -> Prop) (s0 : st) : st -> Prop :=
| wh_start : within_history E X s0 s0
| wh_call s fuel a ans s' : within_history E X s0 s -> within_call E X a -> top_call E fuel a s = Some (ans, s') -> within_history E X s0 s'.
