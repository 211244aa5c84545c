(** Module names: [_utilities.split_package] and [_graphbuilder.relative_package]. *)
From Verif Require Export PyStr.

(** Exceptions as values.  [ESpecValue] is the ValueError of importlib that
    mentions [__spec__]; [ENotFound b] is ModuleNotFoundError where [b] tells
    whether the text contains "No module named"; [EAttrPath] the AttributeError
    about [__path__]; [EInterrupt] stands for what [except Exception] does not
    catch (KeyboardInterrupt and the like). *)
Inductive err : Type :=
| EValue | EKey | EIndex | EAssert | EType | EOS | ESyntax | ERuntime | EImport
| ESpecValue | ENotFound (no_module_named : bool) | EAttrPath | EAttr
| EUser (what : string) | EInterrupt.

Inductive result (A : Type) : Type := ROk (a : A) | RErr (e : err).
Arguments ROk {A} a.
Arguments RErr {A} e.

(** modulegraph2/_utilities.py:27-47 [split_package] (the isinstance check of
    lines 33-34 is type checking and has no counterpart here). *)
Definition split_package (name : string) : result (option string * string) :=
  if seqb name "" then RErr EValue
  else
    let name_abs := lstrip dot name in
    let dots := String.length name - String.length name_abs in
    if seqb name_abs "" || has_sub ".." name_abs then RErr EValue
    else
      let (package0, nm) := rpartition dot name_abs in
      let package := if Nat.eqb dots 0 then package0
                     else (repeat_char dot dots ++ package0)%string in
      ROk (if seqb package "" then None else Some package, nm).

(** modulegraph2/_graphbuilder.py:514-526 [relative_package].  [is_pkg] is
    [isinstance(importing_module, (Package, NamespacePackage))]; the caller
    guarantees [import_level > 0] (the assert of line 515). *)
Definition relative_package (name : string) (is_pkg : bool) (level : nat) : option string :=
  let level := if is_pkg then level - 1 else level in
  let bits := rsplit dot level name in
  if Nat.ltb (List.length bits) (level + 1) then None
  else Some (hd EmptyString bits).
