(** Specifications for module names, independent of the model in [Names]. *)
From Verif Require Export PyStr.

(** A string without a dot. *)
Definition dotless (s : string) : Prop := has_char dot s = false.

(** A well formed (possibly relative) module name: [k] dots followed by a
    non-empty body that starts with another character and has no doubled dot. *)
Definition wf_name (k : nat) (body : string) : Prop :=
  body <> EmptyString /\ starts_with "." body = false /\ has_sub ".." body = false.

(** How a package and a name are glued together: a package that consists of
    dots only (or is absent) needs no separator. *)
Definition glue (k : nat) (body : string) (package : option string) (nm : string) : string :=
  match package with
  | None => nm
  | Some p => if has_char dot body then (p ++ "." ++ nm)%string else (p ++ nm)%string
  end.

(** CPython, Lib/importlib/_bootstrap.py: [_sanity_check] and [_resolve_name].
    [package] is the value of [__package__]; [None] is ImportError. *)
Definition cpython_resolve (package : string) (level : nat) : option string :=
  if seqb package "" then None        (* no known parent package *)
  else
    let bits := rsplit dot (level - 1) package in
    if Nat.ltb (List.length bits) level then None   (* beyond top-level package *)
    else Some (hd EmptyString bits).

(** [__package__] of a module: its own name if it is a package, else
    [name.rpartition('.')[0]] (importlib.machinery.ModuleSpec.parent). *)
Definition dunder_package (name : string) (is_pkg : bool) : string :=
  if is_pkg then name else fst (rpartition dot name).

(** Module names as lists of components. *)
Definition components (l : list string) : Prop :=
  l <> [] /\ Forall (fun c => dotless c /\ c <> EmptyString) l.
