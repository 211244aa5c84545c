(** Which modules a program can load through its import statements, stated on
    specs, parse trees and code objects, without the graph. *)
From Verif Require Export SameSpec.
Open Scope string_scope.

(** How a program is started: a script, or [python -m name]. *)
Inductive program := RunScript (file : string) | RunModule (name : string).
Definition started (p : program) : string := match p with RunScript f => f | RunModule n => n end.

(** The spec is that of a package. *)
Definition spec_pkg (sp : spec) : bool :=
  match sp_loader sp with
  | LNone | LNamespace => true
  | _ => match sp_ispkg sp with ROk b => b | RErr _ => false end
  end.
(** The source of the module is no source code at all: it cannot be loaded. *)
Definition unreadable (sp : spec) : Prop := exists frozen code, sp_loader sp = LInspect frozen (RErr ESyntax) code.

(** [c] is [name] or one of the packages that it is in. *)
Inductive within : string -> string -> Prop :=
| wi_self name : within name name
| wi_up c p name : child_of p name -> within c p -> within c name.

Section program.
  Variable E : env.
  Variable find : string -> option spec.
  (** Table of implied actions; modules may be excluded there. *)
  Variable conf : list (string * implied).
  Variable start : program.

  (** [name] and the packages that it is in can be imported, and none of them is
      excluded or replaced. *)
  Inductive can_import : string -> Prop :=
  | can_intro name sp : find name = Some sp -> ~ unreadable sp -> starts_with "." name = false ->
      (forall i, assoc name conf = Some i -> exists refs, i = ImpRefs refs) ->
      (forall p, child_of p name -> can_import p) -> can_import name.

  (** The import statements in a module that Python finds: those of its source, or
      of its code object when there is no source that can be parsed. *)
  Inductive module_says (name : string) : says -> Prop :=
  | cd_source sp frozen text code file t tree : find name = Some sp ->
      sp_loader sp = LInspect frozen (ROk (Some text)) code -> sp_origin sp = Some file ->
      e_parse E t file text = ROk tree -> module_says name (tree_says tree)
  | cd_code sp frozen src c : find name = Some sp -> sp_loader sp = LInspect frozen (ROk src) (ROk (Some c)) ->
      src = None \/ (exists text file t, src = Some text /\ sp_origin sp = Some file /\ e_parse E t file text = RErr ESyntax) ->
      module_says name (code_says (e_ge311 E) c).

  (** What a statement in module [n] asks for: the module that it mentions, and when
      that is a package, its submodules of the names in the from list.  What
      a star import finds in __all__ is not part of it. *)
  Inductive requests (n : string) (is_pkg : bool) (w : what) : string -> Prop :=
  | rq_module m : mentions n is_pkg w m -> requests n is_pkg w m
  | rq_name m sp x : mentions n is_pkg w m -> can_import m -> find m = Some sp -> spec_pkg sp = true ->
      In x (map fst (w_names w)) -> dotless x -> ~ In "*" (map fst (w_names w)) -> requests n is_pkg w (m ++ "." ++ x).

  (** All that a run can ask for.  A module is loaded after its packages, also when
      it turns out that there is no such module.  Scripts have no package that they
      could import from. *)
  Inductive asks : string -> Prop :=
  | ak_start name : start = RunModule name -> asks name
  | ak_script f t tree fn opt w m : start = RunScript f -> e_script E t f = ROk tree -> tree_says tree fn opt w ->
      w_level w = 0 -> requests f false w m -> asks m
  | ak_module name n sp T fn opt w m : asks name -> within n name -> can_import n -> find n = Some sp -> module_says n T -> T fn opt w ->
      requests n (spec_pkg sp) w m -> asks m.
  Definition loads (t : string) : Prop := exists name, asks name /\ within t name /\ can_import t.
End program.

(** ** The graph *)

Definition real (k : kind) : bool := match k with Module _ | Package _ _ _ _ _ | NamespacePackage => true | _ => false end.
Inductive leads (g : graph) (a : string) : string -> Prop :=
| le_self : leads g a a
| le_edge b c d : leads g a b -> has_edge g b c d -> leads g a c.
(** Nodes that are not those of scripts and distributions. *)
Definition modular (s : st) (x : string) : Prop := kind_of s x <> Some Script /\ kind_of s x <> Some Distribution.
(** The graph has been asked for the program. *)
Definition begun_with (s : st) (p : program) : Prop :=
  match p with RunScript f => kind_of s f = Some Script | RunModule n => in_graph s n /\ modular s n end.
Definition covered (s : st) (p : program) (t : string) : Prop :=
  (exists n, gfind (s_graph s) t = Some n /\ real (n_kind n) = true) /\ leads (s_graph s) (started p) t.

(** No module imports something else under the name of one of its submodules. *)
Definition names_apart (find : string -> option spec) (conf : list (string * implied)) (s : st) : Prop :=
  forall m nd x t, gfind (s_graph s) m = Some nd -> In x (n_written nd) -> can_import find conf (m ++ "." ++ x) ->
    provides (s_graph s) m x t -> t = m ++ "." ++ x.

(** Names are as in Python; none is that of a script or distribution.  A missing module that is left
    over from a name that a package binds is not imported by a statement. *)
Record orderly (find : string -> option spec) (conf : list (string * implied)) (s : st) (p : program) : Prop := {
  or_tidy : tidy s;
  or_apart : names_apart find conf s;
  or_left : forall m x id, left_over s m x id -> ~ leads (s_graph s) (started p) id;
  or_script : forall a f d, has_edge (s_graph s) a f d -> modular s f
}.
