(** Which modules a program and the configuration ask for, stated on specs, parse
    trees and code objects, without the graph. *)
From Verif Require Export LoadSpec AttrSpec.
Open Scope string_scope.

Section program.
  Variable E : env.
  Variable find : string -> option spec.
  Variable conf : list (string * implied).
  Variable start : program.

  (** [name] is there: Python finds it, or it is configured to stand for something
      else; so are the packages that it is in. *)
  Inductive present : string -> Prop :=
  | pr_found name sp : find name = Some sp -> ~ unreadable sp -> starts_with "." name = false ->
      (forall i, assoc name conf = Some i -> exists refs, i = ImpRefs refs) ->
      (forall p, child_of p name -> present p) -> present name
  | pr_configured name t : starts_with "." name = false ->
      assoc name conf = Some (ImpAlias t) \/ assoc name conf = Some (ImpVirtual t) ->
      (forall p, child_of p name -> present p) -> present name.

  (** What a statement in module [n] asks for. *)
  Inductive wants (n : string) (is_pkg : bool) (w : what) : string -> Prop :=
  | wa_module m : mentions n is_pkg w m -> wants n is_pkg w m
  | wa_beyond : leaves_top n is_pkg w -> wants n is_pkg w (dotted w)
  (* a submodule of a package, or of the package that an alias stands for *)
  | wa_name m0 m sp x : mentions n is_pkg w m0 -> m = m0 \/ (present m0 /\ assoc m0 conf = Some (ImpAlias m)) ->
      present m -> assoc m conf = None \/ (exists refs, assoc m conf = Some (ImpRefs refs)) -> find m = Some sp -> spec_pkg sp = true ->
      In x (map fst (w_names w)) -> dotless x -> ~ In "*" (map fst (w_names w)) -> wants n is_pkg w (m ++ "." ++ x).

  Inductive needs : string -> Prop :=
  | nd_start name : start = RunModule name -> needs name
  (* a script has no package: each of its relative imports leaves the top level *)
  | nd_script f t tree fn opt w m : start = RunScript f -> e_script E t f = ROk tree -> tree_says tree fn opt w ->
      w_level w = 0 -> wants f false w m -> needs m
  | nd_relative f t tree fn opt w : start = RunScript f -> e_script E t f = ROk tree -> tree_says tree fn opt w ->
      w_level w <> 0 -> needs (dotted w)
  | nd_module n sp T fn opt w m : needs n -> present n -> (forall i, assoc n conf = Some i -> exists refs, i = ImpRefs refs) ->
      find n = Some sp -> module_says E find n T -> T fn opt w -> wants n (spec_pkg sp) w m -> needs m
  | nd_parent n p : needs n -> child_of p n -> needs p
  (* configured *)
  | nd_refs n refs m : needs n -> starts_with "." n = false -> (forall p, child_of p n -> present p) ->
      assoc n conf = Some (ImpRefs refs) -> In m refs -> needs m
  | nd_target n t : needs n -> present n -> assoc n conf = Some (ImpAlias t) \/ assoc n conf = Some (ImpVirtual t) -> needs t
  (* the text of a package mentions the library for namespace packages *)
  | nd_tool n sp frozen text code tool : needs n -> present n -> find n = Some sp -> spec_pkg sp = true ->
      sp_loader sp = LInspect frozen (ROk (Some text)) code -> tool = "pkgutil" \/ tool = "pkg_resources" -> occurs tool text -> needs tool.
End program.

(** The names of scripts and distributions are not those of modules. *)
Definition scripts_apart (s : st) : Prop := forall f, kind_of s f = Some Script \/ kind_of s f = Some Distribution ->
  (forall a d, ~ has_edge (s_graph s) a f d) /\ (forall x, in_graph s x -> ~ child_of f x)
  /\ (forall m x nd, imported_from s m x nd -> f <> m ++ "." ++ x).
(** Relative imports of the script leave the top level: its name has no dots. *)
Definition script_outside (E : env) (p : program) : Prop := forall f t tree fn opt w, p = RunScript f -> e_script E t f = ROk tree ->
  tree_says tree fn opt w -> w_level w <> 0 -> leaves_top f false w.
(** The source of every package of a node can be decoded. *)
Definition readable_packages (find : string -> option spec) (s : st) : Prop := forall x p sp, in_graph s x -> child_of p x ->
  find p = Some sp -> ~ unreadable sp.

Record plausible (E : env) (find : string -> option spec) (s : st) (p : program) : Prop := {
  pb_tidy : tidy s;
  pb_scripts : scripts_apart s;
  pb_outside : script_outside E p;
  pb_readable : readable_packages find s
}.
