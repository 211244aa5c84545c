(** Star imports: when a module has all names of the module that it imports from. *)
From Verif Require Export BuilderSpec.

(** [m] is the module that statement [i] of node [n] mentions; [m'] is that
    module, or the one behind an alias. *)
Definition aims_at (s : st) (n : string) (i : iinfo) (m : string) : Prop :=
  exists b, pkg_node s n b /\ imports_name n b i m.
Definition names_come_from (s : st) (n : string) (i : iinfo) (m : string) : Prop :=
  exists m0, aims_at s n i m0 /\ (m = m0 \/ kind_of s m0 = Some (AliasNode m)).

(** All global names of the node [m] are global names of [n]. *)
Definition takes_over (s : st) (n m : string) : Prop :=
  forall x y, gfind (s_graph s) n = Some x -> gfind (s_graph s) m = Some y ->
    is_package (n_kind y) || is_module (n_kind y) = true -> incl (n_written y) (n_written x).

(** ** What Python runs first *)

(** Modules that a statement imports: those mentioned, and the names of the from
    list that are modules. *)
Definition imports_module (s : st) (n : string) (i : iinfo) (t : string) : Prop :=
  names_come_from s n i t \/
  exists m nm, names_come_from s n i m /\ In nm (ii_names i) /\ t = (m ++ "." ++ in_name nm)%string /\ in_graph s t.
(** The code of [u] is run before that of [v] is finished: [u] is imported by [v],
    or is the package of [v] or of an imported module. *)
Inductive runs_first (s : st) (v : string) : string -> Prop :=
| rf_self : runs_first s v v
| rf_import u i t : runs_first s v u -> scheduled s u i -> imports_module s u i t -> runs_first s v t
| rf_package u c : runs_first s v u -> child_of c u -> runs_first s v c.

(** ** What the builder works on first *)

(** The node [v] was added to the graph before the node [u]. *)
Definition older (s : st) (v u : string) : Prop :=
  exists l l', map n_name (g_nodes (s_graph s)) = l ++ l' /\ In v l /\ In u l'.

(** Node [x] is a namespace package of the old kind, and needs its tool. *)
Definition tool_of (s : st) (x t : string) : Prop :=
  (t = "pkgutil"%string \/ t = "pkg_resources"%string) /\ exists b i k f, kind_of s x = Some (Package b i k f (Some t)).
Definition stands_for (s : st) (x t : string) : Prop :=
  kind_of s x = Some (AliasNode t) \/ kind_of s x = Some (VirtualNode t).
Definition implied_by (s : st) (x t : string) : Prop :=
  exists refs, In (EvImplied x (ImpRefs refs)) (s_log s) /\ In t refs.

(** Looking for the module [t] can add the module [x] to the graph. *)
Inductive brings (s : st) (t : string) : string -> Prop :=
| brings_self : brings s t t
| brings_package x c : brings s t x -> child_of c x -> brings s t c
| brings_implied x r : brings s t x -> implied_by s x r -> brings s t r
| brings_alias x y : brings s t x -> stands_for s x y -> brings s t y
| brings_tool x y : brings s t x -> tool_of s x y -> brings s t y.

(** A statement [i] of [n] makes the builder look for [t]. *)
Definition looks_for (s : st) (n : string) (i : iinfo) (t : string) : Prop :=
  aims_at s n i t \/
  exists m nm, names_come_from s n i m /\ In nm (ii_names i)
    /\ (t = (m ++ "." ++ in_name nm)%string \/ In (in_name nm, t) SIX_MOVES_TO).

(** Import statements of [v] can be left when those of [u] are worked on. *)
Inductive held_up (s : st) : string -> string -> Prop :=
(* a statement of [v] leads to [u] *)
| hu_import v i t u : scheduled s v i -> looks_for s v i t -> brings s t u -> older s v u -> held_up s v u
(* loaded together with [u]: names of one statement, packages before their modules *)
| hu_names n i a b v u : scheduled s n i -> looks_for s n i a -> looks_for s n i b -> brings s a v -> brings s b u ->
    older s v u -> held_up s v u
| hu_package c v u : child_of c u -> brings s c v -> older s v u -> held_up s v u
(* implied modules, aliases, tools of namespace packages, modules of a distribution *)
| hu_implied x r v u : implied_by s x r -> brings s x v -> brings s r u -> older s v u -> held_up s v u
| hu_alias x y u : stands_for s x y -> brings s y u -> older s x u -> held_up s x u
| hu_other x y c u : stands_for s x y -> child_of c y -> brings s c u -> older s y u -> held_up s y u
| hu_tool x t v : tool_of s x t -> brings s t v -> held_up s v x
| hu_tool_package c x t v u : child_of c x -> tool_of s x t -> brings s c v -> brings s t u -> older s v u -> held_up s v u
| hu_dist id nd d a b v u : gfind (s_graph s) id = Some nd -> n_dist nd = Some d ->
    In a (dist_import_names d) -> In b (dist_import_names d) -> brings s a v -> brings s b u -> older s v u -> held_up s v u.
Inductive waits (s : st) (v : string) : string -> Prop :=
| waits_self : waits s v v
| waits_step u w : waits s v u -> held_up s u w -> waits s v w.
