(** Specifications for graph building, stated on states and their logs without
    the functions of [Builder]. *)
From Verif Require Export Builder NamesSpec.

(** ** Reading a state *)

(** The class of the node with this identifier. *)
Definition kind_of (s : st) (id : string) : option kind := option_map n_kind (gfind (s_graph s) id).
Definition in_graph (s : st) (id : string) : Prop := gfind (s_graph s) id <> None.

(** The set of attributes of the edge from [a] to [b] contains [d]. *)
Definition has_edge (g : graph) (a b : string) (d : dep) : Prop :=
  exists ds, In (a, b, ds) (g_edges g) /\ In d ds.

(** [id] is the node for [name]: the node of that name, or what a missing hook
    returned instead. *)
Definition resolves (s : st) (name id : string) : Prop :=
  id = name \/ In (EvSubst name id) (s_log s).

(** At some time Python has [sp] for [name]; at some time it finds no such module. *)
Definition has_spec (E : env) (name : string) (sp : spec) : Prop := exists t f, e_find_spec E t f name = ROk (Some sp).
Definition unfound (E : env) (name : string) : Prop := exists t f, forall sp, e_find_spec E t f name <> ROk (Some sp).

(** [i] is one of the import statements found for node [n]. *)
Definition scheduled (s : st) (n : string) (i : iinfo) : Prop :=
  exists l, In (EvSched n l) (s_log s) /\ In i l.

(** ** Names *)

(** [c] is the package of [name]: what is before the last dot; only dots for a
    relative name without other dots. *)
Inductive child_of (c : string) : string -> Prop :=
| child_plain x : lstrip dot c <> ""%string -> dotless x -> child_of c (c ++ "." ++ x)%string
| child_relative k x : c = repeat_char dot (S k) -> dotless x -> child_of c (c ++ x)%string.

(** [q] is [n] without its last [k] components. *)
Inductive up : nat -> string -> string -> Prop :=
| up_0 n : up 0 n n
| up_S k p c q : dotless c -> up k p q -> up (S k) (p ++ "." ++ c)%string q.

(** How far a relative import goes up. *)
Definition climb (is_pkg : bool) (level : nat) : nat := if is_pkg then level - 1 else level.

(** [name] is the absolute name that import statement [i] of node [n] mentions. *)
Inductive imports_name (n : string) (is_pkg : bool) (i : iinfo) : string -> Prop :=
| imports_absolute : ii_level i = 0 -> imports_name n is_pkg i (in_name (ii_module i))
| imports_package q : ii_level i <> 0 -> up (climb is_pkg (ii_level i)) n q ->
    in_name (ii_module i) = ""%string -> imports_name n is_pkg i q
| imports_relative q : ii_level i <> 0 -> up (climb is_pkg (ii_level i)) n q ->
    in_name (ii_module i) <> ""%string ->
    imports_name n is_pkg i (q ++ "." ++ in_name (ii_module i))%string.

(** Import statement [i] of node [n] leaves the top level package. *)
Definition beyond_top (n : string) (is_pkg : bool) (i : iinfo) : Prop :=
  ii_level i <> 0 /\ forall q, ~ up (climb is_pkg (ii_level i)) n q.

Definition invalid_name (i : iinfo) : string :=
  (repeat_char dot (ii_level i) ++ in_name (ii_module i))%string.

(** Whether relative imports of a node start at the node itself. *)
Definition pkg_node (s : st) (n : string) (b : bool) : Prop :=
  exists k, kind_of s n = Some k /\ b = (is_package k || is_nspkg k).

(** [m] is the node for the module mentioned in statement [i] of [n]. *)
Definition import_target (s : st) (n : string) (i : iinfo) (m : string) : Prop :=
  exists b name, pkg_node s n b /\ imports_name n b i name /\ resolves s name m.

(** The node that the names of statement [i] of [n] come from. *)
Definition names_source (s : st) (n : string) (i : iinfo) (m : string) : Prop :=
  exists m0, import_target s n i m0 /\ (m = m0 \/ kind_of s m0 = Some (AliasNode m)).

(** ** Justification of edges *)

Definition import_dep (i : iinfo) : dep :=
  Dep (ii_in_function i || ii_in_conditional i || ii_in_tryexcept i) (negb (ii_in_function i))
    false (in_asname (ii_module i)).
Definition invalid_dep (i : iinfo) : dep :=
  Dep (ii_in_function i || ii_in_conditional i || ii_in_tryexcept i) (negb (ii_in_function i))
    false None.
Definition name_dep (i : iinfo) (nm : iname) : dep :=
  Dep (ii_in_function i || ii_in_conditional i || ii_in_tryexcept i) (negb (ii_in_function i))
    true (in_asname nm).

(** Nodes below [m] that the edge of [m] leads to under the name [nm]. *)
Definition provides (g : graph) (m nm t : string) : Prop :=
  exists ds, In (m, t, ds) (g_edges g) /\ ((exists d, In d ds /\ d_as d = Some nm) \/ t = nm).

(** [m] is a module or package with global [x]. *)
Definition has_global (s : st) (m x : string) : Prop := exists nd, gfind (s_graph s) m = Some nd
  /\ is_package (n_kind nd) || is_nspkg (n_kind nd) || is_module (n_kind nd) = true /\ In x (n_written nd).

(** The reasons for an edge (with its attributes) from [a] to [b]. *)
Inductive justified (s : st) : string -> string -> dep -> Prop :=
(* an import statement *)
| j_import n i m : scheduled s n i -> import_target s n i m -> justified s n m (import_dep i)
| j_beyond n i b : scheduled s n i -> pkg_node s n b -> beyond_top n b i ->
    justified s n (invalid_name i) (invalid_dep i)
(* a name in the from list: a submodule, a name the module itself imports, six *)
| j_name n i m nm k t : scheduled s n i -> names_source s n i m -> In nm (ii_names i) -> ii_star i = false ->
    kind_of s m = Some k -> is_package k || is_nspkg k = true -> resolves s (m ++ "." ++ in_name nm)%string t -> justified s n t (name_dep i nm)
| j_reexport n i m nm t : scheduled s n i -> names_source s n i m -> In nm (ii_names i) -> ii_star i = false ->
    has_global s m (in_name nm) -> provides (s_graph s) m (in_name nm) t -> justified s n t (name_dep i nm)
| j_six n i m nm x t b k f ty : scheduled s n i -> names_source s n i m -> In nm (ii_names i) ->
    kind_of s m = Some (Package b "@@SIX_MOVES@@" k f ty) ->
    In (in_name nm, x) SIX_MOVES_TO -> resolves s x t -> justified s n t default_dep
(* submodule to package *)
| j_parent name c t p : child_of c name -> resolves s name t -> resolves s c p ->
    justified s t p default_dep
| j_member n i m nm k t : scheduled s n i -> names_source s n i m -> In nm (ii_names i) -> ii_star i = false ->
    kind_of s m = Some k -> is_package k || is_nspkg k = true -> resolves s (m ++ "." ++ in_name nm)%string t -> justified s t m default_dep
(* implied references, alias and virtual nodes *)
| j_implied name refs ref t o : In (EvImplied name (ImpRefs refs)) (s_log s) -> In ref refs ->
    resolves s name t -> resolves s ref o -> justified s t o default_dep
| j_alias name a o : kind_of s name = Some (AliasNode a) -> resolves s a o ->
    justified s name o default_dep
| j_virtual name a o : kind_of s name = Some (VirtualNode a) -> resolves s a o ->
    justified s name o default_dep
(* hidden import of a namespace package *)
| j_nspkg n b x k f ty o : kind_of s n = Some (Package b x k f (Some ty)) ->
    ty = "pkgutil"%string \/ ty = "pkg_resources"%string -> resolves s ty o -> justified s n o default_dep
(* import names of a distribution *)
| j_dist id d name o : (exists nd, gfind (s_graph s) id = Some nd /\ n_kind nd = Distribution /\ n_dist nd = Some d) ->
    In name (dist_import_names d) -> resolves s name o -> justified s id o default_dep
(* requests: import_module, import_package, add_edge; modules found by import_package *)
| j_request n name o : In (EvReq n name) (s_log s) -> resolves s name o -> justified s n o default_dep
| j_edge n o d : In (EvEdge n o d) (s_log s) -> justified s n o d
| j_listed n name o : In (EvList n name) (s_log s) -> resolves s name o -> justified s n o default_dep.

(** ** Reasons for nodes *)

Definition not_hooked (s : st) (P : Prop) : Prop := s_missing s <> [] \/ P.

(** The package of [name] is in the graph and neither missing nor excluded. *)
Definition parent_fine (s : st) (name : string) : Prop :=
  not_hooked s (forall c, child_of c name ->
    exists k, kind_of s c = Some k /\ is_missing k = false /\ is_excluded k = false).

(** [name] is not in the table of implied actions (an exclusion could have been
    added by a missing hook that raised an exception which is ignored). *)
Definition fresh (s : st) (name : string) : Prop :=
  assoc name (s_lazy s) = None \/ (s_missing s <> [] /\ In EvErr (s_log s)).

(** The classes of nodes made for a spec. *)
Definition real_kind (k : kind) : bool :=
  match k with Module _ | Package _ _ _ _ _ | NamespacePackage | MissingModule => true | _ => false end.

(** Nodes the builder makes, with the import statements found for them. *)
Inductive node_reason (s : st) : node -> list iinfo -> Prop :=
| nr_missing name : parent_fine s name -> not_hooked s (assoc name (s_lazy s) = None) ->
    node_reason s (plain_node MissingModule name) []
| nr_below_missing name :
    not_hooked s (exists c, child_of c name /\ kind_of s c = Some MissingModule) ->
    node_reason s (plain_node MissingModule name) []
| nr_below_excluded name :
    not_hooked s (exists c, child_of c name /\ kind_of s c = Some ExcludedModule) ->
    node_reason s (plain_node ExcludedModule name) []
| nr_alias name a : In (EvImplied name (ImpAlias a)) (s_log s) -> parent_fine s name ->
    assoc name (s_lazy s) = None -> node_reason s (plain_node (AliasNode a) name) []
| nr_virtual name a : In (EvImplied name (ImpVirtual a)) (s_log s) -> parent_fine s name ->
    assoc name (s_lazy s) = None -> node_reason s (plain_node (VirtualNode a) name) []
| nr_spec n l : real_kind (n_kind n) = true -> parent_fine s (n_name n) -> fresh s (n_name n) ->
    node_reason s n l
| nr_spec_alias n name : parent_fine s name -> fresh s name ->
    n_name n <> name -> node_reason s (plain_node (AliasNode (n_name n)) name) []
| nr_aliased n l name : real_kind (n_kind n) = true -> kind_of s name = Some (AliasNode (n_name n)) -> n_name n <> name ->
    node_reason s n l
| nr_invalid i n b : scheduled s n i -> pkg_node s n b -> beyond_top n b i ->
    node_reason s (plain_node InvalidRelativeImport (invalid_name i)) []
| nr_script path l : node_reason s (Node path Script [] [] None (Some path) [] false) l.
