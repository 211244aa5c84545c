(** [_nodes.py] and the part of [objectgraph.ObjectGraph] that is used. *)
From Verif Require Export Dists DataFiles ImportInfo.

(** modulegraph2/_nodes.py:93-188: the subclasses of [Module]. *)
Inductive mkind := MSource | MFrozen | MBytecode | MExtension | MBuiltin | MInvalid.

(** modulegraph2/_nodes.py:52-372 (and [PyPIDistribution], which is the other
    kind of graph node): the class of a node, with the class specific attributes
    that the code looks at.  [Package]: FrozenPackage or not; name, class and
    file of the init module; namespace_type. *)
Inductive kind :=
| Script
| Module (k : mkind)
| NamespacePackage
| Package (frozen : bool) (init_name : string) (init : mkind) (init_file : option string)
    (namespace_type : option string)
| ExcludedModule
| MissingModule
| InvalidRelativeImport
| VirtualNode (providing_module : string)
| AliasNode (actual_module : string)
| Distribution.

(** modulegraph2/_nodes.py:10-50 [BaseNode].  [n_name] is also the identifier
    (lines 43-49); for a [Distribution] it is the identifier of the
    distribution, which is stored in [n_dist].  [loader], [code] and
    [extension_attributes] are left out: the code never looks at them. *)
Record node := Node {
  n_name : string;
  n_kind : kind;
  n_written : list string;
  n_read : list string;
  n_dist : option dist;
  n_file : option string;
  n_search : list string;
  n_data : bool
}.

(** Nodes made from a name only: modulegraph2/_nodes.py:271-372. *)
Definition plain_node (k : kind) (name : string) : node := Node name k [] [] None None [] false.

(** [isinstance] tests of the code. *)
Definition is_module (k : kind) : bool := match k with Module _ => true | _ => false end.
Definition is_package (k : kind) : bool := match k with Package _ _ _ _ _ => true | _ => false end.
Definition is_nspkg (k : kind) : bool := match k with NamespacePackage => true | _ => false end.
Definition is_script (k : kind) : bool := match k with Script => true | _ => false end.
Definition is_missing (k : kind) : bool := match k with MissingModule => true | _ => false end.
Definition is_excluded (k : kind) : bool := match k with ExcludedModule => true | _ => false end.
Definition is_invalid_rel (k : kind) : bool := match k with InvalidRelativeImport => true | _ => false end.
Definition is_distribution (k : kind) : bool := match k with Distribution => true | _ => false end.
Definition is_extension (k : kind) : bool := match k with Module MExtension => true | _ => false end.

(** Edges: source, target and the set of attributes, in order of creation. *)
Definition gedge : Type := string * string * list dep.

(** The contents of an [ObjectGraph]. *)
Record graph := Graph {
  g_nodes : list node;
  g_edges : list gedge;
  g_roots : list string
}.

Definition empty_graph : graph := Graph [] [] [].

(** [ObjectGraph.find_node] (by identifier). *)
Definition gfind (g : graph) (id : string) : option node :=
  find (fun n => seqb (n_name n) id) (g_nodes g).

Definition ghas (g : graph) (id : string) : bool :=
  match gfind g id with Some _ => true | None => false end.

(** [ObjectGraph.add_node]: ValueError if the identifier is taken. *)
Definition gadd_node (g : graph) (n : node) : result graph :=
  if ghas g (n_name n) then RErr EValue
  else ROk (Graph (g_nodes g ++ [n]) (g_edges g) (g_roots g)).

(** Attribute sets: [DependencyInfo] is compared by value. *)
Definition opt_eqb (a b : option string) : bool :=
  match a, b with
  | None, None => true
  | Some x, Some y => seqb x y
  | _, _ => false
  end.
Definition dep_eqb (a b : dep) : bool :=
  Bool.eqb (d_optional a) (d_optional b) && Bool.eqb (d_global a) (d_global b)
  && Bool.eqb (d_fromlist a) (d_fromlist b) && opt_eqb (d_as a) (d_as b).
Definition dep_add (d : dep) (l : list dep) : list dep :=
  if existsb (dep_eqb d) l then l else l ++ [d].

Fixpoint edges_add (l : list gedge) (s t : string) (d : dep) : list gedge :=
  match l with
  | [] => [(s, t, [d])]
  | (s', t', ds) :: r =>
      if seqb s s' && seqb t t' then (s', t', dep_add d ds) :: r
      else (s', t', ds) :: edges_add r s t d
  end.

(** [ObjectGraph.add_edge]: KeyError if an end is not in the graph. *)
Definition gadd_edge (g : graph) (s t : string) (d : dep) : result graph :=
  if ghas g s && ghas g t then ROk (Graph (g_nodes g) (edges_add (g_edges g) s t d) (g_roots g))
  else RErr EKey.

(** [ObjectGraph.add_root]: KeyError if the node is not in the graph. *)
Definition gadd_root (g : graph) (id : string) : result graph :=
  if ghas g id then ROk (Graph (g_nodes g) (g_edges g) (set_add id (g_roots g))) else RErr EKey.

(** [ObjectGraph.outgoing] / [incoming]. *)
Definition goutgoing (g : graph) (id : string) : list (list dep * string) :=
  flat_map (fun e => let '(s, t, ds) := e in if seqb s id then [(ds, t)] else []) (g_edges g).
Definition gincoming (g : graph) (id : string) : list (list dep * string) :=
  flat_map (fun e => let '(s, t, ds) := e in if seqb t id then [(ds, s)] else []) (g_edges g).

(** [node.globals_written.update(names)] on a node of the graph. *)
Definition upd_written (id : string) (names : list string) (n : node) : node :=
  if seqb (n_name n) id
  then Node (n_name n) (n_kind n) (set_union (n_written n) names) (n_read n) (n_dist n) (n_file n)
         (n_search n) (n_data n)
  else n.
Definition gadd_written (g : graph) (id : string) (names : list string) : graph :=
  Graph (map (upd_written id names) (g_nodes g)) (g_edges g) (g_roots g).
