(** What the reports should contain, and readers of their text. *)
From Verif Require Export Graph.
From Coq Require Import Sorted.
Open Scope string_scope.

(** ** Graphs *)

(** The contract of [ObjectGraph]: identifiers are unique, at most one edge
    (with a set of attributes) between two nodes, no dangling edges or roots. *)
Record sound (g : graph) : Prop := {
  so_nodes : NoDup (map n_name (g_nodes g));
  so_edges : NoDup (map fst (g_edges g));
  so_ends : forall a b ds, In (a, b, ds) (g_edges g) -> In a (map n_name (g_nodes g)) /\ In b (map n_name (g_nodes g));
  so_roots : forall id, In id (g_roots g) -> In id (map n_name (g_nodes g))
}.

(** Reachable from a root. *)
Inductive reaches (g : graph) : string -> Prop :=
| re_root id : In id (g_roots g) -> reaches g id
| re_edge a b ds : reaches g a -> In (a, b, ds) (g_edges g) -> reaches g b.
Definition reachable (g : graph) (n : node) : Prop := In n (g_nodes g) /\ reaches g (n_name n).

(** The contract of [iter_graph]: the reachable nodes, each once, in some order. *)
Record traversal (g : graph) (it : list node) : Prop := {
  tr_once : NoDup (map n_name it);
  tr_all : forall n, In n it <-> reachable g n
}.

(** ** Text *)

(** [a] comes before [b] in the dictionary. *)
Definition before (a b : string) : Prop :=
  (exists c t, b = a ++ String c t) \/
  (exists p x y a' b', a = p ++ String x a' /\ b = p ++ String y b' /\ nat_of_ascii x < nat_of_ascii y).

(** [t] is [s], filled up with spaces to the width. *)
Definition column (width : nat) (s t : string) : Prop :=
  exists k, t = s ++ repeat_char " " k /\ String.length t = Nat.max width (String.length s).

Definition no_char (c : ascii) (s : string) : Prop := forall a b, s <> a ++ String c b.

(** The lines of a text. *)
Fixpoint lines (s : string) : list string :=
  match s with
  | EmptyString => []
  | String c r =>
      if Ascii.eqb c "010" then "" :: lines r
      else match lines r with [] => [String c ""] | x :: l => String c x :: l end
  end.

Definition strip (p s : string) : option string := if starts_with p s then Some (sdrop (String.length p) s) else None.
Definition strip_end (p s : string) : option string := if ends_with p s then Some (sdrop_last (String.length p) s) else None.
(** A string in double quotes, and what follows. *)
Definition take_quoted (s : string) : option (string * string) :=
  match strip (ch dquote) s with Some r => lpart dquote r | None => None end.

(** ** A reader of Graphviz files *)

Inductive item :=
| RNode (id : string) (attributes : option (list (string * string)))
| REdge (a b : string) (attributes : option (list (string * string))).

Fixpoint pieces (c : ascii) (s : string) : list string :=
  match s with
  | EmptyString => [""]
  | String d r =>
      match pieces c r with
      | [] => []
      | x :: l => if Ascii.eqb d c then "" :: x :: l else String d x :: l
      end
  end.
Fixpoint read_pairs (l : list string) : option (list (string * string)) :=
  match l with
  | [] => Some []
  | x :: r => match lpart "=" (lstrip " " x), read_pairs r with Some p, Some ps => Some (p :: ps) | _, _ => None end
  end.
Definition read_attrs (s : string) : option (list (string * string)) :=
  match s with
  | "" => Some []
  | _ => match strip " [" s with
         | Some r => match strip_end "]" r with Some r => read_pairs (pieces comma r) | None => None end
         | None => None
         end
  end.

Definition read_item (line : string) : option item :=
  match strip "    " line with
  | None => None
  | Some r =>
      match take_quoted r with
      | None => None
      | Some (a, rest) =>
          match strip " -> " rest with
          | None => Some (RNode a (read_attrs rest))
          | Some rest =>
              match take_quoted rest with
              | Some (b, rest) => Some (REdge a b (read_attrs rest))
              | None => None
              end
          end
      end
  end.
Fixpoint read_items (ls : list string) : list item * list string :=
  match ls with
  | [] => ([], [])
  | l :: r => match read_item l with
              | Some i => let '(is, rest) := read_items r in (i :: is, rest)
              | None => ([], ls)
              end
  end.

(** A line in a cluster. *)
Definition read_member (line : string) : option string :=
  match strip "   " line with
  | Some r => match take_quoted r with Some (id, "") => Some id | _ => None end
  | None => None
  end.
Fixpoint read_members (ls : list string) : list string * list string :=
  match ls with
  | [] => ([], [])
  | l :: r => match read_member l with
              | Some i => let '(is, rest) := read_members r in (i :: is, rest)
              | None => ([], ls)
              end
  end.
(** Name, label, shape and members of a cluster. *)
Definition rcluster : Type := string * string * string * list string.
Fixpoint read_clusters (fuel : nat) (ls : list string) : option (list rcluster) :=
  match fuel, ls with
  | _, ["}"] => Some []
  | S fuel, head :: label :: shape :: style :: r =>
      match strip "subgraph " head, strip "   label = " label, strip "   shape = " shape with
      | Some h, Some l, Some sh =>
          match strip_end " {" h, take_quoted l, seqb style "   style=filled; color=lightgray", read_members r with
          | Some name, Some (lab, ""), true, (ids, "}" :: "" :: rest) =>
              match read_clusters fuel rest with Some cs => Some ((name, lab, sh, ids) :: cs) | None => None end
          | _, _, _, _ => None
          end
      | _, _, _ => None
      end
  | _, _ => None
  end.

Definition read_dot (text : string) : option (list item * list rcluster) :=
  match lines text with
  | "digraph modulegraph {" :: ls =>
      let '(is, rest) := read_items ls in
      match read_clusters (List.length rest) rest with Some cs => Some (is, cs) | None => None end
  | _ => None
  end.

(** ** What the Graphviz file should say *)

Definition shape_of (k : kind) : option string :=
  match k with
  | Script => Some "note"
  | Package false _ _ _ _ => Some "folder"
  | Module MSource | Module MBytecode | MissingModule => Some "rectangle"
  | Module MExtension => Some "parallelogram"
  | Module MBuiltin => Some "hexagon"
  | _ => None
  end.
(** The attributes of a node. *)
Record node_attrs (g : graph) (n : node) (l : list (string * string)) : Prop := {
  na_once : NoDup (map fst l);
  na_shape : forall v, In ("shape", v) l <-> shape_of (n_kind n) = Some v;
  na_color : forall v, In ("color", v) l <-> v = "red" /\ n_kind n = MissingModule;
  na_root : forall v, In ("root", v) l <-> v = "true" /\ In (n_name n) (g_roots g);
  na_pen : forall v, In ("penwidth", v) l <-> v = "2" /\ In (n_name n) (g_roots g);
  na_other : forall k v, In (k, v) l -> In k ["shape"; "color"; "root"; "penwidth"];
  na_ordered : StronglySorted before (map fst l)
}.
(** The attributes of an edge: dashed if all imports are optional, no arrow from a
    module to its package. *)
Record edge_attrs (a b : string) (ds : list dep) (l : list (string * string)) : Prop := {
  ea_once : NoDup (map fst l);
  ea_style : forall v, In ("style", v) l <-> v = "dashed" /\ forall d, In d ds -> d_optional d = true;
  ea_weight : forall v, In ("weight", v) l <-> v = "10" /\ exists x, a = b ++ "." ++ x;
  ea_arrow : forall v, In ("arrowhead", v) l <-> v = "none" /\ exists x, a = b ++ "." ++ x;
  ea_other : forall k v, In (k, v) l -> In k ["style"; "weight"; "arrowhead"];
  ea_ordered : StronglySorted before (map fst l)
}.

Definition node_ids (is : list item) : list string := flat_map (fun i => match i with RNode a _ => [a] | _ => [] end) is.
Definition edge_ids (is : list item) : list (string * string) :=
  flat_map (fun i => match i with REdge a b _ => [(a, b)] | _ => [] end) is.

(** A module node of a distribution with this name. *)
Definition in_dist (g : graph) (id label : string) : Prop :=
  exists n d, reachable g n /\ n_name n = id /\ n_kind n <> Distribution /\ n_dist n = Some d /\ dist_name d = label.

Record shows (g : graph) (is : list item) (cs : list rcluster) : Prop := {
  sh_nodes_once : NoDup (node_ids is);
  sh_nodes : forall id, In id (node_ids is) <-> reaches g id;
  sh_node_attrs : forall id o, In (RNode id o) is -> exists n l, reachable g n /\ n_name n = id /\ o = Some l /\ node_attrs g n l;
  sh_edges_once : NoDup (edge_ids is);
  sh_edges : forall a b, In (a, b) (edge_ids is) <-> reaches g a /\ exists ds, In (a, b, ds) (g_edges g);
  sh_edge_attrs : forall a b o, In (REdge a b o) is -> exists ds l, In (a, b, ds) (g_edges g) /\ o = Some l /\ edge_attrs a b ds l;
  sh_names : NoDup (map (fun c => fst (fst (fst c))) cs);
  sh_labels : NoDup (map (fun c => snd (fst (fst c))) cs);
  sh_shape : forall name label shape ids, In (name, label, shape, ids) cs -> shape = "tab" /\ NoDup ids
    /\ forall id, In id ids <-> in_dist g id label;
  sh_members : forall id label, in_dist g id label -> exists name shape ids, In (name, label, shape, ids) cs /\ In id ids
}.

(** ** A reader of HTML files *)

(** The values of these attributes of tags. *)
Definition tag_values (start text : string) : list string :=
  flat_map (fun t => match strip start t with
                     | Some r => match lpart dquote r with Some (v, _) => [v] | None => [] end
                     | None => []
                     end) (tl (pieces "<" text)).
(** [<a href="#..."] and [<a name="..."] *)
Definition hrefs (text : string) : list string := tag_values ("a href=" ++ ch dquote ++ "#") text.
Definition anchors (text : string) : list string := tag_values ("a name=" ++ ch dquote) text.

(** The name of the class of a node. *)
Inductive class_of : kind -> string -> Prop :=
| co_script : class_of Script "Script"
| co_source : class_of (Module MSource) "SourceModule"
| co_frozen : class_of (Module MFrozen) "FrozenModule"
| co_bytecode : class_of (Module MBytecode) "BytecodeModule"
| co_extension : class_of (Module MExtension) "ExtensionModule"
| co_builtin : class_of (Module MBuiltin) "BuiltinModule"
| co_invalid : class_of (Module MInvalid) "InvalidModule"
| co_namespace : class_of NamespacePackage "NamespacePackage"
| co_package i k f p : class_of (Package false i k f p) "Package"
| co_frozen_package i k f p : class_of (Package true i k f p) "FrozenPackage"
| co_excluded : class_of ExcludedModule "ExcludedModule"
| co_missing : class_of MissingModule "MissingModule"
| co_relative : class_of InvalidRelativeImport "InvalidRelativeImport"
| co_virtual x : class_of (VirtualNode x) "VirtualNode"
| co_alias x : class_of (AliasNode x) "AliasNode"
| co_dist : class_of Distribution "PyPIDistribution".
