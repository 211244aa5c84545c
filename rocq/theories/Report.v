(** The reports of a graph: [distributions], [report] (_modulegraph.py),
    _dotbuilder.py, _htmlbuilder.py and the formatting functions of __main__.py.

    [ObjectGraph.iter_graph] and [nodes] are not part of the repository: the
    functions below take the lists of nodes that they yield. *)
From Verif Require Export Graph.
From Coq Require Import Decimal DecimalString.

Definition newline : ascii := "010"%char.

(** What a file that was written with [print(line, file=file)] contains. *)
Fixpoint printed (lines : list string) : string :=
  match lines with
  | [] => ""
  | x :: r => (x ++ String newline (printed r))%string
  end.

(** ** [ModuleGraph.distributions] *)

(** modulegraph2/_modulegraph.py:94-117: [l] is [iter_graph()] or [nodes()].
    Simplification: the values are yielded at once, the graph does not change in
    between. *)
Fixpoint distributions_from (seen : list string) (l : list node) : list dist :=
  match l with
  | [] => []
  | n :: r =>
      if is_distribution (n_kind n) then distributions_from seen r
      else match n_dist n with
           | Some d =>
               if memb (dist_identifier d) seen then distributions_from seen r
               else d :: distributions_from (set_add (dist_identifier d) seen) r
           | None => distributions_from seen r
           end
  end.
Definition distributions (l : list node) : list dist := distributions_from [] l.

(** ** [ModuleGraph.report] *)

(** [a <= b] for strings: the order of the characters (code points; bytes of
    UTF-8 have the same order). *)
Fixpoint str_leb (a b : string) : bool :=
  match a, b with
  | EmptyString, _ => true
  | String _ _, EmptyString => false
  | String x a', String y b' =>
      if Ascii.eqb x y then str_leb a' b' else Nat.ltb (nat_of_ascii x) (nat_of_ascii y)
  end.

(** [sorted(l, key=key)]: a stable sort. *)
Section sorted.
  Context {A : Type}.
  Variable key : A -> string.
  Fixpoint insert_sorted (x : A) (l : list A) : list A :=
    match l with
    | [] => [x]
    | y :: r => if str_leb (key x) (key y) then x :: l else y :: insert_sorted x r
    end.
  Definition sorted (l : list A) : list A := fold_right insert_sorted [] l.
End sorted.

(** [type(node).__name__] *)
Definition class_name (k : kind) : string :=
  match k with
  | Script => "Script"
  | Module MSource => "SourceModule"
  | Module MFrozen => "FrozenModule"
  | Module MBytecode => "BytecodeModule"
  | Module MExtension => "ExtensionModule"
  | Module MBuiltin => "BuiltinModule"
  | Module MInvalid => "InvalidModule"
  | NamespacePackage => "NamespacePackage"
  | Package false _ _ _ _ => "Package"
  | Package true _ _ _ _ => "FrozenPackage"
  | ExcludedModule => "ExcludedModule"
  | MissingModule => "MissingModule"
  | InvalidRelativeImport => "InvalidRelativeImport"
  | VirtualNode _ => "VirtualNode"
  | AliasNode _ => "AliasNode"
  | Distribution => "PyPIDistribution"
  end%string.

(** ["%-15s %-25s %s" % (a, b, c)]; simplification: widths are counted in bytes. *)
Definition ljust (width : nat) (s : string) : string := (s ++ repeat_char " " (width - String.length s))%string.
Definition table_line (a b c : string) : string := (ljust 15 a ++ " " ++ ljust 25 b ++ " " ++ c)%string.

(** Lines 136-139 *)
Definition report_line (n : node) : string :=
  table_line (class_name (n_kind n)) (n_name n) (match n_file n with Some f => f | None => "" end).

(** modulegraph2/_modulegraph.py:122-139; the lines that are printed. *)
Definition report (iter_graph : list node) : list string :=
  [""; table_line "Class" "Name" "File"; table_line "-----" "----" "----"]%string ++
  flat_map (fun m => if is_distribution (n_kind m) then [] else [report_line m]) (sorted n_name iter_graph).

(** ** Graphviz *)

(** [str(n)] *)
Definition show_nat (n : nat) : string := NilZero.string_of_uint (Nat.to_uint n).

(** Attributes: a dict, in order of insertion. *)
Definition attrs : Type := list (string * string).
Fixpoint attr_set (k v : string) (l : attrs) : attrs :=
  match l with
  | [] => [(k, v)]
  | (k', v') :: r => if seqb k' k then (k', v) :: r else (k', v') :: attr_set k v r
  end.
Definition attr_update (l more : attrs) : attrs := fold_left (fun acc x => attr_set (fst x) (snd x) acc) more l.

(** modulegraph2/_dotbuilder.py:18-31 [format_attributes]. *)
Definition format_attributes (value : attrs) : string :=
  match value with
  | [] => ""
  | _ => (" [" ++ join ", " (map (fun x => fst x ++ "=" ++ snd x) (sorted fst value)) ++ "]")%string
  end.

(** modulegraph2/__main__.py:24-32 [NODE_ATTR]. *)
Definition NODE_ATTR (class : string) : attrs :=
  match find (fun x => seqb (fst x) class)
    [("Script", [("shape", "note")]);
     ("Package", [("shape", "folder")]);
     ("SourceModule", [("shape", "rectangle")]);
     ("BytecodeModule", [("shape", "rectangle")]);
     ("ExtensionModule", [("shape", "parallelogram")]);
     ("BuiltinModule", [("shape", "hexagon")]);
     ("MissingModule", [("shape", "rectangle"); ("color", "red")])]%string with
  | Some (_, l) => l
  | None => []
  end.

(** modulegraph2/__main__.py:35-53 [format_node].  [node in mg.roots()] compares
    nodes; nodes of a graph with equal fields have the same identifier and so are
    the same. *)
Definition format_node (g : graph) (n : node) : attrs :=
  let results := if memb (n_name n) (g_roots g) then attr_set "root" "true" (attr_set "penwidth" "2" []) else [] in
  attr_update results (NODE_ATTR (class_name (n_kind n))).

(** modulegraph2/__main__.py:56-79 [format_edge]. *)
Definition format_edge (source target : string) (edge : list dep) : attrs :=
  let results := if forallb d_optional edge then attr_set "style" "dashed" [] else [] in
  if starts_with (target ++ ".")%string source
  then attr_set "arrowhead" "none" (attr_set "weight" "10" results) else results.

(** modulegraph2/__main__.py:82-109 [group_nodes]: a dict from the name of a
    distribution to its nodes. *)
Definition cluster : Type := string * string * list node.
Fixpoint cluster_add (dist : string) (n : node) (l : list cluster) : list cluster :=
  match l with
  | [] => [(dist, "tab"%string, [n])]
  | (name, shape, ns) :: r =>
      if seqb name dist then (name, shape, ns ++ [n]) :: r else (name, shape, ns) :: cluster_add dist n r
  end.
Definition group_nodes (iter_graph : list node) : list cluster :=
  fold_left (fun clusters n =>
    if is_distribution (n_kind n) then clusters
    else match n_dist n with
         | Some d => cluster_add (dist_name d) n clusters
         | None => clusters
         end) iter_graph [].

Definition quoted (s : string) : string := String dquote (s ++ ch dquote).

(** modulegraph2/_dotbuilder.py:54-63 *)
Definition dot_node (g : graph) (fnode : node -> attrs) (fedge : string -> string -> list dep -> attrs) (n : node) : list string :=
  ("    " ++ quoted (n_name n) ++ format_attributes (fnode n))%string ::
  map (fun e => "    " ++ quoted (n_name n) ++ " -> " ++ quoted (snd e) ++
                format_attributes (fedge (n_name n) (snd e) (fst e)))%string (goutgoing g (n_name n)).

(** Lines 65-74 *)
Definition dot_cluster (idx : nat) (c : cluster) : list string :=
  let '(name, icon, items) := c in
  ["subgraph cluster_" ++ show_nat idx ++ " {";
   "   label = " ++ quoted name;
   "   shape = " ++ icon;
   "   style=filled; color=lightgray"]%string ++
  map (fun n => "   " ++ quoted (n_name n))%string items ++
  ["}"; ""]%string.
Fixpoint dot_clusters (idx : nat) (l : list cluster) : list string :=
  match l with
  | [] => []
  | c :: r => dot_cluster idx c ++ dot_clusters (S idx) r
  end.

(** modulegraph2/_dotbuilder.py:34-75; the list handed to [group_nodes] is the one
    that a second call of [iter_graph] yields. *)
Definition export_to_dot (g : graph) (fnode : node -> attrs) (fedge : string -> string -> list dep -> attrs)
    (groups : list node -> list cluster) (it1 it2 : list node) : string :=
  printed (["digraph modulegraph {"]%string ++ flat_map (dot_node g fnode fedge) it1 ++
           dot_clusters 0 (groups it2) ++ ["}"]%string).

(** modulegraph2/__main__.py:300-303 in [print_graph]. *)
Definition print_dot (g : graph) (it1 it2 : list node) : string :=
  export_to_dot g (format_node g) format_edge group_nodes it1 it2.

(** ** HTML *)

(** modulegraph2/_htmlbuilder.py:16-32 *)
Definition HTML_PREFIX : string :=
  printed ["<HTML>"; "  <HEAD>"; "   <TITLE>Modulegraph report</TITLE>"; "  </HEAD>"; "  <BODY>"; "   <H1>Modulegraph report</H1>"].
Definition HTML_SUFFIX : string := printed ["  </BODY>"; "</HTML>"].

(** [node.name]: for a distribution this is not the identifier. *)
Definition show_name (n : node) : string :=
  match n_kind n, n_dist n with
  | Distribution, Some d => dist_name d
  | _, _ => n_name n
  end.
(** The name of a node at the other end of an edge. *)
Definition name_of (g : graph) (id : string) : string :=
  match gfind g id with Some n => show_name n | None => id end.

Definition html_anchor (n : node) : string :=
  ("<a name=" ++ quoted (n_name n) ++ "><h2>" ++ class_name (n_kind n) ++ " " ++ show_name n ++ "</h2></a>")%string.
Definition html_link (g : graph) (id : string) : string :=
  ("<a href=" ++ quoted ("#" ++ id) ++ ">" ++ name_of g id ++ "</a>")%string.

(** modulegraph2/_htmlbuilder.py:50-79 *)
Definition html_node (g : graph) (reachable : list string) (n : node) : list string :=
  if is_distribution (n_kind n) then []
  else
    [html_anchor n] ++
    match goutgoing g (n_name n) with
    | [] => []
    | outgoing => ["<p>Depends on:"; join ", " (map (fun e => html_link g (snd e)) outgoing)]%string
    end ++
    match gincoming g (n_name n) with
    | [] => []
    | incoming => ["<p>Used by:"; join ", " (map (fun e => html_link g (snd e)) (filter (fun e => memb (snd e) reachable) incoming))]%string
    end.

(** modulegraph2/_htmlbuilder.py:35-81; [it1] and [it2] are what the two calls of
    [iter_graph] yield. *)
Definition export_to_html (g : graph) (it1 it2 : list node) : string :=
  (HTML_PREFIX ++ printed (flat_map (html_node g (map n_name it1)) (sorted n_name it2)) ++ HTML_SUFFIX)%string.
