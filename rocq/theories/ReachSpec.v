(** Which nodes of a graph lead to which, and the nodes that no other node has to
    lead to. *)
From Verif Require Export BuilderSpec.

(** There is a path of edges from [a] to [b]. *)
Inductive leads (g : graph) (a : string) : string -> Prop :=
| leads_here : leads g a a
| leads_edge b c d : leads g a b -> has_edge g b c d -> leads g a c.

(** Some node imports the name [x] from the module or package [m], whose node is [nd]. *)
Definition has_names (k : kind) : bool := is_package k || is_nspkg k || is_module k.
Definition imported_from (s : st) (m x : string) (nd : node) : Prop :=
  exists n i nm, scheduled s n i /\ In nm (ii_names i) /\ in_name nm = x
    /\ gfind (s_graph s) m = Some nd /\ has_names (n_kind nd) = true.
(** A package that binds the name itself, or a name of six.moves. *)
Definition own_name (nd : node) (x : string) : Prop :=
  is_package (n_kind nd) = true /\
  (In x (n_written nd) \/ exists b k f ty t, n_kind nd = Package b "@@SIX_MOVES@@" k f ty /\ In (x, t) SIX_MOVES_TO).

(** The missing module that is left over from looking for such a name. *)
Definition left_over (s : st) (m x id : string) : Prop :=
  exists nd, imported_from s m x nd /\ own_name nd x /\ resolves s (m ++ "." ++ x)%string id
    /\ kind_of s id = Some MissingModule.
(** A hook asked for imports of the node, or handed in some. *)
Definition busy (s : st) (id : string) : Prop :=
  (exists i, scheduled s id i) \/ (exists x, In (EvReq id x) (s_log s)).

(** Nodes that no other node has to lead to: roots; left over modules with implied
    references or with imports of their own; the package of an imported name
    with a dot in it, which no parser lets through; nodes that a hook added to
    the graph itself; nodes that were not in the graph when a hook asked for an
    import of them. *)
Inductive loose (s : st) : string -> Prop :=
| loose_root id : In id (g_roots (s_graph s)) -> loose s id
| loose_implied m x refs id : left_over s m x id -> In (EvImplied (m ++ "." ++ x)%string (ImpRefs refs)) (s_log s) -> loose s id
| loose_busy m x id : left_over s m x id -> busy s id -> loose s id
| loose_package m x nd c p : imported_from s m x nd -> child_of c (m ++ "." ++ x)%string -> c <> m ->
    resolves s c p -> loose s p
| loose_given id : In (EvGiven id) (s_log s) -> loose s id
| loose_early n x l l' : s_log s = l ++ EvReq n x :: l' -> (forall i, ~ In (EvAdd n i) l') -> loose s n.

(** What names look like in Python: no dots in the names of a from list, and no
    module whose name consists of dots only. *)
Definition tidy (s : st) : Prop :=
  (forall n i nm, scheduled s n i -> In nm (ii_names i) -> dotless (in_name nm)) /\
  (forall m nd, gfind (s_graph s) m = Some nd -> has_names (n_kind nd) = true -> lstrip dot m <> ""%string).
