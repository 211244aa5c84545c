(** What the graph has to say about the import statements in the code of a
    module, stated on parse trees, code objects and specs. *)
From Verif Require Export BuilderSpec BytecodeSpec AstSpec.

(** The class and file of the code of a node: of the node itself, or of the
    __init__ module of a package. *)
Definition code_kind (n : node) : option mkind :=
  match n_kind n with Module k => Some k | Package _ _ k _ _ => Some k | _ => None end.
Definition code_file (n : node) : option string :=
  match n_kind n with Module _ => n_file n | Package _ _ _ f _ => f | _ => None end.

(** Python's import system has this spec. *)
Definition importable (E : env) (sp : spec) : Prop := exists t f name, e_find_spec E t f name = ROk (Some sp).

(** There is a SyntaxError for the code object. *)
Definition code_invalid (E : env) (x : result (option code)) : Prop :=
  x = RErr ESyntax \/ exists c, x = ROk (Some c) /\ extract_bytecode_info (e_ge311 E) c = Some (RErr ESyntax).

(** [tree] is the parsed source of node [n].  A module is invalid, in spite of its
    source, when its code object is. *)
Inductive source_of (E : env) (n : node) (tree : ast) : Prop :=
| so_script t : n_kind n = Script -> e_script E t (n_name n) = ROk tree -> source_of E n tree
| so_module sp frozen text code file t mk : importable E sp -> sp_name sp = n_name n ->
    sp_loader sp = LInspect frozen (ROk (Some text)) code -> sp_origin sp = Some file ->
    e_parse E t file text = ROk tree ->
    code_file n = (if frozen then None else Some file) -> code_kind n = Some mk ->
    (mk = if frozen then MFrozen else MSource) \/ (mk = MInvalid /\ code_invalid E code) ->
    source_of E n tree.

(** [c] is the code object of node [n], which has no source, or an invalid one. *)
Inductive bytecode_of (E : env) (n : node) (c : code) : Prop :=
| co_module sp frozen src mk : importable E sp -> sp_name sp = n_name n ->
    sp_loader sp = LInspect frozen (ROk src) (ROk (Some c)) -> code_kind n = Some mk ->
    (src = None /\ mk = if frozen then MFrozen else MBytecode)
    \/ (exists text file t, src = Some text /\ mk = MInvalid /\ sp_origin sp = Some file /\ e_parse E t file text = RErr ESyntax) ->
    bytecode_of E n c.

(** Nodes without code: other classes, and modules with neither source nor code
    that can be read; [six.moves] is made up. *)
Inductive no_code_of (E : env) (n : node) : Prop :=
| nc_class : n_kind n <> Script -> code_kind n = None -> no_code_of E n
| nc_binary : code_kind n = Some MExtension \/ code_kind n = Some MBuiltin -> no_code_of E n
| nc_six f ty : n_kind n = Package false "@@SIX_MOVES@@" MFrozen f ty -> no_code_of E n
| nc_invalid sp frozen src code : code_kind n = Some MInvalid -> importable E sp -> sp_name sp = n_name n ->
    sp_loader sp = LInspect frozen src code ->
    src = RErr ESyntax \/ (code_invalid E code /\ forall text, src = ROk (Some text) ->
      exists file t, sp_origin sp = Some file /\ e_parse E t file text = RErr ESyntax) ->
    no_code_of E n.

(** ** Statements *)

(** Which import statements a module contains: [fn], in a function; [opt],
    not certain to be executed. *)
Definition says := bool -> bool -> what -> Prop.

Definition tree_says (tree : ast) : says := fun fn opt w => exists p,
  In (p, w) (sites [] tree) /\ (fn = true <-> In KDef p) /\ (opt = true <-> In KDef p \/ In KIf p \/ In KTry p).

(** The statement that an IMPORT_NAME stands for; aliases are not part of it. *)
Definition code_what (name : string) (level : nat) (from : option (list string)) : what :=
  match from, level with
  | None, 0 => WImport name None
  | None, _ => WFrom (Some name) [] level
  | Some l, _ => WFrom (Some name) (map (fun x => (x, None)) l) level
  end.
(** Statements of all code objects in [c]; the code does not tell about
    conditionals. *)
Definition code_says (v : bool) (c : code) : says := fun fn opt w => exists p d hs st name from,
  descends p c d /\ co_ins d = flat_map (enc v) hs /\ Forall (chunk_ok v d) hs
  /\ In st (stmts hs) /\ stmt_is d st name from /\ w = code_what name (st_level st) from
  /\ (fn = true <-> in_function v p c d) /\ opt = fn.
(** All code objects in [c] are as the compiler emits them. *)
Definition compiled (v : bool) (c : code) : Prop :=
  NoDup (map key (all_codes c)) /\ forall d, In d (all_codes c) -> exists hs, co_ins d = flat_map (enc v) hs /\ Forall (chunk_ok v d) hs.
Definition compiled_env (E : env) : Prop := forall sp frozen src c, importable E sp ->
  sp_loader sp = LInspect frozen src (ROk (Some c)) -> compiled (e_ge311 E) c.

(** What the code of a node says. *)
Inductive told_by (E : env) (n : node) : says -> Prop :=
| tx_tree tree : source_of E n tree -> told_by E n (tree_says tree)
| tx_code c : bytecode_of E n c -> told_by E n (code_says (e_ge311 E) c)
| tx_none : no_code_of E n -> told_by E n (fun _ _ _ => False).

(** ** The graph for a statement *)

(** What the attributes of an edge have to be. *)
Definition dep_states (fn opt fromlist : bool) (asname : option string) (d : dep) : Prop :=
  d_optional d = opt /\ d_global d = negb fn /\ d_fromlist d = fromlist /\ d_as d = asname.

Definition w_level (w : what) : nat := match w with WImport _ _ => 0 | WFrom _ _ l => l end.
Definition w_module (w : what) : string :=
  match w with WImport n _ => n | WFrom (Some m) _ _ => m | WFrom None _ _ => EmptyString end.
Definition w_asname (w : what) : option string := match w with WImport _ a => a | WFrom _ _ _ => None end.
Definition w_names (w : what) : list (string * option string) := match w with WImport _ _ => [] | WFrom _ l _ => l end.

(** [name] is the absolute name of the module that [w] in module [n] mentions. *)
Inductive mentions (n : string) (is_pkg : bool) (w : what) : string -> Prop :=
| mentions_absolute : w_level w = 0 -> mentions n is_pkg w (w_module w)
| mentions_package q : w_level w <> 0 -> up (climb is_pkg (w_level w)) n q -> w_module w = EmptyString ->
    mentions n is_pkg w q
| mentions_relative q : w_level w <> 0 -> up (climb is_pkg (w_level w)) n q -> w_module w <> EmptyString ->
    mentions n is_pkg w (q ++ "." ++ w_module w)%string.
Definition leaves_top (n : string) (is_pkg : bool) (w : what) : Prop :=
  w_level w <> 0 /\ forall q, ~ up (climb is_pkg (w_level w)) n q.
Definition dotted (w : what) : string := (repeat_char dot (w_level w) ++ w_module w)%string.

Definition node_is_pkg (n : node) : bool := is_package (n_kind n) || is_nspkg (n_kind n).

(** The edge for the module of a statement. *)
Definition module_edge (g : graph) (n : node) (fn opt : bool) (w : what) : Prop :=
  (exists name d, mentions (n_name n) (node_is_pkg n) w name /\ dep_states fn opt false (w_asname w) d
     /\ has_edge g (n_name n) name d)
  \/ (leaves_top (n_name n) (node_is_pkg n) w
     /\ (exists x, gfind g (dotted w) = Some x /\ n_kind x = InvalidRelativeImport)
     /\ exists d, dep_states fn opt false None d /\ has_edge g (n_name n) (dotted w) d).

Definition from_six (k : kind) : bool :=
  match k with Package _ init _ _ _ => seqb init "@@SIX_MOVES@@" | _ => false end.

(** The package that the names of [w] come from: the one mentioned, or that
    behind an alias. *)
Definition names_from (g : graph) (n : node) (w : what) (pkg : string) : Prop :=
  exists name, mentions (n_name n) (node_is_pkg n) w name
    /\ (name = pkg \/ exists m, gfind g name = Some m /\ n_kind m = AliasNode pkg).

(** The edges for the names in the from list. *)
Definition name_edges (g : graph) (n : node) (fn opt : bool) (w : what) : Prop :=
  ~ In "*"%string (map fst (w_names w)) ->
  forall pkg nd, names_from g n w pkg -> gfind g pkg = Some nd -> is_package (n_kind nd) = true ->
    from_six (n_kind nd) = false ->
    forall x, In x (map fst (w_names w)) -> ~ In x (n_written nd) ->
    exists asname d, In (x, asname) (w_names w) /\ dep_states fn opt true asname d
      /\ has_edge g (n_name n) (pkg ++ "." ++ x) d /\ has_edge g (pkg ++ "." ++ x) pkg (Dep false true false None).

(** The reasons for an edge from [n] to [b], in terms of the code of [n], of the
    configuration and of names. *)
Inductive explained (g : graph) (implies : list (string * implied)) (n : node) (T : says) (b : string) (d : dep) : Prop :=
(* the module of an import statement *)
| ex_module fn opt w : T fn opt w -> mentions (n_name n) (node_is_pkg n) w b ->
    dep_states fn opt false (w_asname w) d -> explained g implies n T b d
| ex_beyond fn opt w : T fn opt w -> leaves_top (n_name n) (node_is_pkg n) w -> b = dotted w ->
    dep_states fn opt false None d -> explained g implies n T b d
(* a name in a from list: below the package, or imported there *)
| ex_name fn opt w pkg x a : T fn opt w -> names_from g n w pkg -> In (x, a) (w_names w) -> ~ In "*"%string (map fst (w_names w)) ->
    (b = (pkg ++ "." ++ x)%string /\ exists nd, gfind g pkg = Some nd /\ node_is_pkg nd = true)
    \/ (provides g pkg x b /\ exists nd, gfind g pkg = Some nd /\ (node_is_pkg nd || is_module (n_kind nd) = true) /\ In x (n_written nd)) -> dep_states fn opt true a d -> explained g implies n T b d
(* a name of six.moves *)
| ex_six fn opt w pkg nd x a : T fn opt w -> names_from g n w pkg -> In (x, a) (w_names w) -> x <> "*"%string ->
    gfind g pkg = Some nd -> from_six (n_kind nd) = true -> In (x, b) SIX_MOVES_TO -> d = (Dep false true false None) ->
    explained g implies n T b d
(* the package of the module *)
| ex_parent x : n_name n = (b ++ "." ++ x)%string -> d = (Dep false true false None) -> explained g implies n T b d
| ex_dots k x : b = repeat_char dot (S k) -> n_name n = (b ++ x)%string -> d = (Dep false true false None) -> explained g implies n T b d
(* configured *)
| ex_implied refs : In (n_name n, ImpRefs refs) implies -> In b refs -> d = (Dep false true false None) -> explained g implies n T b d
| ex_alias : n_kind n = AliasNode b \/ n_kind n = VirtualNode b -> d = (Dep false true false None) -> explained g implies n T b d
(* a namespace package of the old kind needs its tool *)
| ex_nspkg a i k f : n_kind n = Package a i k f (Some b) -> b = "pkgutil"%string \/ b = "pkg_resources"%string -> d = (Dep false true false None) ->
    explained g implies n T b d
(* modules of a distribution *)
| ex_dist x : n_kind n = Distribution -> n_dist n = Some x -> In b (dist_import_names x) -> d = (Dep false true false None) ->
    explained g implies n T b d.

(** ** Plain use of the library *)

(** No hooks, and only calls that add scripts, modules and distributions, exclude
    modules, add implied actions (all of which are in [implies], with those of the
    constructor) or look at the graph.  With [fine], no call has raised. *)
Definition plain_action (implies : list (string * implied)) (a : action) : Prop :=
  match a with
  | AImplies l => incl l implies
  | AAddScript _ | AAddModule _ | AAddSource _ | AAddDist _ | AAddDistNamed _ | AExcludes _ | ALook => True
  | _ => False
  end.
Inductive plain_history (E : env) (implies : list (string * implied)) (fine : Prop) : st -> Prop :=
| ph_init first : incl first implies -> plain_history E implies fine (init first [] [])
| ph_call s fuel a ans s' : plain_history E implies fine s -> plain_action implies a -> top_call E fuel a s = Some (ans, s') ->
    (fine -> forall e, ans <> AnsErr e) -> plain_history E implies fine s'.
