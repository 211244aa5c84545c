(** What the attributes of a node have to be, in terms of the specs that Python's
    import system has, of code objects and of the file system. *)
From Verif Require Export SourceSpec.

(** ** Global names *)

(** Names read and written by the code objects in [c], [c] included: see
    [BytecodeSpec.reads] and [BytecodeSpec.writes] for one of them. *)
Definition code_reads (v : bool) (c : code) (n : string) : Prop := exists p d cls,
  descends p c d /\ (cls = true <-> is_class_body v p c d) /\ reads v cls d n.
Definition code_writes (v : bool) (c : code) (n : string) : Prop := exists p d fn cls,
  descends p c d /\ (fn = true <-> in_function v p c d) /\ (cls = true <-> is_class_body v p c d) /\ writes fn cls d n.
(** Names that the code binds in the globals of the module. *)
Definition code_stores (v : bool) (c : code) (n : string) : Prop := exists p d i x,
  descends p c d /\ nth_error (co_ins d) i = Some x /\ names_arg d x n /\
  ((i_op x = STORE_NAME /\ ~ in_function v p c d /\ ~ is_class_body v p c d) \/ i_op x = STORE_GLOBAL).

(** [c] is the code object of node [x], and can be scanned. *)
Inductive code_object_of (E : env) (x : node) (c : code) : Prop :=
| cb_module sp frozen src mk info : importable E sp -> sp_name sp = n_name x ->
    sp_loader sp = LInspect frozen (ROk src) (ROk (Some c)) ->
    extract_bytecode_info (e_ge311 E) c = Some (ROk info) ->
    code_kind x = Some mk ->
    mk = MInvalid \/ mk = (if frozen then MFrozen else match src with Some _ => MSource | None => MBytecode end) ->
    code_object_of E x c.

(** Nodes without code object, or with one that cannot be scanned. *)
Inductive no_names_of (E : env) (x : node) : Prop :=
| nn_class : code_kind x = None -> no_names_of E x
| nn_binary : code_kind x = Some MExtension \/ code_kind x = Some MBuiltin -> no_names_of E x
| nn_invalid sp frozen src code : code_kind x = Some MInvalid -> importable E sp -> sp_name sp = n_name x ->
    sp_loader sp = LInspect frozen src code -> src = RErr ESyntax \/ code_invalid E code -> no_names_of E x.

(** The names read and the names written by the code of a node; the names of the
    made up package [six.moves] are fixed. *)
Inductive names_told (E : env) (x : node) : (string -> Prop) -> (string -> Prop) -> Prop :=
| nt_code c : code_object_of E x c -> names_told E x (code_reads (e_ge311 E) c) (code_writes (e_ge311 E) c)
| nt_six f ty : n_kind x = Package false "@@SIX_MOVES@@" MFrozen f ty ->
    names_told E x (fun _ => False) (fun n => In n ["filter"; "input"; "map"; "range"; "xrange"; "zip"]%string)
| nt_none : no_names_of E x -> names_told E x (fun _ => False) (fun _ => False).

(** The reasons for a name to be among the global names written of a node: the code
    of the node, a name in the from list of one of its import statements, or a
    star import from a module that has the name.  Nothing is known about nodes that
    hooks have added. *)
Inductive global_of (E : env) (s : st) : string -> string -> Prop :=
| go_code x R W n : gfind (s_graph s) (n_name x) = Some x -> names_told E x R W -> W n -> global_of E s (n_name x) n
| go_list id i m n : scheduled s id i -> import_target s id i m -> ii_star i = false -> In n (map in_name (ii_names i)) ->
    global_of E s id n
| go_star id i m z n : scheduled s id i -> import_target s id i m -> ii_star i = true -> gfind (s_graph s) m = Some z ->
    is_package (n_kind z) || is_module (n_kind z) = true -> global_of E s m n -> global_of E s id n
| go_given id n : In (EvGiven id) (s_log s) -> global_of E s id n.

(** The same where the statements are those of the code. *)
Inductive global_in (E : env) (g : graph) : string -> string -> Prop :=
| gi_code x R W n : gfind g (n_name x) = Some x -> names_told E x R W -> W n -> global_in E g (n_name x) n
| gi_list x T fn opt w n : gfind g (n_name x) = Some x -> told_by E x T -> T fn opt w -> In n (map fst (w_names w)) ->
    n <> "*"%string -> global_in E g (n_name x) n
| gi_star x T fn opt w m z n : gfind g (n_name x) = Some x -> told_by E x T -> T fn opt w ->
    In "*"%string (map fst (w_names w)) -> mentions (n_name x) (node_is_pkg x) w m -> gfind g m = Some z ->
    is_package (n_kind z) || is_module (n_kind z) = true -> global_in E g m n -> global_in E g (n_name x) n.

(** ** Files, distributions and search paths *)

(** The file of the code that a spec stands for: none for code that is part of the
    interpreter. *)
Definition spec_file (sp : spec) : option string :=
  match sp_loader sp with LBuiltin | LInspect true _ _ => None | _ => sp_origin sp end.

Definition dist_told (E : env) (file : option string) (d : option dist) : Prop :=
  match file with Some f => exists t, e_dist_for_file E t f = ROk d | None => d = None end.
Definition data_told (E : env) (dir : option string) (b : bool) : Prop :=
  match dir with Some d => exists t, contains_datafiles (e_suffixes E) (e_location E t d) = ROk b | None => b = false end.

Definition occurs (p text : string) : Prop := exists a b, text = (a ++ p ++ b)%string.
(** The source of the package mentions [t], and its code reads the name
    __import__. *)
Definition refers_to (sp : spec) (rd : list string) (t : string) : Prop := exists frozen text code,
  sp_loader sp = LInspect frozen (ROk (Some text)) code /\ In "__import__"%string rd /\ occurs t text.
(** The package looks like a namespace package of the old kind [ty]; pkg_resources
    goes first. *)
Definition looks_like (sp : spec) (rd : list string) (ty : option string) : Prop :=
  match ty with
  | None => ~ refers_to sp rd "pkg_resources" /\ ~ refers_to sp rd "pkgutil"
  | Some t => refers_to sp rd t /\ (t = "pkg_resources" \/ t = "pkgutil" /\ ~ refers_to sp rd "pkg_resources")%string
  end.

(** The class of the module is that of its loader. *)
Definition class_told (sp : spec) (mk : mkind) : Prop :=
  match sp_loader sp with
  | LBuiltin => mk = MBuiltin
  | LExtension => mk = MExtension
  | LInspect frozen src code => mk = MInvalid \/ exists text, src = ROk text /\
      mk = (if frozen then MFrozen else match text with Some _ => MSource | None => MBytecode end)
  | _ => False
  end.
Definition frozen_told (sp : spec) : bool := match sp_loader sp with LInspect f _ _ => f | _ => false end.

Inductive described (E : env) (x : node) : Prop :=
(* nothing is known about place holders, and a script is its file *)
| ds_place : code_kind x = None -> n_kind x <> NamespacePackage -> n_kind x <> Distribution ->
    n_file x = match n_kind x with Script => Some (n_name x) | _ => None end ->
    n_dist x = None -> n_search x = [] -> n_data x = false -> described E x
| ds_namespace sp : n_kind x = NamespacePackage -> importable E sp -> sp_name sp = n_name x ->
    sp_loader sp = LNone \/ sp_loader sp = LNamespace ->
    n_file x = sp_origin sp -> sp_search sp = Some (n_search x) -> n_dist x = None -> n_data x = false -> described E x
| ds_six : n_kind x = Package false "@@SIX_MOVES@@" MFrozen None None ->
    (exists sp, importable E sp /\ sp_name sp = n_name x /\ sp_loader sp = LSix) ->
    n_file x = None -> n_dist x = None -> n_search x = [] -> n_data x = false -> described E x
| ds_module sp mk : n_kind x = Module mk -> importable E sp -> sp_name sp = n_name x -> class_told sp mk ->
    sp_ispkg sp = ROk false \/ (exists f code, sp_loader sp = LInspect f (RErr ESyntax) code) ->
    n_file x = spec_file sp -> dist_told E (spec_file sp) (n_dist x) -> n_search x = [] -> n_data x = false ->
    described E x
| ds_package sp mk ty : n_kind x = Package (frozen_told sp) (n_name x) mk (spec_file sp) ty -> importable E sp ->
    sp_name sp = n_name x -> class_told sp mk -> sp_ispkg sp = ROk true ->
    n_file x = option_map (e_parent E) (spec_file sp) -> dist_told E (spec_file sp) (n_dist x) ->
    looks_like sp (n_read x) ty ->
    sp_search sp = Some (n_search x) \/ (ty <> None /\ exists t, e_import E t (n_name x) = ROk (n_search x)) ->
    data_told E (n_file x) (n_data x) -> described E x.
