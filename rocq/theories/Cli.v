(** The command line: [saved_sys_path] (_utilities.py) and __main__.py, on top of
    the builder and the reports.

    Lists of Python are cells of a store, so that two names can refer to the same
    list. *)
From Verif Require Export Builder Report.

(** ** The process *)

(** Cells with lists of strings; [y_path] is the cell [sys.path] refers to. *)
Record sys := Sys {
  y_lists : list (list string);
  y_path : nat;
  y_stdout : string;
  y_files : list (string * string)
}.

Definition IO (A : Type) := sys -> option (result A * sys).
Definition io_ret {A} (a : A) : IO A := fun y => Some (ROk a, y).
Definition io_raise {A} (e : err) : IO A := fun y => Some (RErr e, y).
Definition io_bind {A B} (m : IO A) (f : A -> IO B) : IO B := fun y =>
  match m y with
  | None => None
  | Some (ROk a, y') => f a y'
  | Some (RErr e, y') => Some (RErr e, y')
  end.
Notation "x <-- m ;; k" := (io_bind m (fun x => k)) (at level 61, m at next level, right associativity).
Notation "'perform' m ;; k" := (io_bind m (fun _ => k)) (at level 61, m at next level, right associativity).

Definition cell (a : nat) (y : sys) : list string := nth a (y_lists y) [].
Fixpoint put (a : nat) (l : list string) (cells : list (list string)) {struct cells} : list (list string) :=
  match cells, a with
  | [], _ => []
  | _ :: r, 0 => l :: r
  | x :: r, S a' => x :: put a' l r
  end.
(** [a new list object] *)
Definition alloc (l : list string) : IO nat := fun y =>
  Some (ROk (List.length (y_lists y)), Sys (y_lists y ++ [l]) (y_path y) (y_stdout y) (y_files y)).
Definition read (a : nat) : IO (list string) := fun y => Some (ROk (cell a y), y).
(** [x[:] = l], [x.extend], [x.insert]: change of the list itself. *)
Definition write (a : nat) (l : list string) : IO unit := fun y =>
  Some (ROk tt, Sys (put a l (y_lists y)) (y_path y) (y_stdout y) (y_files y)).
Definition sys_path (y : sys) : list string := cell (y_path y) y.
Definition path_cell : IO nat := fun y => Some (ROk (y_path y), y).

(** [raise SystemExit(n)] *)
Definition exit_1 : err := EUser "SystemExit(1)".
Definition exit_2 : err := EUser "SystemExit(2)".

(** ** [saved_sys_path] *)

(** modulegraph2/_utilities.py:10-24.  [body] is the block of the [with]
    statement; [orig_path] is a new list that no other code can reach, so it is a
    value here.  [invalidate] is [importlib.invalidate_caches()]. *)
Definition saved_sys_path {A} (invalidate : IO unit) (body : IO A) : IO A := fun y =>
  let orig_path := sys_path y in
  match body y with
  | None => None
  | Some (r, y1) =>
      (a <-- path_cell ;; perform write a orig_path ;; perform invalidate ;; fun y2 => Some (r, y2)) y1
  end.

(** ** [parse_arguments] *)

(** modulegraph2/__main__.py:115-135 *)
Inductive node_type := NTScript | NTModule | NTDistribution.
Inductive output_format := FHtml | FGraphviz.

(** Attributes of the namespace. *)
Inductive value :=
| VNone
| VType (t : node_type)
| VText (s : string)
| VFormat (f : output_format)
| VList (a : nat)
| VNames (l : list string).
Definition namespace : Type := list (string * value).
Definition getattr (ns : namespace) (dest : string) : option value := assoc dest ns.
Fixpoint setattr (dest : string) (v : value) (ns : namespace) : namespace :=
  match ns with
  | [] => [(dest, v)]
  | (d, v') :: r => if seqb d dest then (d, v) :: r else (d, v') :: setattr dest v r
  end.

(** The actions of argparse that are used, and lines 138-146. *)
Inductive act :=
| StoreConst (const : value)
| Store (choices : option (list string))
| Append
| ExtendConst (const : nat).
Record argument := Argument { a_dest : string; a_act : act; a_default : value }.

(** The options of a command line, in order.  Simplification: how argparse splits
    the strings of argv into options and their values is not modelled. *)
Inductive opt :=
| OModule | OScript | ODistribution
| OFormat (s : string)
| OExclude (name : string)
| OStdlib
| OPath (p : string)
| OOutput (f : string).

(** modulegraph2/__main__.py:178-243: the arguments in the order they are added,
    with new lists for the defaults. *)
Record parser := Parser {
  p_module : argument; p_script : argument; p_distribution : argument; p_format : argument;
  p_exclude : argument; p_stdlib : argument; p_path : argument; p_output : argument
}.
Definition make_parser (stdlib_module_names : list string) : IO parser :=
  excludes <-- alloc [] ;;
  excludes' <-- alloc [] ;;
  const <-- alloc stdlib_module_names ;;
  path <-- alloc [] ;;
  io_ret (Parser
    (Argument "node_type" (StoreConst (VType NTModule)) (VType NTModule))
    (Argument "node_type" (StoreConst (VType NTScript)) VNone)
    (Argument "node_type" (StoreConst (VType NTDistribution)) VNone)
    (Argument "output_format" (Store (Some ["html"; "dot"]%string)) (VText "html"))
    (Argument "excludes" Append (VList excludes))
    (Argument "excludes" (ExtendConst const) (VList excludes'))
    (Argument "path" Append (VList path))
    (Argument "output_file" (Store None) VNone)).
Definition arguments (p : parser) : list argument :=
  [p_module p; p_script p; p_distribution p; p_format p; p_exclude p; p_stdlib p; p_path p; p_output p].

(** argparse: the defaults, for attributes that are not there yet. *)
Definition set_defaults (l : list argument) (ns : namespace) : namespace :=
  fold_left (fun ns a => match getattr ns (a_dest a) with
                         | Some _ => ns
                         | None => setattr (a_dest a) (a_default a) ns
                         end) l ns.

(** argparse: [_StoreConstAction], [_StoreAction], [_AppendAction] (which copies
    the list); modulegraph2/__main__.py:138-146 [ExtendConstAction] (which does
    not). *)
Definition take_action (a : argument) (value : string) (ns : namespace) : IO namespace :=
  match a_act a with
  | StoreConst v => io_ret (setattr (a_dest a) v ns)
  | Store None => io_ret (setattr (a_dest a) (VText value) ns)
  | Store (Some choices) => if memb value choices then io_ret (setattr (a_dest a) (VText value) ns) else io_raise exit_2
  | Append =>
      items <-- match getattr ns (a_dest a) with
                | Some (VList x) => read x
                | Some VNone | None => io_ret []
                | Some _ => io_raise EAttr
                end ;;
      x <-- alloc (items ++ [value]) ;;
      io_ret (setattr (a_dest a) (VList x) ns)
  | ExtendConst const =>
      match getattr ns (a_dest a) with
      | Some (VList x) =>
          items <-- read x ;; more <-- read const ;;
          perform write x (items ++ more) ;; io_ret ns
      | _ => io_raise EAttr
      end
  end.

Definition option_of (p : parser) (o : opt) : argument * string :=
  match o with
  | OModule => (p_module p, "")
  | OScript => (p_script p, "")
  | ODistribution => (p_distribution p, "")
  | OFormat s => (p_format p, s)
  | OExclude name => (p_exclude p, name)
  | OStdlib => (p_stdlib p, "")
  | OPath s => (p_path p, s)
  | OOutput f => (p_output p, f)
  end%string.
Fixpoint take_actions (p : parser) (l : list opt) (ns : namespace) : IO namespace :=
  match l with
  | [] => io_ret ns
  | o :: r => ns1 <-- take_action (fst (option_of p o)) (snd (option_of p o)) ns ;; take_actions p r ns1
  end.

(** modulegraph2/__main__.py:149-250; [names] are the positional arguments, at
    least one. *)
Definition parse_arguments (stdlib_module_names : list string) (l : list opt) (names : list string) : IO namespace :=
  p <-- make_parser stdlib_module_names ;;
  ns <-- take_actions p l (set_defaults (arguments p) []) ;;
  match names with
  | [] => io_raise exit_2
  | _ =>
      let ns := setattr "name" (VNames names) ns in
      match getattr ns "output_format" with
      | Some (VText "html"%string) => io_ret (setattr "output_format" (VFormat FHtml) ns)
      | Some (VText "dot"%string) => io_ret (setattr "output_format" (VFormat FGraphviz) ns)
      | _ => io_raise EValue
      end
  end.

(** ** [make_graph] *)

(** modulegraph2/__main__.py:264-265 *)
Fixpoint insert_paths (l : list string) : IO unit :=
  match l with
  | [] => io_ret tt
  | p :: r => a <-- path_cell ;; items <-- read a ;; perform write a (p :: items) ;; insert_paths r
  end.

Definition list_attr (ns : namespace) (dest : string) : IO (list string) :=
  match getattr ns dest with Some (VList a) => read a | _ => io_raise EAttr end.

(** modulegraph2/__main__.py:263-283, [build] is the rest of the block. *)
Definition make_graph_with {A} (invalidate : IO unit) (build : IO A) (ns : namespace) : IO A :=
  saved_sys_path invalidate (
    l <-- list_attr ns "path" ;;
    perform insert_paths (rev l) ;;
    build).

Section main.
  (** [envs]: what the builder finds in the world, given the search path.
      [start]: a new ModuleGraph.  [fuel] bounds the recursion of the builder. *)
  Variable envs : list string -> env.
  Variable start : st.
  Variable fuel : nat.
  Variable invalidate : IO unit.
  Variable stdlib_module_names : list string.
  (** [iter_graph]: what its first and later calls yield. *)
  Variable iter_graph : nat -> graph -> list node.
  (** [open(path, "w")], and writing a text to a file or to stdout: an OSError
      can be raised after some characters. *)
  Variable opens : string -> result unit.
  Variable writes : option string -> string -> option nat.

  (** A call that raises ends the program. *)
  Definition graph_call (E : env) (a : action) (s : st) : IO st := fun y =>
    match top_call E fuel a s with
    | None => None
    | Some (AnsErr e, _) => Some (RErr e, y)
    | Some (_, s') => Some (ROk s', y)
    end.
  Fixpoint graph_calls (E : env) (l : list action) (s : st) : IO st :=
    match l with
    | [] => io_ret s
    | a :: r => s1 <-- graph_call E a s ;; graph_calls E r s1
    end.

  (** modulegraph2/__main__.py:267-283.  Simplification: the builder does not
      change [sys.path]. *)
  Definition build_graph (ns : namespace) : IO st :=
    excludes <-- list_attr ns "excludes" ;;
    path <-- (fun y => Some (ROk (sys_path y), y)) ;;
    s1 <-- graph_call (envs path) (AExcludes excludes) start ;;
    match getattr ns "node_type", getattr ns "name" with
    | Some (VType NTModule), Some (VNames names) => graph_calls (envs path) (map AAddModule names) s1
    | Some (VType NTScript), Some (VNames names) => graph_calls (envs path) (map AAddScript names) s1
    | Some (VType NTDistribution), Some (VNames names) => graph_calls (envs path) (map AAddDistNamed names) s1
    | _, _ => io_raise EAssert
    end.
  Definition make_graph (ns : namespace) : IO st := make_graph_with invalidate (build_graph ns) ns.

  (** ** [print_graph], [format_graph], [main] *)

  (** modulegraph2/__main__.py:286-306: the text. *)
  Definition print_graph (f : output_format) (g : graph) : string :=
    match f with
    | FHtml => export_to_html g (iter_graph 0 g) (iter_graph 1 g)
    | FGraphviz => print_dot g (iter_graph 0 g) (iter_graph 1 g)
    end.

  Definition write_stdout (text : string) : IO unit := fun y =>
    match writes None text with
    | None => Some (ROk tt, Sys (y_lists y) (y_path y) (y_stdout y ++ text) (y_files y))
    | Some k => Some (RErr EOS, Sys (y_lists y) (y_path y) (y_stdout y ++ stake k text) (y_files y))
    end.
  Definition write_file (file text : string) : IO unit := fun y =>
    match opens file with
    | RErr e => Some (RErr e, y)
    | ROk _ =>
        let file_put content := (file, content) :: filter (fun x => negb (seqb (fst x) file)) (y_files y) in
        match writes (Some file) text with
        | None => Some (ROk tt, Sys (y_lists y) (y_path y) (y_stdout y) (file_put text))
        | Some k => Some (RErr EOS, Sys (y_lists y) (y_path y) (y_stdout y) (file_put (stake k text)))
        end
    end.

  (** modulegraph2/__main__.py:309-327; the message on stderr is left out. *)
  Definition format_graph (ns : namespace) (s : st) : IO unit :=
    match getattr ns "output_format" with
    | Some (VFormat f) =>
        let text := print_graph f (s_graph s) in
        match getattr ns "output_file" with
        | Some VNone => write_stdout text
        | Some (VText file) => fun y =>
            match write_file file text y with
            | Some (RErr EOS, y') => Some (RErr exit_1, y')
            | x => x
            end
        | _ => io_raise EType
        end
    | _ => io_raise EAssert
    end.

  (** modulegraph2/__main__.py:330-340 *)
  Definition main (l : list opt) (names : list string) : IO unit :=
    ns <-- parse_arguments stdlib_module_names l names ;;
    s <-- make_graph ns ;;
    format_graph ns s.
End main.
