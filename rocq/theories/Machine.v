(** The state of a [ModuleGraph] under construction, the environment it runs in,
    and the hook programs. *)
From Verif Require Export Graph AstScan Bytecode.

(** ** importlib *)

(** Loaders, as [node_for_spec] distinguishes them (modulegraph2/_graphbuilder.py:172-459):
    [LInspect] carries the answers of [get_source] and [get_code]. *)
Inductive loader :=
| LNone
| LNamespace
| LBuiltin
| LExtension
| LInspect (frozen : bool) (get_source : result (option string)) (get_code : result (option code))
| LSix
| LVendor (attrs : option (string * string))     (* root_name, vendor_pkg *)
| LDistutils
| LOther.

(** [importlib.machinery.ModuleSpec], with [isinstance(loader, InspectLoader)]
    and [loader.is_package(spec.name)]. *)
Record spec := Spec {
  sp_name : string;
  sp_loader : loader;
  sp_origin : option string;
  sp_search : option (list string);
  sp_inspect : bool;
  sp_ispkg : result bool
}.

(** ** Hooks *)

(** Values of the implies table, modulegraph2/_implies.py:12-40. *)
Inductive implied :=
| ImpNone
| ImpAlias (s : string)
| ImpVirtual (s : string)
| ImpRefs (l : list string).

(** What a hook or user program gets back from an action. *)
Inductive answer :=
| AnsUnit
| AnsErr (e : err)
| AnsId (id : string)
| AnsGraph (g : graph) (memory : nat)
| AnsSpec (s : option spec)
| AnsNode (n : node) (imports : list iinfo)
| AnsBool (b : bool)
| AnsImports (l : list iinfo).

(** Programs of hooks (and of the user): any sequence of calls, each depending
    on the earlier answers; exceptions are seen as [AnsErr] and can be handled
    or raised again. *)
Inductive prog :=
| PRet (answer : option string)
| PRaise (e : err)
| PDo (a : action) (k : answer -> prog)
with action :=
(* reading the graph, and private memory of hooks *)
| ALook
| ARemember (memory : nat)
(* the API of ModuleGraph *)
| AAddScript (path : string)
| AAddModule (name : string)
| AAddSource (source : string)
| AAddDist (d : dist)
| AAddDistNamed (name : string)
| AHookContext (p : prog)
| AImportModule (importing : string) (name : string)
| AImportPackage (importing : string) (name : string)
| AAddPost (hook : string -> prog)
| AAddMissing (hook : option string -> string -> prog)
| AExcludes (names : list string)
| AImplies (l : list (string * implied))
(* the API of ObjectGraph *)
| AAddNode (n : node)
| AAddEdge (source target : string) (d : dep)
| AAddRoot (id : string)
(* internal functions used by the built-in hooks *)
| AProcessImports (id : string) (imports : list iinfo)
| ARunStack
(* the environment, as used by the built-in hooks *)
| AFindSpec (name : string)
| AFindSpecRel (name package : string)
| AFake (name : string)
| AUnfake (name : string)
| ANodeForSpec (s : spec)
| AIsFile (path : string)
| AParseFile (path : string).

Definition post_hook := string -> prog.
Definition missing_hook := option string -> string -> prog.

(** ** State *)

(** Items of [_work_stack]: a function and its arguments. *)
Inductive work :=
| DoPost (n : string)                               (* _post_processing(self, node) *)
| DoImport (n : string) (i : iinfo)                 (* _process_import(node, info) *)
| DoNames (importing imported : string) (i : iinfo) (* _process_namelist(...) *)
| DoPackage (n : string) (pkg : string).            (* import_package(node, name) *)

(** Ghost events, newest first in the log: no part of the code looks at them,
    they only record what happened. *)
Inductive event :=
| EvSched (n : string) (imports : list iinfo)  (* _process_import_list *)
| EvPop (w : work)                             (* work started *)
| EvDone (w : work)                            (* work returned *)
| EvFail (w : work)                            (* work raised *)
| EvErr                                        (* an API call raised / a raising hook was ignored *)
| EvSubst (name id : string)                   (* a missing hook returned id for name *)
| EvImplied (name : string) (i : implied)      (* entry of _global_lazy_nodes used *)
| EvAdd (n : string) (imports : list iinfo)    (* the builder added a node with these imports *)
| EvGiven (n : string)                         (* a hook or user added this node *)
| EvReq (source name : string)                 (* import_module/import_package requested *)
| EvEdge (source target : string) (d : dep)    (* add_edge requested *)
| EvRoot (id : string)                         (* a root was requested for this node *)
| EvList (n name : string)                     (* import_package found a module *)
| EvPush (n pkg : string)                      (* import_package work put on the stack *)
| EvHook (n : string)                          (* post processing hooks of a node are called *)
| EvProc (n : string) (imports : list iinfo)   (* a hook hands imports to the work stack *)
| EvConf (names : list string).                (* add_excludes or add_implies for these names *)

(** modulegraph2/_modulegraph.py:69-89: the attributes of a ModuleGraph; the head
    of [s_stack] is the end of the Python list.  [s_fakes]: the FakePackage
    entries in [sys.modules].  [s_clock]: number of questions to the environment
    so far.  [s_run], [s_saved], [s_log] are ghosts: items being worked on,
    stacks put aside by [_saved_stack], the log. *)
Record st := St {
  s_graph : graph;
  s_lazy : list (string * implied);
  s_stack : list work;
  s_seen : list string;
  s_post : list post_hook;
  s_missing : list missing_hook;
  s_fakes : list string;
  s_mem : nat;
  s_clock : nat;
  s_run : list work;
  s_saved : list (list work);
  s_log : list event
}.

Definition set_graph s g := St g (s_lazy s) (s_stack s) (s_seen s) (s_post s) (s_missing s) (s_fakes s) (s_mem s) (s_clock s) (s_run s) (s_saved s) (s_log s).
Definition set_lazy s l := St (s_graph s) l (s_stack s) (s_seen s) (s_post s) (s_missing s) (s_fakes s) (s_mem s) (s_clock s) (s_run s) (s_saved s) (s_log s).
Definition set_stack s l := St (s_graph s) (s_lazy s) l (s_seen s) (s_post s) (s_missing s) (s_fakes s) (s_mem s) (s_clock s) (s_run s) (s_saved s) (s_log s).
Definition set_seen s l := St (s_graph s) (s_lazy s) (s_stack s) l (s_post s) (s_missing s) (s_fakes s) (s_mem s) (s_clock s) (s_run s) (s_saved s) (s_log s).
Definition set_post s l := St (s_graph s) (s_lazy s) (s_stack s) (s_seen s) l (s_missing s) (s_fakes s) (s_mem s) (s_clock s) (s_run s) (s_saved s) (s_log s).
Definition set_missing s l := St (s_graph s) (s_lazy s) (s_stack s) (s_seen s) (s_post s) l (s_fakes s) (s_mem s) (s_clock s) (s_run s) (s_saved s) (s_log s).
Definition set_fakes s l := St (s_graph s) (s_lazy s) (s_stack s) (s_seen s) (s_post s) (s_missing s) l (s_mem s) (s_clock s) (s_run s) (s_saved s) (s_log s).
Definition set_mem s m := St (s_graph s) (s_lazy s) (s_stack s) (s_seen s) (s_post s) (s_missing s) (s_fakes s) m (s_clock s) (s_run s) (s_saved s) (s_log s).
Definition set_run s l := St (s_graph s) (s_lazy s) (s_stack s) (s_seen s) (s_post s) (s_missing s) (s_fakes s) (s_mem s) (s_clock s) l (s_saved s) (s_log s).
Definition set_saved s l := St (s_graph s) (s_lazy s) (s_stack s) (s_seen s) (s_post s) (s_missing s) (s_fakes s) (s_mem s) (s_clock s) (s_run s) l (s_log s).
Definition tick s := St (s_graph s) (s_lazy s) (s_stack s) (s_seen s) (s_post s) (s_missing s) (s_fakes s) (s_mem s) (S (s_clock s)) (s_run s) (s_saved s) (s_log s).
Definition log s e := St (s_graph s) (s_lazy s) (s_stack s) (s_seen s) (s_post s) (s_missing s) (s_fakes s) (s_mem s) (s_clock s) (s_run s) (s_saved s) (e :: s_log s).

(** ** Environment *)

(** Everything outside the repository.  The number is the time of the question:
    answers need not be consistent over time. *)
Record env := Env {
  e_find_spec : nat -> list string -> string -> result (option spec); (* time, fakes, name *)
  e_sysmod : nat -> string -> bool;                     (* name in sys.modules (fakes aside) *)
  e_dist_for_file : nat -> string -> result (option dist);
  e_dist_named : nat -> string -> result (option dist);
  e_parse : nat -> string -> string -> result ast;      (* compile(source, filename, PyCF_ONLY_AST) *)
  e_script : nat -> string -> result ast;               (* open, decode_source, compile of a script *)
  e_import : nat -> string -> result (list string);     (* importlib.import_module(name).__path__ *)
  e_location : nat -> string -> location;               (* what is found at a directory name *)
  e_suffixes : list string;                             (* importlib.machinery.all_suffixes() *)
  e_glob_py : nat -> string -> result (list string);    (* stems of path.glob on .py files *)
  e_subdirs : nat -> string -> result (list string);    (* directories in path.iterdir() *)
  e_is_file : nat -> string -> bool;
  e_read : nat -> string -> result string;              (* read_bytes *)
  e_parent : string -> string;                          (* pathlib: filename.parent *)
  e_isidentifier : string -> bool;
  e_names_order : list (string * option string) -> list (string * option string);
  e_order : list string -> list string;                 (* iteration order of a set *)
  e_ge311 : bool
}.

(** ** Monad *)

(** [None] is out of fuel; an exception keeps the state changes made so far. *)
Definition M (A : Type) := st -> option (result A * st).
Definition ret {A} (a : A) : M A := fun s => Some (ROk a, s).
Definition raise {A} (e : err) : M A := fun s => Some (RErr e, s).
Definition bind {A B} (m : M A) (f : A -> M B) : M B := fun s =>
  match m s with
  | None => None
  | Some (ROk a, s') => f a s'
  | Some (RErr e, s') => Some (RErr e, s')
  end.
(** try: the outcome as a value. *)
Definition attempt {A} (m : M A) : M (result A) := fun s =>
  match m s with
  | None => None
  | Some (r, s') => Some (ROk r, s')
  end.
Definition of_result {A} (r : result A) : M A := fun s => Some (r, s).
Definition gets {A} (f : st -> A) : M A := fun s => Some (ROk (f s), s).
Definition modify (f : st -> st) : M unit := fun s => Some (ROk tt, f s).
Definition out_of_fuel {A} : M A := fun _ => None.
Definition assert (b : bool) : M unit := if b then ret tt else raise EAssert.

Notation "x <- m ;; k" := (bind m (fun x => k)) (at level 61, m at next level, right associativity).
Notation "'do' m ;; k" := (bind m (fun _ => k)) (at level 61, m at next level, right associativity).

(** A question to the environment. *)
Definition ask {A} (f : nat -> A) : M A := fun s => Some (ROk (f (s_clock s)), tick s).
Definition askr {A} (f : nat -> result A) : M A := fun s => Some (f (s_clock s), tick s).

(** [importlib.util.find_spec(name)] *)
Definition find_spec (E : env) (name : string) : M (option spec) := fun s =>
  Some (e_find_spec E (s_clock s) (s_fakes s) name, tick s).

(** [name in sys.modules] *)
Definition in_sysmod (E : env) (name : string) : M bool := fun s =>
  Some (ROk (memb name (s_fakes s) || e_sysmod E (s_clock s) name), tick s).

Definition remove_name (n : string) (l : list string) : list string :=
  filter (fun x => negb (seqb x n)) l.

(** [del sys.modules[name]] *)
Definition del_sysmod (E : env) (name : string) : M unit :=
  b <- in_sysmod E name ;;
  if b : bool then modify (fun s => set_fakes s (remove_name name (s_fakes s))) else raise EKey.
