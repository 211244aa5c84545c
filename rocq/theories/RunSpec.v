(** Runs of the code of a module: which global names of the module the code binds
    and looks up.  CPython is not part of the project; the semantics is as loose as
    possible: after any instruction any other one of the same code object may come
    (jumps, exceptions), any code object among the constants of running code may be
    made into a function, functions may be called at any time. *)
From Verif Require Export BytecodeSpec.

(** [SModule]: the globals are the local names.  [SFunction]: code with the flag
    CO_OPTIMIZED (functions, lambdas, comprehensions, type parameters).
    [SClass]: body of a class; names that it has bound itself. *)
Inductive scope := SModule | SFunction | SClass (own : list string).

Record frame := Frame { fr_code : code; fr_scope : scope }.

(** Running frames and function objects. *)
Record run := Run { r_frames : list frame; r_made : list code }.

Definition module_scope (k : scope) : bool := match k with SModule => true | _ => false end.
Definition class_scope (k : scope) : bool := match k with SClass _ => true | _ => false end.

(** [Binds o k n]: instruction [o] in scope [k] binds the global [n];
    [Looks o k n]: it looks [n] up in the globals. *)
Inductive event := Binds (o : op) (k : scope) (n : string) | Looks (o : op) (k : scope) (n : string) | Quiet.

Section run.
  Variable v : bool.                   (* Python 3.11 and later *)
  Variable optimized : code -> bool.   (* co_flags & CO_OPTIMIZED *)

  Definition scope_of (c : code) : scope := if optimized c then SFunction else SClass [].

  (** What an instruction of a code object does in a scope. *)
  Inductive does (c : code) : scope -> instr -> event -> scope -> Prop :=
  | do_store_module x n : i_op x = STORE_NAME -> names_arg c x n -> does c SModule x (Binds STORE_NAME SModule n) SModule
  | do_store_class own x n : i_op x = STORE_NAME -> names_arg c x n -> does c (SClass own) x Quiet (SClass (n :: own))
  | do_store_global k x n : i_op x = STORE_GLOBAL -> names_arg c x n -> does c k x (Binds STORE_GLOBAL k n) k
  | do_load_module x n : i_op x = LOAD_NAME -> names_arg c x n -> does c SModule x (Looks LOAD_NAME SModule n) SModule
  | do_load_own own x n : i_op x = LOAD_NAME -> names_arg c x n -> In n own -> does c (SClass own) x Quiet (SClass own)
  | do_load_class own x n : i_op x = LOAD_NAME -> names_arg c x n -> ~ In n own ->
      does c (SClass own) x (Looks LOAD_NAME (SClass own) n) (SClass own)
  | do_load_global k x n : i_op x = LOAD_GLOBAL -> names_garg v c x n -> does c k x (Looks LOAD_GLOBAL k n) k
  (* type parameters and annotations in classes, Python 3.12 and later *)
  | do_load_dict k x n : i_op x = OTHER "LOAD_FROM_DICT_OR_GLOBALS" -> names_arg c x n ->
      does c k x (Looks (i_op x) k n) k
  | do_other k x : ~ In (i_op x) [STORE_NAME; STORE_GLOBAL; LOAD_NAME; LOAD_GLOBAL; OTHER "LOAD_FROM_DICT_OR_GLOBALS"] ->
      does c k x Quiet k.

  Inductive step : run -> event -> run -> Prop :=
  | step_instr a c k b m x i e k' : nth_error (co_ins c) i = Some x -> does c k x e k' ->
      step (Run (a ++ Frame c k :: b) m) e (Run (a ++ Frame c k' :: b) m)
  | step_make fs c k d m : In (Frame c k) fs -> In d (child_codes c) -> step (Run fs m) Quiet (Run fs (d :: m))
  | step_call fs m d : In d m -> step (Run fs m) Quiet (Run (Frame d (scope_of d) :: fs) m)
  | step_return a f b m : step (Run (a ++ f :: b) m) Quiet (Run (a ++ b) m).

  (** [runs c es r]: module [c] runs, with the events [es] so far. *)
  Inductive runs (c : code) : list event -> run -> Prop :=
  | runs_start : runs c [] (Run [Frame c SModule] [])
  | runs_step es r e r' : runs c es r -> step r e r' -> runs c (es ++ [e]) r'.

  Definition may (c : code) (e : event) : Prop := exists es r, runs c es r /\ In e es.

  (** Some run binds the global [n], or looks it up. *)
  Definition binds_global (c : code) (n : string) : Prop := exists o k, may c (Binds o k n).
  Definition looks_up_global (c : code) (n : string) : Prop := exists o k, may c (Looks o k n).

  (** The code objects in [c] are as the compiler makes them: what comes after
      LOAD_BUILD_CLASS is not optimized, optimized code has no instructions for
      names that are either local or global, and every code object is used. *)
  Definition as_compiled (c : code) : Prop :=
    NoDup (map key (all_codes c))
    /\ (forall d, In d (all_codes c) -> operands_first v d)
    /\ (forall d e, In d (all_codes c) -> In e (child_codes d) -> makes_class v d (key e) -> optimized e = false)
    /\ (forall d x n, In d (all_codes c) -> optimized d = true -> In x (co_ins d) -> names_arg d x n -> i_op x <> STORE_NAME /\ i_op x <> LOAD_NAME)
    /\ (forall d e, In d (all_codes c) -> In e (child_codes d) -> makes_function v d (key e) \/ makes_class v d (key e)).

  (** From lists of the import statements outside functions and classes. *)
  Definition from_listed (c : code) (n : string) : Prop := exists i x l,
    nth_error (co_ins c) i = Some x /\ i_op x = IMPORT_NAME /\ from_const c i (CTuple l) /\ In n l /\ n <> "*"%string.
End run.
