(** C92: building a graph after another one, in the same process. *)
From Verif Require Export OtherSpec.
Open Scope string_scope.

(** ** Packages that cannot be imported *)

(** The packages that contain a module, the outermost one first. *)
Fixpoint packages_n (n : nat) (name : string) : list string :=
  match n with
  | O => []
  | S n => let p := fst (rpartition dot name) in if seqb p "" then [] else (packages_n n p ++ [p])%list
  end.
Definition packages (name : string) : list string := packages_n (String.length name) name.

(** importlib.util.find_spec: [base] is what it finds when the packages can be imported, and
    [breaks] the exception that importing a package raises.  The packages of a module are
    imported, unless there is something in [sys.modules] for them; for a name that has a fake
    package in [sys.modules] there is the ValueError for a missing attribute [__spec__]. *)
Definition breaking (breaks : string -> option err) (fakes : list string) (names : list string) : option err :=
  match find (fun p => match breaks p with Some _ => negb (memb p fakes) | None => false end) names with
  | Some p => breaks p
  | None => None
  end.
Definition finds_of (base : string -> result (option spec)) (breaks : string -> option err) (fakes : list string) (name : string) : result (option spec) :=
  if memb name fakes then RErr ESpecValue
  else match breaking breaks fakes (packages name) with
       | Some e => RErr e
       | None => base name
       end.

(** Exceptions that the builder works around with a fake package. *)
Definition worked_around (e : err) : bool :=
  match e with EValue | ESpecValue | EAttrPath | ENotFound false | EInterrupt => false | _ => true end.

Record python (E : env) (base : string -> result (option spec)) (breaks : string -> option err) : Prop := {
  py_find : forall t f name, e_find_spec E t f name = finds_of base breaks f name;
  py_base : forall name, (exists o, base name = ROk o) \/ base name = RErr EAttrPath \/ base name = RErr (ENotFound false);
  py_direct : forall name sp, base name = ROk (Some sp) -> direct (sp_loader sp) = true;
  py_error : forall p e, breaks p = Some e -> worked_around e = true;
  (* a package that cannot be imported is there, and is not in sys.modules *)
  py_there : forall p e, breaks p = Some e -> exists sp, base p = ROk (Some sp);
  py_absent : forall t p e, breaks p = Some e -> e_sysmod E t p = false;
  py_dist : forall t t' f, e_dist_for_file E t f = e_dist_for_file E t' f;
  py_named : forall t t' f, e_dist_named E t f = e_dist_named E t' f;
  py_parse : forall t t' f x, e_parse E t f x = e_parse E t' f x;
  py_script : forall t t' f, e_script E t f = e_script E t' f;
  py_import : forall t t' n, e_import E t n = e_import E t' n;
  py_location : forall t t' d, e_location E t d = e_location E t' d
}.

(** ** Processes *)

Definition set_clock s c := St (s_graph s) (s_lazy s) (s_stack s) (s_seen s) (s_post s) (s_missing s) (s_fakes s) (s_mem s) c (s_run s) (s_saved s) (s_log s).
(** A graph to begin with, when these fake packages are in [sys.modules]. *)
Definition new_graph (conf : list (string * implied)) (fakes : list string) (clock : nat) : st :=
  set_clock (set_fakes (init conf [] []) fakes) clock.
(** Calls, whether they return or raise. *)
Inductive some_calls (E : env) : st -> st -> Prop :=
| sc_nil s : some_calls E s s
| sc_cons a n ans s s1 t : plain_call a = true -> top_call E n a s = Some (ans, s1) -> some_calls E s1 t -> some_calls E s t.
(** The fake packages there can be in [sys.modules] after some graphs have been built. *)
Inductive process (E : env) : list string -> Prop :=
| pr_start : process E []
| pr_graph f c conf s : process E f -> some_calls E (new_graph conf f c) s -> process E (s_fakes s).

(** Calls with what they return. *)
Inductive returns (E : env) : list (action * answer) -> st -> st -> Prop :=
| rt_nil s : returns E [] s s
| rt_cons a ans l n s s1 t : plain_call a = true -> top_call E n a s = Some (ans, s1) -> (forall e, ans <> AnsErr e) ->
    returns E l s1 t -> returns E ((a, ans) :: l) s t.
Definition for_package (a : action) : bool := match a with AImportPackage _ _ => true | _ => false end.
