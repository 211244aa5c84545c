(** What the builder may leave behind in [sys.modules] (C67). *)
From Verif Require Export BuiltinHooks.

(** [x] is the package of the dotted [name]; the empty name for a top level one. *)
Definition parent_name (name x : string) : Prop :=
  (exists c, name = (x ++ "." ++ c)%string /\ has_char dot c = false) \/ (x = EmptyString /\ has_char dot name = false).

Section spec.
  Variable E : env.
  (** The missing hooks that may be registered. *)
  Variable Hm : missing_hook -> Prop.

  (** Programs that do not put fake packages into [sys.modules] themselves. *)
  Definition inert (a : action) : bool :=
    match a with AHookContext _ | AAddPost _ | AAddMissing _ | AFake _ => false | _ => true end.
  Inductive gentle : prog -> Prop :=
  | g_ret o : gentle (PRet o)
  | g_raise e : gentle (PRaise e)
  | g_do a k : gentle_act a -> (forall ans, gentle (k ans)) -> gentle (PDo a k)
  with gentle_act : action -> Prop :=
  | ga_inert a : inert a = true -> gentle_act a
  | ga_context p : gentle p -> gentle_act (AHookContext p)
  | ga_post h : (forall n, gentle (h n)) -> gentle_act (AAddPost h)
  | ga_missing h : Hm h -> gentle_act (AAddMissing h).

  (** Missing hooks are such programs, or the SWIG hook. *)
  Definition gentle_missing : Prop := forall h, Hm h -> h = swig_hook \/ forall i n, gentle (h i n).
  Definition gentle_hooks (s : st) : Prop :=
    (forall h, In h (s_post s) -> forall n, gentle (h n)) /\ (forall h, In h (s_missing s) -> Hm h).

  Inductive gentle_history (s0 : st) : st -> Prop :=
  | gh_init : gentle_history s0 s0
  | gh_call s fuel a ans s' : gentle_history s0 s -> gentle_act a -> top_call E fuel a s = Some (ans, s') ->
      gentle_history s0 s'.

  (** importlib knows [x] as a package. *)
  Definition known_package (x : string) : Prop :=
    exists t f sp, e_find_spec E t f x = ROk (Some sp) /\ sp_ispkg sp = ROk true.
  (** Looking for [name] in the package [x] raised an exception. *)
  Definition lookup_fails (x name : string) : Prop :=
    x = EmptyString \/ exists t f e, e_find_spec E t f (x ++ "." ++ name)%string = RErr e.

  (** Why there can be a fake package [x]. *)
  Inductive blamed (x : string) : Prop :=
  (* the search for a module of the package raised an exception *)
  | bl_find name t f e : parent_name name x -> e_find_spec E t f name = RErr e -> is_exception e = true ->
      e <> ENotFound false -> known_package x -> blamed x
  (* a missing hook was asked for a module of the package, and there was an exception *)
  | bl_hook name k im s e s' : (exists h, Hm h) -> parent_name name x ->
      create_missing (exec E k) im name s = Some (RErr e, s') -> is_exception e = true -> e <> ENotFound false ->
      known_package x -> blamed x
  (* the same in the SWIG hook, which tried twice *)
  | bl_swig name t f sp : Hm swig_hook -> lookup_fails x name -> e_find_spec E t f x = ROk (Some sp) -> blamed x.
End spec.
