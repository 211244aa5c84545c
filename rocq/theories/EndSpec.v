(** What has to be known about the environment and about the hooks for C27. *)
From Verif Require Export BuiltinHooks.

Section spec.
  Variable E : env.
  (** Names of modules: a finite list. *)
  Variable V : list string.

  (** Only names in [V] are found, whenever importlib is asked. *)
  Definition finite_universe : Prop :=
    forall t fakes name sp, e_find_spec E t fakes name = ROk (Some sp) -> In name V.

  (** The names that a redirecting loader (six.moves, vendored packages,
      distutils) replaces the name of the spec by. *)
  Definition target (sp : spec) (name : string) : Prop :=
    match sp_loader sp with
    | LSix => assoc (six_relative (sp_name sp)) SIX_MOVES_TO = Some name
    | LVendor (Some (root, vendor)) =>
        let relative := sdrop (String.length root + 1) (sp_name sp) in
        name = (vendor ++ "." ++ relative)%string \/ name = relative
    | LDistutils => name = "setuptools._distutils"
    | _ => False
    end.
  Definition redirects (moved sp : spec) : Prop :=
    exists name t fakes, target sp name /\ e_find_spec E t fakes name = ROk (Some moved)
      /\ sp_name moved <> sp_name sp.
  Definition redirects_end : Prop := well_founded redirects.

  (** ** Hooks *)

  (** The node is an extension module or package (or is not known). *)
  Definition compiled (g : graph) (id : string) : bool :=
    match gfind g id with
    | None => true
    | Some n => match n_kind n with
                | Module MExtension | Package _ _ MExtension _ _ => true
                | _ => false
                end
    end.

  (** Looking, changing the graph itself, asking the environment. *)
  Definition plain_action (a : action) : bool :=
    match a with
    | ALook | ARemember _ | AAddNode _ | AAddEdge _ _ _ | AAddRoot _ | AFindSpec _ | AFindSpecRel _ _
    | AFake _ | AUnfake _ | ANodeForSpec _ | AIsFile _ | AParseFile _ => true
    | _ => false
    end.

  (** Calls that leave hooks and implied references alone; more work is scheduled
      for the node [id] only. *)
  Definition steady (id : string) (a : action) : Prop :=
    match a with
    | AHookContext _ | AAddPost _ | AAddMissing _ | AExcludes _ | AImplies _ => False
    | AProcessImports n _ => n = id
    | _ => True
    end.
  Inductive busy (id : string) : prog -> Prop :=
  | b_ret o : busy id (PRet o)
  | b_raise e : busy id (PRaise e)
  | b_do a k : steady id a -> (forall ans, busy id (k ans)) -> busy id (PDo a k).

  (** A post processing hook, called for the node [id]: it adds modules of the
      universe, and after having seen that the node is a compiled one it may
      call (nearly) anything, with any names. *)
  Inductive post_ok (id : string) : prog -> Prop :=
  | p_ret o : post_ok id (PRet o)
  | p_raise e : post_ok id (PRaise e)
  | p_plain a k : plain_action a = true -> (forall ans, post_ok id (k ans)) -> post_ok id (PDo a k)
  | p_look k :
      (forall g m, compiled g id = false -> post_ok id (k (AnsGraph g m))) ->
      (forall g m, compiled g id = true -> busy id (k (AnsGraph g m))) -> post_ok id (PDo ALook k)
  | p_add name k : In name V -> (forall ans, post_ok id (k ans)) -> post_ok id (PDo (AAddModule name) k)
  | p_import n name k : In name V -> (forall ans, post_ok id (k ans)) -> post_ok id (PDo (AImportModule n name) k).

  (** A missing hook; [parent] is the package of the missing name, whose place
      holder in [sys.modules] is not removed. *)
  Inductive missing_ok (parent : string) : prog -> Prop :=
  | m_ret o : missing_ok parent (PRet o)
  | m_raise e : missing_ok parent (PRaise e)
  | m_plain a k : plain_action a = true -> (forall x, a <> AUnfake x) -> (forall x, a <> ANodeForSpec x) ->
      (forall ans, missing_ok parent (k ans)) -> missing_ok parent (PDo a k)
  | m_rel name pkg k : (forall ans, (pkg = EmptyString -> ans = AnsErr EImport) -> missing_ok parent (k ans)) ->
      missing_ok parent (PDo (AFindSpecRel name pkg) k)
  | m_unfake x k : x <> parent -> (forall ans, missing_ok parent (k ans)) -> missing_ok parent (PDo (AUnfake x) k)
  | m_nfs sp k : parent = EmptyString -> (forall ans, missing_ok parent (k ans)) ->
      missing_ok parent (PDo (ANodeForSpec sp) k).

  Definition post_hook_ok (h : post_hook) : Prop := forall id, post_ok id (h id).
  Definition missing_hook_ok (h : missing_hook) : Prop :=
    forall importing name, missing_ok (fst (rpartition dot name)) (h importing name).
  Definition good_hooks (s : st) : Prop :=
    (forall h, In h (s_post s) -> post_hook_ok h) /\ (forall h, In h (s_missing s) -> missing_hook_ok h).

  (** ** The calls of a user *)
  Inductive good_call : action -> Prop :=
  | g_context p : good_prog p -> good_call (AHookContext p)
  | g_post h : post_hook_ok h -> good_call (AAddPost h)
  | g_missing h : missing_hook_ok h -> good_call (AAddMissing h)
  | g_other a : (forall p, a <> AHookContext p) -> (forall h, a <> AAddPost h) -> (forall h, a <> AAddMissing h) ->
      good_call a
  with good_prog : prog -> Prop :=
  | gp_ret o : good_prog (PRet o)
  | gp_raise e : good_prog (PRaise e)
  | gp_do a k : good_call a -> (forall ans, good_prog (k ans)) -> good_prog (PDo a k).

  (** States after such calls, whatever their outcome. *)
  Inductive good_history (s0 : st) : st -> Prop :=
  | gh_start : good_history s0 s0
  | gh_call s fuel a ans s' : good_history s0 s -> good_call a -> top_call E fuel a s = Some (ans, s') ->
      good_history s0 s'.
End spec.
