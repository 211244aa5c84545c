(** C91: what is not in the graph does not matter. *)
From Verif Require Export SameSpec.
Open Scope string_scope.

(** The environment with another answer to [find_spec] and other distributions of files. *)
Definition with_finds (E : env) (find : nat -> list string -> string -> result (option spec)) (dists : nat -> string -> result (option dist)) : env :=
  Env find (e_sysmod E) dists (e_dist_named E) (e_parse E) (e_script E) (e_import E) (e_location E) (e_suffixes E) (e_glob_py E)
    (e_subdirs E) (e_is_file E) (e_read E) (e_parent E) (e_isidentifier E) (e_names_order E) (e_order E) (e_ge311 E).

(** The two find the same for these names, and have the same distributions for the
    files of what they find. *)
Definition agree (G : string -> Prop) (E : env) (find : nat -> list string -> string -> result (option spec)) (dists : nat -> string -> result (option dist)) : Prop :=
  (forall name t f, G name -> find t f name = e_find_spec E t f name)
  /\ forall name t f sp file u, G name -> e_find_spec E t f name = ROk (Some sp) -> sp_origin sp = Some file -> dists u file = e_dist_for_file E u file.

(** Calls that build and configure a graph; each of them returns. *)
Definition plain_call (a : action) : bool :=
  match a with
  | AAddScript _ | AAddModule _ | AAddSource _ | AAddDist _ | AAddDistNamed _ | AImportModule _ _ | AImportPackage _ _
  | AExcludes _ | AImplies _ | AAddNode _ | AAddEdge _ _ _ | AAddRoot _ => true
  | _ => false
  end.
Inductive calls_fine (E : env) : list action -> st -> st -> Prop :=
| cf_nil s : calls_fine E [] s s
| cf_cons a l n ans s s1 t : plain_call a = true -> top_call E n a s = Some (ans, s1) -> (forall e, ans <> AnsErr e) ->
    calls_fine E l s1 t -> calls_fine E (a :: l) s t.

(** The names of the nodes, and the empty name. *)
Definition named (s : st) (x : string) : Prop := x = "" \/ exists n, In n (g_nodes (s_graph s)) /\ n_name n = x.
