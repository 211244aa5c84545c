(** How deep the calls of the builder are nested (C85). *)
From Verif Require Export SameSpec.

(** ** The length of dotted names *)

Fixpoint dots (s : string) : nat :=
  match s with EmptyString => 0 | String a r => (if Ascii.eqb a dot then 1 else 0) + dots r end.
Definition parts (s : string) : nat := S (dots s).
Definition most_parts (l : list string) : nat := fold_right Nat.max 1 (map parts l).

(** ** Graphs without hooks *)

(** Python finds modules under their own name, no redirecting loaders. *)
Definition plain_finder (E : env) : Prop := forall t f name sp, e_find_spec E t f name = ROk (Some sp) ->
  sp_name sp = name /\ direct (sp_loader sp) = true.
Definition targets (i : implied) : list string :=
  match i with ImpNone => [] | ImpAlias a | ImpVirtual a => [a] | ImpRefs l => l end.
(** The names that the table refers to have at most [D] parts. *)
Definition short (D : nat) (i : implied) : Prop := forall t, In t (targets i) -> parts t <= D.
(** The calls of a program: everything but registering hooks, [hook_context],
    [import_package] and [node_for_spec]. *)
Definition hookless_call (D : nat) (a : action) : Prop :=
  match a with
  | AImplies l => forall x i, In (x, i) l -> short D i
  | AAddNode n => forall t, n_kind n = AliasNode t -> parts t <= D
  | AHookContext _ | AImportPackage _ _ | AAddPost _ | AAddMissing _ | ANodeForSpec _ => False
  | _ => True
  end.
(** States after any calls, whatever their outcome. *)
Inductive hookless (E : env) (D : nat) : st -> Prop :=
| hl_init implies : (forall x i, In (x, i) implies -> short D i) -> hookless E D (init implies [] [])
| hl_call s fuel a ans s' : hookless E D s -> hookless_call D a -> top_call E fuel a s = Some (ans, s') -> hookless E D s'.

(** ** The builder with a bound on nested calls *)

(** [D]: parts of the names in the table; [L]: its number of entries. *)
Definition room (D L : nat) : nat := 6 + (D + 4) * (2 * L + 3).
(** For a piece of work: the parts of the names in it, and what the table needs. *)
Definition depth (D L : nat) (w : work) : nat :=
  match w with
  | DoPost _ => 1
  | DoImport n i => parts n + parts (in_name (ii_module i)) + room D L
  | DoNames _ m i => Nat.max (parts m) D + most_parts (map in_name (ii_names i)) + room D L
  | DoPackage _ _ => 0
  end.
(** The loop of modulegraph2/_modulegraph.py:473-480 [_run_stack], at most [n]
    rounds; the calls in a round are nested as deep as [depth] says. *)
Fixpoint rounds (E : env) (D L n : nat) : M unit := fun s =>
  match n with
  | 0 => None
  | S n' =>
      match s_stack s with
      | [] => Some (ROk tt, s)
      | w :: rest =>
          match do_work E (exec E (depth D L w)) w (log (set_run (set_stack s rest) (w :: s_run s)) (EvPop w)) with
          | None => None
          | Some (ROk _, s') => rounds E D L n' (log (set_run s' (tl (s_run s'))) (EvDone w))
          | Some (RErr e, s') => Some (RErr e, log (set_run s' (tl (s_run s'))) (EvFail w))
          end
      end
  end.
(** What the calls of a user need: [_find_or_load_module] for a name, and the loop. *)
Definition shallow (E : env) (D L n : nat) : funs := Funs
  (fun im name link => f_find (exec E (parts name + room D L)) im name link)
  (fun _ _ => out_of_fuel) (fun _ => out_of_fuel) (rounds E D L n) (fun _ => out_of_fuel) (fun _ _ => out_of_fuel) (fun _ _ _ => out_of_fuel).
(** A call, with at most [n] rounds of each loop. *)
Definition shallow_call (E : env) (D L n : nat) (a : action) (s : st) : option (answer * st) :=
  match call E (shallow E D L n) a s with
  | Some (ROk ans, s') => Some (ans, s')
  | _ => None
  end.
