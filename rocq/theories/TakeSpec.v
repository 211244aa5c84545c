(** C106: what the settings ask for. *)
From Verif Require Export FaceSpec.
Open Scope string_scope.

(** The node is what the settings say about its name, with its edges. *)
Definition as_set (conf : list (string * implied)) (s : st) (x : string) : Prop :=
  match assoc x conf with
  | None => True
  | Some ImpNone => kind_of s x = Some ExcludedModule
  | Some (ImpAlias a) => kind_of s x = Some (AliasNode a) /\ has_edge (s_graph s) x a (Dep false true false None)
  | Some (ImpVirtual a) => kind_of s x = Some (VirtualNode a) /\ has_edge (s_graph s) x a (Dep false true false None)
  | Some (ImpRefs refs) => forall b, In b refs -> has_edge (s_graph s) x b (Dep false true false None)
  end.
(** What a statement is about to import, and the modules that have been started. *)
Definition at_hand (find : string -> option spec) (conf : list (string * implied)) (z z' : mods) (t : task) (x : string) : Prop :=
  starts_with "." x = false /\ (forall p, child_of p x -> can_import find conf p)
  /\ ((exists n k p, t = Line n k p /\ faces n k p x) \/ ((In x (loaded z') \/ In x (loading z') \/ In x (failed z')) /\ ~ In x (loaded z))).
