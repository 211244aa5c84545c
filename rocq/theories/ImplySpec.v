(** C89: what more implied references do to a graph. *)
From Verif Require Export SameSpec.
Open Scope string_scope.

(** The second table is the first one with more references: names that have no entry,
    or references already, have more of them. *)
Definition more_refs (c1 c2 : list (string * implied)) : Prop := forall x, assoc x c1 = assoc x c2 \/
  exists refs, assoc x c2 = Some (ImpRefs refs)
    /\ (assoc x c1 = None \/ exists refs1, assoc x c1 = Some (ImpRefs refs1) /\ incl refs1 refs).
(** [b] is one of the further references of [a]. *)
Definition further (c1 c2 : list (string * implied)) (a b : string) : Prop :=
  exists refs, assoc a c2 = Some (ImpRefs refs) /\ In b refs /\ ~ exists refs1, assoc a c1 = Some (ImpRefs refs1) /\ In b refs1.

(** What is reported of the second graph is that of the first one and what the
    further references lead to; nodes of the first one have no other new edges. *)
Inductive behind (g : graph) (add : string -> string -> Prop) (g' : graph) : string -> Prop :=
| bh_ref a b : reaches g a -> add a b -> behind g add g' b
| bh_edge a b ds : behind g add g' a -> In (a, b, ds) (g_edges g') -> behind g add g' b.
Definition only_refs (add : string -> string -> Prop) (g g' : graph) : Prop :=
  (forall x, reaches g' x -> reaches g x \/ behind g add g' x)
  /\ forall x y d, reaches g x -> has_edge g' x y d -> has_edge g x y d \/ (add x y /\ d = Dep false true false None).
