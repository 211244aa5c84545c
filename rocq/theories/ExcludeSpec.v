(** C84: what excluding more modules does to a graph. *)
From Verif Require Export SameSpec.
Open Scope string_scope.

(** The first table is the second one with more modules excluded. *)
Definition more_excluded (c1 c2 : list (string * implied)) : Prop := forall x, assoc x c1 = assoc x c2 \/ assoc x c1 = Some ImpNone.
(** [x] is one of those, or in one of those packages. *)
Definition out (c1 c2 : list (string * implied)) (x : string) : Prop :=
  exists y, assoc y c1 = Some ImpNone /\ assoc y c2 <> Some ImpNone /\ (x = y \/ exists rest, x = (y ++ "." ++ rest)%string).

Definition excluded_in (g : graph) (x : string) : Prop := exists n, gfind g x = Some n /\ n_kind n = ExcludedModule.
(** What is reported of the first graph is in the second one, apart from nodes for
    excluded modules. *)
Definition only_less (g g' : graph) : Prop := forall x, reaches g x -> excluded_in g x \/
  (reaches g' x /\ (exists n n', gfind g x = Some n /\ gfind g' x = Some n' /\ alike n n')
   /\ forall y d, has_edge g x y d -> excluded_in g y \/ has_edge g' x y d).
(** What the roots lead to without the names [P]. *)
Inductive reaches_without (g : graph) (P : string -> Prop) : string -> Prop :=
| rw_root x : In x (g_roots g) -> ~ P x -> reaches_without g P x
| rw_edge a b ds : reaches_without g P a -> In (a, b, ds) (g_edges g) -> ~ P b -> reaches_without g P b.
(** All of that is in the other graph. *)
Definition rest_kept (P : string -> Prop) (g g' : graph) : Prop := forall x, reaches_without g P x -> reaches g' x
  /\ (exists n n', gfind g x = Some n /\ gfind g' x = Some n' /\ alike n n')
  /\ forall y d, has_edge g x y d -> ~ P y -> has_edge g' x y d.
