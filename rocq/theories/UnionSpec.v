(** C94: the graph for several programs. *)
From Verif Require Export SameSpec.

(** The roots of [s] are those of the parts. *)
Definition roots_of_parts (part : st -> Prop) (s : st) : Prop :=
  forall x, In x (g_roots (s_graph s)) <-> exists s1, part s1 /\ In x (g_roots (s_graph s1)).
(** What is reported for [s] is what is reported for the parts, all together, and the
    nodes that are reported for a part have the same edges there. *)
Record union_of (part : st -> Prop) (g : graph) : Prop := {
  un_reaches : forall x, reaches g x <-> exists s1, part s1 /\ reaches (s_graph s1) x;
  un_nodes : forall s1 x, part s1 -> reaches (s_graph s1) x -> exists n n', gfind (s_graph s1) x = Some n /\ gfind g x = Some n' /\ alike n n';
  un_edges : forall s1 x y d, part s1 -> reaches (s_graph s1) x -> (has_edge g x y d <-> has_edge (s_graph s1) x y d)
}.
