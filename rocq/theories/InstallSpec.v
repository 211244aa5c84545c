(** C96: modules that are installed. *)
From Verif Require Export MoreSpec.

(** Modules that were found are found with the same code. *)
Definition same_code (find find' : string -> option spec) : Prop := forall x sp, find x = Some sp -> find' x = Some sp.

(** All of the first graph is in the second one; modules that were missing need not be
    missing there. *)
Definition supplied (g g' : graph) : Prop := forall x, reaches g x -> reaches g' x
  /\ (exists n n', gfind g x = Some n /\ gfind g' x = Some n' /\ (n_kind n = MissingModule \/ akin n n'))
  /\ forall y d, has_edge g x y d -> has_edge g' x y d.
