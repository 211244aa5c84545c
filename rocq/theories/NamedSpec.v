(** C107: names of from lists. *)
From Verif Require Export FaceSpec.
Open Scope string_scope.

(** A statement in the code of [n] is about to import name [x] from package [m]. *)
Inductive picks (find : string -> option spec) (conf : list (string * implied)) (n : string) (k : option bool) : piece -> string -> string -> Prop :=
| pk_from mo names level m sp x : target n k (WFrom mo names level) m -> can_import find conf m -> find m = Some sp -> spec_pkg sp = true ->
    In x (map fst names) -> dotless x -> ~ In "*" (map fst names) -> picks find conf n k (PFrom mo names level) m x.
(** The code of the package does not bind the name, as far as its node tells. *)
Definition unbound (s : st) (m x : string) : Prop := forall nd, gfind (s_graph s) m = Some nd -> ~ In x (n_written nd).
