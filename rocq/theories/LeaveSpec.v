(** C100: installations that lack some of the modules. *)
From Verif Require Export MustSpec.

(** All that is found in one installation is found in the other. *)
Definition part_of (F find : string -> option spec) : Prop := forall x sp, F x = Some sp -> find x = Some sp.
