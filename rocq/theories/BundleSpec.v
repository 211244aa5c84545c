(** C99: copies of programs that have the modules of the graph only. *)
From Verif Require Export WithinSpec.

(** In the copy Python finds the modules that the graph has for the program, and no others. *)
Definition bundle_of (s : st) (p : LoadSpec.program) (find F : string -> option spec) : Prop :=
  forall x sp, F x = Some sp <-> covered s p x /\ find x = Some sp.

(** It has these modules, and may have others of the installation. *)
Definition includes_bundle (s : st) (p : LoadSpec.program) (find : string -> option spec) (conf : list (string * implied)) (F : string -> option spec) : Prop :=
  (forall x sp, covered s p x -> find x = Some sp -> F x = Some sp) /\ (forall x sp, F x = Some sp -> kept find conf x = Some sp).
