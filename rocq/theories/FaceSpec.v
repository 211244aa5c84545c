(** C104: the import statements that a run gets to. *)
From Verif Require Export AlwaysSpec.
Open Scope string_scope.

(** A statement in the code of [n] is about to import [x]. *)
Inductive faces (n : string) (k : option bool) : piece -> string -> Prop :=
| fc_import x a l : faces n k (PImport ((x, a) :: l)) x
| fc_from m names level x : target n k (WFrom m names level) x -> faces n k (PFrom m names level) x.

(** Python does not find [x], or a package that it is in, and nothing replaces or
    excludes them. *)
Definition unfound (find : string -> option spec) (conf : list (string * implied)) (x : string) : Prop :=
  starts_with "." x = false /\ (forall c, within c x -> assoc c conf = None) /\ exists c, within c x /\ find c = None.
(** The graph has the import as an edge from a node that the started one leads to, and
    says that the module is missing when it is. *)
Definition noticed (find : string -> option spec) (conf : list (string * implied)) (s : st) (p : program) (n x : string) : Prop :=
  leads (s_graph s) (started p) n /\ (exists d, has_edge (s_graph s) n x d) /\ (unfound find conf x -> kind_of s x = Some MissingModule).
