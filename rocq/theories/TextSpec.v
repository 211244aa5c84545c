(** C80: a text with import statements, and the script with the same text. *)
From Verif Require Export LoadSpec.
Open Scope string_scope.

(** The names that the statements of a text mention: modules, and the names in
    their from lists as if these were submodules. *)
Definition tree_names (tree : ast) (r : string) : Prop := exists p w, In (p, w) (sites [] tree)
  /\ (r = w_module w \/ exists x, In x (map fst (w_names w)) /\ x <> "*" /\ r = w_module w ++ "." ++ x).
(** Python's grammar, for a text without relative imports. *)
Definition absolute (tree : ast) : Prop := forall p w, In (p, w) (sites [] tree) ->
  w_level w = 0 /\ lstrip dot (w_module w) <> "" /\ (forall x, In x (map fst (w_names w)) -> x <> "*" -> dotless x)
  /\ (In "*" (map fst (w_names w)) -> map fst (w_names w) = ["*"]).
(** Submodules are found in packages only. *)
Definition packaged (find : string -> option spec) : Prop := forall m x sp, dotless x -> find m = Some sp -> spec_pkg sp = false ->
  find (m ++ "." ++ x) = None.
(** Real modules that one is led to from one of the names. *)
Definition text_covers (s : st) (tree : ast) (t : string) : Prop := exists r, tree_names tree r /\ covered s (RunModule r) t.

(** Names of the text that have been taken for modules, or that are those of
    a statement. *)
Definition text_orderly (find : string -> option spec) (conf : list (string * implied)) (s : st) (tree : ast) : Prop :=
  forall r, tree_names tree r -> kind_of s r <> Some MissingModule \/ (exists p w, In (p, w) (sites [] tree) /\ r = w_module w) ->
    orderly find conf s (RunModule r).
