(** Environments that differ in the iteration orders of sets: runs of Python with
    different hash seeds. *)
From Verif Require Export SameSpec AstSpec.

(** The same environment with other iteration orders. *)
Definition reseed (E : env) (names : list (string * option string) -> list (string * option string))
    (order : list string -> list string) : env := Env
  (e_find_spec E) (e_sysmod E) (e_dist_for_file E) (e_dist_named E) (e_parse E) (e_script E)
  (e_import E) (e_location E) (e_suffixes E) (e_glob_py E) (e_subdirs E) (e_is_file E) (e_read E)
  (e_parent E) (e_isidentifier E) names order (e_ge311 E).
Definition reseeded (E E' : env) : Prop := E' = reseed E (e_names_order E') (e_order E').

(** No from list of the source imports a name under two names, as in
    "from m import a, a as b". *)
Definition plain_lists (t : ast) : Prop := forall p m names level, In (p, WFrom m names level) (sites [] t) ->
  forall x a b, In (x, a) names -> In (x, b) names -> a = b.
Definition plain_sources (E : env) : Prop :=
  (forall t f text tree, e_parse E t f text = ROk tree -> plain_lists tree)
  /\ (forall t f tree, e_script E t f = ROk tree -> plain_lists tree).

(** The same statement, its names perhaps in another order. *)
Definition shuffled (i i' : iinfo) : Prop :=
  ii_module i' = ii_module i /\ ii_level i' = ii_level i /\ ii_star i' = ii_star i
  /\ ii_in_function i' = ii_in_function i /\ ii_in_conditional i' = ii_in_conditional i
  /\ ii_in_tryexcept i' = ii_in_tryexcept i
  /\ forall nm, In nm (ii_names i) <-> In nm (ii_names i').
(** The same statements. *)
Definition restated (l l' : list iinfo) : Prop :=
  (forall i, In i l -> exists i', In i' l' /\ shuffled i i') /\ (forall i', In i' l' -> exists i, In i l /\ shuffled i i').

(** No module or script has the name of one of the distributions. *)
Definition dists_apart (DS : dist -> Prop) (s : st) : Prop := forall d, DS d ->
  in_graph s (dist_identifier d) -> kind_of s (dist_identifier d) = Some Distribution.
(** Distributions are found by name in the same way every time. *)
Definition steady_dists (E : env) : Prop := forall t t' name, e_dist_named E t name = e_dist_named E t' name.
