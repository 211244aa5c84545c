(** C01, C02: module names. *)
From Verif Require Import PyStrFacts Names NamesSpec NamesProofs.

(** C01, valid names: the split is lossless. *)
Theorem C01_split_lossless : forall k body, wf_name k body ->
  exists p n,
    split_package (repeat_char dot k ++ body)%string = ROk (p, n)
    /\ dotless n
    /\ (p = None <-> k = 0 /\ dotless body)
    /\ glue k body p n = (repeat_char dot k ++ body)%string.
Proof. exact split_package_valid. Qed.

(** C01, everything else is a ValueError. *)
Theorem C01_split_rejects : forall name,
  (forall k body, wf_name k body -> name <> (repeat_char dot k ++ body)%string) ->
  split_package name = RErr EValue.
Proof. exact split_package_invalid. Qed.

Example C01_nonvacuous :
  wf_name 2 "a.b.c" /\ split_package "..a.b.c" = ROk (Some "..a.b", "c") /\
  wf_name 0 "a" /\ split_package "a" = ROk (None, "a") /\
  wf_name 1 "a" /\ split_package ".a" = ROk (Some ".", "a").
Proof. unfold wf_name. repeat split; try discriminate; reflexivity. Qed.

Example C01_rejects_nonvacuous : split_package "a..b" = RErr EValue /\
  forall k body, wf_name k body -> "a..b" <> (repeat_char dot k ++ body)%string.
Proof.
  split; [reflexivity|]. intros [|k] body (H1 & H2 & H3) E.
  - cbn in E. subst. discriminate.
  - cbn in E. discriminate.
Qed.

(** C02: the anchor of a relative import is the one importlib computes from
    [__package__], for all dotted names, all levels, modules and packages. *)
Theorem C02_relative_as_cpython : forall l is_pkg level,
  components l -> 1 <= level ->
  relative_package (join "." l) is_pkg level
  = cpython_resolve (dunder_package (join "." l) is_pkg) level.
Proof. exact relative_package_cpython. Qed.

(** C02, the same stated on lists of components. *)
Theorem C02_relative_components : forall l is_pkg level,
  components l -> 1 <= level ->
  relative_package (join "." l) is_pkg level =
    let drop := if is_pkg then level - 1 else level in
    if Nat.ltb drop (List.length l) then Some (join "." (firstn (List.length l - drop) l)) else None.
Proof. exact relative_package_components. Qed.

Example C02_nonvacuous :
  components ["a"; "b"; "c"] /\
  relative_package "a.b.c" false 2 = Some "a" /\ relative_package "a.b.c" true 2 = Some "a.b" /\
  relative_package "a.b.c" false 3 = None /\ relative_package "a.b.c" true 3 = Some "a".
Proof.
  split; [|repeat split]. split; [discriminate|].
  repeat constructor; unfold dotless; try reflexivity; discriminate.
Qed.

Print Assumptions C01_split_lossless.
Print Assumptions C01_split_rejects.
Print Assumptions C02_relative_as_cpython.
Print Assumptions C02_relative_components.
