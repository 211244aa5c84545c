(** C93: graphs that the built-in hooks have nothing to do for. *)
From Verif Require Export IdleSpec BuiltinHooks.
From Verif Require Import SameSpec.

(** A module or package written by SWIG: it binds [swig_import_helper]. *)
Definition swig_wrapper (n : node) : Prop :=
  ((exists k, n_kind n = Module k) \/ (exists a b c d e, n_kind n = Package a b c d e)) /\ In "swig_import_helper"%string (n_written n).
(** An extension module with a file, or a package that is one. *)
Definition compiled (n : node) : Prop :=
  (n_kind n = Module MExtension /\ n_file n <> None) \/ (exists a b f e, n_kind n = Package a b MExtension (Some f) e).
(** A distribution with a module of helpers for mypyc. *)
Definition mypyc_dist (d : dist) : Prop := exists before, In (before ++ "__mypyc")%string (dist_import_names d).

(** Neither is in the graph. *)
Record ordinary (g : graph) : Prop := {
  or_swig : forall n, In n (g_nodes g) -> ~ swig_wrapper n;
  or_mypyc : forall n d, In n (g_nodes g) -> compiled n -> n_dist n = Some d -> ~ mypyc_dist d
}.

(** The same calls, with and without the built-in hooks ([use_builtin_hooks]); hooks of
    the user are registered later, so they come first in the lists. *)
Inductive with_without (E : env) (P : paths) : st -> st -> Prop :=
| ww_init implies : with_without E P (init implies [mypyc_hook P] [swig_hook]) (init implies [] [])
| ww_call s s' a n n' ans ans' t t' : with_without E P s s' ->
    top_call E n a s = Some (ans, t) -> top_call E n' a s' = Some (ans', t') -> with_without E P t t'.

(** Sets of names are iterated over in some order, but nothing is made up. *)
Definition order_of_set (P : paths) : Prop := forall l x, In x (pa_order P l) -> In x l.

(** The sessions of C66 with the built-in hooks: first excludes and implied references,
    then scripts, modules and distributions. *)
Inductive default_opening (E : env) (P : paths) (implies : list (string * implied)) : st -> Prop :=
| do_init : default_opening E P implies (init implies [mypyc_hook P] [swig_hook])
| do_exclude s fuel names ans s' : default_opening E P implies s -> top_call E fuel (AExcludes names) s = Some (ans, s') ->
    (forall e, ans <> AnsErr e) -> default_opening E P implies s'
| do_imply s fuel l ans s' : default_opening E P implies s -> top_call E fuel (AImplies l) s = Some (ans, s') ->
    (forall e, ans <> AnsErr e) -> default_opening E P implies s'.
Inductive default_session (E : env) (P : paths) (DS : dist -> Prop) (implies conf : list (string * implied)) : st -> Prop :=
| df_open s : default_opening E P implies s -> s_lazy s = conf -> default_session E P DS implies conf s
| df_call s fuel a ans s' : default_session E P DS implies conf s -> root_action a \/ dist_action E DS a -> top_call E fuel a s = Some (ans, s') ->
    (forall e, ans <> AnsErr e) -> default_session E P DS implies conf s'.
