(** When two uses of the library have to give the same graph. *)
From Verif Require Export ReachSpec SourceSpec ReportSpec.

(** ** The environment does not change *)

(** Loaders that hand out their own module, not that of another name. *)
Definition direct (l : loader) : bool :=
  match l with LSix | LVendor _ | LDistutils => false | _ => true end.

(** Python finds [find name] for [name] whenever it is asked; modules are parsed,
    and belong to distributions, in the same way every time. *)
Record steady (E : env) (find : string -> option spec) : Prop := {
  sy_some : forall t f name sp, find name = Some sp -> e_find_spec E t f name = ROk (Some sp);
  sy_none : forall t f name, find name = None -> e_find_spec E t f name = ROk None
    \/ e_find_spec E t f name = RErr EAttrPath \/ e_find_spec E t f name = RErr (ENotFound false);
  sy_name : forall name sp, find name = Some sp -> sp_name sp = name;
  sy_direct : forall name sp, find name = Some sp -> direct (sp_loader sp) = true;
  sy_six : find "@@SIX_MOVES@@"%string = None;
  sy_dist : forall t t' f, e_dist_for_file E t f = e_dist_for_file E t' f;
  sy_parse : forall t t' f x, e_parse E t f x = e_parse E t' f x;
  sy_script : forall t t' f, e_script E t f = e_script E t' f;
  sy_import : forall t t' n, e_import E t n = e_import E t' n;
  sy_location : forall t t' d, e_location E t d = e_location E t' d
}.

(** ** Sessions *)

(** First modules are excluded and implied actions added, then scripts and modules are added; no call raises. *)
Inductive opening (E : env) (implies : list (string * implied)) : st -> Prop :=
| op_init : opening E implies (init implies [] [])
| op_exclude s fuel names ans s' : opening E implies s -> top_call E fuel (AExcludes names) s = Some (ans, s') ->
    (forall e, ans <> AnsErr e) -> opening E implies s'
| op_imply s fuel l ans s' : opening E implies s -> top_call E fuel (AImplies l) s = Some (ans, s') ->
    (forall e, ans <> AnsErr e) -> opening E implies s'.
Definition root_action (a : action) : Prop :=
  match a with AAddScript _ | AAddModule _ | AAddSource _ | ALook => True | _ => False end.
(** Distributions may be added as well; [DS] has all of them. *)
Definition dist_action (E : env) (DS : dist -> Prop) (a : action) : Prop :=
  match a with
  | AAddDist d => DS d
  | AAddDistNamed name => forall t d, e_dist_named E t name = ROk (Some d) -> DS d
  | _ => False
  end.
(** [conf] is the table of implied actions when the first module is added. *)
Inductive dsession (E : env) (DS : dist -> Prop) (implies conf : list (string * implied)) : st -> Prop :=
| ds_open s : opening E implies s -> s_lazy s = conf -> dsession E DS implies conf s
| ds_call s fuel a ans s' : dsession E DS implies conf s -> root_action a \/ dist_action E DS a -> top_call E fuel a s = Some (ans, s') ->
    (forall e, ans <> AnsErr e) -> dsession E DS implies conf s'.
(** Sessions without distributions. *)
Definition session (E : env) : list (string * implied) -> list (string * implied) -> st -> Prop := dsession E (fun _ => False).
Lemma se_open E implies conf s : opening E implies s -> s_lazy s = conf -> session E implies conf s.
Proof. apply ds_open. Qed.
Lemma se_call E implies conf s fuel a ans s' : session E implies conf s -> root_action a -> top_call E fuel a s = Some (ans, s') ->
  (forall e, ans <> AnsErr e) -> session E implies conf s'.
Proof. intros A B. apply (ds_call _ _ _ _ s fuel a); auto. Qed.
(** An identifier is that of one distribution. *)
Definition one_each (DS : dist -> Prop) : Prop := forall d d', DS d -> DS d' -> dist_identifier d = dist_identifier d' -> d = d'.

(** ** Comparing graphs *)


(** Nodes that are the same but for their globals. *)
Definition alike (n n' : node) : Prop :=
  n_name n' = n_name n /\ n_kind n' = n_kind n /\ n_read n' = n_read n /\ n_dist n' = n_dist n
  /\ n_file n' = n_file n /\ n_search n' = n_search n /\ n_data n' = n_data n.
(** A script or distribution in one of them is not a module in the other. *)
Definition same_scripts (s1 s2 : st) : Prop := forall x, in_graph s1 x -> in_graph s2 x ->
  (kind_of s1 x = Some Script <-> kind_of s2 x = Some Script) /\ (kind_of s1 x = Some Distribution <-> kind_of s2 x = Some Distribution).
Definition same_table (c1 c2 : list (string * implied)) : Prop := forall x, assoc x c1 = assoc x c2.

(** ** Graphs that do not depend on the order of imports *)

(** The code of module [m] binds [x]: it is one of the globals that its node starts with. *)
Definition binds (E : env) (find : string -> option spec) (m x : string) : Prop :=
  exists sp n l k s s', find m = Some sp /\ f_nfs (exec E k) sp s = Some (ROk (n, l), s') /\ In x (n_written n).

(** Names of from lists and of modules are as in Python, and no such name is that of
    a script or distribution.  A name that is imported from a module is not that of a module that
    is imported there, nor is it bound by a star import of a package.  The missing
    modules that are left over from names that a package binds are not imported by
    another statement. *)
Record settled (E : env) (find : string -> option spec) (s : st) : Prop := {
  se_tidy : tidy s;
  se_script : forall m x nd, imported_from s m x nd -> kind_of s (m ++ "." ++ x)%string <> Some Script /\ kind_of s (m ++ "." ++ x)%string <> Some Distribution;
  se_left : forall m x id, left_over s m x id -> ~ reaches (s_graph s) id;
  se_own : forall n i nm m nd, scheduled s n i -> names_source s n i m -> In nm (ii_names i) ->
    gfind (s_graph s) m = Some nd -> In (in_name nm) (n_written nd) ->
    (forall t, ~ provides (s_graph s) m (in_name nm) t) /\ (is_package (n_kind nd) = true -> binds E find m (in_name nm))
}.

(** The part of a graph that can be reached from its roots is in another one. *)
Definition reported_within (g g' : graph) : Prop := forall x, reaches g x -> reaches g' x
  /\ (exists n n', gfind g x = Some n /\ gfind g' x = Some n' /\ alike n n')
  /\ forall y d, has_edge g x y d -> has_edge g' x y d.
