(** C95: programs that get more import statements. *)
From Verif Require Export SeedSpec.

(** All imports of the first tree, in the same context, are in the second one. *)
Definition more_imports (t t' : ast) : Prop := forall p w, In (p, w) (sites [] t) -> In (p, w) (sites [] t').
(** The same module with other code: it has more imports, and a package remains the
    kind of namespace package that it was. *)
Record edited (E : env) (sp sp' : spec) : Prop := {
  ed_name : sp_name sp' = sp_name sp;
  ed_origin : sp_origin sp' = sp_origin sp;
  ed_search : sp_search sp' = sp_search sp;
  ed_ispkg : sp_ispkg sp' = sp_ispkg sp;
  ed_code : exists frozen text text' c c' b w r b' w' r',
    sp_loader sp = LInspect frozen (ROk (Some text)) (ROk (Some c))
    /\ sp_loader sp' = LInspect frozen (ROk (Some text')) (ROk (Some c'))
    /\ (forall t f, sp_origin sp = Some f -> exists tree tree', e_parse E t f text = ROk tree /\ e_parse E t f text' = ROk tree' /\ more_imports tree tree')
    /\ extract_bytecode_info (e_ge311 E) c = Some (ROk (b, w, r)) /\ extract_bytecode_info (e_ge311 E) c' = Some (ROk (b', w', r'))
    /\ memb "__import__" r' = memb "__import__" r
    /\ has_sub "pkg_resources" text' = has_sub "pkg_resources" text /\ has_sub "pkgutil" text' = has_sub "pkgutil" text
}.

(** The same environment with other modules and scripts, and other iteration orders:
    modules are found that were not, and code has more imports. *)
Definition recode (E : env) (found : nat -> list string -> string -> result (option spec)) (script : nat -> string -> result ast)
    (names : list (string * option string) -> list (string * option string)) (order : list string -> list string) : env := Env
  found (e_sysmod E) (e_dist_for_file E) (e_dist_named E) (e_parse E) script
  (e_import E) (e_location E) (e_suffixes E) (e_glob_py E) (e_subdirs E) (e_is_file E) (e_read E)
  (e_parent E) (e_isidentifier E) names order (e_ge311 E).
Record extended (E E' : env) (find find' : string -> option spec) : Prop := {
  ex_env : E' = recode E (e_find_spec E') (e_script E') (e_names_order E') (e_order E');
  ex_some : forall x sp, find x = Some sp -> exists sp', find' x = Some sp' /\ (sp' = sp \/ edited E sp sp');
  ex_script : forall t t' f tree tree', e_script E t f = ROk tree -> e_script E' t' f = ROk tree' -> more_imports tree tree'
}.

(** No module is found that was not found before. *)
Definition nothing_new (find find' : string -> option spec) : Prop := forall x, find x = None -> find' x = None.

(** Nodes that are the same but for the names that their code reads and binds. *)
Definition akin (n n' : node) : Prop :=
  n_name n' = n_name n /\ n_kind n' = n_kind n /\ n_dist n' = n_dist n
  /\ n_file n' = n_file n /\ n_search n' = n_search n /\ n_data n' = n_data n.
Definition more_statements (l l' : list iinfo) : Prop := forall i, In i l -> exists i', In i' l' /\ shuffled i i'.

(** The new code of a package does not bind names that were imported from it before
    and reported missing. *)
Definition no_repair (E E' : env) (find find' : string -> option spec) (s : st) : Prop := forall m x nd,
  imported_from s m x nd -> kind_of s (m ++ "." ++ x)%string = Some MissingModule -> binds E' find' m x -> binds E find m x.

Definition included (g g' : graph) : Prop := forall x, reaches g x -> reaches g' x
  /\ (exists n n', gfind g x = Some n /\ gfind g' x = Some n' /\ akin n n')
  /\ forall y d, has_edge g x y d -> has_edge g' x y d.
