(** C81: environments and configurations in which nothing goes wrong, stated on
    specs, parse trees and code objects. *)
From Verif Require Export LoadSpec AttrSpec EndSpec.
Open Scope string_scope.

(** Names of modules: parts without dots and slashes, with a dot between them. *)
Definition part (x : string) : Prop := x <> "" /\ has_char slash x = false.
Inductive module_name : string -> Prop :=
| mn_top x : part x -> dotless x -> module_name x
| mn_sub p x : module_name p -> part x -> dotless x -> module_name (p ++ "." ++ x).
(** What is neither the name of a module nor a relative name, such as a path with a
    slash. *)
Definition label (id : string) : Prop := forall k m, id = repeat_char dot k ++ m -> m <> "" /\ ~ module_name m.

(** Import statements as Python's grammar has them. *)
Definition proper (w : what) : Prop :=
  (w_level w = 0 -> module_name (w_module w)) /\ (w_level w <> 0 -> w_module w = "" \/ module_name (w_module w))
  /\ forall x, In x (map fst (w_names w)) -> part x /\ dotless x.

Definition library (tool : string) : Prop := tool = "pkgutil" \/ tool = "pkg_resources".

(** A spec that says what there is to say.  Redirecting loaders (six.moves,
    vendored packages, distutils) know another name. *)
Record complete_spec (E : env) (sp : spec) : Prop := {
  cs_name : module_name (sp_name sp);
  cs_source : forall f gs gc, sp_loader sp = LInspect f gs gc ->
    match gs with RErr e => e = ESyntax | ROk (Some _) => sp_origin sp <> None | ROk None => True end;
  cs_code : forall f gs gc, sp_loader sp = LInspect f gs gc ->
    match gc with
    | RErr e => e = ESyntax
    | ROk None => False
    | ROk (Some c) => forall e, extract_bytecode_info (e_ge311 E) c = Some (RErr e) -> e = ESyntax
    end;
  cs_package : exists p, sp_ispkg sp = ROk p /\ (p = true -> sp_search sp <> None);
  cs_namespace : sp_loader sp = LNone \/ sp_loader sp = LNamespace -> sp_search sp <> None;
  cs_known : sp_loader sp <> LOther /\ sp_loader sp <> LVendor None;
  cs_distutils : sp_loader sp = LDistutils -> sp_name sp = "distutils" /\ forall t, e_sysmod E t "setuptools._distutils" = true;
  cs_target : forall name, target sp name -> module_name name /\ name <> "__main__" /\ forall t fakes,
    match e_find_spec E t fakes name with
    | ROk None => True
    | ROk (Some moved) => sp_name moved <> sp_name sp
    | RErr e => exists root vendor b, sp_loader sp = LVendor (Some (root, vendor)) /\ e = ENotFound b
        /\ name <> sdrop (String.length root + 1) (sp_name sp)
    end
}.

(** The package of [name] cannot be imported; a stand-in for it helps. *)
Definition broken_package (E : env) (fakes : list string) (name : string) : Prop := exists p x, name = p ++ "." ++ x /\ dotless x
  /\ ~ In p fakes /\ forall t, e_sysmod E t p = false /\ exists sp, e_find_spec E t fakes p = ROk (Some sp) /\ sp_inspect sp = true
  /\ (sp_ispkg sp = ROk false \/ (sp_ispkg sp = ROk true /\ exists dir file, sp_origin sp = Some (dir ++ "/" ++ file)
       /\ has_char slash file = false /\ exists ext, file = "__init__." ++ ext)).

(** The entry of [sys.modules] for [name] has no spec (Python raises a ValueError); it
    is taken away for a moment, between the questions at times [t] and [3 + t]. *)
Definition no_spec (E : env) (t : nat) (fakes : list string) (name : string) : Prop :=
  (In name fakes \/ e_sysmod E (S t) name = true) /\ e_sysmod E (3 + t) name = false
  /\ match e_find_spec E (2 + t) (remove_name name fakes) name with
     | ROk None => True
     | ROk (Some sp) => complete_spec E sp
     | RErr e => e = ENotFound false
     end.

(** Python's import system works, except for [__main__] which is always excluded: it finds a module, or not, or importing the
    package of the module fails.  Files can be read; texts are parsed, or are no
    Python. *)
Record working (E : env) : Prop := {
  wk_names : set_order (e_names_order E);
  wk_code : compiled_env E;
  wk_find : forall t fakes name, module_name name -> name <> "__main__" ->
    match e_find_spec E t fakes name with
    | ROk None => True
    | ROk (Some sp) => complete_spec E sp
    | RErr e => e = ENotFound false \/ e = EAttrPath \/ (broken_package E fakes name /\ e <> EValue /\ e <> ESpecValue /\ e <> EInterrupt)
        \/ (e = ESpecValue /\ no_spec E t fakes name)
    end;
  wk_parse : forall t f text, match e_parse E t f text with
    | ROk tree => forall p w, In (p, w) (sites [] tree) -> proper w
    | RErr e => e = ESyntax
    end;
  wk_says : forall sp f gs c fn opt w, importable E sp -> sp_loader sp = LInspect f gs (ROk (Some c)) ->
    code_says (e_ge311 E) c fn opt w -> proper w;
  wk_dist : forall t f, exists d, e_dist_for_file E t f = ROk d;
  wk_import : forall t name e, e_import E t name = RErr e -> e = EImport \/ exists b, e = ENotFound b;
  wk_files : forall t d, exists b, contains_datafiles (e_suffixes E) (e_location E t d) = ROk b
}.

(** What the built-in hooks ask for: the names of the modules of distributions and
    files that are there can be used. *)
Record mypyc_fine (E : env) (P : paths) : Prop := {
  mf_order : forall l x, In x (pa_order P l) -> In x l;
  mf_names : forall t f d x, e_dist_for_file E t f = ROk (Some d) -> In x (dist_import_names d) -> module_name x;
  mf_read : forall t t' f, e_is_file E t f = true -> exists text, e_read E t' f = ROk text
}.
(** No module is a wrapper made by SWIG, nothing has the name of its function. *)
Definition helper : string := "swig_import_helper".
Record swig_free (E : env) : Prop := {
  sf_code : forall sp f gs c, importable E sp -> sp_loader sp = LInspect f gs (ROk (Some c)) -> ~ code_writes (e_ge311 E) c helper;
  sf_says : forall sp f gs c fn opt w, importable E sp -> sp_loader sp = LInspect f gs (ROk (Some c)) ->
    code_says (e_ge311 E) c fn opt w -> ~ In helper (map fst (w_names w));
  sf_parse : forall t f text tree p w, e_parse E t f text = ROk tree -> In (p, w) (sites [] tree) -> ~ In helper (map fst (w_names w));
  sf_script : forall t f tree p w, e_script E t f = ROk tree -> In (p, w) (sites [] tree) -> ~ In helper (map fst (w_names w))
}.

(** Configured modules have names, too. *)
Definition named (i : implied) : Prop := match i with
  | ImpNone => True
  | ImpAlias t | ImpVirtual t => module_name t
  | ImpRefs l => forall t, In t l -> module_name t
  end.

(** Modules that are certain to be found, as are their packages. *)
Record certain (E : env) (firm : string -> Prop) : Prop := {
  ct_package : forall p x, firm (p ++ "." ++ x) -> dotless x -> firm p;
  ct_found : forall t fakes name, firm name -> exists sp, e_find_spec E t fakes name = ROk (Some sp) /\ sp_name sp = name;
  ct_plain : forall t fakes name sp, e_find_spec E t fakes name = ROk (Some sp) -> firm (sp_name sp) ->
    match sp_loader sp with LSix | LVendor _ | LDistutils => False | _ => True end
}.
(** Nothing makes a package load one of its own modules, unless the package is
    certain to be found.  Names can be ranked so that modules come after their
    packages, and what a module stands for, implies or needs does not come after it. *)
Record ranked (E : env) (firm : string -> Prop) (rank : string -> nat) : Prop := {
  rk_package : forall p x, module_name (p ++ "." ++ x) -> dotless x -> rank p < rank (p ++ "." ++ x) \/ (firm p /\ rank p <= rank (p ++ "." ++ x));
  rk_found : forall t fakes name sp, e_find_spec E t fakes name = ROk (Some sp) -> rank (sp_name sp) <= rank name;
  rk_target : forall sp name, importable E sp -> target sp name -> rank name <= rank (sp_name sp);
  rk_tool : forall sp frozen text code tool, importable E sp -> sp_loader sp = LInspect frozen (ROk (Some text)) code ->
    sp_ispkg sp = ROk true -> library tool -> occurs tool text -> rank tool <= rank (sp_name sp)
}.
Definition ranked_conf (firm : string -> Prop) (rank : string -> nat) (k : string) (i : implied) : Prop := match i with
  | ImpNone => ~ firm k
  | ImpAlias t | ImpVirtual t => rank t <= rank k
  | ImpRefs l => forall t, In t l -> rank t <= rank k
  end.

(** A distribution whose identifier is a path, which is not that of a script; its
    modules have names. *)
Definition usable (E : env) (d : dist) : Prop := label (dist_identifier d)
  /\ (forall t tree, e_script E t (dist_identifier d) <> ROk tree)
  /\ forall x, In x (e_order E (dist_import_names d)) -> module_name x.
(** Modules that are found are found again, and directories can be listed; names in
    them that are identifiers have no dots and slashes. *)
Record listing_fine (E : env) : Prop := {
  lf_found : forall sp, importable E sp -> forall t fakes, exists sp', e_find_spec E t fakes (sp_name sp) = ROk (Some sp');
  lf_py : forall t path, exists l, e_glob_py E t path = ROk l /\ forall x, In x l -> e_isidentifier E x = true -> part x /\ dotless x;
  lf_dirs : forall t path, exists l, e_subdirs E t path = ROk l /\ forall x, In x l -> e_isidentifier E x = true -> part x /\ dotless x
}.
(** The nodes of [s] are in the graph later on, as what they are. *)
Definition later (s s' : st) : Prop := forall id x, gfind (s_graph s) id = Some x ->
  exists y, gfind (s_graph s') id = Some y /\ n_kind y = n_kind x.
(** A program that looks and does not answer. *)
Fixpoint silent (p : prog) : Prop := match p with
  | PRet o => o = None
  | PRaise _ => False
  | PDo a k => (a = ALook \/ exists m, a = ARemember m) /\ forall ans, silent (k ans)
  end.
(** A hook for missing modules that looks only, or that of SWIG without wrappers. *)
Definition missing_fine (E : env) (h : missing_hook) : Prop :=
  (h = swig_hook /\ swig_free E) \/ forall importing name, silent (h importing name).
(** A node made by hand, for a module that is there or not, with a name that the
    graph does not have. *)
Record handmade (s : st) (n : node) : Prop := {
  hm_new : ~ in_graph s (n_name n);
  hm_name : module_name (n_name n);
  hm_kind : is_module (n_kind n) = true \/ n_kind n = MissingModule \/ n_kind n = ExcludedModule;
  hm_dist : n_dist n = None;
  hm_swig : ~ In helper (n_written n)
}.
(** Calls as they are meant, in state [s]; [ok] restricts the calls in a hook context. *)
Inductive meant (E : env) (ok : st -> action -> Prop) : st -> action -> Prop :=
| me_module s name : module_name name -> meant E ok s (AAddModule name)
| me_script s f : ~ in_graph s f -> (forall t, exists tree, e_script E t f = ROk tree /\ forall p w, In (p, w) (sites [] tree) -> proper w) ->
    meant E ok s (AAddScript f)
| me_source s src : (forall t, exists tree, e_parse E t "-source-code-" src = ROk tree /\ forall p w, In (p, w) (sites [] tree) -> w_level w = 0) ->
    meant E ok s (AAddSource src)
| me_import s n name : in_graph s n -> module_name name -> meant E ok s (AImportModule n name)
| me_dist s d : usable E d -> meant E ok s (AAddDist d)
| me_named s name : (forall t, exists d, e_dist_named E t name = ROk (Some d) /\ usable E d) -> meant E ok s (AAddDistNamed name)
| me_exclude s names : meant E ok s (AExcludes names)
| me_implies s l : (forall k i, In (k, i) l -> named i) -> meant E ok s (AImplies l)
| me_look s : meant E ok s ALook
| me_remember s m : meant E ok s (ARemember m)
| me_edge s a b d : in_graph s a -> in_graph s b -> meant E ok s (AAddEdge a b d)
| me_root s a : in_graph s a -> meant E ok s (AAddRoot a)
| me_run s : meant E ok s ARunStack
| me_package s n name : in_graph s n -> module_name name -> listing_fine E -> meant E ok s (AImportPackage n name)
| me_context s p : polite E ok s p -> meant E ok s (AHookContext p)
| me_node s n : handmade s n -> meant E ok s (AAddNode n)
| me_mypyc s P : mypyc_fine E P -> meant E ok s (AAddPost (mypyc_hook P))
| me_post s h : (forall n s', in_graph s' n -> polite E ok s' (h n)) -> meant E ok s (AAddPost h)
| me_missing s h : missing_fine E h -> meant E ok s (AAddMissing h)
(** A program that makes such calls, whatever it learns from them, and does not
    raise. *)
with polite (E : env) (ok : st -> action -> Prop) : st -> prog -> Prop :=
| po_ret s o : polite E ok s (PRet o)
| po_do s a k : meant E ok s a -> ok s a -> (forall ans s', (forall e, ans <> AnsErr e) -> later s s' -> polite E ok s' (k ans)) ->
    polite E ok s (PDo a k).
(** States after such calls, whatever their outcome, of a graph that starts as [s0]. *)
Inductive meant_history (E : env) (ok : st -> action -> Prop) (s0 : st) : st -> Prop :=
| mh_start : meant_history E ok s0 s0
| mh_call s fuel a ans s' : meant_history E ok s0 s -> meant E ok s a -> ok s a -> top_call E fuel a s = Some (ans, s') ->
    meant_history E ok s0 s'.
(** The script has a name without slashes, leading dots and two dots in a row, or
    it has no relative imports and the name could not be that of a module. *)
Definition script_fine (E : env) (f : string) : Prop := module_name f \/
  (label f /\ forall t tree p w, e_script E t f = ROk tree -> In (p, w) (sites [] tree) -> w_level w = 0).
(** In addition: scripts are like that, and the configuration is ranked. *)
Definition tame (E : env) (firm : string -> Prop) (rank : string -> nat) (s : st) (a : action) : Prop := match a with
  | AAddScript f => script_fine E f
  | AImplies l => forall k i, In (k, i) l -> ranked_conf firm rank k i
  | AExcludes names => forall k, In k names -> ~ firm k
  | AAddNode n => is_module (n_kind n) = false -> ~ firm (n_name n)
  | _ => True
  end.

(** ** Hooks *)

Definition post_fine (E : env) (ok : st -> action -> Prop) (h : post_hook) : Prop :=
  (exists P, h = mypyc_hook P /\ mypyc_fine E P) \/ forall n s, in_graph s n -> polite E ok s (h n).
