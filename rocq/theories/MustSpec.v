(** C97: runs of programs, and the imports that every run makes. *)
From Verif Require Export NeedSpec.
Open Scope string_scope.

(** ** Statements *)

(** Python statements.  [PSimple] is any statement without blocks that is not an
    import, like an assignment or a call; [PJump] is break or continue. *)
Inductive piece :=
| PImport (names : list (string * option string))
| PFrom (module : option string) (names : list (string * option string)) (level : nat)
| PSimple
| PJump
| PIf (body orelse : list piece)
| PLoop (body orelse : list piece)      (* for, async for, while *)
| PWith (body : list piece)
| PMatch (cases : list (list piece))
| PDef (is_async : bool) (body : list piece)
| PClass (body : list piece)
| PTry (star : bool) (body : list piece) (handlers : list (list piece)) (orelse finalbody : list piece).

(** The nodes that the ast module has for them; expressions have no imports. *)
Fixpoint tree (p : piece) : ast :=
  match p with
  | PImport names => AImport names
  | PFrom m names level => AImportFrom m names level
  | PSimple | PJump => AOther []
  | PIf a b => AIf (AOther [] :: map tree a ++ map tree b)
  | PLoop a b => AOther (map tree a ++ map tree b)
  | PWith a => AOther (map tree a)
  | PMatch cs => AOther (map (fun c => AOther (map tree c)) cs)
  | PDef false a => AFunctionDef (map tree a)
  | PDef true a => AAsyncFunctionDef (map tree a)
  | PClass a => AOther (map tree a)
  | PTry false b h e f => ATry (map tree b) (map (fun c => AOther (map tree c)) h) (map tree e) (map tree f)
  | PTry true b h e f => ATryStar (map tree b) (map (fun c => AOther (map tree c)) h) (map tree e) (map tree f)
  end.
Definition module_tree (l : list piece) : ast := AOther (map tree l).

(** ** Runs *)

Inductive out := Next | Raise | Jump.
(** sys.modules: modules that have been loaded, and those that are being loaded.  The
    others record what happened: modules that could not be loaded, and modules that
    were imported while they were being loaded. *)
Record mods := Mods { loaded : list string; loading : list string; failed : list string; circled : list string }.
Definition known (x : string) (z : mods) : Prop := In x (loaded z) \/ In x (loading z).
Definition begin (x : string) (z : mods) : mods := Mods (loaded z) (x :: loading z) (failed z) (circled z).
Definition finish (x : string) (z : mods) : mods := Mods (x :: loaded z) (tl (loading z)) (failed z) (circled z).
Definition abandon (x : string) (z : mods) : mods := Mods (loaded z) (tl (loading z)) (x :: failed z) (circled z).
Definition circle (x : string) (z : mods) : mods := Mods (loaded z) (loading z) (failed z) (x :: circled z).

(** What is run: the statements of a module or script, with what kind of package it is
    ([None] for scripts); the turns of a loop; the first blocks of a try statement;
    calls and other expressions, which can import what they like ([may]); an import; the
    import of a module after that of its package. *)
Inductive task :=
| Lines (n : string) (k : option bool) (l : list piece)
| Line (n : string) (k : option bool) (p : piece)
| Turns (n : string) (k : option bool) (body orelse : list piece)
| Guarded (n : string) (k : option bool) (body : list piece) (handlers : list (list piece)) (orelse : list piece)
| Calls
| Import (x : string)
| Loads (x : string).

(** The module that a statement imports; scripts have no package. *)
Definition target (n : string) (k : option bool) (w : what) (t : string) : Prop :=
  match k with
  | None => w_level w = 0 /\ t = w_module w
  | Some is_pkg => mentions n is_pkg w t
  end.
(** Statements that evaluate something before their blocks. *)
Definition evaluates (p : piece) : bool :=
  match p with PIf _ _ | PLoop _ _ | PWith _ | PMatch _ | PDef _ _ | PClass _ => true | _ => false end.

Section runs.
  Variable find : string -> option spec.
  (** The statements of the modules that have some. *)
  Variable code : string -> option (list piece).
  (** What calls and other expressions may import. *)
  Variable may : mods -> string -> Prop.

  Inductive run : task -> mods -> out -> mods -> Prop :=
  | rn_nil n k z : run (Lines n k []) z Next z
  | rn_cons n k p l z z1 z2 o : run (Line n k p) z Next z1 -> run (Lines n k l) z1 o z2 -> run (Lines n k (p :: l)) z o z2
  | rn_stop n k p l z z1 o : run (Line n k p) z o z1 -> o <> Next -> run (Lines n k (p :: l)) z o z1
  (* imports *)
  | rn_import_nil n k z : run (Line n k (PImport [])) z Next z
  | rn_import n k x a l z z1 z2 o : run (Import x) z Next z1 -> run (Line n k (PImport l)) z1 o z2 ->
      run (Line n k (PImport ((x, a) :: l))) z o z2
  | rn_import_fails n k x a l z z1 : run (Import x) z Raise z1 -> run (Line n k (PImport ((x, a) :: l))) z Raise z1
  | rn_from n k m names level t z z1 z2 o : target n k (WFrom m names level) t -> run (Import t) z Next z1 -> run Calls z1 o z2 ->
      run (Line n k (PFrom m names level)) z o z2
  | rn_from_fails n k m names level t z z1 : target n k (WFrom m names level) t -> run (Import t) z Raise z1 ->
      run (Line n k (PFrom m names level)) z Raise z1
  | rn_from_beyond n k m names level z : (forall t, ~ target n k (WFrom m names level) t) -> run (Line n k (PFrom m names level)) z Raise z
  (* other statements *)
  | rn_simple n k z z1 o : run Calls z o z1 -> run (Line n k PSimple) z o z1
  | rn_jump n k z : run (Line n k PJump) z Jump z
  | rn_evaluates n k p z z1 : evaluates p = true -> run Calls z Raise z1 -> run (Line n k p) z Raise z1
  | rn_if n k a b c z z1 z2 o : run Calls z Next z1 -> c = a \/ c = b -> run (Lines n k c) z1 o z2 -> run (Line n k (PIf a b)) z o z2
  | rn_loop n k a b z z1 z2 o : run Calls z Next z1 -> run (Turns n k a b) z1 o z2 -> run (Line n k (PLoop a b)) z o z2
  | rn_with n k a z z1 z2 z3 o o' : run Calls z Next z1 -> run (Lines n k a) z1 o z2 -> run Calls z2 Next z3 ->
      o' = o \/ (o = Raise /\ o' = Next) -> run (Line n k (PWith a)) z o' z3
  | rn_with_exit n k a z z1 z2 z3 o : run Calls z Next z1 -> run (Lines n k a) z1 o z2 -> run Calls z2 Raise z3 ->
      run (Line n k (PWith a)) z Raise z3
  | rn_match n k cs c z z1 z2 o : run Calls z Next z1 -> In c cs -> run (Lines n k c) z1 o z2 -> run (Line n k (PMatch cs)) z o z2
  | rn_match_none n k cs z z1 : run Calls z Next z1 -> run (Line n k (PMatch cs)) z Next z1
  | rn_def n k b l z z1 : run Calls z Next z1 -> run (Line n k (PDef b l)) z Next z1
  | rn_class n k a z z1 z2 z3 o : run Calls z Next z1 -> run (Lines n k a) z1 Next z2 -> run Calls z2 o z3 -> run (Line n k (PClass a)) z o z3
  | rn_class_stop n k a z z1 z2 o : run Calls z Next z1 -> run (Lines n k a) z1 o z2 -> o <> Next -> run (Line n k (PClass a)) z o z2
  | rn_try n k b h e f st z z1 z2 o : run (Guarded n k b h e) z o z1 -> run (Lines n k f) z1 Next z2 -> run (Line n k (PTry st b h e f)) z o z2
  | rn_finally n k b h e f st z z1 z2 o o' : run (Guarded n k b h e) z o z1 -> run (Lines n k f) z1 o' z2 -> o' <> Next ->
      run (Line n k (PTry st b h e f)) z o' z2
  (* loops *)
  | rn_end n k a b z z1 o : run (Lines n k b) z o z1 -> run (Turns n k a b) z o z1
  | rn_turn n k a b z z1 z2 o o' : run (Lines n k a) z o z1 -> o <> Raise -> run (Turns n k a b) z1 o' z2 -> run (Turns n k a b) z o' z2
  | rn_break n k a b z z1 : run (Lines n k a) z Jump z1 -> run (Turns n k a b) z Next z1
  | rn_turn_fails n k a b z z1 : run (Lines n k a) z Raise z1 -> run (Turns n k a b) z Raise z1
  | rn_test n k a b z z1 z2 o : run Calls z Next z1 -> run (Turns n k a b) z1 o z2 -> run (Turns n k a b) z o z2
  | rn_test_fails n k a b z z1 : run Calls z Raise z1 -> run (Turns n k a b) z Raise z1
  (* try *)
  | rn_else n k b h e z z1 z2 o : run (Lines n k b) z Next z1 -> run (Lines n k e) z1 o z2 -> run (Guarded n k b h e) z o z2
  | rn_leave n k b h e z z1 o : run (Lines n k b) z o z1 -> o <> Next -> run (Guarded n k b h e) z o z1
  | rn_except n k b h e c z z1 z2 o : run (Lines n k b) z Raise z1 -> In c h -> run (Lines n k c) z1 o z2 -> run (Guarded n k b h e) z o z2
  (* expressions *)
  | rn_return z : run Calls z Next z
  | rn_raise z : run Calls z Raise z
  | rn_call x z z1 z2 o o' : may z x -> run (Import x) z o z1 -> run Calls z1 o' z2 -> run Calls z o' z2
  (* the import system *)
  | rn_loaded x z : In x (loaded z) -> run (Import x) z Next z
  | rn_loading x z : In x (loading z) -> run (Import x) z Next (circle x z)
  | rn_dotted x z : starts_with "." x = true -> run (Import x) z Raise z
  | rn_top x z z1 o : ~ known x z -> (forall p, ~ child_of p x) -> starts_with "." x = false -> run (Loads x) z o z1 -> run (Import x) z o z1
  | rn_child p x z z1 z2 o : ~ known x z -> starts_with "." x = false -> child_of p x -> run (Import p) z Next z1 -> run (Loads x) z1 o z2 -> run (Import x) z o z2
  | rn_orphan p x z z1 : ~ known x z -> child_of p x -> run (Import p) z Raise z1 -> run (Import x) z Raise z1
  | rn_already x z : In x (loaded z) -> run (Loads x) z Next z
  | rn_circle x z : In x (loading z) -> run (Loads x) z Next (circle x z)
  | rn_missing x z : find x = None -> run (Loads x) z Raise z
  | rn_load x sp l z z1 o : ~ known x z -> find x = Some sp -> code x = Some l -> run (Lines x (Some (spec_pkg sp)) l) (begin x z) o z1 ->
      run (Loads x) z (match o with Next => Next | _ => Raise end) (match o with Next => finish x z1 | _ => abandon x z1 end)
  | rn_load_other x sp z z1 o : ~ known x z -> find x = Some sp -> code x = None -> run Calls (begin x z) o z1 ->
      run (Loads x) z (match o with Next => Next | _ => Raise end) (match o with Next => finish x z1 | _ => abandon x z1 end).
End runs.

(** ** Imports that every run makes *)

(** All import statements, wherever they are. *)
Fixpoint imports (p : piece) : list what :=
  match p with
  | PImport names => map (fun x => WImport (fst x) (snd x)) names
  | PFrom m names level => [WFrom m names level]
  | PSimple | PJump => []
  | PIf a b | PLoop a b => flat_map imports a ++ flat_map imports b
  | PWith a | PDef _ a | PClass a => flat_map imports a
  | PMatch cs => flat_map (flat_map imports) cs
  | PTry _ b h e f => flat_map imports b ++ flat_map (flat_map imports) h ++ flat_map imports e ++ flat_map imports f
  end.
(** The imports that have been made when a statement has come to its end. *)
Fixpoint musts (p : piece) : list what :=
  match p with
  | PImport names => map (fun x => WImport (fst x) (snd x)) names
  | PFrom m names level => [WFrom m names level]
  | PClass a => flat_map musts a
  | PTry _ _ _ _ f => flat_map musts f
  | _ => []
  end.
(** The imports outside of if statements, functions and try blocks. *)
Fixpoint exposed (p : piece) : list what :=
  match p with
  | PImport names => map (fun x => WImport (fst x) (snd x)) names
  | PFrom m names level => [WFrom m names level]
  | PSimple | PJump | PIf _ _ | PDef _ _ => []
  | PLoop a b => flat_map exposed a ++ flat_map exposed b
  | PWith a | PClass a => flat_map exposed a
  | PMatch cs => flat_map (flat_map exposed) cs
  | PTry false _ _ _ f => flat_map exposed f
  | PTry true b h e f => flat_map exposed b ++ flat_map (flat_map exposed) h ++ flat_map exposed e ++ flat_map exposed f
  end.
(** There are no such imports in loops, with and match statements, nor in the blocks of
    try statements with except*. *)
Fixpoint straight (p : piece) : Prop :=
  match p with
  | PLoop _ _ | PWith _ | PMatch _ => exposed p = []
  | PClass a => fold_right (fun x P => straight x /\ P) True a
  | PTry false _ _ _ f => fold_right (fun x P => straight x /\ P) True f
  | PTry true b h e f => flat_map exposed b = [] /\ flat_map (flat_map exposed) h = [] /\ flat_map exposed e = []
      /\ fold_right (fun x P => straight x /\ P) True f
  | _ => True
  end.

Section programs.
  Variable find : string -> option spec.
  Variable code : string -> option (list piece).

  (** What has been imported when module [x] has been loaded. *)
  Inductive requires (x : string) : string -> Prop :=
  | rq_package c : child_of c x -> requires x c
  | rq_line sp l w c : find x = Some sp -> code x = Some l -> In w (flat_map musts l) -> mentions x (spec_pkg sp) w c -> requires x c.

  (** The interpreter before the program starts: what is there has been loaded. *)
  Record at_rest (z : mods) : Prop := {
    ar_loading : loading z = [];
    ar_failed : failed z = [];
    ar_circled : circled z = [];
    ar_found : forall x, In x (loaded z) -> find x <> None;
    ar_lines : forall x sp l w, In x (loaded z) -> find x = Some sp -> code x = Some l -> In w (flat_map musts l) -> exists c, mentions x (spec_pkg sp) w c;
    ar_closed : forall x c, In x (loaded z) -> requires x c -> In c (loaded z)
  }.
End programs.
(** No module was imported while it was being loaded, and failed to load after that. *)
Definition sound_circles (z : mods) : Prop := forall x, In x (circled z) -> ~ In x (failed z).

(** ** The graph *)

(** The statements are those of the sources of all modules; modules without source have no
    statements, and there is no module with code only. *)
Definition sources (E : env) (find : string -> option spec) (code : string -> option (list piece)) : Prop := forall x sp, find x = Some sp ->
  match sp_loader sp with
  | LInspect _ src _ => exists text file b, src = ROk (Some text) /\ sp_origin sp = Some file /\ code x = Some b /\ forall t, e_parse E t file text = ROk (module_tree b)
  | _ => code x = None
  end.
(** The same for script [f] and all modules. *)
Record written (E : env) (find : string -> option spec) (code : string -> option (list piece)) (f : string) (l : list piece) : Prop := {
  wr_script : forall t, e_script E t f = ROk (module_tree l);
  wr_some : sources E find code
}.
(** Excludes are the only configuration. *)
Definition excludes_only (conf : list (string * implied)) : Prop := forall x i, assoc x conf = Some i -> i = ImpNone.
(** No package is seen to use a library for namespace packages. *)
Definition no_tools (s : st) : Prop := forall a x i k f b, kind_of s a <> Some (Package x i k f (Some b)).
(** What the graph says to be needed: there is a path of edges that are not optional
    and not for names of from lists. *)
Inductive needed (g : graph) (f : string) : string -> Prop :=
| ne_start : needed g f f
| ne_edge a b d : needed g f a -> has_edge g a b d -> d_optional d = false -> d_fromlist d = false -> needed g f b.
