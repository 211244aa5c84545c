(** What the AST scan has to find, stated on the tree (no queue). *)
From Coq Require Export Permutation.
From Verif Require Export AstScan.

(** How a node is contained in its parent. *)
Inductive edge := KIf | KDef | KTry | KTryStar | KFinally | KOther.

Definition kids (t : ast) : list (edge * ast) :=
  match t with
  | AImport _ | AImportFrom _ _ _ => []
  | AIf cs => map (pair KIf) cs
  | AFunctionDef cs | AAsyncFunctionDef cs => map (pair KDef) cs
  | ATry b h e f => map (pair KTry) (b ++ h ++ e) ++ map (pair KFinally) f
  | ATryStar b h e f => map (pair KTryStar) (b ++ h ++ e) ++ map (pair KFinally) f
  | AOther cs => map (pair KOther) cs
  end.

(** [below p t s]: [s] occurs in [t]; [p] lists the containments from [s] up to [t]. *)
Inductive below : list edge -> ast -> ast -> Prop :=
| below_here t : below [] t t
| below_kid p t k c s : In (k, c) (kids t) -> below p c s -> below (p ++ [k]) t s.

(** A single thing that is imported: one alias of an [import] statement, or a
    complete [from] statement. *)
Inductive what :=
| WImport (name : string) (asname : option string)
| WFrom (module : option string) (names : list (string * option string)) (level : nat).

Definition whats (s : ast) : list what :=
  match s with
  | AImport names => map (fun n => WImport (fst n) (snd n)) names
  | AImportFrom m names level => [WFrom m names level]
  | _ => []
  end.

(** All occurrences in the tree, with multiplicity. *)
Fixpoint sites (p : list edge) (t : ast) : list (list edge * what) :=
  match t with
  | AImport names => map (fun n => (p, WImport (fst n) (snd n))) names
  | AImportFrom m names level => [(p, WFrom m names level)]
  | AIf cs => flat_map (sites (KIf :: p)) cs
  | AFunctionDef cs | AAsyncFunctionDef cs => flat_map (sites (KDef :: p)) cs
  | ATry b h e f =>
      flat_map (sites (KTry :: p)) b ++ flat_map (sites (KTry :: p)) h
      ++ flat_map (sites (KTry :: p)) e ++ flat_map (sites (KFinally :: p)) f
  | ATryStar b h e f =>
      flat_map (sites (KTryStar :: p)) b ++ flat_map (sites (KTryStar :: p)) h
      ++ flat_map (sites (KTryStar :: p)) e ++ flat_map (sites (KFinally :: p)) f
  | AOther cs => flat_map (sites (KOther :: p)) cs
  end.

(** The record states the imported thing (C04). *)
Definition states_what (w : what) (i : iinfo) : Prop :=
  match w with
  | WImport n a => ii_module i = IName n a /\ ii_level i = 0 /\ ii_names i = [] /\ ii_star i = false
  | WFrom m names level =>
      ii_module i = IName (match m with Some s => s | None => EmptyString end) None
      /\ ii_level i = level
      /\ (forall n, In n (map in_name (ii_names i)) <-> n <> "*" /\ In n (map fst names))
      /\ NoDup (map in_name (ii_names i))
      /\ (ii_star i = true <-> In "*" (map fst names))
      /\ (forall x, In x (ii_names i) -> In (in_name x, in_asname x) names)
  end.

(** The record states the context (C05). *)
Definition states_context (p : list edge) (i : iinfo) : Prop :=
  (ii_in_function i = true <-> In KDef p)
  /\ (ii_in_conditional i = true <-> In KIf p)
  /\ (ii_in_tryexcept i = true <-> In KTry p).

Definition states (s : list edge * what) (i : iinfo) : Prop :=
  states_what (snd s) i /\ states_context (fst s) i.

(** [order] is the iteration order of a Python set. *)
Definition set_order (order : list (string * option string) -> list (string * option string)) : Prop :=
  forall l, Permutation (order l) l.
