(** What the bytecode scan has to report, stated on the code tree and on
    positions in the instruction list. *)
From Coq Require Export Permutation.
From Verif Require Export Bytecode.

(** ** Code trees *)

(** All occurrences of code objects in the tree, with multiplicity. *)
Fixpoint all_codes (c : code) : list code :=
  match c with
  | Code _ _ ks _ =>
      c :: (fix go (l : list const) : list code :=
              match l with
              | [] => []
              | k :: r => (match k with CCode d => all_codes d | _ => [] end) ++ go r
              end) ks
  end.

(** All code objects at depth [n] below [c], left to right. *)
Fixpoint level (n : nat) (c : code) : list code :=
  match n with
  | 0 => [c]
  | S n' => flat_map (level n') (child_codes c)
  end.

(** [descends p c d]: [d] is reached from [c] via the children [p] (nearest to
    [c] first, ending with [d]). *)
Inductive descends : list code -> code -> code -> Prop :=
| desc_here c : descends [] c c
| desc_child c e d p : In e (child_codes c) -> descends p e d -> descends (e :: p) c d.

(** ** Functions and classes *)

Definition op_at (c : code) (i : nat) (o : op) : Prop :=
  exists x, nth_error (co_ins c) i = Some x /\ i_op x = o.

(** Position [i] creates a function object from the code object with key [k]:
    since 3.11 the constant is loaded just before, in older versions there is a
    load of the qualified name in between. *)
Definition creates (ge311 : bool) (c : code) (i : nat) (k : nat) : Prop :=
  op_at c i MAKE_FUNCTION /\
  exists j x n d, j + (if ge311 then 1 else 2) = i /\ nth_error (co_ins c) j = Some x
    /\ i_arg x = Some n /\ nth_error (co_consts c) n = Some (CCode d) /\ key d = k.

(** The instructions before position [i] are those of a class statement. *)
Definition class_prefix (ge311 : bool) (c : code) (i : nat) : Prop :=
  if ge311 then
    (exists j, j + 2 = i /\ op_at c j LOAD_BUILD_CLASS)
    \/ (exists j, j + 3 = i /\ op_at c j LOAD_BUILD_CLASS /\ op_at c (j + 1) PUSH_NULL)
  else exists j, j + 3 = i /\ op_at c j LOAD_BUILD_CLASS.

Definition makes_function (ge311 : bool) (c : code) (k : nat) : Prop :=
  exists i, creates ge311 c i k /\ ~ class_prefix ge311 c i.

Definition makes_class (ge311 : bool) (c : code) (k : nat) : Prop :=
  exists i, creates ge311 c i k /\ class_prefix ge311 c i.

(** MAKE_FUNCTION and IMPORT_NAME never stand before the loads of their
    operands (they pop them off the stack): needed because Python's negative
    indices wrap around. *)
Definition operands_first (ge311 : bool) (c : code) : Prop :=
  (forall i, op_at c i MAKE_FUNCTION -> (if ge311 then 1 else 2) <= i)
  /\ (forall i, op_at c i IMPORT_NAME -> 1 <= i /\ (op_at c (i - 1) EXTENDED_ARG -> 2 <= i)).

(** Function context of a code object in the tree [root]: some code object on
    the way (the object itself included) was made as a function by its parent. *)
Inductive in_function (ge311 : bool) : list code -> code -> code -> Prop :=
| inf_here c e d p : In e (child_codes c) -> makes_function ge311 c (key e) -> descends p e d ->
    in_function ge311 (e :: p) c d
| inf_below c e d p : In e (child_codes c) -> in_function ge311 p e d ->
    in_function ge311 (e :: p) c d.

Inductive is_class_body (ge311 : bool) : list code -> code -> code -> Prop :=
| cls_here c d : In d (child_codes c) -> makes_class ge311 c (key d) -> is_class_body ge311 [d] c d
| cls_below c e d p : In e (child_codes c) -> is_class_body ge311 p e d -> is_class_body ge311 (e :: p) c d.

(** ** Names *)

(** Name operand of instruction [x]. *)
Definition names_arg (c : code) (x : instr) (n : string) : Prop :=
  exists a, i_arg x = Some a /\ nth_error (co_names c) a = Some n.

(** Name operand of a LOAD_GLOBAL: the low bit of the operand is a flag since 3.11. *)
Definition names_garg (ge311 : bool) (c : code) (x : instr) (n : string) : Prop :=
  exists a, i_arg x = Some a /\ nth_error (co_names c) (if ge311 then a / 2 else a) = Some n.

(** The from-list constant of the import at position [i]. *)
Definition from_const (c : code) (i : nat) (k : const) : Prop :=
  exists j x a,
    (j + 1 = i \/ j + 2 = i /\ op_at c (j + 1) EXTENDED_ARG)
    /\ nth_error (co_ins c) j = Some x /\ i_op x = LOAD_CONST
    /\ i_arg x = Some a /\ nth_error (co_consts c) a = Some k.

(** Module globals written by code object [c] ([fn]: in a function, [cls]: a class body). *)
Definition writes (fn cls : bool) (c : code) (n : string) : Prop :=
  exists i x, nth_error (co_ins c) i = Some x /\
    ( (i_op x = STORE_NAME /\ fn = false /\ cls = false /\ names_arg c x n)
      \/ (i_op x = STORE_GLOBAL /\ cls = false /\ names_arg c x n)
      \/ (i_op x = IMPORT_NAME /\ fn = false /\ cls = false /\ n <> "*"
          /\ exists l, from_const c i (CTuple l) /\ In n l) ).

(** Names read. *)
Definition reads (ge311 : bool) (cls : bool) (c : code) (n : string) : Prop :=
  exists i x, nth_error (co_ins c) i = Some x /\
    ( (i_op x = LOAD_NAME /\ cls = false /\ names_arg c x n)
      \/ (i_op x = LOAD_GLOBAL /\ names_garg ge311 c x n) ).

(** ** Statements as compiled *)

Definition ext (n : nat) : instr := Ins EXTENDED_ARG (Some n).

(** An import statement as the compiler emits it. *)
Record istmt := IStmt {
  st_level_const : option nat;   (* Some i: LOAD_CONST i; None: LOAD_SMALL_INT *)
  st_level : nat;                (* the level *)
  st_level_ext : list nat;       (* prefixes of the level load *)
  st_from_idx : nat;
  st_from_ext : option nat;      (* at most one prefix *)
  st_name_idx : nat;
  st_name_ext : option nat       (* at most one prefix *)
}.

Definition opt_ext (o : option nat) : list instr :=
  match o with Some n => [ext n] | None => [] end.

Definition enc_import (s : istmt) : list instr :=
  map ext (st_level_ext s)
  ++ [match st_level_const s with
      | Some i => Ins LOAD_CONST (Some i)
      | None => Ins LOAD_SMALL_INT (Some (st_level s))
      end]
  ++ opt_ext (st_from_ext s) ++ [Ins LOAD_CONST (Some (st_from_idx s))]
  ++ opt_ext (st_name_ext s) ++ [Ins IMPORT_NAME (Some (st_name_idx s))].

(** Pieces of compiled code. *)
Inductive chunk :=
| ChImport (s : istmt)
| ChFunction (idx : nat) (ext_code : list nat) (qual : nat)
| ChClass (idx : nat) (with_null : bool) (qual : nat)
| ChOther (x : instr).

Definition enc (ge311 : bool) (h : chunk) : list instr :=
  match h with
  | ChImport s => enc_import s
  | ChFunction i es q =>
      map ext es ++ [Ins LOAD_CONST (Some i)]
      ++ (if ge311 then [] else [Ins LOAD_CONST (Some q)])
      ++ [Ins MAKE_FUNCTION (Some 0)]
  | ChClass i null q =>
      [Ins LOAD_BUILD_CLASS None]
      ++ (if ge311 && null then [Ins PUSH_NULL None] else [])
      ++ [Ins LOAD_CONST (Some i)]
      ++ (if ge311 then [] else [Ins LOAD_CONST (Some q)])
      ++ [Ins MAKE_FUNCTION (Some 0)]
  | ChOther x => [x]
  end.

(** The operands refer to what the statement says. *)
Definition stmt_is (c : code) (s : istmt) (name : string) (from : option (list string)) : Prop :=
  nth_error (co_names c) (st_name_idx s) = Some name
  /\ nth_error (co_consts c) (st_from_idx s)
     = Some (match from with Some l => CTuple l | None => CNone end)
  /\ match st_level_const s with
     | Some i => nth_error (co_consts c) i = Some (CInt (st_level s))
     | None => True
     end.

(** The record for an import statement of the source. *)
Definition records (fn : bool) (name : string) (lv : nat) (from : option (list string)) (i : iinfo) : Prop :=
  ii_module i = IName name None /\ ii_level i = lv
  /\ ii_in_function i = fn /\ ii_in_conditional i = false /\ ii_in_tryexcept i = false
  /\ match from with
     | None => ii_names i = [] /\ ii_star i = false
     | Some l =>
         (forall n, In n (map in_name (ii_names i)) <-> n <> "*" /\ In n l)
         /\ NoDup (map in_name (ii_names i))
         /\ (ii_star i = true <-> In "*" l)
         /\ (forall x, In x (ii_names i) -> in_asname x = None)
     end.

Definition code_at (c : code) (i : nat) : Prop :=
  exists k, nth_error (co_consts c) i = Some k.

(** Well formed pieces: operands in range; an other instruction is none of
    the structured ones. *)
Definition chunk_ok (ge311 : bool) (c : code) (h : chunk) : Prop :=
  match h with
  | ChImport s => exists name from, stmt_is c s name from
  | ChFunction i _ _ => code_at c i
  | ChClass i _ _ => code_at c i
  | ChOther x =>
      match i_op x with
      | IMPORT_NAME | MAKE_FUNCTION | LOAD_BUILD_CLASS => False
      | STORE_NAME | STORE_GLOBAL | LOAD_NAME => exists n, names_arg c x n
      | LOAD_GLOBAL => exists n, names_garg ge311 c x n
      | _ => True
      end
  end.

(** The import statements among the pieces, in order. *)
Fixpoint stmts (hs : list chunk) : list istmt :=
  match hs with
  | [] => []
  | ChImport s :: r => s :: stmts r
  | _ :: r => stmts r
  end.
