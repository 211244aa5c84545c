(** [_bytecode_tools.py]. *)
From Verif Require Export ImportInfo Names.

(** The opcodes the scanner looks at; all others are [OTHER]. *)
Inductive op :=
| IMPORT_NAME | EXTENDED_ARG | LOAD_CONST | LOAD_SMALL_INT | STORE_NAME | STORE_GLOBAL
| LOAD_NAME | LOAD_GLOBAL | MAKE_FUNCTION | LOAD_BUILD_CLASS | PUSH_NULL | OTHER (name : string).

(** [dis.Instruction]: [arg] already includes the EXTENDED_ARG prefixes, which
    [dis.get_instructions] also lists as instructions of their own. *)
Record instr := Ins { i_op : op; i_arg : option nat }.

(** Code objects.  [key] stands for equality of code objects (which Python
    compares by value): two code objects are equal iff their keys are.  Constants
    other than None, ints, tuples of strings and code objects are [COther]. *)
Inductive code : Type :=
| Code (key : nat) (names : list string) (consts : list const) (ins : list instr)
with const : Type :=
| CNone | CInt (n : nat) | CTuple (l : list string) | CCode (c : code) | COther.

Definition key (c : code) := let '(Code k _ _ _) := c in k.
Definition co_names (c : code) := let '(Code _ n _ _) := c in n.
Definition co_consts (c : code) := let '(Code _ _ k _) := c in k.
Definition co_ins (c : code) := let '(Code _ _ _ i) := c in i.

Definition op_eqb (a b : op) : bool :=
  match a, b with
  | IMPORT_NAME, IMPORT_NAME | EXTENDED_ARG, EXTENDED_ARG | LOAD_CONST, LOAD_CONST
  | LOAD_SMALL_INT, LOAD_SMALL_INT | STORE_NAME, STORE_NAME | STORE_GLOBAL, STORE_GLOBAL
  | LOAD_NAME, LOAD_NAME | LOAD_GLOBAL, LOAD_GLOBAL | MAKE_FUNCTION, MAKE_FUNCTION
  | LOAD_BUILD_CLASS, LOAD_BUILD_CLASS | PUSH_NULL, PUSH_NULL => true
  | OTHER x, OTHER y => seqb x y
  | _, _ => false
  end.

(** [l[offset - k]] with Python's negative indices; [None] is IndexError. *)
Definition pyback {A} (l : list A) (offset k : nat) : option A :=
  if Nat.leb k offset then nth_error l (offset - k)
  else if Nat.leb k (List.length l + offset) then nth_error l (List.length l + offset - k)
  else None.

Definition rbind {A B} (r : result A) (f : A -> result B) : result B :=
  match r with ROk a => f a | RErr e => RErr e end.

Definition or_err {A} (o : option A) (e : err) : result A :=
  match o with Some a => ROk a | None => RErr e end.

Notation "'let*' x ':=' r 'in' k" := (rbind r (fun x => k))
  (at level 200, x pattern, r at level 100, k at level 200, right associativity).

(** The five results of [_extract_single]; sets of code objects are lists of keys. *)
Record found := Found {
  f_imports : list iinfo;
  f_written : list string;
  f_read : list string;
  f_funcs : list nat;
  f_classes : list nat
}.

Definition found0 : found := Found [] [] [] [] [].

(** Opcode at [offset - k]. *)
Definition op_back (ins : list instr) (offset k : nat) : result op :=
  let* i := or_err (pyback ins offset k) EIndex in ROk (i_op i).

(** modulegraph2/_bytecode_tools.py:71-127: an IMPORT_NAME instruction.
    Result: the record and the names of the from-list (None if there is none).
    A level constant that is not an int is reported as EType (the Python code
    would carry on with it). *)
Definition decode_import (c : code) (offset : nat) (inst : instr) (is_fn : bool)
    : result (iinfo * option (list string)) :=
  let ins := co_ins c in
  let* o1 := op_back ins offset 1 in
  let from_off := if op_eqb o1 EXTENDED_ARG then 2 else 1 in
  let* o2 := op_back ins offset (from_off + 1) in
  let level_off := if op_eqb o2 EXTENDED_ARG then from_off + 2 else from_off + 1 in
  let* of := op_back ins offset from_off in
  if negb (op_eqb of LOAD_CONST) then RErr EAssert else
  let* ol := op_back ins offset level_off in
  if negb (op_eqb ol LOAD_CONST || op_eqb ol LOAD_SMALL_INT) then RErr EAssert else
  let* fi := or_err (pyback ins offset from_off) EIndex in
  let* from_offset := or_err (i_arg fi) EAssert in
  let* li := or_err (pyback ins offset level_off) EIndex in
  let* level_offset := or_err (i_arg li) EAssert in
  let* fromlist := or_err (nth_error (co_consts c) from_offset) EIndex in
  let* level :=
    (if op_eqb ol LOAD_SMALL_INT then ROk level_offset
     else let* k := or_err (nth_error (co_consts c) level_offset) EIndex in
          match k with CInt n => ROk n | _ => RErr EType end) in
  let* names :=
    match fromlist with
    | CNone => ROk None
    | CTuple l => ROk (Some l)
    | _ => RErr EAssert
    end in
  let* name_offset := or_err (i_arg inst) EAssert in
  let* import_module := or_err (nth_error (co_names c) name_offset) EIndex in
  let fromvalues := option_map (map (fun nm => (nm, None))) names in
  ROk (create_importinfo (import_module, None) fromvalues level is_fn false false, names).

(** [code.co_names[inst.arg]] *)
Definition name_arg (c : code) (inst : instr) : result string :=
  let* n := or_err (i_arg inst) EAssert in or_err (nth_error (co_names c) n) EIndex.

(** modulegraph2/_bytecode_tools.py:148-153: LOAD_GLOBAL, whose operand is
    shifted by one bit since Python 3.11 ([ge311]). *)
Definition global_arg (ge311 : bool) (c : code) (inst : instr) : result string :=
  let* n := or_err (i_arg inst) EAssert in
  or_err (nth_error (co_names c) (if ge311 then Nat.div2 n else n)) EIndex.

(** modulegraph2/_bytecode_tools.py:155-183: MAKE_FUNCTION; result: is it a
    class body, and the constant. *)
Definition decode_function (ge311 : bool) (c : code) (offset : nat) : result (bool * const) :=
  let ins := co_ins c in
  let* ci := or_err (pyback ins offset (if ge311 then 1 else 2)) EIndex in
  let* const_offset := or_err (i_arg ci) EAssert in
  let* is_class :=
    (if ge311 then
       let* a := (if Nat.leb 2 offset
                  then let* o := op_back ins offset 2 in ROk (op_eqb o LOAD_BUILD_CLASS)
                  else ROk false) in
       if a then ROk true else
       if Nat.leb 3 offset then
         let* o2 := op_back ins offset 2 in
         let* o3 := op_back ins offset 3 in
         ROk (op_eqb o2 PUSH_NULL && op_eqb o3 LOAD_BUILD_CLASS)
       else ROk false
     else
       if Nat.leb 3 offset
       then let* o := op_back ins offset 3 in ROk (op_eqb o LOAD_BUILD_CLASS)
       else ROk false) in
  let* k := or_err (nth_error (co_consts c) const_offset) EIndex in
  ROk (is_class, k).

(** Adding a constant to a set of code objects: only code objects matter. *)
Definition add_const (k : const) (l : list nat) : list nat :=
  match k with CCode c => l ++ [key c] | _ => l end.

(** One iteration of the loop, modulegraph2/_bytecode_tools.py:70-183. *)
Definition single_step (ge311 : bool) (c : code) (is_fn is_cls : bool) (offset : nat)
    (inst : instr) (acc : found) : result found :=
  let '(Found im wr rd fs cs) := acc in
  match i_op inst with
  | IMPORT_NAME =>
      let* (info, names) := decode_import c offset inst is_fn in
      let wr' :=
        if is_fn || is_cls then wr
        else match names with
             | Some l => set_union wr (filter (fun n => negb (seqb n "*")) l)
             | None => wr
             end in
      ROk (Found (im ++ [info]) wr' rd fs cs)
  | STORE_NAME =>
      if is_cls || is_fn then ROk acc
      else let* n := name_arg c inst in ROk (Found im (set_add n wr) rd fs cs)
  | STORE_GLOBAL =>
      if is_cls then ROk acc
      else let* n := name_arg c inst in ROk (Found im (set_add n wr) rd fs cs)
  | LOAD_NAME =>
      if is_cls then ROk acc
      else let* n := name_arg c inst in ROk (Found im wr (set_add n rd) fs cs)
  | LOAD_GLOBAL =>
      let* n := global_arg ge311 c inst in ROk (Found im wr (set_add n rd) fs cs)
  | MAKE_FUNCTION =>
      let* (is_class, k) := decode_function ge311 c offset in
      if is_class then ROk (Found im wr rd fs (add_const k cs))
      else ROk (Found im wr rd (add_const k fs) cs)
  | _ => ROk acc
  end.

Fixpoint single_loop (ge311 : bool) (c : code) (is_fn is_cls : bool) (offset : nat)
    (rest : list instr) (acc : found) : result found :=
  match rest with
  | [] => ROk acc
  | inst :: rest' =>
      let* acc' := single_step ge311 c is_fn is_cls offset inst acc in
      single_loop ge311 c is_fn is_cls (S offset) rest' acc'
  end.

(** modulegraph2/_bytecode_tools.py:48-185 [_extract_single]. *)
Definition extract_single (ge311 : bool) (c : code) (is_fn is_cls : bool) : result found :=
  single_loop ge311 c is_fn is_cls 0 (co_ins c) found0.

(** The code objects among the constants, in order. *)
Definition child_codes (c : code) : list code :=
  flat_map (fun k => match k with CCode d => [d] | _ => [] end) (co_consts c).

(** Dictionary from code objects (keys) to parent lists. *)
Definition pdict := list (nat * list nat).
Fixpoint pget (d : pdict) (k : nat) : list nat :=
  match d with
  | [] => []
  | (k', v) :: r => if Nat.eqb k k' then v else pget r k
  end.

(** modulegraph2/_bytecode_tools.py:42-45: push the children and record their parents. *)
Fixpoint push_children (cur : code) (ks : list code) (q : list code) (d : pdict) : list code * pdict :=
  match ks with
  | [] => (q, d)
  | v :: ks' => push_children cur ks' (q ++ [v]) ((key v, pget d (key cur) ++ [key v]) :: d)
  end.

(** modulegraph2/_bytecode_tools.py:17-45 [_all_code_objects]; [None] is out of
    fuel.  Yields (code object, parents). *)
Fixpoint all_code_loop (fuel : nat) (q : list code) (d : pdict) : option (list (code * list nat)) :=
  match q with
  | [] => Some []
  | cur :: q' =>
      match fuel with
      | 0 => None
      | S fuel' =>
          let '(q2, d2) := push_children cur (child_codes cur) q' d in
          match all_code_loop fuel' q2 d2 with
          | Some r => Some ((cur, pget d (key cur)) :: r)
          | None => None
          end
      end
  end.

Fixpoint code_size (c : code) : nat :=
  match c with
  | Code _ _ ks _ =>
      S ((fix go (l : list const) : nat :=
            match l with
            | [] => 0
            | k :: r => (match k with CCode d => code_size d | _ => 0 end) + go r
            end) ks)
  end.

Definition all_code_objects (c : code) : option (list (code * list nat)) :=
  all_code_loop (code_size c) [c] [].

Definition nmemb (n : nat) (l : list nat) : bool := existsb (Nat.eqb n) l.

(** modulegraph2/_bytecode_tools.py:188-201 [_is_code_for_function]. *)
Definition is_code_for_function (c : code) (parents : list nat) (func_codes : list nat) : bool :=
  nmemb (key c) func_codes || existsb (fun p => nmemb p func_codes) parents.

(** modulegraph2/_bytecode_tools.py:204-241 [extract_bytecode_info]: the loop
    over the yielded code objects. *)
Fixpoint info_loop (ge311 : bool) (l : list (code * list nat)) (acc : found) : result found :=
  match l with
  | [] => ROk acc
  | (cur, parents) :: r =>
      let '(Found im wr rd fs cs) := acc in
      let* (Found im' wr' rd' fs' cs') :=
        extract_single ge311 cur (is_code_for_function cur parents fs) (nmemb (key cur) cs) in
      info_loop ge311 r
        (Found (im ++ im') (set_union wr wr') (set_union rd rd') (fs ++ fs') (cs ++ cs'))
  end.

Definition extract_bytecode_info (ge311 : bool) (c : code)
    : option (result (list iinfo * list string * list string)) :=
  match all_code_objects c with
  | None => None
  | Some l =>
      Some (match info_loop ge311 l found0 with
            | ROk f => ROk (f_imports f, f_written f, f_read f)
            | RErr e => RErr e
            end)
  end.
