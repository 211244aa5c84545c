(** What the compiler makes of the import statements, functions and classes of a
    module: a relation between syntax trees and code objects.  CPython is not
    part of the project; the relation is as loose as possible: any other
    instructions, any numbering of names and constants, any order, code that is
    emitted more than once (finally blocks), code that is left out ([dead]). *)
From Verif Require Export SourceSpec.

(** Two statements that differ in the as-names only. *)
Definition alike (w w' : what) : Prop :=
  match w, w' with
  | WImport n _, WImport n' _ => n = n'
  | WFrom m l k, WFrom m' l' k' => or_empty m = or_empty m' /\ map fst l = map fst l' /\ k = k'
  | _, _ => False
  end.

(** No import statement in these trees (expressions, arguments, decorators). *)
Definition import_free (ts : list ast) : Prop := flat_map (sites []) ts = [].

(** Code object made by a piece of [c]. *)
Definition made_by (c : code) (h : chunk) (e : code) : Prop :=
  match h with
  | ChFunction i _ _ | ChClass i _ _ => nth_error (co_consts c) i = Some (CCode e)
  | _ => False
  end.

(** The code of a function is never equal to that of a class (the flags of the
    code objects differ). *)
Definition kept_apart (c : code) (hs : list chunk) : Prop :=
  forall i es q i' nl q' e e', In (ChFunction i es q) hs -> In (ChClass i' nl q') hs ->
    nth_error (co_consts c) i = Some (CCode e) -> nth_error (co_consts c) i' = Some (CCode e') ->
    key e <> key e'.

Section compiler.
  Variable v : bool.               (* Python 3.11 and later *)
  Variable dead : ast -> Prop.     (* what the compiler may leave out *)
  Variable generic : bool.         (* are there classes with type parameters *)

  (** [emits c ts hs]: [hs] are the pieces of the code object [c] for the
      trees [ts].  [body c ts]: [c] is a code object for [ts]. *)
  Inductive emits : code -> list ast -> list chunk -> Prop :=
  | em_none c : emits c [] []
  | em_noise c ts hs1 x hs2 : emits c ts (hs1 ++ hs2) -> emits c ts (hs1 ++ ChOther x :: hs2)
  | em_dead c t ts hs : dead t -> emits c ts hs -> emits c (t :: ts) hs
  | em_again c t ts hs : emits c (t :: t :: ts) hs -> emits c (t :: ts) hs
  | em_imported c ts hs : emits c ts hs -> emits c (AImport [] :: ts) hs
  | em_import c n a names ts hs1 st hs2 : stmt_is c st n None -> st_level st = 0 ->
      emits c (AImport names :: ts) (hs1 ++ hs2) ->
      emits c (AImport ((n, a) :: names) :: ts) (hs1 ++ ChImport st :: hs2)
  | em_from c m names lv ts hs1 st hs2 : stmt_is c st (or_empty m) (Some (map fst names)) -> st_level st = lv ->
      emits c ts (hs1 ++ hs2) ->
      emits c (AImportFrom m names lv :: ts) (hs1 ++ ChImport st :: hs2)
  | em_if c cs ts hs : emits c (cs ++ ts) hs -> emits c (AIf cs :: ts) hs
  | em_try c b h e f ts hs : emits c (b ++ h ++ e ++ f ++ ts) hs -> emits c (ATry b h e f :: ts) hs
  | em_trystar c b h e f ts hs : emits c (b ++ h ++ e ++ f ++ ts) hs -> emits c (ATryStar b h e f :: ts) hs
  | em_other c cs ts hs : emits c (cs ++ ts) hs -> emits c (AOther cs :: ts) hs
  (* decorators, defaults and annotations belong to the surrounding code *)
  | em_def c cs outer inner ts hs1 i es q d hs2 : Permutation cs (outer ++ inner) -> import_free outer ->
      nth_error (co_consts c) i = Some (CCode d) -> body d inner ->
      emits c (outer ++ ts) (hs1 ++ hs2) ->
      emits c (AFunctionDef cs :: ts) (hs1 ++ ChFunction i es q :: hs2)
  | em_async c cs outer inner ts hs1 i es q d hs2 : Permutation cs (outer ++ inner) -> import_free outer ->
      nth_error (co_consts c) i = Some (CCode d) -> body d inner ->
      emits c (outer ++ ts) (hs1 ++ hs2) ->
      emits c (AAsyncFunctionDef cs :: ts) (hs1 ++ ChFunction i es q :: hs2)
  | em_class c cs outer inner ts hs1 i nl q d hs2 : Permutation cs (outer ++ inner) -> import_free outer ->
      nth_error (co_consts c) i = Some (CCode d) -> body d inner ->
      emits c (outer ++ ts) (hs1 ++ hs2) ->
      emits c (AOther cs :: ts) (hs1 ++ ChClass i nl q :: hs2)
  (* lambda expressions, generators and comprehensions *)
  | em_lambda c cs outer inner ts hs1 i es q d hs2 : Permutation cs (outer ++ inner) -> import_free cs ->
      nth_error (co_consts c) i = Some (CCode d) -> body d inner ->
      emits c (outer ++ ts) (hs1 ++ hs2) ->
      emits c (AOther cs :: ts) (hs1 ++ ChFunction i es q :: hs2)
  (* type parameters: def f[T] and class C[T] are compiled in a function of their own *)
  | em_generic_def c t ts hs1 i es q d hs2 :
      match t with AFunctionDef _ | AAsyncFunctionDef _ => True | _ => False end ->
      nth_error (co_consts c) i = Some (CCode d) -> body d [t] ->
      emits c ts (hs1 ++ hs2) -> emits c (t :: ts) (hs1 ++ ChFunction i es q :: hs2)
  | em_generic_class c cs ts hs1 i es q d hs2 : generic = true ->
      nth_error (co_consts c) i = Some (CCode d) -> body d [AOther cs] ->
      emits c ts (hs1 ++ hs2) -> emits c (AOther cs :: ts) (hs1 ++ ChFunction i es q :: hs2)
  with body : code -> list ast -> Prop :=
  | body_of c ts hs : co_ins c = flat_map (enc v) hs -> Forall (chunk_ok v c) hs -> kept_apart c hs ->
      (forall e, In e (child_codes c) -> exists h, In h hs /\ made_by c h e) ->
      emits c ts hs -> body c ts.

  Scheme emits_mut := Induction for emits Sort Prop
    with body_mut := Induction for body Sort Prop.

  (** Code of a module: no two code objects in it are equal (they have a
      name and a line number). *)
  Definition compiles (t : ast) (c : code) : Prop :=
    body c [t] /\ NoDup (map key (all_codes c)).
End compiler.

(** Two records that differ in the as-names and in the flags that the code
    does not tell about. *)
Definition same_import (i j : iinfo) : Prop :=
  in_name (ii_module i) = in_name (ii_module j) /\ ii_level i = ii_level j /\ ii_star i = ii_star j
  /\ forall n, In n (map in_name (ii_names i)) <-> In n (map in_name (ii_names j)).
