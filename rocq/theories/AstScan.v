(** [_ast_tools.extract_ast_info]. *)
From Verif Require Export ImportInfo.

(** Syntax trees.  Only the distinctions the scanner makes are kept; a
    statement of any other kind (and any expression) is [AOther] with its
    children in the order of [ast.iter_child_nodes].  [ATryStar] is
    [ast.TryStar] (except* blocks, Python 3.11+), which the code does not mention. *)
Inductive ast : Type :=
| AImport (names : list (string * option string))
| AImportFrom (module : option string) (names : list (string * option string)) (level : nat)
| AIf (children : list ast)
| AFunctionDef (children : list ast)
| AAsyncFunctionDef (children : list ast)
| ATry (body handlers orelse finalbody : list ast)
| ATryStar (body handlers orelse finalbody : list ast)
| AOther (children : list ast).

Definition qitem : Type := ast * (bool * bool * bool).

(** Python set display of (name, asname) tuples, [_ast_tools.py:49]; the order
    in which the set is iterated is the parameter [order]. *)
Definition pair_eqb (a b : string * option string) : bool :=
  seqb (fst a) (fst b) &&
  match snd a, snd b with
  | None, None => true
  | Some x, Some y => seqb x y
  | _, _ => false
  end.

Definition pair_set (l : list (string * option string)) : list (string * option string) :=
  fold_left (fun acc x => if existsb (pair_eqb x) acc then acc else acc ++ [x]) l [].

(** [node.module or ""], [_ast_tools.py:48]. *)
Definition or_empty (m : option string) : string :=
  match m with Some s => s | None => EmptyString end.

(** One iteration of the loop, modulegraph2/_ast_tools.py:40-75: the records
    yielded and the items appended to the queue. *)
Definition scan_step (order : list (string * option string) -> list (string * option string))
    (it : qitem) : list iinfo * list qitem :=
  let '(node, (in_def, in_if, in_try)) := it in
  match node with
  | AImport names =>
      (map (fun nm => create_importinfo nm None 0 in_def in_if in_try) names, [])
  | AImportFrom m names level =>
      ([create_importinfo (or_empty m, None) (Some (order (pair_set names))) level in_def in_if in_try], [])
  | AIf cs => ([], map (fun c => (c, (in_def, true, in_try))) cs)
  | AFunctionDef cs | AAsyncFunctionDef cs => ([], map (fun c => (c, (true, in_if, in_try))) cs)
  | ATry b h e f =>
      ([], map (fun c => (c, (in_def, in_if, true))) b
           ++ map (fun c => (c, (in_def, in_if, true))) h
           ++ map (fun c => (c, (in_def, in_if, true))) e
           ++ map (fun c => (c, (in_def, in_if, in_try))) f)
  | ATryStar b h e f =>
      ([], map (fun c => (c, (in_def, in_if, in_try))) (b ++ h ++ e ++ f))
  | AOther cs => ([], map (fun c => (c, (in_def, in_if, in_try))) cs)
  end.

(** The [while work_q] loop, modulegraph2/_ast_tools.py:37-75; [None] is out of fuel. *)
Fixpoint scan_loop order (fuel : nat) (q : list qitem) : option (list iinfo) :=
  match q with
  | [] => Some []
  | it :: q' =>
      match fuel with
      | 0 => None
      | S fuel' =>
          let '(out, new) := scan_step order it in
          match scan_loop order fuel' (q' ++ new) with
          | Some rest => Some (out ++ rest)
          | None => None
          end
      end
  end.

(** Number of nodes of a tree: the fuel that is proved to be sufficient. *)
Fixpoint ast_size (t : ast) : nat :=
  match t with
  | AImport _ | AImportFrom _ _ _ => 1
  | AIf cs | AFunctionDef cs | AAsyncFunctionDef cs | AOther cs =>
      S (list_sum (map ast_size cs))
  | ATry b h e f | ATryStar b h e f =>
      S (list_sum (map ast_size b) + (list_sum (map ast_size h)
         + (list_sum (map ast_size e) + list_sum (map ast_size f))))
  end.

Definition extract_ast_info order (t : ast) : option (list iinfo) :=
  scan_loop order (ast_size t) [(t, (false, false, false))].
