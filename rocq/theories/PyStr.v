(** * The Python [str] methods that modulegraph2 uses.

    Strings are Coq [string]s (sequences of 8 bit characters).  Python strings
    are sequences of code points; every function below only compares characters
    with a few ASCII characters and the literals of the source, so the restriction
    of the alphabet does not matter (simplification, see DESIGN.md). *)

From Coq Require Export Ascii String List Bool Arith Lia.
Export ListNotations.
Open Scope string_scope.
Open Scope list_scope.

(** [==] on strings, as a boolean. *)
Definition seqb (a b : string) : bool := String.eqb a b.

(** [x in xs] for a list/set/tuple of strings. *)
Fixpoint memb (x : string) (l : list string) : bool :=
  match l with
  | [] => false
  | y :: r => if String.eqb x y then true else memb x r
  end.

(** [set.add] on a set kept as a duplicate free list. *)
Definition set_add (x : string) (l : list string) : list string :=
  if memb x l then l else l ++ [x].

(** [set.update] / [|=]. *)
Definition set_union (l r : list string) : list string :=
  fold_left (fun acc x => set_add x acc) r l.

(** A string of one character. *)
Definition ch (c : ascii) : string := String c EmptyString.

Definition dot : ascii := "."%char.
Definition comma : ascii := ","%char.
Definition slash : ascii := "/"%char.
Definition dquote : ascii := """"%char.

(** [c in s] for a single character [c]. *)
Fixpoint has_char (c : ascii) (s : string) : bool :=
  match s with
  | EmptyString => false
  | String a r => Ascii.eqb a c || has_char c r
  end.

(** [s.startswith(p)] *)
Definition starts_with (p s : string) : bool := String.prefix p s.

(** [s.endswith(p)] *)
Fixpoint ends_with (p s : string) : bool :=
  String.eqb s p
  || match s with
     | EmptyString => false
     | String _ r => ends_with p r
     end.

(** [p in s] for strings. *)
Fixpoint has_sub (p s : string) : bool :=
  starts_with p s
  || match s with
     | EmptyString => false
     | String _ r => has_sub p r
     end.

(** [s.lstrip(c)] for a single character. *)
Fixpoint lstrip (c : ascii) (s : string) : string :=
  match s with
  | EmptyString => EmptyString
  | String a r => if Ascii.eqb a c then lstrip c r else s
  end.

(** [c * n] *)
Fixpoint repeat_char (c : ascii) (n : nat) : string :=
  match n with
  | 0 => EmptyString
  | S n' => String c (repeat_char c n')
  end.

(** The last occurrence of [c]: [Some (before, after)], [None] if absent. *)
Fixpoint rpart (c : ascii) (s : string) : option (string * string) :=
  match s with
  | EmptyString => None
  | String a r =>
      match rpart c r with
      | Some (x, y) => Some (String a x, y)
      | None => if Ascii.eqb a c then Some (EmptyString, r) else None
      end
  end.

(** [s.rpartition(c)], without the middle item. *)
Definition rpartition (c : ascii) (s : string) : string * string :=
  match rpart c s with
  | Some p => p
  | None => (EmptyString, s)
  end.

(** [s.rsplit(c, k)] *)
Fixpoint rsplit (c : ascii) (k : nat) (s : string) : list string :=
  match k with
  | 0 => [s]
  | S k' =>
      match rpart c s with
      | Some (x, y) => rsplit c k' x ++ [y]
      | None => [s]
      end
  end.

(** The first occurrence of [c]: [s.split(c, 1)]. *)
Fixpoint lpart (c : ascii) (s : string) : option (string * string) :=
  match s with
  | EmptyString => None
  | String a r =>
      if Ascii.eqb a c then Some (EmptyString, r)
      else match lpart c r with
           | Some (x, y) => Some (String a x, y)
           | None => None
           end
  end.

(** [s.split(c, 1)[0]] *)
Definition split_first (c : ascii) (s : string) : string :=
  match lpart c s with Some (x, _) => x | None => s end.

(** [s.split(c)] *)
Fixpoint split_all (c : ascii) (s : string) : list string :=
  match s with
  | EmptyString => [EmptyString]
  | String a r =>
      if Ascii.eqb a c then EmptyString :: split_all c r
      else match split_all c r with
           | [] => [String a EmptyString]
           | w :: ws => String a w :: ws
           end
  end.

(** [s.replace(a, b)] for single characters. *)
Fixpoint replace_char (a b : ascii) (s : string) : string :=
  match s with
  | EmptyString => EmptyString
  | String x r => String (if Ascii.eqb x a then b else x) (replace_char a b r)
  end.

(** [s.replace(cc, c)]: a doubled character becomes a single one, scanning
    from the left, non overlapping. *)
Fixpoint undouble (c : ascii) (s : string) : string :=
  match s with
  | String x ((String y r) as t) =>
      if Ascii.eqb x c && Ascii.eqb y c then String c (undouble c r)
      else String x (undouble c t)
  | _ => s
  end.

(** [s.replace(c, cc)] *)
Fixpoint double (c : ascii) (s : string) : string :=
  match s with
  | EmptyString => EmptyString
  | String x r => if Ascii.eqb x c then String c (String c (double c r)) else String x (double c r)
  end.

(** [c.join(l)] *)
Fixpoint join (sep : string) (l : list string) : string :=
  match l with
  | [] => EmptyString
  | [x] => x
  | x :: r => x ++ sep ++ join sep r
  end%string.

(** [s[n:]] for [n <= len(s)] and [s[:n]]. *)
Fixpoint sdrop (n : nat) (s : string) : string :=
  match n, s with
  | S n', String _ r => sdrop n' r
  | _, _ => s
  end.
Fixpoint stake (n : nat) (s : string) : string :=
  match n, s with
  | S n', String c r => String c (stake n' r)
  | _, _ => EmptyString
  end.

(** [s[:-n]] for [n > 0]. *)
Definition sdrop_last (n : nat) (s : string) : string :=
  stake (String.length s - n) s.
