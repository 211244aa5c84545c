(** [_importinfo.py] and [_depinfo.py]. *)
From Verif Require Export PyStr.

(** modulegraph2/_importinfo.py:5-23 [import_name]: a [str] with an [asname]
    attribute; equality and hash are those of the string. *)
Record iname := IName { in_name : string; in_asname : option string }.

(** modulegraph2/_importinfo.py:26-65 [ImportInfo].  Python sets are lists
    without duplicates (with respect to equality of the string). *)
Record iinfo := IInfo {
  ii_module : iname;
  ii_level : nat;
  ii_names : list iname;
  ii_star : bool;
  ii_in_function : bool;
  ii_in_conditional : bool;
  ii_in_tryexcept : bool
}.

(** modulegraph2/_importinfo.py:67-73 *)
Definition is_optional (i : iinfo) : bool :=
  ii_in_function i || ii_in_conditional i || ii_in_tryexcept i.

(** modulegraph2/_importinfo.py:75-81 *)
Definition is_global (i : iinfo) : bool := negb (ii_in_function i).

(** modulegraph2/_importinfo.py:19-23 [import_name.from_tuple]. *)
Definition from_tuple (t : string * option string) : iname := IName (fst t) (snd t).

(** Membership and insertion in a Python set of [import_name]: an equal element
    that is already present is kept. *)
Definition in_names (n : string) (l : list iname) : bool :=
  existsb (fun x => seqb (in_name x) n) l.

Definition names_add (x : iname) (l : list iname) : list iname :=
  if in_names (in_name x) l then l else l ++ [x].

Definition names_of (l : list iname) : list iname :=
  fold_left (fun acc x => names_add x acc) l [].

Definition names_remove (n : string) (l : list iname) : list iname :=
  filter (fun x => negb (seqb (in_name x) n)) l.

(** modulegraph2/_importinfo.py:84-127 [create_importinfo]. *)
Definition create_importinfo (name : string * option string)
    (fromlist : option (list (string * option string))) (level : nat)
    (in_def in_if in_tryexcept : bool) : iinfo :=
  let '(import_names, have_star) :=
    match fromlist with
    | None => ([], false)
    | Some l =>
        let s := names_of (map from_tuple l) in
        if in_names "*" s then (names_remove "*" s, true) else (s, false)
    end in
  IInfo (from_tuple name) level import_names have_star in_def in_if in_tryexcept.

(** modulegraph2/_depinfo.py:6-31 [DependencyInfo]. *)
Record dep := Dep {
  d_optional : bool;
  d_global : bool;
  d_fromlist : bool;
  d_as : option string
}.

(** modulegraph2/_depinfo.py:34-53 [from_importinfo]. *)
Definition from_importinfo (i : iinfo) (in_fromlist : bool) (nm : option string) : dep :=
  Dep (is_optional i) (is_global i) in_fromlist nm.

(** modulegraph2/_modulegraph.py:44 [DEFAULT_DEPENDENCY]. *)
Definition default_dep : dep := Dep false true false None.
