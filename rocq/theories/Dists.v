(** [_distributions.py]. *)
From Verif Require Export Names Bytecode.

(** ** RECORD lines *)

(** [relpath[1:-1]] *)
Definition strip_ends (s : string) : string := sdrop_last 1 (sdrop 1 s).

(** modulegraph2/_distributions.py:97-101: the file name in a line of RECORD. *)
Definition record_relpath (ln : string) : string :=
  let relpath := hd EmptyString (rsplit comma 2 ln) in
  if starts_with (ch dquote) relpath && ends_with (ch dquote) relpath
  then undouble dquote (strip_ends relpath)
  else relpath.

(** modulegraph2/_distributions.py:106-107: files below __pycache__ are skipped. *)
Definition in_pycache (relpath : string) : bool :=
  has_sub "/__pycache__/" relpath || starts_with "__pycache__/" relpath.

(** modulegraph2/_distributions.py:109-121: the first suffix that fits. *)
Fixpoint import_name_loop (suffixes : list string) (relpath : string) : option string :=
  match suffixes with
  | [] => None
  | sfx :: r =>
      if negb (ends_with sfx relpath) then import_name_loop r relpath
      else if ends_with ("/__init__" ++ sfx)%string relpath
      then Some (replace_char slash dot
             (sdrop_last (String.length "/__init__" + String.length sfx) relpath))
      else Some (replace_char slash dot (sdrop_last (String.length sfx) relpath))
  end.

Definition import_name_of (ext_suffixes : list string) (relpath : string) : option string :=
  if in_pycache relpath then None
  else import_name_loop ([".py"; ".pyc"] ++ ext_suffixes) relpath.

(** ** Distributions *)

(** modulegraph2/_distributions.py:15-60 [PyPIDistribution].  [oid] stands for
    the identity of the object; [extension_attributes] is left out. *)
Record dist := Dist {
  oid : nat;
  dist_identifier : string;
  dist_name : string;
  dist_version : string;
  dist_files : list string;
  dist_import_names : list string
}.

(** modulegraph2/_distributions.py:50-60 *)
Definition contains_file (d : dist) (filename : string) : bool := memb filename (dist_files d).

(** What the file system answers; the first argument is the time of the call,
    so answers may change.  [fs_meta] gives the Name and Version headers of
    METADATA (None: no such header), [fs_record] the lines of RECORD. *)
Record fsenv := FsEnv {
  fs_listdir : nat -> string -> result (list string);
  fs_meta : nat -> string -> result (option string * option string);
  fs_record : nat -> string -> result (list string);
  fs_join : string -> string -> string;            (* os.path.join *)
  fs_abspath : string -> string -> string;         (* normpath(join(dirname(d), relpath)) *)
  fs_ext_suffixes : list string                    (* importlib.machinery.EXTENSION_SUFFIXES *)
}.

(** [set(l)] *)
Definition set_of (l : list string) : list string := set_union [] l.

Definition filter_map {A B} (f : A -> option B) (l : list A) : list B :=
  flat_map (fun x => match f x with Some y => [y] | None => [] end) l.

(** modulegraph2/_distributions.py:63-125 [create_distribution] at time [t]. *)
Definition create_distribution (E : fsenv) (t : nat) (distribution_file : string) : result dist :=
  let* (name, version) := fs_meta E t distribution_file in
  let* name := or_err name EAssert in
  let* version := or_err version EAssert in
  let* lines := fs_record E t distribution_file in
  let relpaths := map record_relpath lines in
  let files := map (fs_abspath E distribution_file) relpaths in
  let import_names := filter_map (import_name_of (fs_ext_suffixes E)) relpaths in
  ROk (Dist t distribution_file name version (set_of files) (set_of import_names)).

(** modulegraph2/_distributions.py:128 [_cached_distributions] *)
Definition dcache := list (string * dist).
Fixpoint dget (c : dcache) (k : string) : option dist :=
  match c with
  | [] => None
  | (k', d) :: r => if seqb k k' then Some d else dget r k
  end.

(** Process state: the cache and the time. *)
Record dstate := DState { dcached : dcache; dclock : nat }.

(** State of a running [all_distributions] generator: the entries still to do,
    and the names left in the entry being listed. *)
Record gen := Gen { g_entries : list string; g_cur : option (string * list string) }.

Inductive step_result := Yield (d : dist) | Stop | Raise (e : err).

(** Lines 145-158, the loop over the names of one directory; [inr e] means
    that an exception escapes from the loop, [inl None] that the loop is finished. *)
Fixpoint scan_names (E : fsenv) (entry : string) (names : list string) (s : dstate)
    : (option (dist * list string) + err) * dstate :=
  match names with
  | [] => (inl None, s)
  | fname :: rest =>
      if negb (ends_with ".dist-info" fname) then scan_names E entry rest s
      else
        let dname := fs_join E entry fname in
        match dget (dcached s) dname with
        | Some d => (inl (Some (d, rest)), s)
        | None =>
            let s' := DState (dcached s) (S (dclock s)) in
            match create_distribution E (dclock s) dname with
            | ROk d => (inl (Some (d, rest)), DState ((dname, d) :: dcached s) (S (dclock s)))
            | RErr e => (inr e, s')
            end
        end
  end.

(** Lines 143-161, the loop over the search path: [OSError] ends the entry. *)
Fixpoint next_entry (E : fsenv) (entries : list string) (s : dstate) : step_result * gen * dstate :=
  match entries with
  | [] => (Stop, Gen [] None, s)
  | entry :: rest =>
      let s1 := DState (dcached s) (S (dclock s)) in
      match fs_listdir E (dclock s) entry with
      | RErr EOS => next_entry E rest s1
      | RErr e => (Raise e, Gen [] None, s1)
      | ROk names =>
          match scan_names E entry names s1 with
          | (inl (Some (d, more)), s2) => (Yield d, Gen rest (Some (entry, more)), s2)
          | (inl None, s2) => next_entry E rest s2
          | (inr EOS, s2) => next_entry E rest s2
          | (inr e, s2) => (Raise e, Gen [] None, s2)
          end
      end
  end.

(** One [next()] on the generator, modulegraph2/_distributions.py:131-161. *)
Definition gen_next (E : fsenv) (g : gen) (s : dstate) : step_result * gen * dstate :=
  match g_cur g with
  | None => next_entry E (g_entries g) s
  | Some (entry, names) =>
      match scan_names E entry names s with
      | (inl (Some (d, more)), s2) => (Yield d, Gen (g_entries g) (Some (entry, more)), s2)
      | (inl None, s2) => next_entry E (g_entries g) s2
      | (inr EOS, s2) => next_entry E (g_entries g) s2
      | (inr e, s2) => (Raise e, Gen [] None, s2)
      end
  end.

(** [all_distributions(path)]: nothing happens before the first [next()]. *)
Definition all_distributions (path : list string) : gen := Gen path None.

(** The loops of modulegraph2/_distributions.py:164-201: the first one that
    fits; [None] is out of fuel. *)
Fixpoint find_dist (E : fsenv) (fuel : nat) (p : dist -> bool) (g : gen) (s : dstate)
    : option (result (option dist) * dstate) :=
  match fuel with
  | 0 => None
  | S fuel' =>
      match gen_next E g s with
      | (Stop, _, s') => Some (ROk None, s')
      | (Raise e, _, s') => Some (RErr e, s')
      | (Yield d, g', s') => if p d then Some (ROk (Some d), s') else find_dist E fuel' p g' s'
      end
  end.

(** modulegraph2/_distributions.py:164-181 *)
Definition distribution_for_file (E : fsenv) fuel (filename : string) (path : list string) s :=
  find_dist E fuel (fun d => contains_file d filename) (all_distributions path) s.

(** modulegraph2/_distributions.py:184-201 *)
Definition distribution_named (E : fsenv) fuel (name : string) (path : list string) s :=
  find_dist E fuel (fun d => seqb (dist_name d) name) (all_distributions path) s.
