(** [_graphbuilder._contains_datafiles]. *)
From Verif Require Export Names.

(** A directory in the file system: names in the order [iterdir] gives them. *)
Inductive tree := TFile | TDir (entries : list (string * tree)).

(** modulegraph2/_graphbuilder.py:112 and 145-147: a file of a Python module;
    [sfx] is [importlib.machinery.all_suffixes()]. *)
Definition module_file (sfx : list string) (name : string) : bool :=
  existsb (fun s => ends_with s name) sfx.

(** modulegraph2/_graphbuilder.py:116 and 139-142 *)
Definition skipped_dir (name : string) : bool := memb name ["__pycache__"; ".hg"; ".svn"; ".hg"].

(** modulegraph2/_graphbuilder.py:110-123: a directory on disk.  The first
    subdirectory decides ([return _contains_datafiles(p)]). *)
Fixpoint disk_datafiles (sfx : list string) (t : tree) : bool :=
  match t with
  | TFile => false
  | TDir entries =>
      (fix go (l : list (string * tree)) : bool :=
         match l with
         | [] => false
         | (name, p) :: r =>
             if module_file sfx name then go r
             else if skipped_dir name then go r
             else match p with
                  | TDir _ => disk_datafiles sfx p
                  | TFile => true
                  end
         end) entries
  end.

(** modulegraph2/_graphbuilder.py:134-157: a path inside a zip file; [names] are
    the names in the archive with [ZipInfo.is_dir]. *)
Definition zip_datafiles (sfx : list string) (path : string) (names : list (string * bool)) : bool :=
  existsb (fun x => let '(nm, isdir) := x in
    starts_with path nm
    && negb (existsb skipped_dir (split_all slash nm))
    && negb (module_file sfx nm)
    && negb isdir) names.

(** What is found at the directory: a directory, or (lines 125-132) the part of
    a zip file below [comps], or neither (the exception is raised again). *)
Inductive location :=
| OnDisk (t : tree)
| InZip (comps : list string) (names : list (string * bool))
| Nowhere.

(** modulegraph2/_graphbuilder.py:103-157 [_contains_datafiles] *)
Definition contains_datafiles (sfx : list string) (d : location) : result bool :=
  match d with
  | OnDisk t => ROk (disk_datafiles sfx t)
  | InZip comps names => ROk (zip_datafiles sfx (join "/" comps ++ "/") names)
  | Nowhere => RErr EOS
  end.
