(** The hooks and implied references that every [ModuleGraph] starts with. *)
From Verif Require Export Builder.

(** ** [_swig_support.py] *)

(** [isinstance(e, ImportError)] *)
Definition is_import_error (e : err) : bool :=
  match e with EImport | ENotFound _ => true | _ => false end.

Definition rename (n : node) (name : string) : node :=
  Node name (n_kind n) (n_written n) (n_read n) (n_dist n) (n_file n) (n_search n) (n_data n).

(** modulegraph2/_swig_support.py:99-112: the spec was looked up. *)
Definition swig_found (missing_name : string) (o : option spec) : prog :=
  match o with
  | None => PRet None
  | Some sp =>
      PDo (ANodeForSpec sp) (fun a =>
        match a with
        | AnsNode n imports =>
            if negb (is_extension (n_kind n)) then PRet None
            else match imports with
                 | [] => PDo (AAddNode (rename n missing_name)) (fun a =>
                           match a with AnsErr e => PRaise e | _ => PRet (Some missing_name) end)
                 | _ :: _ => PRaise EAssert
                 end
        | AnsErr e => PRaise e
        | _ => PRet None
        end)
  end.

(** Lines 80-97: the lookup failed with an ImportError. *)
Definition swig_retry (missing_name to_import : string) : prog :=
  PDo (AFindSpec to_import) (fun a =>
    match a with
    | AnsSpec (Some sp) =>
        match sp_origin sp with
        | None => PRaise EAssert
        | Some _ =>
            PDo (AFake to_import) (fun _ =>
            PDo (AFindSpecRel missing_name to_import) (fun a =>
              match a with
              | AnsSpec o => PDo (AUnfake to_import) (fun a =>
                               match a with AnsErr e => PRaise e | _ => swig_found missing_name o end)
              | AnsErr e => PRaise e
              | _ => PRet None
              end))
        end
    | AnsSpec None => PRaise EAssert
    | AnsErr e => PRaise e
    | _ => PRet None
    end).

(** Lines 64-67: the package that the name is looked up in. *)
Definition swig_package (n : node) : string :=
  if is_package (n_kind n) then n_name n else fst (rpartition dot (n_name n)).

(** modulegraph2/_swig_support.py:31-112 [swig_missing_hook]. *)
Definition swig_hook : missing_hook := fun importing missing_name =>
  match importing with
  | None => PRet None
  | Some id =>
      PDo ALook (fun a =>
        match a with
        | AnsGraph g _ =>
            match gfind g id with
            | None => PRet None
            | Some n =>
                if negb (is_module (n_kind n) || is_package (n_kind n)) then PRet None
                else if negb (seqb missing_name ("_" ++ snd (rpartition dot (n_name n)))%string) then PRet None
                else if negb (memb "swig_import_helper" (n_written n)) then PRet None
                else
                  PDo (AFindSpecRel missing_name (swig_package n)) (fun a =>
                    match a with
                    | AnsSpec o => swig_found missing_name o
                    | AnsErr e => if is_import_error e then swig_retry missing_name (swig_package n) else PRaise e
                    | _ => PRet None
                    end)
            end
        | _ => PRet None
        end)
  end.

(** ** [_mypyc_support.py] *)

(** [pathlib.PurePath.stem], for the last component of a path. *)
Definition path_stem (name : string) : string :=
  match rpartition dot name with
  | (EmptyString, _) => name
  | (_, EmptyString) => name
  | (before, _) => before
  end.

(** The parts of [pathlib] and of the iteration over a set of names. *)
Record paths := Paths {
  pa_parent : string -> string;            (* path.parent *)
  pa_name : string -> string;              (* path.name *)
  pa_join : string -> string -> string;    (* path / name *)
  pa_order : list string -> list string    (* order of a set *)
}.

Section mypyc.
  Variable P : paths.

  (** modulegraph2/_mypyc_support.py:52-54 and 61-63. *)
  Definition source_next_to (file : string) : string :=
    pa_join P (pa_parent P file) (split_first dot (path_stem (pa_name P file)) ++ ".py")%string.

  (** Lines 32-36 and 46-63: the file of an extension module; [None]: return. *)
  Definition extension_file (n : node) : option string :=
    match n_kind n with
    | Package _ _ MExtension file _ => file
    | Module MExtension => n_file n
    | _ => None
    end.

  (** Lines 70-77: the helper module of a compiled distribution. *)
  Definition helper_of (d : dist) : option string :=
    find (ends_with "__mypyc") (pa_order P (dist_import_names d)).

  (** Lines 91-110: the file next to the extension module. *)
  Definition mypyc_source (id source : string) : prog :=
    PDo (AParseFile source) (fun a =>
      match a with
      | AnsErr ESyntax => PRet None
      | AnsErr e => PRaise e
      | AnsImports ((_ :: _) as imports) =>
          PDo (AProcessImports id imports) (fun a =>
            match a with
            | AnsErr e => PRaise e
            | _ => PDo ARunStack (fun a => match a with AnsErr e => PRaise e | _ => PRet None end)
            end)
      | _ => PRet None
      end).

  (** Lines 84-89. *)
  Definition mypyc_found (id source helper : string) : prog :=
    PDo (AIsFile source) (fun a =>
      match a with
      | AnsBool true =>
          PDo (AAddModule helper) (fun a =>
            match a with
            | AnsId h => PDo (AAddEdge id h (Dep false true false None)) (fun a =>
                           match a with AnsErr e => PRaise e | _ => mypyc_source id source end)
            | AnsErr e => PRaise e
            | _ => PRet None
            end)
      | _ => PRet None
      end).

  (** modulegraph2/_mypyc_support.py:29-110 [mypyc_post_processing_hook]. *)
  Definition mypyc_hook : post_hook := fun id =>
    PDo ALook (fun a =>
      match a with
      | AnsGraph g _ =>
          match gfind g id with
          | None => PRet None
          | Some n =>
              match extension_file n, n_dist n with
              | Some file, Some d =>
                  match helper_of d with
                  | Some helper => mypyc_found id (source_next_to file) helper
                  | None => PRet None
                  end
              | _, _ => PRet None
              end
          end
      | _ => PRet None
      end).
End mypyc.

(** ** [_implies.py] *)

(** modulegraph2/_implies.py:45-118; [ospath]: [os.path.__name__], [sysconfigdata]:
    the name made in lines 87-93. *)
Definition BASE_IMPLIES (ospath sysconfigdata : string) : list (string * implied) := [
  ("_asyncio", ImpRefs ["asyncio"; "asyncio.events"; "asyncio.base_futures"; "asyncio.base_tasks";
     "asyncio.coroutines"; "inspect"; "traceback"; "weakref"]);
  ("_curses", ImpRefs ["curses"]);
  ("_datetime", ImpRefs ["time"; "_strptime"]);
  ("_elementtree", ImpRefs ["copy"; "xml.etree.ElementPath"; "pyexpat"]);
  ("_json", ImpRefs ["json.decoder"]);
  ("_operator", ImpRefs ["functools"]);
  ("_pickle", ImpRefs ["copyreg"; "_compat_pickle"; "codecs"; "functools"]);
  ("_posixsubprocess", ImpRefs ["gc"]);
  ("_ssl", ImpRefs ["_socket"]);
  ("_overlapped", ImpRefs ["_socket"]);
  ("parser", ImpRefs ["copyreg"]);
  ("posix", ImpRefs ["resource"]);
  ("signal", ImpRefs ["_signal"]);
  ("time", ImpRefs ["_strptime"]);
  ("zipimport", ImpRefs ["importlib.resources"; "zlib"]);
  ("typing.io", ImpVirtual "typing");
  ("typing.re", ImpVirtual "typing");
  ("os.path", ImpAlias ospath);
  ("xml.parsers.expat.model", ImpAlias "pyexpat");
  ("xml.parsers.expat.errors", ImpAlias "pyexpat");
  ("sysconfig", ImpRefs [sysconfigdata]);
  ("turtledemo", ImpRefs ["turtledemo.colormixer"; "turtledemo.nim"; "turtledemo.rosette"; "turtledemo.yinyang";
     "turtledemo.forest"; "turtledemo.paint"; "turtledemo.round_dance"; "turtledemo.bytedesign";
     "turtledemo.fractalcurves"; "turtledemo.peace"; "turtledemo.sorting_animate"; "turtledemo.chaos";
     "turtledemo.lindenmayer"; "turtledemo.penrose"; "turtledemo.tree"; "turtledemo.clock";
     "turtledemo.minimal_hanoi"; "turtledemo.planet_and_moon"; "turtledemo.two_canvases"]);
  ("dbm", ImpRefs ["dbm.gnu"; "dbm.ndbm"; "dbm.dumb"])
]%string.

(** modulegraph2/_implies.py:121-128 *)
Definition WIN32_IMPLIES : list (string * implied) := [
  ("signal", ImpRefs ["_signal"; "_socket"]);
  ("ctypes", ImpRefs ["comtypes.server.inprocserver"]);
  ("sysconfig", ImpRefs []);
  ("posix", ImpRefs [])
]%string.

(** modulegraph2/_implies.py:130 and 161 [dict.update]; the table for Python 3.6
    (lines 134-159) cannot apply, the code needs Python 3.10. *)
Definition STDLIB_IMPLIES (win32 : bool) (ospath sysconfigdata : string) : list (string * implied) :=
  let base := BASE_IMPLIES ospath sysconfigdata in
  if win32 then fold_left (fun l x => lazy_set (fst x) (snd x) l) WIN32_IMPLIES base else base.

(** modulegraph2/_modulegraph.py:69-89 [__init__] with both options on. *)
Definition builtin_start (P : paths) (win32 : bool) (ospath sysconfigdata : string) : st :=
  init (STDLIB_IMPLIES win32 ospath sysconfigdata) [mypyc_hook P] [swig_hook].
