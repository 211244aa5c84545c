(** [_graphbuilder.node_for_spec]. *)
From Verif Require Export Machine.

(** modulegraph2/_graphbuilder.py:36 *)
Definition SIX_MOVES_GLOBALS : list string := ["filter"; "input"; "map"; "range"; "xrange"; "zip"].

(** modulegraph2/_graphbuilder.py:38-100 *)
Definition SIX_MOVES_TO : list (string * string) :=
  [("builtins", "builtins"); ("configparser", "configparser"); ("copyreg", "copyreg");
   ("cPickle", "pickle"); ("cStringIO", "io"); ("dbm_gnu", "dbm.gnu");
   ("_dummy_thread", "_dummy_thread"); ("email_mime_multipart", "email.mime.multipart");
   ("email_mime_nonmultipart", "email.mime.nonmultipart");
   ("email_mime_text", "email.mime.text"); ("email_mime_base", "email.mime.base");
   ("http_cookiejar", "http.cookiejar"); ("http_cookies", "http.cookies");
   ("html_entities", "html.entities"); ("html_parser", "html.parser");
   ("http_client", "http.client"); ("BaseHTTPServer", "http.server");
   ("CGIHTTPServer", "http.server"); ("SimpleHTTPServer", "http.server"); ("queue", "queue");
   ("reprlib", "reprlib"); ("shlex_quote", "shlex"); ("socketserver", "socketserver");
   ("_thread", "_thread"); ("tkinter", "tkinter"); ("tkinter_dialog", "tkinter.dialog");
   ("tkinter_filedialog", "tkinter.FileDialog");
   ("tkinter_scrolledtext", "tkinter.scrolledtext");
   ("tkinter_simpledialog", "tkinter.simpledialog"); ("tkinter_ttk", "tkinter.ttk");
   ("tkinter_tix", "tkinter.tix"); ("tkinter_constants", "tkinter.constants");
   ("tkinter_dnd", "tkinter.dnd"); ("tkinter_colorchooser", "tkinter.colorchooser");
   ("tkinter_commondialog", "tkinter.commondialog");
   ("tkinter_tkfiledialog", "tkinter.filedialog"); ("tkinter_font", "tkinter.font");
   ("tkinter_messagebox", "tkinter.messagebox");
   ("tkinter_tksimpledialog", "tkinter.simpledialog"); ("urllib", "urllib");
   ("urllib.parse", "urllib.parse"); ("urllib.error", "urllib.error");
   ("urllib.request", "urllib.request"); ("urllib.response", "urllib.response");
   ("urllib.robotparser", "urllib.robotparser"); ("urllib_robotparser", "urllib.robotparser");
   ("UserDict", "collections.UserDict"); ("UserList", "collections.UserList");
   ("UserString", "collections.UserString"); ("winreg", "winreg");
   ("xmlrpc_client", "xmlrpc.client"); ("xmlrpc_server", "xmlrpc.server");
   ("filterfalse", "itertools"); ("getcwd", "os"); ("getcwdb", "os"); ("intern", "sys");
   ("reduce", "functools"); ("reload_module", "importlib"); ("zip_longest", "itertools")].

(** [d.get(k)] on a dict kept as a list. *)
Fixpoint assoc {A} (k : string) (l : list (string * A)) : option A :=
  match l with
  | [] => None
  | (k', v) :: r => if seqb k k' then Some v else assoc k r
  end.

(** Index of the first occurrence: [s.find(p)]. *)
Fixpoint find_sub (p s : string) : option nat :=
  if starts_with p s then Some 0
  else match s with
       | EmptyString => None
       | String _ r => option_map S (find_sub p r)
       end.

(** modulegraph2/_graphbuilder.py:366: [s[s.find(".moves.") + 7 :]], where find
    gives -1 if there is no occurrence. *)
Definition six_relative (name : string) : string :=
  match find_sub ".moves." name with
  | Some i => sdrop (i + 7) name
  | None => sdrop 6 name
  end.

Section nfs.
  Variable E : env.
  (** The recursive call (lines 394, 438, 454). *)
  Variable nfs_rec : spec -> M (node * list iinfo).

  (** [distribution_for_file(spec.origin, path) if spec.origin is not None ... else None];
      [use]: not a frozen module. *)
  Definition dist_of (origin : option string) (use : bool) : M (option dist) :=
    match origin with
    | Some f => if use then askr (fun t => e_dist_for_file E t f) else ret None
    | None => ret None
    end.

  (** [pathlib.Path(spec.origin) if ... else None] *)
  Definition file_of (origin : option string) (use : bool) : option string :=
    if use then origin else None.

  (** Lines 259-281: the imports found in the source; [inl tt] is a SyntaxError. *)
  Definition source_imports (sp : spec) (source : option string) : M (unit + option (list iinfo)) :=
    match source with
    | None => ret (inr None)
    | Some text =>
        match sp_origin sp with
        | None => raise EAssert
        | Some f =>
            r <- attempt (askr (fun t => e_parse E t f text)) ;;
            match r with
            | RErr ESyntax => ret (inl tt)
            | RErr e => raise e
            | ROk t => match extract_ast_info (e_names_order E) t with
                       | Some l => ret (inr (Some l))
                       | None => out_of_fuel
                       end
            end
        end
    end.

  (** Lines 283-292: imports and names of the code object; [None] is a SyntaxError. *)
  Definition code_info (get_code : result (option code)) : M (option (list iinfo * list string * list string)) :=
    match get_code with
    | RErr ESyntax => ret None
    | RErr e => raise e
    | ROk None => raise EAssert
    | ROk (Some c) =>
        match extract_bytecode_info (e_ge311 E) c with
        | None => out_of_fuel
        | Some (RErr ESyntax) => ret None
        | Some (RErr e) => raise e
        | Some (ROk x) => ret (Some x)
        end
    end.

  (** Lines 463-511: wrap the node of a package.  [mk]: class of the init module. *)
  Definition wrap_package (sp : spec) (frozen : bool) (source : option string) (mk : mkind)
      (n : node) (imports : list iinfo) : M (node * list iinfo) :=
    p <- of_result (sp_ispkg sp) ;;
    if negb p then ret (n, imports)
    else
      let node_file := option_map (e_parent E) (n_file n) in
      let text := match source with Some t => t | None => EmptyString end in
      let explicit := match source with Some _ => true | None => false end
                      && memb "__import__" (n_read n)
                      && (has_sub "pkg_resources" text || has_sub "pkgutil" text) in
      search <- (if explicit : bool
                 then r <- attempt (askr (fun t => e_import E t (n_name n))) ;;
                      match r with
                      | ROk l => ret (Some l)
                      | RErr EImport | RErr (ENotFound _) => ret (sp_search sp)
                      | RErr e => raise e
                      end
                 else ret (sp_search sp)) ;;
      let nstype := if explicit then Some (if has_sub "pkg_resources" text then "pkg_resources" else "pkgutil")
                    else None in
      match search with
      | None => raise EAssert
      | Some locs =>
          data <- match node_file with
                  | None => ret false
                  | Some d => askr (fun t => contains_datafiles (e_suffixes E) (e_location E t d))
                  end ;;
          ret (Node (n_name n) (Package frozen (n_name n) mk (n_file n) nstype)
                 (n_written n) (n_read n) (n_dist n) node_file locs data, imports)
      end.

  (** Lines 330-394: the loader of the six project. *)
  Definition six_spec (sp : spec) : M (node * list iinfo) :=
    if ends_with ".moves" (sp_name sp) then
      do dist_of (sp_origin sp) true ;;
      ret (Node (sp_name sp) (Package false "@@SIX_MOVES@@" MFrozen None None)
             SIX_MOVES_GLOBALS [] None None [] false, [])
    else
      match assoc (six_relative (sp_name sp)) SIX_MOVES_TO with
      | None => ret (plain_node MissingModule (sp_name sp), [])
      | Some actual =>
          m1 <- find_spec E actual ;;
          match m1 with
          | None => ret (plain_node MissingModule actual, [])
          | Some moved =>
              m2 <- (if seqb (sp_name moved) (sp_name sp)
                     then do del_sysmod E actual ;; find_spec E actual
                     else ret (Some moved)) ;;
              match m2 with
              | None => ret (plain_node MissingModule actual, [])
              | Some moved =>
                  do assert (negb (seqb (sp_name sp) (sp_name moved))) ;; nfs_rec moved
              end
          end
      end.

  (** Lines 400-438: setuptools.extern / pkg_resources.extern. *)
  Definition vendor_spec (sp : spec) (root_name vendor_pkg : string) : M (node * list iinfo) :=
    let relative_name := sdrop (String.length root_name + 1) (sp_name sp) in
    let full := (vendor_pkg ++ "." ++ relative_name)%string in
    r <- attempt (m <- find_spec E full ;;
                  match m with
                  | Some moved => if seqb (sp_name moved) (sp_name sp)
                                  then do del_sysmod E full ;; find_spec E full
                                  else ret (Some moved)
                  | None => ret None
                  end) ;;
    m2 <- match r with
          | RErr (ENotFound _) => find_spec E relative_name
          | RErr e => raise e
          | ROk x => ret x
          end ;;
    match m2 with
    | None => ret (plain_node MissingModule full, [])
    | Some moved => do assert (negb (seqb (sp_name sp) (sp_name moved))) ;; nfs_rec moved
    end.

  (** Lines 443-454: _distutils_hack. *)
  Definition distutils_spec (sp : spec) : M (node * list iinfo) :=
    do assert (seqb (sp_name sp) "distutils") ;;
    do del_sysmod E "setuptools._distutils" ;;
    m <- find_spec E "setuptools._distutils" ;;
    match m with
    | None => ret (plain_node MissingModule "distutils", [])
    | Some moved => do assert (negb (seqb (sp_name sp) (sp_name moved))) ;; nfs_rec moved
    end.

  (** modulegraph2/_graphbuilder.py:160-511 [node_for_spec]. *)
  Definition nfs_body (sp : spec) : M (node * list iinfo) :=
    let name := sp_name sp in
    match sp_loader sp with
    | LNone | LNamespace =>
        match sp_search sp with
        | None => raise EAssert
        | Some locs => ret (Node name NamespacePackage [] [] None (sp_origin sp) locs false, [])
        end
    | LBuiltin =>
        wrap_package sp false None MBuiltin (Node name (Module MBuiltin) [] [] None None [] false) []
    | LExtension =>
        d <- dist_of (sp_origin sp) true ;;
        wrap_package sp false None MExtension
          (Node name (Module MExtension) [] [] d (sp_origin sp) [] false) []
    | LInspect frozen get_source get_code =>
        match get_source with
        | RErr ESyntax =>
            d <- dist_of (sp_origin sp) (negb frozen) ;;
            ret (Node name (Module MInvalid) [] [] d (file_of (sp_origin sp) (negb frozen)) [] false, [])
        | RErr e => raise e
        | ROk source =>
            si <- source_imports sp source ;;
            ci <- code_info get_code ;;
            let mk := match si, ci with
                      | inl _, _ | _, None => MInvalid
                      | inr _, Some _ =>
                          if frozen then MFrozen
                          else match source with Some _ => MSource | None => MBytecode end
                      end in
            d <- dist_of (sp_origin sp) (negb frozen) ;;
            let '(bimports, written, rd) := match ci with Some x => x | None => ([], [], []) end in
            let imports := match si with inr (Some l) => l | _ => bimports end in
            wrap_package sp frozen source mk
              (Node name (Module mk) written rd d (file_of (sp_origin sp) (negb frozen)) [] false) imports
        end
    | LSix => six_spec sp
    | LVendor None => raise EAssert
    | LVendor (Some (root_name, vendor_pkg)) => vendor_spec sp root_name vendor_pkg
    | LDistutils => distutils_spec sp
    | LOther => raise ERuntime
    end.
End nfs.
