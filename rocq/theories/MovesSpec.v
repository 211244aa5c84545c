(** Modules that stand for other modules: what an import of them gives.  The names
    of six.moves are those of the six project; setuptools.extern and
    pkg_resources.extern look for a module among the vendored modules first, and
    then among all modules. *)
From Verif Require Export AttrSpec SameSpec.
Open Scope string_scope.

(** ** six.moves *)

(** The modules in six.moves (six 1.17, Python 3.9 or later), and the modules they
    stand for. *)
Definition six_modules : list (string * string) :=
  [("builtins", "builtins"); ("configparser", "configparser"); ("collections_abc", "collections.abc");
   ("copyreg", "copyreg"); ("dbm_gnu", "dbm.gnu"); ("dbm_ndbm", "dbm.ndbm"); ("_dummy_thread", "_thread");
   ("http_cookiejar", "http.cookiejar"); ("http_cookies", "http.cookies"); ("html_entities", "html.entities");
   ("html_parser", "html.parser"); ("http_client", "http.client"); ("email_mime_base", "email.mime.base");
   ("email_mime_image", "email.mime.image"); ("email_mime_multipart", "email.mime.multipart");
   ("email_mime_nonmultipart", "email.mime.nonmultipart"); ("email_mime_text", "email.mime.text");
   ("BaseHTTPServer", "http.server"); ("CGIHTTPServer", "http.server"); ("SimpleHTTPServer", "http.server");
   ("cPickle", "pickle"); ("queue", "queue"); ("reprlib", "reprlib"); ("socketserver", "socketserver");
   ("_thread", "_thread"); ("tkinter", "tkinter"); ("tkinter_dialog", "tkinter.dialog");
   ("tkinter_filedialog", "tkinter.filedialog"); ("tkinter_scrolledtext", "tkinter.scrolledtext");
   ("tkinter_simpledialog", "tkinter.simpledialog"); ("tkinter_tix", "tkinter.tix"); ("tkinter_ttk", "tkinter.ttk");
   ("tkinter_constants", "tkinter.constants"); ("tkinter_dnd", "tkinter.dnd");
   ("tkinter_colorchooser", "tkinter.colorchooser"); ("tkinter_commondialog", "tkinter.commondialog");
   ("tkinter_tkfiledialog", "tkinter.filedialog"); ("tkinter_font", "tkinter.font");
   ("tkinter_messagebox", "tkinter.messagebox"); ("tkinter_tksimpledialog", "tkinter.simpledialog");
   ("urllib_parse", "urllib.parse"); ("urllib_error", "urllib.error"); ("urllib_request", "urllib.request");
   ("urllib_response", "urllib.response"); ("urllib_robotparser", "urllib.robotparser"); ("urllib", "urllib");
   ("urllib.parse", "urllib.parse"); ("urllib.error", "urllib.error"); ("urllib.request", "urllib.request");
   ("urllib.response", "urllib.response"); ("urllib.robotparser", "urllib.robotparser");
   ("winreg", "winreg"); ("xmlrpc_client", "xmlrpc.client"); ("xmlrpc_server", "xmlrpc.server")].

(** [name] is a module in the six.moves of a copy of six, which stands for [t]; the
    copy may be part of another package. *)
Definition six_place (name t : string) : Prop := exists p x, name = p ++ ".moves." ++ x /\ In (x, t) six_modules.

(** ** What an import of a module gives *)

(** [sp] is the spec of the module [t], or of a module that stands for [t].  For a
    module that does not exist, [t] is the first name tried. *)
Inductive stands_for (E : env) : spec -> string -> Prop :=
| sf_own sp : direct (sp_loader sp) = true -> stands_for E sp (sp_name sp)
| sf_moves sp : sp_loader sp = LSix -> ends_with ".moves" (sp_name sp) = true -> stands_for E sp (sp_name sp)
| sf_six sp t other x : sp_loader sp = LSix -> six_place (sp_name sp) t -> has_spec E t other -> stands_for E other x -> stands_for E sp x
| sf_six_gone sp t : sp_loader sp = LSix -> six_place (sp_name sp) t -> unfound E t -> stands_for E sp t
| sf_vendored sp root vendor x other y : sp_loader sp = LVendor (Some (root, vendor)) -> sp_name sp = root ++ "." ++ x ->
    has_spec E (vendor ++ "." ++ x) other -> stands_for E other y -> stands_for E sp y
| sf_installed sp root vendor x other y : sp_loader sp = LVendor (Some (root, vendor)) -> sp_name sp = root ++ "." ++ x ->
    unfound E (vendor ++ "." ++ x) -> has_spec E x other -> stands_for E other y -> stands_for E sp y
| sf_vendor_gone sp root vendor x : sp_loader sp = LVendor (Some (root, vendor)) -> sp_name sp = root ++ "." ++ x ->
    unfound E (vendor ++ "." ++ x) -> unfound E x -> stands_for E sp (vendor ++ "." ++ x)
| sf_distutils sp other x : sp_loader sp = LDistutils -> has_spec E "setuptools._distutils" other -> stands_for E other x -> stands_for E sp x
| sf_distutils_gone sp : sp_loader sp = LDistutils -> unfound E "setuptools._distutils" -> stands_for E sp (sp_name sp).

(** ** Missing modules *)

(** A module is missing if Python finds no such module at some time, or if its
    package is missing. *)
Inductive absent (E : env) (s : st) (name : string) : Prop :=
| ab_unfound : unfound E name -> absent E s name
| ab_package c p : child_of c name -> resolves s c p -> kind_of s p = Some MissingModule -> absent E s name
| ab_distutils sp nm : has_spec E nm sp -> sp_loader sp = LDistutils -> sp_name sp = name -> unfound E "setuptools._distutils" -> absent E s name.

(** ** Where the table in modulegraph2 agrees with six *)

(** Modules of six.moves that the table does not have, and those for which it has
    another module. *)
Definition six_unlisted : list string :=
  ["collections_abc"; "dbm_ndbm"; "email_mime_image"; "urllib_parse"; "urllib_error"; "urllib_request"; "urllib_response"].
Definition six_changed : list string := ["tkinter_filedialog"; "_dummy_thread"].

(** six.moves, or a module in it apart from those in [l], where [.moves.] is not
    part of the name of the package. *)
Definition six_known (l : list string) (name : string) : Prop :=
  ends_with ".moves" name = true \/
  exists p x t, name = p ++ ".moves." ++ x /\ In (x, t) six_modules /\ ~ In x l /\ ~ occurs ".moves." (p ++ ".moves").

(** Specs of six are for modules that are in the table; if the package of vendored
    modules is there and has no such module, then there is no such module at all. *)
Record regular (E : env) : Prop := {
  rg_six : forall name sp, has_spec E name sp -> sp_loader sp = LSix -> six_known (six_unlisted ++ six_changed)%list (sp_name sp);
  rg_vendor : forall name sp root vendor, has_spec E name sp -> sp_loader sp = LVendor (Some (root, vendor)) ->
    exists x, sp_name sp = root ++ "." ++ x /\ ((exists t f, e_find_spec E t f (vendor ++ "." ++ x) = ROk None) -> unfound E x)
}.

(** Python always finds [sp] for [name], and no module stands for itself under that
    name: it is a module of six.moves, or one of the modules that are vendored. *)
Record stand_in (E : env) (name : string) (sp : spec) : Prop := {
  si_found : forall t f, e_find_spec E t f name = ROk (Some sp);
  si_name : sp_name sp = name;
  si_loader : (sp_loader sp = LSix /\ ends_with ".moves" name = false) \/ exists v, sp_loader sp = LVendor v;
  si_only : forall name' sp', has_spec E name' sp' -> sp_name sp' = name -> sp' = sp
}.
