(** [_modulegraph.ModuleGraph]: building the graph. *)
From Verif Require Export Names SpecNode.

(** ** Primitive state changes *)

Definition get_node (id : string) : M (option node) := gets (fun s => gfind (s_graph s) id).

(** [isinstance(node, C)]; a node that is not in the graph (only a hook can
    come up with one) is taken as an instance of none of the tested classes. *)
Definition kind_test (p : kind -> bool) (id : string) : M bool :=
  n <- get_node id ;;
  ret (match n with Some n => p (n_kind n) | None => false end).

Definition lift_graph (f : graph -> result graph) : M unit := fun s =>
  match f (s_graph s) with
  | ROk g => Some (ROk tt, set_graph s g)
  | RErr e => Some (RErr e, s)
  end.

(** [self.add_node(node)] by the builder itself, with a ghost event if it
    succeeds; [imports] are the import statements found for the node. *)
Definition add_node (n : node) (imports : list iinfo) : M unit :=
  do lift_graph (fun g => gadd_node g n) ;; modify (fun s => log s (EvAdd (n_name n) imports)).
Definition user_add_node (n : node) : M unit := lift_graph (fun g => gadd_node g n).
Definition add_edge (s t : string) (d : dep) : M unit := lift_graph (fun g => gadd_edge g s t d).
Definition add_root (id : string) : M unit := lift_graph (fun g => gadd_root g id).
Definition add_written (id : string) (names : list string) : M unit :=
  modify (fun s => set_graph s (gadd_written (s_graph s) id names)).
Definition push_package (n pkg : string) : M unit :=
  modify (fun s => log (set_stack s (DoPackage n pkg :: s_stack s)) (EvPush n pkg)).
Definition note (e : event) : M unit := modify (fun s => log s e).

(** modulegraph2/_modulegraph.py:726-748 [_process_import_list]. *)
Definition schedule (id : string) (imports : list iinfo) (s : st) : st :=
  let s := log s (EvSched id imports) in
  let s := if memb id (s_seen s) then s
           else set_stack (set_seen s (set_add id (s_seen s))) (DoPost id :: s_stack s) in
  set_stack s (rev (map (DoImport id) imports) ++ s_stack s).
Definition process_import_list (id : string) (imports : list iinfo) : M unit :=
  modify (schedule id imports).

(** modulegraph2/_modulegraph.py:750-773 [_find_module]. *)
Definition find_module (id : string) : M (option node) :=
  n <- get_node id ;;
  match n with
  | None => ret None
  | Some n => do assert (negb (is_distribution (n_kind n))) ;; ret (Some n)
  end.

(** modulegraph2/_modulegraph.py:464-471 [_saved_stack]: the [finally] part is
    run whatever happened. *)
Definition saved_stack {A} (m : M A) : M A := fun s =>
  let saved := s_stack s in
  match m (set_saved (set_stack s []) (saved :: s_saved s)) with
  | None => None
  | Some (r, s') => Some (r, set_saved (set_stack s' (s_stack s' ++ saved)) (tl (s_saved s')))
  end.

(** [self._work_stack.insert(offset, w)]: [offset] counts from the bottom. *)
Definition insert_work (offset : nat) (w : work) : M unit := modify (fun s =>
  let k := List.length (s_stack s) - offset in
  set_stack s (firstn k (s_stack s) ++ w :: skipn k (s_stack s))).

Fixpoint iter {A} (f : A -> M unit) (l : list A) : M unit :=
  match l with
  | [] => ret tt
  | x :: r => do f x ;; iter f r
  end.

(** The functions that are called recursively. *)
Record funs := Funs {
  f_find : option string -> string -> bool -> M string;   (* _find_or_load_module *)
  f_load : option string -> string -> M string;           (* _load_module *)
  f_nfs : spec -> M (node * list iinfo);                  (* node_for_spec *)
  f_run : M unit;                                         (* _run_stack *)
  f_prog : prog -> M (option string);                     (* the body of a with statement *)
  f_post : nat -> string -> M unit;                       (* CallbackList from an index on *)
  f_miss : nat -> option string -> string -> M (option string) (* FirstNotNone from an index on *)
}.

Definition no_fuel : funs := Funs (fun _ _ _ => out_of_fuel) (fun _ _ => out_of_fuel) (fun _ => out_of_fuel)
  out_of_fuel (fun _ => out_of_fuel) (fun _ _ => out_of_fuel) (fun _ _ _ => out_of_fuel).

(** What [except Exception] catches. *)
Definition is_exception (e : err) : bool := match e with EInterrupt => false | _ => true end.

Section bodies.
  Variable E : env.
  Variable r : funs.

  (** modulegraph2/_modulegraph.py:383-407 [_create_missing_module]. *)
  Definition create_missing (importing : option string) (name : string) : M string :=
    ans <- f_miss r 0 importing name ;;
    match ans with
    | Some id => do note (EvSubst name id) ;; ret id
    | None =>
        do add_node (plain_node MissingModule name) [] ;;
        do process_import_list name [] ;;
        ret name
    end.

  (** [self._global_lazy_nodes.pop(name)] after the test of line 503. *)
  Definition pop_lazy (name : string) : M (option implied) := fun s =>
    match assoc name (s_lazy s) with
    | None => Some (ROk None, s)
    | Some i => Some (ROk (Some i),
        log (set_lazy s (filter (fun x => negb (seqb (fst x) name)) (s_lazy s))) (EvImplied name i))
    end.

  (** Lines 512-532: alias and virtual nodes. *)
  Definition implied_node (k : kind) (name target : string) : M (option string) :=
    n <- get_node name ;;
    do assert (match n with None => true | Some _ => false end) ;;
    do add_node (plain_node k name) [] ;;
    do process_import_list name [] ;;
    other <- f_find r (Some name) target true ;;
    do add_edge name other default_dep ;;
    ret (Some name).

  (** modulegraph2/_modulegraph.py:482-543 [_implied_references]. *)
  Definition implied_references (importing : option string) (name : string) : M (option string) :=
    n <- get_node name ;;
    match n with
    | Some _ => ret None
    | None =>
        i <- pop_lazy name ;;
        match i with
        | None => ret None
        | Some ImpNone =>
            do add_node (plain_node ExcludedModule name) [] ;;
            do process_import_list name [] ;;
            ret (Some name)
        | Some (ImpAlias a) => implied_node (AliasNode a) name a
        | Some (ImpVirtual a) => implied_node (VirtualNode a) name a
        | Some (ImpRefs refs) =>
            id <- f_find r importing name true ;;
            do iter (fun ref => other <- f_find r (Some id) ref true ;; add_edge id other default_dep) refs ;;
            ret (Some id)
        end
    end.

  (** modulegraph2/_modulegraph.py:576-602: find_spec with its workarounds. *)
  Definition spec_or_none (name : string) : M (option spec) :=
    r0 <- attempt (find_spec E name) ;;
    match r0 with
    | ROk x => ret x
    | RErr EValue => raise EAssert
    | RErr ESpecValue =>
        fakes <- gets s_fakes ;;
        do del_sysmod E name ;;
        r1 <- attempt (find_spec E name) ;;
        b <- in_sysmod E name ;;
        do assert (negb b) ;;
        do modify (fun s => set_fakes s fakes) ;;
        of_result r1
    | RErr EAttrPath => ret None
    | RErr e => raise e
    end.

  (** Lines 608-642: the handler of the outer try statement. *)
  Definition load_failed (importing : option string) (name : string) (e : err) : M string :=
    if negb (is_exception e) then raise e
    else match e with
         | ENotFound false => create_missing importing name
         | _ =>
             let parent := fst (rpartition dot name) in
             b <- in_sysmod E parent ;;
             do assert (negb b) ;;
             m <- find_spec E parent ;;
             match m with
             | None => raise EAssert
             | Some sp =>
                 do assert (sp_inspect sp) ;;
                 p <- of_result (sp_ispkg sp) ;;
                 if p : bool then
                   match sp_origin sp with
                   | None => raise EAssert
                   | Some path =>
                       do assert (starts_with "__init__." (snd (rpartition slash path))) ;;
                       do modify (fun s => set_fakes s (set_add parent (s_fakes s))) ;;
                       f_load r importing name
                   end
                 else create_missing importing name
             end
         end.

  (** Lines 644-679: add the node for a spec. *)
  Definition load_spec (name : string) (sp : spec) : M string :=
    x <- f_nfs r sp ;;
    let '(n, imports) := x in
    if negb (seqb (n_name n) name) then
      do add_node (plain_node (AliasNode (n_name n)) name) [] ;;
      do process_import_list name [] ;;
      old <- get_node (n_name n) ;;
      do match old with
         | Some _ => ret tt
         | None =>
             do add_node n imports ;;
             do process_import_list (n_name n) imports ;;
             pk <- of_result (split_package (n_name n)) ;;
             match fst pk with
             | None => ret tt
             | Some containing =>
                 parent <- f_find r None containing true ;;
                 add_edge (n_name n) parent default_dep
             end
         end ;;
      do add_edge name (n_name n) default_dep ;;
      ret name
    else
      do add_node n imports ;;
      do match n_kind n with
         | Package _ _ _ _ (Some nstype) =>
             if memb nstype ["pkgutil"; "pkg_resources"] then
               nspkg <- f_find r None nstype true ;;
               add_edge name nspkg default_dep
             else ret tt
         | _ => ret tt
         end ;;
      do process_import_list name imports ;;
      ret name.

  (** modulegraph2/_modulegraph.py:545-679 [_load_module]. *)
  Definition load_body (importing : option string) (name : string) : M string :=
    do assert (negb (starts_with "." name)) ;;
    n <- get_node name ;;
    match n with
    | Some _ => ret name
    | None =>
        r0 <- attempt (spec_or_none name) ;;
        match r0 with
        | RErr e => load_failed importing name e
        | ROk (Some sp) => load_spec name sp
        | ROk None =>
            r1 <- attempt (create_missing importing name) ;;
            match r1 with
            | ROk id => ret id
            | RErr e => do note EvErr ;; load_failed importing name e
            end
        end
    end.

  (** modulegraph2/_modulegraph.py:775-831 [_find_or_load_module]. *)
  Definition find_body (importing : option string) (name : string) (link_missing : bool) : M string :=
    n <- find_module name ;;
    match n with
    | Some _ => ret name
    | None =>
        pk <- of_result (split_package name) ;;
        x <- match fst pk with
             | None => ret (None, None)
             | Some containing =>
                 parent <- f_find r importing containing true ;;
                 m <- kind_test is_missing parent ;;
                 if m : bool then id <- create_missing importing name ;; ret (Some parent, Some id)
                 else
                   e <- kind_test is_excluded parent ;;
                   if e : bool then
                     do add_node (plain_node ExcludedModule name) [] ;;
                     do process_import_list name [] ;;
                     ret (Some parent, Some name)
                   else ret (Some parent, None)
             end ;;
        let '(parent, found) := x in
        id <- match found with
              | Some id => ret id
              | None =>
                  i <- implied_references importing name ;;
                  match i with
                  | Some id => ret id
                  | None => f_load r importing name
                  end
              end ;;
        m <- kind_test is_missing id ;;
        do match parent with
           | Some p => if link_missing || negb m then add_edge id p default_dep else ret tt
           | None => ret tt
           end ;;
        ret id
    end.

  (** The absolute name of an import, modulegraph2/_modulegraph.py:852-890;
      [inl] is an invalid relative import. *)
  Definition absolute_name (n : string) (is_pkg : bool) (i : iinfo) : string + string :=
    if Nat.eqb (ii_level i) 0 then inr (in_name (ii_module i))
    else match relative_package n is_pkg (ii_level i) with
         | None => inl (repeat_char dot (ii_level i) ++ in_name (ii_module i))%string
         | Some pkg => inr (if seqb (in_name (ii_module i)) "" then pkg
                            else pkg ++ "." ++ in_name (ii_module i))%string
         end.

  (** modulegraph2/_modulegraph.py:833-918 [_process_import]. *)
  Definition process_import (n : string) (i : iinfo) : M unit :=
    pkg <- kind_test (fun k => is_package k || is_nspkg k) n ;;
    match absolute_name n pkg i with
    | inl invalid =>
        old <- find_module invalid ;;
        do match old with
           | None => do add_node (plain_node InvalidRelativeImport invalid) [] ;; process_import_list invalid []
           | Some o => assert (is_invalid_rel (n_kind o))
           end ;;
        add_edge n invalid (from_importinfo i false None)
    | inr name =>
        do assert (Nat.eqb (ii_level i) 0 || negb (seqb name "" || starts_with "." name)) ;;
        offset <- gets (fun s => List.length (s_stack s)) ;;
        id <- f_find r (Some n) name true ;;
        do add_edge n id (from_importinfo i false (in_asname (ii_module i))) ;;
        insert_work offset (DoNames n id i)
    end.

  (** Lines 968-979: the first edge of the imported module that explains the name. *)
  Definition reexported (m : string) (nm : string) : M (option string) :=
    gets (fun s => option_map snd
      (find (fun e => existsb (fun d => opt_eqb (d_as d) (Some nm)) (fst e) || seqb (snd e) nm)
         (goutgoing (s_graph s) m))).

  (** Lines 964-1037: one name of the name list; [k] is the class of the imported module. *)
  Definition process_name (n m : string) (k : kind) (i : iinfo) (nm : iname) : M unit :=
    let name := in_name nm in
    let dep := from_importinfo i true (in_asname nm) in
    imported <- get_node m ;;
    let written := match imported with Some x => n_written x | None => [] end in
    known <- (if memb name written then
                tgt <- reexported m name ;;
                match tgt with
                | Some t => do add_edge n t dep ;; ret true
                | None => ret (is_module k)
                end
              else ret (is_module k)) ;;
    if known : bool then ret tt
    else
      sub <- f_find r (Some n) (m ++ "." ++ name)%string false ;;
      miss <- kind_test is_missing sub ;;
      imported2 <- get_node m ;;
      let written2 := match imported2 with Some x => n_written x | None => [] end in
      let six := match k with Package _ init _ _ _ => seqb init "@@SIX_MOVES@@" | _ => false end in
      let link := do add_edge sub m default_dep ;; add_edge n sub dep in
      if miss : bool then
        if is_package k && six then
          match assoc name SIX_MOVES_TO with
          | Some t => d <- f_find r (Some n) t true ;; add_edge n d default_dep
          | None => link
          end
        else if is_package k && memb name written2 then ret tt
        else link
      else link.

  (** modulegraph2/_modulegraph.py:920-1038 [_process_namelist]. *)
  Definition process_namelist (n m : string) (i : iinfo) : M unit :=
    ok <- kind_test (fun k => is_module k || is_package k || is_script k) n ;;
    do assert ok ;;
    imported <- get_node m ;;
    if ii_star i then
      match imported with
      | Some x => if is_package (n_kind x) || is_module (n_kind x) then add_written n (n_written x) else ret tt
      | None => ret tt
      end
    else
      let names := map in_name (ii_names i) in
      match ii_names i, imported with
      | _ :: _, Some x =>
          match n_kind x with
          | AliasNode actual =>
              do add_written n names ;;
              a <- find_module actual ;;
              match a with
              | None => raise EAssert
              | Some y =>
                  if is_package (n_kind y) || is_nspkg (n_kind y) || is_module (n_kind y) then
                    do add_written n names ;;
                    iter (process_name n actual (n_kind y) i) (ii_names i)
                  else ret tt
              end
          | k =>
              if is_package k || is_nspkg k || is_module k then
                do add_written n names ;;
                iter (process_name n m k i) (ii_names i)
              else ret tt
          end
      | _, _ => ret tt
      end.

  (** modulegraph2/_modulegraph.py:145-169 [add_script] and 681-724 [_load_script]. *)
  Definition add_script (path : string) : M string :=
    n <- find_module path ;;
    match n with
    | Some _ => raise EValue
    | None =>
        t <- askr (fun t => e_script E t path) ;;
        match extract_ast_info (e_names_order E) t with
        | None => out_of_fuel
        | Some imports =>
            do add_node (Node path Script [] [] None (Some path) [] false) imports ;;
            do process_import_list path imports ;;
            do note (EvRoot path) ;;
            do add_root path ;;
            do f_run r ;;
            ret path
        end
    end.

  (** modulegraph2/_modulegraph.py:171-186 [add_module]. *)
  Definition add_module (name : string) : M string :=
    n <- find_module name ;;
    id <- match n with
          | Some _ => ret name
          | None => f_find r None name true
          end ;;
    do note (EvRoot id) ;;
    do add_root id ;;
    do f_run r ;;
    ret id.

  (** modulegraph2/_modulegraph.py:188-208 [add_dependencies_for_source]; the
      level of the imports is not looked at. *)
  Definition add_source (source : string) : M unit :=
    t <- askr (fun t => e_parse E t "-source-code-" source) ;;
    match extract_ast_info (e_names_order E) t with
    | None => out_of_fuel
    | Some infos =>
        iter (fun i =>
          do add_module (in_name (ii_module i)) ;;
          iter (fun nm => do add_module (in_name (ii_module i) ++ "." ++ in_name nm)%string ;; ret tt)
            (ii_names i)) infos
    end.

  (** modulegraph2/_modulegraph.py:230-243: [add_distribution] of a distribution. *)
  Definition add_distribution (d : dist) : M string :=
    let id := dist_identifier d in
    found <- get_node id ;;
    match found with
    | Some n => do assert (is_distribution (n_kind n)) ;; ret id
    | None =>
        do user_add_node (Node id Distribution [] [] (Some d) None [] false) ;;
        do note (EvRoot id) ;;
        do add_root id ;;
        do iter (fun name => m <- f_find r None name true ;; add_edge id m default_dep)
             (e_order E (dist_import_names d)) ;;
        do f_run r ;;
        ret id
    end.

  (** Lines 223-228. *)
  Definition add_distribution_named (name : string) : M string :=
    d <- askr (fun t => e_dist_named E t name) ;;
    match d with
    | None => raise EValue
    | Some d => add_distribution d
    end.

  (** modulegraph2/_modulegraph.py:267-287 [import_module]. *)
  Definition import_module (importing name : string) : M string :=
    do note (EvReq importing name) ;;
    n <- find_module name ;;
    id <- match n with
          | Some _ => ret name
          | None => f_find r (Some importing) name true
          end ;;
    do add_edge importing id default_dep ;;
    ret id.

  (** Lines 330-350, one directory of the package. *)
  Definition import_directory (id pkg path : string) : M unit :=
    stems <- askr (fun t => e_glob_py E t path) ;;
    do iter (fun stem =>
         if e_isidentifier E stem then
           let name := (pkg ++ "." ++ stem)%string in
           do note (EvList id name) ;;
           m <- f_find r (Some id) name true ;;
           do add_edge id m default_dep ;;
           push_package id name
         else ret tt) stems ;;
    dirs <- askr (fun t => e_subdirs E t path) ;;
    iter (fun dir =>
      if e_isidentifier E dir then
        let name := (pkg ++ "." ++ dir)%string in
        do note (EvList id name) ;; push_package id name
      else ret tt) dirs.

  (** modulegraph2/_modulegraph.py:289-351 [import_package], without the ghost
      event that tells the request of a user from the work item. *)
  Definition import_package (importing pkg : string) : M string :=
    n <- find_module pkg ;;
    id <- saved_stack (
            id <- match n with
                  | Some _ => ret pkg
                  | None => f_find r None pkg true
                  end ;;
            do f_run r ;;
            ret id) ;;
    do add_edge importing id default_dep ;;
    p <- kind_test is_package id ;;
    if negb p then ret id
    else
      sp <- find_spec E pkg ;;
      match sp with
      | None => raise EAssert
      | Some sp =>
          do iter (import_directory id pkg) (match sp_search sp with Some l => l | None => [] end) ;;
          ret id
      end.

  (** modulegraph2/_modulegraph.py:409-422 [add_excludes]. *)
  Definition lazy_set (name : string) (i : implied) (l : list (string * implied)) : list (string * implied) :=
    if existsb (fun x => seqb (fst x) name) l
    then map (fun x => if seqb (fst x) name then (fst x, i) else x) l
    else l ++ [(name, i)].
  Definition add_excludes (names : list string) (l : list (string * implied)) : list (string * implied) :=
    fold_left (fun l nm => lazy_set nm ImpNone l) names l.

  (** modulegraph2/_modulegraph.py:424-458 [add_implies]. *)
  Definition add_implies (imps : list (string * implied)) (l : list (string * implied)) : list (string * implied) :=
    fold_left (fun l x => match assoc (fst x) l with
                          | Some ImpNone => l
                          | _ => lazy_set (fst x) (snd x) l
                          end) imps l.

  (** modulegraph2/_modulegraph.py:249-265 [hook_context]. *)
  Definition hook_context (p : prog) : M unit :=
    a <- attempt (f_prog r p) ;;
    do f_run r ;;
    match a with
    | ROk _ => ret tt
    | RErr e => raise e
    end.

  (** The calls a hook or user can make. *)
  Definition do_action (a : action) : M answer :=
    match a with
    | ALook => gets (fun s => AnsGraph (s_graph s) (s_mem s))
    | ARemember m => do modify (fun s => set_mem s m) ;; ret AnsUnit
    | AAddScript path => id <- add_script path ;; ret (AnsId id)
    | AAddModule name => id <- add_module name ;; ret (AnsId id)
    | AAddSource source => do add_source source ;; ret AnsUnit
    | AAddDist d => id <- add_distribution d ;; ret (AnsId id)
    | AAddDistNamed name => id <- add_distribution_named name ;; ret (AnsId id)
    | AHookContext p => do hook_context p ;; ret AnsUnit
    | AImportModule n name => id <- import_module n name ;; ret (AnsId id)
    | AImportPackage n name => do note (EvReq n name) ;; id <- import_package n name ;; ret (AnsId id)
    | AAddPost h => do modify (fun s => set_post s (h :: s_post s)) ;; ret AnsUnit
    | AAddMissing h => do modify (fun s => set_missing s (h :: s_missing s)) ;; ret AnsUnit
    | AExcludes names => do modify (fun s => log (set_lazy s (add_excludes names (s_lazy s))) (EvConf names)) ;; ret AnsUnit
    | AImplies l => do modify (fun s => log (set_lazy s (add_implies l (s_lazy s))) (EvConf (map fst l))) ;; ret AnsUnit
    | AAddNode n => do note (EvGiven (n_name n)) ;; do user_add_node n ;; ret AnsUnit
    | AAddEdge s t d => do note (EvEdge s t d) ;; do add_edge s t d ;; ret AnsUnit
    | AAddRoot id => do note (EvRoot id) ;; do add_root id ;; ret AnsUnit
    (* simplification: called for nodes of the graph only *)
    | AProcessImports id imports =>
        n <- get_node id ;;
        match n with
        | None => raise EKey
        | Some _ => do note (EvProc id imports) ;; do process_import_list id imports ;; ret AnsUnit
        end
    | ARunStack => do f_run r ;; ret AnsUnit
    | AFindSpec name => sp <- find_spec E name ;; ret (AnsSpec sp)
    | AFindSpecRel name package =>
        if seqb package "" then raise EImport
        else sp <- find_spec E (package ++ "." ++ name)%string ;; ret (AnsSpec sp)
    | AFake name => do modify (fun s => set_fakes s (set_add name (s_fakes s))) ;; ret AnsUnit
    | AUnfake name => do del_sysmod E name ;; ret AnsUnit
    | ANodeForSpec sp => x <- f_nfs r sp ;; ret (AnsNode (fst x) (snd x))
    | AIsFile path => b <- ask (fun t => e_is_file E t path) ;; ret (AnsBool b)
    | AParseFile path =>
        text <- askr (fun t => e_read E t path) ;;
        t <- askr (fun t => e_parse E t path text) ;;
        match extract_ast_info (e_names_order E) t with
        | None => out_of_fuel
        | Some l => ret (AnsImports l)
        end
    end.

  (** An exception is handed to the program. *)
  Definition call (a : action) : M answer :=
    x <- attempt (do_action a) ;;
    match x with
    | ROk ans => ret ans
    | RErr e => do note EvErr ;; ret (AnsErr e)
    end.

  Fixpoint run_prog (p : prog) : M (option string) :=
    match p with
    | PRet o => ret o
    | PRaise e => raise e
    | PDo a k => ans <- call a ;; run_prog (k ans)
    end.

  (** modulegraph2/_callback_list.py:52-68: the loop over the live list of post
      processing hooks, from index [i] on. *)
  Definition post_body (i : nat) (n : string) : M unit :=
    h <- gets (fun s => nth_error (s_post s) i) ;;
    match h with
    | None => ret tt
    | Some h => do run_prog (h n) ;; f_post r (S i) n
    end.

  (** modulegraph2/_callback_list.py:102-121: the missing hooks. *)
  Definition miss_body (i : nat) (importing : option string) (name : string) : M (option string) :=
    h <- gets (fun s => nth_error (s_missing s) i) ;;
    match h with
    | None => ret None
    | Some h =>
        a <- run_prog (h importing name) ;;
        match a with
        | Some id => ret (Some id)
        | None => f_miss r (S i) importing name
        end
    end.

  (** [func( *args)] of modulegraph2/_modulegraph.py:480. *)
  Definition do_work (w : work) : M unit :=
    match w with
    | DoPost n => do note (EvHook n) ;; f_post r 0 n
    | DoImport n i => process_import n i
    | DoNames n m i => process_namelist n m i
    | DoPackage n pkg => do import_package n pkg ;; ret tt
    end.

  (** modulegraph2/_modulegraph.py:473-480 [_run_stack]: one round of the loop,
      then the rest. *)
  Definition run_body : M unit := fun s =>
    match s_stack s with
    | [] => Some (ROk tt, s)
    | w :: rest =>
        match do_work w (log (set_run (set_stack s rest) (w :: s_run s)) (EvPop w)) with
        | None => None
        | Some (ROk _, s') => f_run r (log (set_run s' (tl (s_run s'))) (EvDone w))
        | Some (RErr e, s') => Some (RErr e, log (set_run s' (tl (s_run s'))) (EvFail w))
        end
    end.
End bodies.

(** The functions with recursion depth (and number of loop rounds) up to [n]. *)
Fixpoint exec (E : env) (n : nat) : funs :=
  match n with
  | 0 => no_fuel
  | S n' =>
      let r := exec E n' in
      Funs (find_body r) (load_body E r) (nfs_body E (f_nfs r)) (run_body E r)
        (run_prog E r) (post_body E r) (miss_body E r)
  end.

(** modulegraph2/_modulegraph.py:69-89 [__init__]; [implies] is STDLIB_IMPLIES or
    empty, [post] and [missing] the built-in hooks or empty. *)
Definition init (implies : list (string * implied)) (post : list post_hook) (missing : list missing_hook) : st :=
  St empty_graph (add_implies implies [("__main__", ImpNone)]) [] [] post missing [] 0 0 [] [] [].

(** A call by the user, outside of any hook. *)
Definition top_call (E : env) (fuel : nat) (a : action) (s : st) : option (answer * st) :=
  match call E (exec E fuel) a s with
  | Some (ROk ans, s') => Some (ans, s')
  | _ => None
  end.

(** States after any history of calls, whatever their outcome. *)
Inductive reach (E : env) (s0 : st) : st -> Prop :=
| reach_init : reach E s0 s0
| reach_call s fuel a ans s' :
    reach E s0 s -> top_call E fuel a s = Some (ans, s') -> reach E s0 s'.
