(** Properties C46 - C50: distributions. *)
From Verif Require Import PyStrFacts DistsProofs DistsGen.

(** ** C46 *)

(** A field as a CSV writer puts it: quotes doubled, in quotes if it has a comma or a quote. *)
Definition csv_field (quoted : bool) (name : string) : string :=
  if quoted then (ch dquote ++ double dquote name ++ ch dquote)%string else name.
Definition csv_needs_quotes (name : string) : bool := has_char comma name || has_char dquote name.
Definition record_line (quoted : bool) (name hash size : string) : string :=
  (csv_field quoted name ++ "," ++ hash ++ "," ++ size)%string.

Lemma record_field x hash size : has_char comma hash = false -> has_char comma size = false ->
  hd EmptyString (rsplit comma 2 (x ++ "," ++ hash ++ "," ++ size)) = x.
Proof. intros H1 H2. now rewrite rsplit2. Qed.

(** Quoted fields: any file name. *)
Theorem C46_quoted : forall name hash size,
  has_char comma hash = false -> has_char comma size = false ->
  record_relpath (record_line true name hash size) = name.
Proof.
  intros name hash size H1 H2. unfold record_relpath, record_line. rewrite record_field by auto.
  unfold csv_field.
  rewrite (starts_with_app (ch dquote)).
  assert (ends_with (ch dquote) (ch dquote ++ double dquote name ++ ch dquote) = true) as ->.
  { rewrite app_assoc_s. apply ends_with_app. }
  cbn [andb]. rewrite strip_ends_quote. apply undouble_double.
Qed.

(** Unquoted fields (also with commas in the name, as the wheel tool writes them),
    unless the name itself begins and ends with a quote. *)
Theorem C46_unquoted : forall name hash size,
  has_char comma hash = false -> has_char comma size = false ->
  (starts_with (ch dquote) name && ends_with (ch dquote) name = false) ->
  record_relpath (record_line false name hash size) = name.
Proof.
  intros name hash size H1 H2 H3. unfold record_relpath, record_line. rewrite record_field by auto.
  unfold csv_field. now rewrite H3.
Qed.

(** What a CSV writer writes (quotes only where needed) is read back. *)
Theorem C46_csv_round_trip : forall name hash size,
  has_char comma hash = false -> has_char comma size = false ->
  record_relpath (record_line (csv_needs_quotes name) name hash size) = name.
Proof.
  intros name hash size H1 H2. destruct (csv_needs_quotes name) eqn:E.
  - now apply C46_quoted.
  - apply C46_unquoted; auto. destruct (starts_with (ch dquote) name) eqn:ES; [|reflexivity].
    apply starts_with_spec in ES as (t & ->). unfold csv_needs_quotes in E.
    apply orb_false_iff in E as [_ E]. cbn in E. discriminate.
Qed.

Example C46_nonvacuous :
  record_relpath ("pkg/a""b,c.py,sha256=xyz,12" ++ String (Ascii.ascii_of_nat 10) "") = "pkg/a""b,c.py"
  /\ record_relpath """pkg/a""""b,c.py"",sha256=xyz,12" = "pkg/a""b,c.py"
  /\ record_line (csv_needs_quotes "pkg/a""b,c.py") "pkg/a""b,c.py" "sha256=xyz" "12" = """pkg/a""""b,c.py"",sha256=xyz,12".
Proof. repeat split. Qed.

(** ** C47 *)

(** Every path is a list of components. *)
Theorem C47_components : forall relpath, exists dirs f,
  relpath = join "/" (dirs ++ [f]) /\ Forall (fun c => has_char slash c = false) (dirs ++ [f]).
Proof.
  intros relpath. destruct (exists_last (split_all_ne slash relpath)) as (dirs & f & E).
  exists dirs, f. rewrite <- E. split; [symmetry; apply (join_split_all slash)|apply split_all_Forall].
Qed.

(** The import name of one file: none below __pycache__ or without known suffix. *)
Theorem C47_import_name : forall exts dirs f n,
  Forall (fun c => has_char slash c = false) exts ->
  Forall (fun c => has_char slash c = false) (dirs ++ [f]) ->
  (import_name_of exts (join "/" (dirs ++ [f])) = Some n
   <-> ~ In "__pycache__" dirs /\
       exists sfx base, first_suffix ([".py"; ".pyc"] ++ exts) f sfx
         /\ f = (base ++ sfx)%string /\ n = module_name dirs base).
Proof. intros exts dirs f n He Hf. now apply import_name_of_spec. Qed.

(** The import names of a distribution are those of the files in RECORD. *)
Theorem C47_import_names : forall E t df d, create_distribution E t df = ROk d ->
  exists lines, fs_record E t df = ROk lines
    /\ (forall f, In f (dist_files d) <-> exists ln, In ln lines /\ f = fs_abspath E df (record_relpath ln))
    /\ (forall n, In n (dist_import_names d) <->
          exists ln, In ln lines /\ import_name_of (fs_ext_suffixes E) (record_relpath ln) = Some n).
Proof.
  intros E t df d H. apply create_distribution_ok in H as (_ & _ & lines & _ & H & _ & _ & _ & _ & H1 & H2).
  exists lines. auto.
Qed.

Example C47_nonvacuous :
  import_name_of [".abi3.so"; ".so"] "pkg/sub/__init__.py" = Some "pkg.sub"
  /\ import_name_of [".abi3.so"; ".so"] "pkg/_ext.abi3.so" = Some "pkg._ext"
  /\ import_name_of [".abi3.so"; ".so"] "pkg/__pycache__/a.cpython-311.pyc" = None
  /\ import_name_of [".abi3.so"; ".so"] "pkg/data.txt" = None
  /\ import_name_of [] "__init__.py" = Some "__init__"
  /\ first_suffix ([".py"; ".pyc"] ++ [".abi3.so"; ".so"]) "_ext.abi3.so" ".abi3.so".
Proof.
  repeat split. exists [".py"; ".pyc"], [".so"]. repeat split; repeat constructor.
Qed.

(** ** C48 *)

(** Any number of generators, advanced in any order. *)
Inductive dop := DStart (path : list string) | DNext (i : nat).
Record dproc := DProc { p_gens : list gen; p_state : dstate }.

Fixpoint replace_nth {A} (n : nat) (x : A) (l : list A) : list A :=
  match l, n with
  | [], _ => []
  | _ :: r, 0 => x :: r
  | y :: r, S m => y :: replace_nth m x r
  end.

Definition dop_step (E : fsenv) (p : dproc) (o : dop) : list dist * dproc :=
  match o with
  | DStart path => ([], DProc (p_gens p ++ [all_distributions path]) (p_state p))
  | DNext i =>
      match nth_error (p_gens p) i with
      | None => ([], p)
      | Some g =>
          let '(r, g', s') := gen_next E g (p_state p) in
          (match r with Yield d => [d] | _ => [] end, DProc (replace_nth i g' (p_gens p)) s')
      end
  end.

Fixpoint dop_run (E : fsenv) (p : dproc) (h : list dop) : list dist :=
  match h with
  | [] => []
  | o :: r => let '(ds, p') := dop_step E p o in ds ++ dop_run E p' r
  end.

Lemma dop_run_cached E : forall h p, cache_ok (p_state p) -> exists s', cache_ok s' /\ cache_le (p_state p) s'
  /\ forall d, In d (dop_run E p h) -> dget (dcached s') (dist_identifier d) = Some d.
Proof.
  induction h as [|o h IH]; intros p Hc.
  - exists (p_state p). split; [exact Hc|]. split; [apply cache_le_refl|contradiction].
  - cbn [dop_run].
    assert (exists s1, cache_ok s1 /\ cache_le (p_state p) s1 /\ p_state (snd (dop_step E p o)) = s1
       /\ forall d, In d (fst (dop_step E p o)) -> dget (dcached s1) (dist_identifier d) = Some d) as K.
    { destruct o as [path|i]; cbn [dop_step].
      - exists (p_state p). split; [exact Hc|]. split; [apply cache_le_refl|]. split; [reflexivity|contradiction].
      - destruct (nth_error (p_gens p) i) as [g|].
        + destruct (gen_next E g (p_state p)) as [[r g'] s'] eqn:Eg.
          destruct (gen_next_cache _ _ _ _ _ _ Eg Hc) as (H1 & H2 & H3).
          exists s'. split; [exact H1|]. split; [exact H2|]. split; [reflexivity|].
          destruct r; cbn; try contradiction. intros d0 [<-|[]]. exact H3.
        + exists (p_state p). split; [exact Hc|]. split; [apply cache_le_refl|]. split; [reflexivity|contradiction]. }
    destruct K as (s1 & H1 & H2 & H3 & H4). destruct (dop_step E p o) as [ds p']. cbn in *.
    destruct (IH p') as (s' & I1 & I2 & I3); [now rewrite H3|].
    exists s'. split; [exact I1|]. rewrite H3 in I2. split; [eapply cache_le_trans; eauto|].
    intros d Hd. apply in_app_or in Hd as [Hd|Hd]; auto.
Qed.

(** C48: the same path always gives the same object ([oid] included), whatever
    happens to the file system in between. *)
Theorem C48_same_object : forall E h d1 d2,
  let ds := dop_run E (DProc [] (DState [] 0)) h in
  In d1 ds -> In d2 ds -> dist_identifier d1 = dist_identifier d2 -> d1 = d2.
Proof.
  intros E h d1 d2 ds H1 H2 He.
  destruct (dop_run_cached E h (DProc [] (DState [] 0))) as (s' & _ & _ & K); [intros k d H; discriminate|].
  apply K in H1. apply K in H2. rewrite He in H1. congruence.
Qed.

(** ... and what is yielded for a directory is identified by its path. *)
Theorem C48_identifier : forall E t df d, create_distribution E t df = ROk d -> dist_identifier d = df /\ oid d = t.
Proof. intros E t df d H. apply create_distribution_ok in H as (_ & _ & _ & _ & _ & H1 & H2 & _). auto. Qed.

(** A file system with one distribution whose version changes over time. *)
Definition pj (a b : string) : string := (a ++ "/" ++ b)%string.
Definition c48_env : fsenv :=
  FsEnv (fun _ p => if seqb p "/lib" then ROk ["x.txt"; "foo.dist-info"] else RErr EOS)
        (fun t _ => ROk (Some "foo", Some (if Nat.leb t 2 then "1" else "2")))
        (fun t _ => ROk ["foo/__init__.py,,"]) pj (fun d r => pj "/lib" r) [].
Example C48_nonvacuous :
  map (fun d => (oid d, dist_identifier d, dist_version d, dist_import_names d))
    (dop_run c48_env (DProc [] (DState [] 0)) [DStart ["/no"; "/lib"]; DNext 0; DNext 0; DStart ["/lib"]; DNext 1])
  = [(2, "/lib/foo.dist-info", "1", ["foo"]); (2, "/lib/foo.dist-info", "1", ["foo"])].
Proof. reflexivity. Qed.

(** ** C49 *)

Definition C49_statement : Prop := forall E path s ds s' entry names fname,
  static E -> cache_ok s -> yields E (all_distributions path) s ds (ROk tt) s' ->
  In entry path -> fs_listdir E 0 entry = ROk names -> In fname names -> dist_info fname = true ->
  readable E (fs_join E entry fname) ->
  exists d, In d ds /\ dist_identifier d = fs_join E entry fname.

(** A directory without METADATA hides the ones listed after it. *)
Definition c49_env : fsenv :=
  FsEnv (fun _ _ => ROk ["bad.dist-info"; "good.dist-info"])
        (fun _ p => if seqb p "/lib/bad.dist-info" then RErr EOS else ROk (Some "good", Some "1"))
        (fun _ _ => ROk []) pj (fun d r => r) [].

Theorem C49_broken_hides_refuted : ~ C49_statement.
Proof.
  intros H.
  destruct (H c49_env ["/lib"] (DState [] 0) [] (DState [] 2) "/lib" ["bad.dist-info"; "good.dist-info"] "good.dist-info")
    as (d & [] & _).
  - split; reflexivity.
  - intros k d Hk. discriminate.
  - eapply y_stop. reflexivity.
  - now left.
  - reflexivity.
  - cbn; auto.
  - reflexivity.
  - exists "good", "1", []. split; reflexivity.
Qed.

(** The part that holds: readable if those listed before it in the same
    directory are.  Missing: directories listed after a broken one. *)
Theorem C49_reported_partial : forall E path s ds s' entry l1 fname l2,
  static E -> cache_ok s -> yields E (all_distributions path) s ds (ROk tt) s' ->
  In entry path -> fs_listdir E 0 entry = ROk (l1 ++ fname :: l2) -> dist_info fname = true ->
  Forall (fun x => dist_info x = true -> readable E (fs_join E entry x)) l1 ->
  readable E (fs_join E entry fname) ->
  exists d, In d ds /\ dist_identifier d = fs_join E entry fname.
Proof. intros. eapply yields_entry; eauto. Qed.

(** In a healthy file system the distributions are exactly those on the search
    path, in order. *)
Theorem C49_exact_when_healthy : forall E path s ds fin s',
  healthy E -> cache_ok s -> yields E (all_distributions path) s ds fin s' ->
  fin = ROk tt /\ map dist_identifier ds = path_paths E path.
Proof. intros E path s ds fin s' HE Hc Hy. apply (yields_order E HE _ _ _ _ _ Hy); [exact I|exact Hc]. Qed.

(** Every run of the generator ends. *)
Theorem C49_generator_ends : forall E path s, exists ds fin s', yields E (all_distributions path) s ds fin s'.
Proof. intros E path s. apply yields_exists. Qed.

Definition c49_ok : fsenv :=
  FsEnv (fun _ p => if seqb p "/lib" then ROk ["x.txt"; "foo.dist-info"; "bar.dist-info"] else RErr EOS)
        (fun t p => ROk (Some p, Some "1")) (fun t _ => ROk ["foo/__init__.py,,"]) pj (fun d r => pj "/lib" r) [].
Definition c49_dist (t : nat) (p : string) : dist := Dist t p p "1" ["/lib/foo/__init__.py"] ["foo"].
Example C49_nonvacuous : exists s',
  yields c49_ok (all_distributions ["/no"; "/lib"]) (DState [] 0)
    [c49_dist 2 "/lib/foo.dist-info"; c49_dist 3 "/lib/bar.dist-info"] (ROk tt) s'.
Proof.
  eexists. eapply y_yield; [reflexivity|]. eapply y_yield; [reflexivity|]. eapply y_stop. reflexivity.
Qed.
Example C49_healthy_nonvacuous : healthy c49_ok
  /\ path_paths c49_ok ["/no"; "/lib"] = ["/lib/foo.dist-info"; "/lib/bar.dist-info"].
Proof.
  split; [|reflexivity]. split.
  - split; reflexivity.
  - intros p e H. cbn in H. destruct (seqb p "/lib"); congruence.
  - intros p names x H _ _. eexists _, _, _. split; reflexivity.
Qed.

(** ** C50 *)

(** The first one, in the order of the generator, that fits; None (or the
    exception that ended the search) iff there is none. *)
Theorem C50_first_for_file : forall E path s ds fin s' filename fuel,
  yields E (all_distributions path) s ds fin s' -> List.length ds < fuel ->
  exists s2, distribution_for_file E fuel filename path s = Some
    (match find (fun d => memb filename (dist_files d)) ds with
     | Some d => ROk (Some d)
     | None => match fin with ROk _ => ROk None | RErr e => RErr e end
     end, s2).
Proof. intros. eapply find_dist_spec; eauto. Qed.

Theorem C50_first_named : forall E path s ds fin s' name fuel,
  yields E (all_distributions path) s ds fin s' -> List.length ds < fuel ->
  exists s2, distribution_named E fuel name path s = Some
    (match find (fun d => seqb (dist_name d) name) ds with
     | Some d => ROk (Some d)
     | None => match fin with ROk _ => ROk None | RErr e => RErr e end
     end, s2).
Proof. intros. eapply find_dist_spec; eauto. Qed.

(** With [C49_exact_when_healthy]: no distribution before the answer on the
    search path contains the file, and the answer contains it. *)
Theorem C50_search_path_order : forall E path s filename fuel r s2,
  healthy E -> cache_ok s -> distribution_for_file E fuel filename path s = Some (r, s2) ->
  exists ds, map dist_identifier ds = path_paths E path /\
  match r with
  | ROk (Some d) => exists before after, ds = before ++ d :: after /\ In filename (dist_files d)
      /\ forall x, In x before -> ~ In filename (dist_files x)
  | ROk None => forall x, In x ds -> ~ In filename (dist_files x)
  | RErr _ => False
  end.
Proof.
  intros E path s filename fuel r s2 HE Hc H.
  destruct (yields_exists E (all_distributions path) s) as (ds & fin & s' & Hy).
  destruct (C49_exact_when_healthy E path s ds fin s' HE Hc Hy) as [-> Ho].
  exists ds. split; [exact Ho|].
  assert (forall fuel1 fuel2 p g s0 x y, find_dist E fuel1 p g s0 = Some x -> find_dist E fuel2 p g s0 = Some y -> x = y) as Hdet.
  { induction fuel1 as [|fuel1 IH]; intros [|fuel2] p g s0 x y H1 H2; try discriminate.
    cbn in H1, H2. destruct (gen_next E g s0) as [[[d| |e] g'] s1]; try congruence.
    destruct (p d); [congruence|]. eapply IH; eauto. }
  destruct (C50_first_for_file E path s ds (ROk tt) s' filename (S (List.length ds)) Hy) as (s3 & H3); [lia|].
  pose proof (Hdet _ _ _ _ _ _ _ H H3) as Heq. injection Heq as -> _.
  assert (forall l, match find (fun d => memb filename (dist_files d)) l with
    | Some d => exists before after, l = before ++ d :: after /\ In filename (dist_files d)
       /\ forall x, In x before -> ~ In filename (dist_files x)
    | None => forall x, In x l -> ~ In filename (dist_files x) end) as K.
  { induction l as [|d l IH]; cbn; [intros x []|].
    destruct (memb filename (dist_files d)) eqn:Em.
    - exists [], l. split; [reflexivity|]. split; [now apply memb_In|]. intros x [].
    - apply memb_false in Em. destruct (find _ l) as [d'|].
      + destruct IH as (b & a & -> & H1 & H2). exists (d :: b), a. split; [reflexivity|]. split; [exact H1|].
        intros x [<-|Hx]; auto.
      + intros x [<-|Hx]; auto. }
  specialize (K ds). destruct (find _ ds); exact K.
Qed.

Example C50_nonvacuous :
  option_map fst (distribution_for_file c49_ok 5 "/lib/foo/__init__.py" ["/no"; "/lib"] (DState [] 0))
  = Some (ROk (Some (Dist 2 "/lib/foo.dist-info" "/lib/foo.dist-info" "1" ["/lib/foo/__init__.py"] ["foo"])))
  /\ option_map fst (distribution_named c49_ok 5 "/lib/bar.dist-info" ["/no"; "/lib"] (DState [] 0))
  = Some (ROk (Some (Dist 3 "/lib/bar.dist-info" "/lib/bar.dist-info" "1" ["/lib/foo/__init__.py"] ["foo"])))
  /\ option_map fst (distribution_named c49_ok 5 "baz" ["/no"; "/lib"] (DState [] 0)) = Some (ROk None).
Proof. repeat split. Qed.

Print Assumptions C46_quoted.
Print Assumptions C46_unquoted.
Print Assumptions C46_csv_round_trip.
Print Assumptions C47_components.
Print Assumptions C47_import_name.
Print Assumptions C47_import_names.
Print Assumptions C48_same_object.
Print Assumptions C48_identifier.
Print Assumptions C49_broken_hides_refuted.
Print Assumptions C49_reported_partial.
Print Assumptions C49_exact_when_healthy.
Print Assumptions C49_generator_ends.
Print Assumptions C50_first_for_file.
Print Assumptions C50_first_named.
Print Assumptions C50_search_path_order.
