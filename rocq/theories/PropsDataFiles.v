(** Property C51: data files of a package. *)
From Coq Require Import Permutation.
From Verif Require Import PyStrFacts DistsProofs DataFiles.

(** ** Specification *)

(** Directories that are no part of the package, and files of Python modules. *)
Definition special (name : string) : Prop := name = "__pycache__"%string \/ name = ".hg"%string \/ name = ".svn"%string.
Definition python_file (sfx : list string) (name : string) : Prop := exists base x, In x sfx /\ name = (base ++ x)%string.

(** A file that is not a Python module, not below one of the special directories. *)
Inductive has_data (sfx : list string) : list (string * tree) -> Prop :=
| hd_file n es : In (n, TFile) es -> ~ python_file sfx n -> ~ special n -> has_data sfx es
| hd_sub n sub es : In (n, TDir sub) es -> ~ special n -> has_data sfx sub -> has_data sfx es.

Definition C51_statement : Prop := forall sfx es,
  contains_datafiles sfx (OnDisk (TDir es)) = ROk true <-> has_data sfx es.

Lemma special_is n : skipped_dir n = true <-> special n.
Proof. unfold skipped_dir, special. rewrite memb_In. cbn. split; intuition auto. Qed.
Lemma special_not n : skipped_dir n = false <-> ~ special n.
Proof. rewrite <- special_is. destruct (skipped_dir n); split; congruence. Qed.
Lemma python_is sfx n : module_file sfx n = true <-> python_file sfx n.
Proof.
  unfold module_file, python_file. rewrite existsb_exists. split.
  - intros (x & Hx & E). apply ends_with_spec in E as [t ->]. eauto.
  - intros (b & x & Hx & ->). exists x. split; [exact Hx|]. apply ends_with_app.
Qed.
Lemma python_not sfx n : module_file sfx n = false <-> ~ python_file sfx n.
Proof. rewrite <- python_is. destruct (module_file sfx n); split; congruence. Qed.

(** An empty subdirectory hides the data file listed after it. *)
Theorem C51_first_directory_refuted : ~ C51_statement.
Proof.
  intros H. specialize (H [".py"] [("sub", TDir []); ("data.txt", TFile)]).
  assert (has_data [".py"] [("sub", TDir []); ("data.txt", TFile)]) as K
    by (apply (hd_file _ "data.txt"); [cbn; auto|now apply python_not|now apply special_not]).
  apply H in K. discriminate.
Qed.

(** The answer depends on the order in which the directory is listed. *)
Theorem C51_order_dependent : exists sfx es es', Permutation es es'
  /\ contains_datafiles sfx (OnDisk (TDir es)) <> contains_datafiles sfx (OnDisk (TDir es')).
Proof.
  exists [".py"], [("sub", TDir []); ("data.txt", TFile)], [("data.txt", TFile); ("sub", TDir [])].
  split; [apply perm_swap|discriminate].
Qed.

Lemma disk_cons sfx n p r : disk_datafiles sfx (TDir ((n, p) :: r)) =
  if module_file sfx n then disk_datafiles sfx (TDir r)
  else if skipped_dir n then disk_datafiles sfx (TDir r)
  else match p with TDir _ => disk_datafiles sfx p | TFile => true end.
Proof. reflexivity. Qed.

Lemma has_data_cons sfx x es : has_data sfx es -> has_data sfx (x :: es).
Proof. inversion 1; subst; [eapply hd_file|eapply hd_sub]; eauto; now right. Qed.

Fixpoint tsize (t : tree) : nat :=
  match t with
  | TFile => 1
  | TDir es => S ((fix go (l : list (string * tree)) : nat :=
      match l with [] => 0 | (_, p) :: r => tsize p + go r end) es)
  end.

Lemma disk_sound sfx : forall n es, tsize (TDir es) <= n ->
  disk_datafiles sfx (TDir es) = true -> has_data sfx es.
Proof.
  induction n as [|n IH]; intros es Hn H; [cbn in Hn; lia|].
  induction es as [|[nm p] es IHe]; [discriminate|].
  rewrite disk_cons in H.
  assert (tsize (TDir es) <= S n) as Hn' by (cbn in *; lia).
  destruct (module_file sfx nm) eqn:Em; [apply has_data_cons; auto|].
  destruct (skipped_dir nm) eqn:Es; [apply has_data_cons; auto|].
  destruct p as [|sub].
  - apply (hd_file _ nm); [now left|now apply python_not|now apply special_not].
  - apply (hd_sub _ nm sub); [now left|now apply special_not|]. apply IH; auto. cbn in *. lia.
Qed.

(** One direction holds always: no package is said to have data files without
    having them. *)
Theorem C51_sound_partial : forall sfx es,
  contains_datafiles sfx (OnDisk (TDir es)) = ROk true -> has_data sfx es.
Proof. intros sfx es H. cbn [contains_datafiles] in H. injection H as H. eapply disk_sound; eauto. Qed.

(** The other direction holds for directories whose only subdirectories are
    special ones.  Missing: a data file after or below a subdirectory. *)
Theorem C51_flat_partial : forall sfx es,
  (forall n sub, In (n, TDir sub) es -> special n) ->
  (contains_datafiles sfx (OnDisk (TDir es)) = ROk true <-> has_data sfx es).
Proof.
  intros sfx es Hf. split; [apply C51_sound_partial|]. intros H. cbn [contains_datafiles]. f_equal.
  assert (exists n, In (n, TFile) es /\ module_file sfx n = false /\ skipped_dir n = false) as (n & Hi & Hm & Hs).
  { inversion H; subst; [|now elim H1; apply (Hf _ _ H0)]. exists n. split; [assumption|]. split; [now apply python_not|now apply special_not]. }
  clear H. induction es as [|[nm p] es IH]; [contradiction|]. rewrite disk_cons.
  assert (disk_datafiles sfx (TDir es) = true \/ (nm, p) = (n, TFile)) as HI.
  { destruct Hi as [Hi|Hi]; [now right|left]. apply IH; auto. intros n' sub Hn. apply (Hf n' sub). now right. }
  destruct (module_file sfx nm) eqn:Em.
  { destruct HI as [HI|HI]; [exact HI|]. injection HI as -> ->. congruence. }
  destruct (skipped_dir nm) eqn:Es.
  { destruct HI as [HI|HI]; [exact HI|]. injection HI as -> ->. congruence. }
  destruct p as [|sub]; [reflexivity|]. apply special_not in Es. elim Es. apply (Hf nm sub). now left.
Qed.

Example C51_nonvacuous :
  contains_datafiles [".py"; ".pyc"] (OnDisk (TDir [("__pycache__", TDir [("a.bin", TFile)]); ("__init__.py", TFile)])) = ROk false
  /\ contains_datafiles [".py"; ".pyc"] (OnDisk (TDir [("__pycache__", TDir []); ("x.txt", TFile); ("__init__.py", TFile)])) = ROk true.
Proof. split; reflexivity. Qed.

(** ** Packages in zip files *)

(** The archive made from a tree: one name per file and directory. *)
Fixpoint zip_names (prefix : string) (t : tree) : list (string * bool) :=
  match t with
  | TFile => []
  | TDir es =>
      (fix go (l : list (string * tree)) : list (string * bool) :=
         match l with
         | [] => []
         | (n, p) :: r =>
             match p with
             | TFile => [((prefix ++ n)%string, false)]
             | TDir _ => ((prefix ++ n ++ "/")%string, true) :: zip_names (prefix ++ n ++ "/") p
             end ++ go r
         end) es
  end.

(** File names have no slash and are not empty. *)
Inductive good_names : list (string * tree) -> Prop :=
| gn_nil : good_names []
| gn_file n r : has_char slash n = false -> n <> EmptyString -> good_names r -> good_names ((n, TFile) :: r)
| gn_dir n sub r : has_char slash n = false -> n <> EmptyString -> good_names sub -> good_names r ->
    good_names ((n, TDir sub) :: r).

Lemma zip_cons prefix n p r : zip_names prefix (TDir ((n, p) :: r)) =
  match p with
  | TFile => [((prefix ++ n)%string, false)]
  | TDir _ => ((prefix ++ n ++ "/")%string, true) :: zip_names (prefix ++ n ++ "/") p
  end ++ zip_names prefix (TDir r).
Proof. reflexivity. Qed.

(** A path below [prefix]: directories and file name. *)
Inductive at_path : list (string * tree) -> list string -> string -> Prop :=
| ap_here es n : In (n, TFile) es -> at_path es [] n
| ap_sub es n sub ds f : In (n, TDir sub) es -> at_path sub ds f -> at_path es (n :: ds) f.

Lemma zip_names_files : forall k es prefix, tsize (TDir es) <= k -> forall nm,
  In (nm, false) (zip_names prefix (TDir es)) <->
  exists ds f, at_path es ds f /\ nm = (prefix ++ join "/" (ds ++ [f]))%string.
Proof.
  induction k as [|k IH]; intros es prefix Hk nm; [cbn in Hk; lia|].
  induction es as [|[n p] es IHe].
  - split; [contradiction|]. intros (ds & f & H & _). inversion H; contradiction.
  - assert (tsize (TDir es) <= S k) as Hk' by (cbn in *; lia). specialize (IHe Hk').
    rewrite zip_cons, in_app_iff, IHe. clear IHe. split.
    + intros [H|(ds & f & H & ->)].
      * destruct p as [|sub].
        -- destruct H as [H|[]]. injection H as <-. exists [], n. split; [constructor; now left|reflexivity].
        -- destruct H as [H|H]; [discriminate|].
           apply (IH sub) in H as (ds & f & H & ->); [|cbn in *; lia].
           exists (n :: ds), f. split; [eapply ap_sub; [now left|exact H]|].
           rewrite <- !app_assoc_s. cbn [app]. rewrite (join_cons_s _ n) by (destruct ds; discriminate). reflexivity.
      * exists ds, f. split; [|reflexivity]. inversion H; subst; [constructor; now right|eapply ap_sub; [right|]; eauto].
    + intros (ds & f & H & ->). inversion H as [es0 f0 Hi|es0 n0 sub ds0 f0 Hi Hs]; subst.
      * destruct Hi as [Hi|Hi]; [injection Hi as -> ->; left; now left|].
        right. exists [], f. split; [now constructor|reflexivity].
      * destruct Hi as [Hi|Hi].
        -- injection Hi as -> ->. left. right. apply (IH sub); [cbn in *; lia|].
           exists ds0, f. split; [exact Hs|]. rewrite <- !app_assoc_s. cbn [app].
           rewrite (join_cons_s _ n0) by (destruct ds0; discriminate). reflexivity.
        -- right. exists (n0 :: ds0), f. split; [eapply ap_sub; eauto|reflexivity].
Qed.

Lemma good_at es : good_names es -> forall ds f, at_path es ds f -> Forall (fun c => has_char slash c = false) (ds ++ [f]).
Proof.
  intros Hg. induction Hg; intros ds f HA; inversion HA as [? ? Hi|? ? sub0 ? ? Hi Hs]; subst; try contradiction.
  - destruct Hi as [Hi|Hi]; [injection Hi as <-; repeat constructor; auto|]. apply IHHg. now constructor.
  - destruct Hi as [Hi|Hi]; [discriminate|]. apply IHHg. eapply ap_sub; eauto.
  - destruct Hi as [Hi|Hi]; [discriminate|]. apply IHHg2. now constructor.
  - destruct Hi as [Hi|Hi].
    + injection Hi as <- <-. cbn. constructor; auto.
    + apply IHHg2. eapply ap_sub; eauto.
Qed.

Lemma has_data_at sfx es : has_data sfx es <->
  exists ds f, at_path es ds f /\ Forall (fun d => skipped_dir d = false) (ds ++ [f]) /\ module_file sfx f = false.
Proof.
  split.
  - intros HD. induction HD as [n es Hi Hm Hs|n sub es Hi Hs Hsub IHs].
    + apply python_not in Hm. apply special_not in Hs. exists [], n. repeat split; auto; repeat constructor; auto.
    + apply special_not in Hs. destruct IHs as (ds & f & Ha & Hf & Hm). exists (n :: ds), f.
      split; [eapply ap_sub; eauto|]. split; [cbn; constructor; auto|exact Hm].
  - intros (ds & f & Ha & Hf & Hm). induction Ha as [es n Hi|es n sub ds f Hi Ha IH].
    + inversion Hf; subst. eapply hd_file; [exact Hi|now apply python_not|now apply special_not].
    + inversion Hf; subst. eapply hd_sub; [exact Hi|now apply special_not|now apply IH].
Qed.

Lemma join_app_slash a b : a <> [] -> b <> [] -> join "/" (a ++ b) = (join "/" a ++ "/" ++ join "/" b)%string.
Proof.
  intros Ha Hb. induction a as [|x a IH]; [congruence|]. destruct a as [|y a].
  - cbn [app]. now rewrite join_cons_s.
  - cbn [app] in *. rewrite (join_cons_s _ x) by discriminate. rewrite IH by discriminate.
    rewrite (join_cons_s _ x (y :: a)) by discriminate. now rewrite !app_assoc_s.
Qed.

(** C51 for zip files: exact, for an archive that holds the package tree below
    [comps] (a path without special directories) and anything elsewhere. *)
Theorem C51_zip : forall sfx comps es others,
  comps <> [] -> Forall (fun c => has_char slash c = false) comps ->
  Forall (fun c => ~ special c) comps ->
  Forall (fun s => has_char slash s = false) sfx -> good_names es ->
  (forall nm b, In (nm, b) others -> starts_with (join "/" comps ++ "/") nm = false) ->
  let names := others ++ zip_names (join "/" comps ++ "/") (TDir es) in
  (contains_datafiles sfx (InZip comps names) = ROk true <-> has_data sfx es).
Proof.
  intros sfx comps es others Hne Hc1 Hc2 Hs Hg Ho names. cbn [contains_datafiles].
  set (path := (join "/" comps ++ "/")%string) in *.
  assert (forall b : bool, (@ROk bool b = ROk true) <-> b = true) as HB
    by (intros b; split; [intros H; now injection H|now intros ->]).
  rewrite HB. clear HB. unfold zip_datafiles. rewrite existsb_exists, has_data_at.
  assert (forall ds f, at_path es ds f ->
    let nm := (path ++ join "/" (ds ++ [f]))%string in
    split_all slash nm = comps ++ ds ++ [f] /\ module_file sfx nm = module_file sfx f
    /\ starts_with path nm = true) as HN.
  { intros ds f Ha nm. pose proof (good_at es Hg ds f Ha) as Hgf.
    assert (nm = join "/" (comps ++ ds ++ [f])) as En.
    { unfold nm, path. rewrite (join_app_slash comps) by (auto; destruct ds; discriminate). now rewrite <- app_assoc_s. }
    split; [|split].
    - rewrite En. apply (split_all_join slash); [destruct comps; [congruence|discriminate]|].
      apply Forall_app. split; auto.
    - unfold module_file. rewrite En. rewrite app_assoc. clear - Hs. induction Hs; cbn; [reflexivity|].
      rewrite IHHs. now rewrite ends_with_last.
    - apply starts_with_app. }
  split.
  - intros ([nm isdir] & Hi & H). apply andb_true_iff in H as [H H4].
    apply andb_true_iff in H as [H H3]. apply andb_true_iff in H as [H1 H2].
    apply negb_true_iff in H2, H3, H4. subst isdir.
    unfold names in Hi. apply in_app_or in Hi as [Hi|Hi].
    + rewrite (Ho _ _ Hi) in H1. discriminate.
    + apply (zip_names_files _ _ _ (le_n _)) in Hi as (ds & f & Ha & ->).
      destruct (HN ds f Ha) as (E1 & E2 & _). exists ds, f. split; [exact Ha|].
      rewrite E1 in H2. rewrite E2 in H3. split; [|exact H3].
      rewrite existsb_app in H2. apply orb_false_iff in H2 as [_ H2].
      apply Forall_forall. intros x Hx. destruct (skipped_dir x) eqn:Ex; [|reflexivity].
      assert (existsb skipped_dir (ds ++ [f]) = true) by (apply existsb_exists; eauto). congruence.
  - intros (ds & f & Ha & Hf & Hm). destruct (HN ds f Ha) as (E1 & E2 & E3).
    exists ((path ++ join "/" (ds ++ [f]))%string, false). split.
    + unfold names. apply in_or_app. right. apply (zip_names_files _ _ _ (le_n _)). eauto.
    + rewrite E3, E1, E2, Hm. cbn. rewrite !andb_true_r. apply negb_true_iff.
      destruct (existsb skipped_dir (comps ++ ds ++ [f])) eqn:Ex; [|reflexivity].
      apply existsb_exists in Ex as (x & Hx & Ex). rewrite Forall_forall in Hc2, Hf.
      apply in_app_or in Hx as [Hx|Hx]; [elim (Hc2 _ Hx); now apply special_is|rewrite (Hf _ Hx) in Ex; discriminate].
Qed.

Example C51_zip_nonvacuous :
  contains_datafiles [".py"] (InZip ["pkg"]
    ([("pkg2/x.txt", false)] ++ zip_names "pkg/" (TDir [("sub", TDir [("m.py", TFile)]); ("d.txt", TFile)]))) = ROk true
  /\ contains_datafiles [".py"] (InZip ["pkg"]
    ([("pkg2/x.txt", false)] ++ zip_names "pkg/" (TDir [("sub", TDir [("m.py", TFile)])]))) = ROk false.
Proof. split; reflexivity. Qed.

Print Assumptions C51_first_directory_refuted.
Print Assumptions C51_order_dependent.
Print Assumptions C51_sound_partial.
Print Assumptions C51_flat_partial.
Print Assumptions C51_zip.
