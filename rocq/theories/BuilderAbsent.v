(** Modules that do not exist. *)
From Verif Require Export BuilderFuel BuilderCalls.

(** [find_spec] finds nothing, at any time: None, the AttributeError about
    [__path__], or the ModuleNotFoundError for a name below a plain module. *)
Definition nonexistent (E : env) (name : string) : Prop := forall t fakes,
  e_find_spec E t fakes name = ROk None \/ e_find_spec E t fakes name = RErr EAttrPath
  \/ e_find_spec E t fakes name = RErr (ENotFound false).

(** [c.x] is a valid name of something in [c]. *)
Definition member_name (c x : string) : Prop :=
  c <> ""%string /\ dotless x /\ starts_with "." c = false /\ has_sub ".." (c ++ "." ++ x) = false.

(** No module [name], and no implied action for it, or no package that it would
    be in; packages that exist are already in the graph. *)
Inductive absent (E : env) (s : st) : string -> Prop :=
| absent_top name : ~ in_graph s name -> dotless name -> name <> ""%string ->
    nonexistent E name -> assoc name (s_lazy s) = None -> absent E s name
| absent_in c x k : ~ in_graph s (c ++ "." ++ x) -> member_name c x ->
    kind_of s c = Some k -> k <> ExcludedModule -> k <> Distribution ->
    nonexistent E (c ++ "." ++ x) -> assoc (c ++ "." ++ x)%string (s_lazy s) = None -> absent E s (c ++ "." ++ x)
| absent_below c x : ~ in_graph s (c ++ "." ++ x) -> member_name c x ->
    kind_of s c = Some MissingModule -> absent E s (c ++ "." ++ x)
| absent_child c x : ~ in_graph s (c ++ "." ++ x) -> member_name c x ->
    absent E s c -> absent E s (c ++ "." ++ x).

Definition missing_state (s : st) (name : string) : st :=
  schedule name [] (log (set_graph s (Graph (g_nodes (s_graph s) ++ [plain_node MissingModule name])
    (g_edges (s_graph s)) (g_roots (s_graph s)))) (EvAdd name [])).

Definition is_post (w : work) : Prop := match w with DoPost _ => True | _ => False end.

(** What looking up an absent name does. *)
Record after (s s' : st) (name : string) : Prop := {
  a_kind : kind_of s' name = Some MissingModule;
  a_missing : s_missing s' = s_missing s;
  a_post : s_post s' = s_post s;
  a_lazy : s_lazy s' = s_lazy s;
  a_nodes : forall id, in_graph s' id -> in_graph s id \/ String.length id <= String.length name;
  a_new : forall id, in_graph s' id -> in_graph s id \/ kind_of s' id = Some MissingModule;
  a_keep : forall id k, kind_of s id = Some k -> kind_of s' id = Some k;
  a_stack : exists l, s_stack s' = l ++ s_stack s /\ Forall is_post l
}.

Lemma schedule_post_only name s : exists l, s_stack (schedule name [] s) = l ++ s_stack s /\ Forall is_post l.
Proof.
  unfold schedule. cbn [map rev app]. destruct (memb name (s_seen (log s (EvSched name [])))).
  - exists []. now split.
  - exists [DoPost name]. split; [reflexivity|]. repeat constructor.
Qed.
Lemma after_missing s name : ~ in_graph s name -> after s (missing_state s name) name.
Proof.
  intros N. assert (Hn : gfind (s_graph s) name = None) by (unfold in_graph in N; destruct (gfind _ _); [elim N; discriminate|reflexivity]).
  set (s1 := log (set_graph s (Graph (g_nodes (s_graph s) ++ [plain_node MissingModule name])
    (g_edges (s_graph s)) (g_roots (s_graph s)))) (EvAdd name [])).
  assert (G : forall id, gfind (s_graph (missing_state s name)) id =
    match gfind (s_graph s) id with Some x => Some x | None => if seqb name id then Some (plain_node MissingModule name) else None end).
  { intros id. unfold missing_state. fold s1. rewrite schedule_graph. unfold s1. cbn [s_graph log set_graph]. now rewrite gfind_app. }
  constructor.
  - unfold kind_of. rewrite G, Hn. now rewrite (proj2 (seqb_eq name name) eq_refl).
  - unfold missing_state. fold s1. unfold schedule. now destruct (memb name _).
  - unfold missing_state. fold s1. unfold schedule. now destruct (memb name _).
  - unfold missing_state. fold s1. unfold schedule. now destruct (memb name _).
  - intros id. unfold in_graph. rewrite G. destruct (gfind (s_graph s) id); [left; discriminate|].
    destruct (seqb name id) eqn:E; [|congruence]. apply seqb_eq in E as ->. right. apply Nat.le_refl.
  - intros id. unfold in_graph, kind_of. rewrite G. destruct (gfind (s_graph s) id); [left; discriminate|].
    destruct (seqb name id) eqn:E; [|congruence]. now right.
  - intros id k. unfold kind_of. rewrite G. destruct (gfind (s_graph s) id); [auto|discriminate].
  - apply (schedule_post_only name s1).
Qed.
Lemma after_tick s s' name : after (tick s) s' name -> after s s' name.
Proof. intros []. now constructor. Qed.

Lemma create_missing_ok E k importing name s : s_missing s = [] -> ~ in_graph s name ->
  create_missing (exec E (S k)) importing name s = Some (ROk name, missing_state s name).
Proof.
  intros M N. unfold create_missing. cbn [exec f_miss]. unfold miss_body, gets, bind. rewrite M. cbn [nth_error ret].
  unfold ret, add_node, lift_graph, gadd_node, ghas, bind. cbn [n_name plain_node].
  unfold in_graph in N. destruct (gfind (s_graph s) name); [elim N; discriminate|]. reflexivity.
Qed.
Lemma load_absent E k importing name s : nonexistent E name -> starts_with "." name = false ->
  s_missing s = [] -> ~ in_graph s name ->
  load_body E (exec E (S k)) importing name s = Some (ROk name, missing_state (tick s) name).
Proof.
  intros X D M N. unfold load_body, bind at 1. unfold assert. rewrite D. cbn [negb ret]. unfold ret at 1.
  unfold get_node, gets, bind at 1.
  assert (Hn : gfind (s_graph s) name = None) by (unfold in_graph in N; destruct (gfind _ _); [elim N; discriminate|reflexivity]).
  rewrite Hn. unfold attempt at 1, spec_or_none, bind, attempt at 1, find_spec.
  pose proof (create_missing_ok E k importing name (tick s) M N) as C.
  destruct (X (s_clock s) (s_fakes s)) as [->|[->| ->]]; cbn [ret raise]; unfold ret, raise.
  - unfold attempt. now rewrite C.
  - unfold attempt. now rewrite C.
  - unfold load_failed. cbn [is_exception negb]. now rewrite C.
Qed.

Lemma kind_found s id k : kind_of s id = Some k -> exists n, gfind (s_graph s) id = Some n /\ n_kind n = k.
Proof. unfold kind_of. destruct (gfind (s_graph s) id) as [n|]; [|discriminate]. intros H. injection H as <-. now exists n. Qed.
Lemma find_there E k importing name link s kd : kind_of s name = Some kd -> kd <> Distribution ->
  f_find (exec E (S k)) importing name link s = Some (ROk name, s).
Proof.
  intros H N. apply kind_found in H as (n & Hn & Hk). cbn [exec f_find]. unfold find_body, find_module, get_node, gets, bind.
  rewrite Hn. unfold assert. replace (is_distribution (n_kind n)) with false; [reflexivity|]. rewrite Hk. now destruct kd.
Qed.

(** Adding an edge keeps all that. *)
Lemma after_edge s s' name c : after s s' name -> in_graph s' c ->
  exists s2, add_edge name c default_dep s' = Some (ROk tt, s2) /\ after s s2 name.
Proof.
  intros A Hc. destruct (kind_found s' name _ (a_kind _ _ _ A)) as (n & Hn & _).
  unfold in_graph in Hc. destruct (gfind (s_graph s') c) as [nc|] eqn:Ec; [|congruence].
  eexists. split.
  - unfold add_edge, lift_graph, gadd_edge, ghas. rewrite Hn, Ec. cbn [andb]. reflexivity.
  - destruct A. constructor; auto.
Qed.

Lemma starts_app p c x : c <> ""%string -> starts_with "." c = false -> p = (c ++ x)%string -> starts_with "." p = false.
Proof.
  destruct c as [|a c]; [congruence|]. intros _ H ->. destruct (starts_with "." (String a c ++ x)) eqn:E; [|reflexivity].
  apply starts_with_spec in E as [t E]. injection E as -> _. pose proof (starts_with_app "." c) as P. cbn [append] in P. congruence.
Qed.
Lemma child_split c x : member_name c x -> split_package (c ++ "." ++ x) = ROk (Some c, x).
Proof.
  intros (N & D & Sc & H). assert (L : lstrip dot c = c) by (apply lstrip_no; exact Sc).
  pose proof (split_child_plain c x) as P. rewrite L in P. specialize (P N D).
  destruct (split_package (c ++ "." ++ x)) as [y|e] eqn:E; [now rewrite P|]. exfalso.
  unfold split_package in E. destruct (seqb (c ++ "." ++ x) "") eqn:E0.
  { apply seqb_eq in E0. destruct c; [congruence|discriminate]. }
  rewrite lstrip_app_ne in E by (rewrite L; exact N). rewrite L, E0, H in E. cbn [orb] in E.
  destruct (rpartition dot _); discriminate.
Qed.
Lemma top_split name : dotless name -> name <> ""%string -> split_package name = ROk (None, name).
Proof.
  intros D N. unfold split_package. destruct (seqb name "") eqn:E0; [apply seqb_eq in E0; contradiction|].
  rewrite lstrip_no by now apply dotless_starts. rewrite E0.
  destruct (has_sub ".." name) eqn:Es.
  { apply has_sub_spec in Es as (a & b & ->). unfold dotless in D. rewrite has_char_app in D. apply Bool.orb_false_iff in D as [_ D]. discriminate. }
  cbn [orb]. unfold rpartition. rewrite (proj2 (rpart_None dot name) D). rewrite Nat.sub_diag. reflexivity.
Qed.

Lemma find_module_none name s : ~ in_graph s name -> find_module name s = Some (ROk None, s).
Proof.
  intros N. unfold find_module, get_node, gets, bind. unfold in_graph in N.
  destruct (gfind (s_graph s) name); [elim N; discriminate|reflexivity].
Qed.
Lemma implied_none r importing name s : ~ in_graph s name -> assoc name (s_lazy s) = None ->
  implied_references r importing name s = Some (ROk None, s).
Proof.
  intros N A. unfold implied_references, get_node, gets, bind, pop_lazy. unfold in_graph in N.
  destruct (gfind (s_graph s) name); [elim N; discriminate|]. now rewrite A.
Qed.
Lemma kind_test_of p id s k : kind_of s id = Some k -> kind_test p id s = Some (ROk (p k), s).
Proof.
  intros H. apply kind_found in H as (n & Hn & <-). unfold kind_test, get_node, gets, bind. now rewrite Hn.
Qed.

Lemma find_absent E s name : s_missing s = [] -> absent E s name -> exists d, forall importing,
  exists s', f_find (exec E d) importing name true s = Some (ROk name, s') /\ after s s' name.
Proof.
  intros M H. induction H as [name N D Ne X A|c x k N (C0 & D & Sc & P) Hk K1 K2 X A|c x N (C0 & D & Sc & P) Hk|c x N (C0 & D & Sc & P) Hc IH].
  - exists 3. intros importing. change (f_find (exec E 3) importing name true s) with (find_body (exec E 2) importing name true s). unfold find_body.
    unfold bind at 1. rewrite (find_module_none name s N). unfold bind at 1. unfold of_result. rewrite (top_split name D Ne). cbn [fst].
    unfold bind at 1, ret at 1. unfold bind at 1 2. rewrite (implied_none _ importing name s N A).
    change (f_load (exec E 2) importing name s) with (load_body E (exec E 1) importing name s). rewrite (load_absent E 0 importing name s X); auto.
    2:{ apply dotless_starts in D. exact D. }
    pose proof (after_tick _ _ _ (after_missing (tick s) name N)) as T.
    unfold bind at 1. rewrite (kind_test_of is_missing name _ _ (a_kind _ _ _ T)). cbn [is_missing ret].
    eexists. split; [reflexivity|exact T].
  - set (name := (c ++ "." ++ x)%string) in *. exists 3. intros importing. change (f_find (exec E 3) importing name true s) with (find_body (exec E 2) importing name true s). unfold find_body.
    unfold bind at 1. rewrite (find_module_none name s N). unfold bind at 1. unfold of_result. unfold name at 1. rewrite child_split by now repeat split. cbn [fst].
    unfold bind at 1 2. rewrite (find_there E 1 importing c true s k Hk K2).
    unfold bind at 1. rewrite (kind_test_of is_missing c s k Hk).
    destruct (is_missing k) eqn:Em.
    + unfold bind at 1. rewrite (create_missing_ok E 1 importing name s M N).
      unfold ret at 1. unfold bind at 1, ret at 1.
      pose proof (after_missing s name N) as T. unfold bind at 1. rewrite (kind_test_of is_missing name _ _ (a_kind _ _ _ T)).
      cbn [is_missing negb orb].
      destruct (after_edge s _ name c T) as (s2 & E2 & T2).
      { apply (a_keep _ _ _ T) in Hk. unfold in_graph, kind_of in *. destruct (gfind _ c); discriminate. }
      unfold bind at 1. rewrite E2. exists s2. now split.
    + unfold bind at 1. rewrite (kind_test_of is_excluded c s k Hk).
      replace (is_excluded k) with false by now destruct k. unfold ret at 1. unfold bind at 1 2.
      rewrite (implied_none _ importing name s N A). change (f_load (exec E 2) importing name s) with (load_body E (exec E 1) importing name s).
      rewrite (load_absent E 0 importing name s X); auto; [|eapply starts_app; [exact C0|exact Sc|reflexivity]].
      pose proof (after_tick _ _ _ (after_missing (tick s) name N)) as T.
      unfold bind at 1. rewrite (kind_test_of is_missing name _ _ (a_kind _ _ _ T)). cbn [is_missing negb orb].
      destruct (after_edge s _ name c T) as (s2 & E2 & T2).
      { apply (a_keep _ _ _ T) in Hk. unfold in_graph, kind_of in *. destruct (gfind _ c); discriminate. }
      unfold bind at 1. rewrite E2. exists s2. now split.
  - set (name := (c ++ "." ++ x)%string) in *. exists 3. intros importing. change (f_find (exec E 3) importing name true s) with (find_body (exec E 2) importing name true s). unfold find_body.
    unfold bind at 1. rewrite (find_module_none name s N). unfold bind at 1. unfold of_result. unfold name at 1. rewrite child_split by now repeat split. cbn [fst].
    unfold bind at 1 2. rewrite (find_there E 1 importing c true s _ Hk) by discriminate.
    unfold bind at 1. rewrite (kind_test_of is_missing c s _ Hk). cbn [is_missing].
    unfold bind at 1. rewrite (create_missing_ok E 1 importing name s M N).
    unfold ret at 1. unfold bind at 1, ret at 1.
    pose proof (after_missing s name N) as T. unfold bind at 1. rewrite (kind_test_of is_missing name _ _ (a_kind _ _ _ T)).
    cbn [is_missing negb orb].
    destruct (after_edge s _ name c T) as (s2 & E2 & T2).
    { apply (a_keep _ _ _ T) in Hk. unfold in_graph, kind_of in *. destruct (gfind _ c); discriminate. }
    unfold bind at 1. rewrite E2. exists s2. now split.
  - destruct IH as [d IH]. set (name := (c ++ "." ++ x)%string) in *. exists (S (S d)). intros importing.
    destruct (IH importing) as (s1 & F1 & T1).
    assert (F2 : f_find (exec E (S d)) importing c true s = Some (ROk c, s1)) by (apply (le_find _ _ (exec_le E d (S d) (Nat.le_succ_diag_r d))); exact F1).
    change (f_find (exec E (S (S d))) importing name true s) with (find_body (exec E (S d)) importing name true s). unfold find_body.
    unfold bind at 1. rewrite (find_module_none name s N). unfold bind at 1. unfold of_result. unfold name at 1. rewrite child_split by now repeat split. cbn [fst].
    unfold bind at 1 2. rewrite F2. unfold bind at 1. rewrite (kind_test_of is_missing c s1 _ (a_kind _ _ _ T1)). cbn [is_missing].
    assert (N1 : ~ in_graph s1 name).
    { intros K. apply (a_nodes _ _ _ T1) in K as [K|K]; [contradiction|]. unfold name in K. rewrite !length_app_s in K. cbn in K. lia. }
    assert (M1 : s_missing s1 = []) by (rewrite (a_missing _ _ _ T1); exact M).
    unfold bind at 1. rewrite (create_missing_ok E d importing name s1 M1 N1).
    unfold ret at 1. unfold bind at 1, ret at 1.
    pose proof (after_missing s1 name N1) as T. unfold bind at 1. rewrite (kind_test_of is_missing name _ _ (a_kind _ _ _ T)).
    cbn [is_missing negb orb].
    destruct (after_edge s1 _ name c T) as (s2 & E2 & T2).
    { pose proof (a_keep _ _ _ T _ _ (a_kind _ _ _ T1)) as K. unfold in_graph, kind_of in *. destruct (gfind _ c); discriminate. }
    unfold bind at 1. rewrite E2. exists s2. split; [reflexivity|].
    destruct T1 as [? ? ? ? ? ? ? (l1 & L1 & Q1)], T2 as [? ? ? ? Y Z ? (l2 & L2 & Q2)]. constructor; try congruence; auto.
    + intros id K. apply Y in K as [K|K]; [|now right]. apply a_nodes0 in K as [K|K]; [now left|right].
      unfold name. rewrite length_app_s. lia.
    + intros id K. apply Z in K as [K|K]; [|now right]. apply a_new0 in K as [K|K]; [now left|right]. auto.
    + exists (l2 ++ l1). rewrite L2, L1. split; [now rewrite app_assoc|]. apply Forall_app. now split.
Qed.

(** A work stack with nothing but post processing, and no hooks. *)
Lemma run_posts E : forall l s, s_stack s = l -> Forall is_post l -> s_post s = [] ->
  exists s', f_run (exec E (S (S (List.length l)))) s = Some (ROk tt, s') /\ s_graph s' = s_graph s.
Proof.
  induction l as [|w l IH]; intros s Hs Hp H0.
  - exists s. split; [|reflexivity]. cbn [exec f_run List.length]. unfold run_body. now rewrite Hs.
  - inversion Hp as [|? ? Hw Hl]; subst. destruct w as [n|?|?|?]; try contradiction Hw.
    set (s1 := log (set_run (set_stack s l) (DoPost n :: s_run s)) (EvPop (DoPost n))).
    set (s2 := log s1 (EvHook n)). set (s3 := log (set_run s2 (tl (s_run s2))) (EvDone (DoPost n))).
    destruct (IH s3 eq_refl Hl H0) as (s' & F & G). exists s'. split; [|exact G].
    change (f_run (exec E (S (S (List.length (DoPost n :: l))))) s) with (run_body E (exec E (S (S (List.length l)))) s).
    unfold run_body. rewrite Hs. fold s1. cbn [do_work]. unfold bind, note, modify. fold s2.
    change (f_post (exec E (S (S (List.length l)))) 0 n s2) with (post_body E (exec E (S (List.length l))) 0 n s2).
    unfold post_body, gets, bind. change (s_post s2) with (s_post s). rewrite H0. cbn [nth_error]. unfold ret. exact F.
Qed.

(** Other absent names stay absent or are missing modules now. *)
Lemma absent_after E s s' other name : after s s' other -> absent E s name ->
  absent E s' name \/ kind_of s' name = Some MissingModule.
Proof.
  intros A H.
  assert (D : forall id, ~ in_graph s id -> ~ in_graph s' id \/ kind_of s' id = Some MissingModule).
  { intros id N. destruct (gfind (s_graph s') id) eqn:E0; [|left; unfold in_graph; rewrite E0; auto].
    right. destruct (a_new _ _ _ A id) as [K|K]; [unfold in_graph; rewrite E0; discriminate|contradiction|exact K]. }
  induction H as [name N Dn Ne X L|c x k N P Hk K1 K2 X L|c x N P Hk|c x N P Hc IH];
    (destruct (D _ N) as [N'|N']; [left|now right]).
  - apply absent_top; auto. now rewrite (a_lazy _ _ _ A).
  - eapply absent_in; eauto; [eapply a_keep; eassumption|]. now rewrite (a_lazy _ _ _ A).
  - apply absent_below; auto. eapply a_keep; eassumption.
  - destruct IH as [IH|IH]; [now apply absent_child|now apply absent_below].
Qed.

(** ** Distributions of absent modules *)

Definition fine_name (E : env) (s : st) (name : string) : Prop :=
  absent E s name \/ exists k, kind_of s name = Some k /\ k <> Distribution.
Lemma fine_after E s s' other name : after s s' other -> fine_name E s name -> fine_name E s' name.
Proof.
  intros A [H|(k & H & N)].
  - destruct (absent_after E s s' other name A H) as [K|K]; [now left|]. right. exists MissingModule. split; [exact K|discriminate].
  - right. exists k. split; [|exact N]. eapply a_keep; eassumption.
Qed.

(** Same nodes, hooks and implied actions. *)
Record alike (s s' : st) : Prop := {
  al_nodes : g_nodes (s_graph s') = g_nodes (s_graph s);
  al_missing : s_missing s' = s_missing s;
  al_post : s_post s' = s_post s;
  al_lazy : s_lazy s' = s_lazy s;
  al_stack : s_stack s' = s_stack s
}.
Lemma alike_find s s' id : alike s s' -> gfind (s_graph s') id = gfind (s_graph s) id.
Proof. intros A. unfold gfind. now rewrite (al_nodes _ _ A). Qed.
Lemma alike_absent E s s' name : alike s s' -> absent E s name -> absent E s' name.
Proof.
  intros A H. assert (K : forall id, kind_of s' id = kind_of s id) by (intros id; unfold kind_of; now rewrite (alike_find s s' id A)).
  assert (G : forall id, ~ in_graph s id -> ~ in_graph s' id) by (intros id; unfold in_graph; now rewrite (alike_find s s' id A)).
  induction H.
  - apply absent_top; auto. now rewrite (al_lazy _ _ A).
  - eapply absent_in; eauto; [now rewrite K|now rewrite (al_lazy _ _ A)].
  - apply absent_below; auto. now rewrite K.
  - apply absent_child; auto.
Qed.
Lemma alike_fine E s s' name : alike s s' -> fine_name E s name -> fine_name E s' name.
Proof.
  intros A [H|(k & H & N)]; [left; eapply alike_absent; eassumption|right]. exists k. split; [|exact N].
  unfold kind_of in *. now rewrite (alike_find s s' name A).
Qed.

Lemma find_fine E s name : s_missing s = [] -> fine_name E s name ->
  exists d s', f_find (exec E d) None name true s = Some (ROk name, s')
    /\ in_graph s' name /\ (after s s' name \/ s' = s).
Proof.
  intros M [H|(k & H & N)].
  - destruct (find_absent E s name M H) as [d Hd]. destruct (Hd None) as (s' & F & A). exists d, s'. split; [exact F|].
    split; [|now left]. pose proof (a_kind _ _ _ A) as K. unfold in_graph, kind_of in *. destruct (gfind _ name); discriminate.
  - exists 1, s. split; [now apply (find_there E 0 None name true s k)|]. split; [|now right].
    unfold in_graph, kind_of in *. destruct (gfind _ name); discriminate.
Qed.

Lemma iter_fine E id names : forall s, s_missing s = [] -> (forall n, In n names -> fine_name E s n) ->
  kind_of s id = Some Distribution ->
  exists d s', iter (fun name => m <- f_find (exec E d) None name true ;; add_edge id m default_dep) names s = Some (ROk tt, s')
    /\ s_post s' = s_post s /\ exists l, s_stack s' = l ++ s_stack s /\ Forall is_post l.
Proof.
  induction names as [|name names IH]; intros s M F K.
  - exists 0, s. split; [reflexivity|]. split; [reflexivity|]. exists []. now split.
  - destruct (find_fine E s name M) as (d & s1 & F1 & G1 & A1); [apply F; now left|].
    assert (X : s_missing s1 = [] /\ s_post s1 = s_post s /\ (exists l, s_stack s1 = l ++ s_stack s /\ Forall is_post l)
       /\ kind_of s1 id = Some Distribution /\ forall n, In n names -> fine_name E s1 n).
    { destruct A1 as [A1| ->].
      - split; [rewrite (a_missing _ _ _ A1); exact M|]. split; [exact (a_post _ _ _ A1)|]. split; [exact (a_stack _ _ _ A1)|].
        split; [eapply a_keep; eassumption|]. intros n Hn. eapply fine_after; [exact A1|]. apply F. now right.
      - split; [exact M|]. split; [reflexivity|]. split; [exists []; now split|]. split; [exact K|]. intros n Hn. apply F. now right. }
    destruct X as (M1 & P1 & (l1 & L1 & Q1) & K1 & F1').
    set (s2 := set_graph s1 (Graph (g_nodes (s_graph s1)) (edges_add (g_edges (s_graph s1)) id name default_dep) (g_roots (s_graph s1)))).
    assert (A2 : alike s1 s2) by (constructor; reflexivity).
    assert (E2 : add_edge id name default_dep s1 = Some (ROk tt, s2)).
    { unfold add_edge, lift_graph, gadd_edge, ghas. destruct (kind_found _ _ _ K1) as (n & -> & _).
      unfold in_graph in G1. destruct (gfind (s_graph s1) name); [reflexivity|congruence]. }
    destruct (IH s2) as (d' & s' & I & P & l & L & Q).
    { exact M1. }
    { intros n Hn. eapply alike_fine; [exact A2|]. now apply F1'. }
    { exact K1. }
    exists (Nat.max d d'), s'. split.
    + cbn [iter]. unfold bind at 1. unfold bind at 1.
      rewrite (le_find _ _ (exec_le E d _ (Nat.le_max_l d d')) _ _ _ _ _ F1). rewrite E2.
      revert I. apply le_iter. intros x. apply le_bind; [|intros y sx rx Hx; exact Hx].
      apply (le_find _ _ (exec_le E d' _ (Nat.le_max_r d d'))).
    + split; [now rewrite P|]. exists (l ++ l1). rewrite L. cbn [s_stack set_graph s2]. rewrite L1.
      split; [now rewrite app_assoc|]. apply Forall_app. now split.
Qed.

(** ** Names from components *)

Lemma starts_dot_cons c t : starts_with "." (String c t) = Ascii.eqb dot c.
Proof.
  apply eq_true_iff_eq. rewrite starts_with_spec, Ascii.eqb_eq. split.
  - intros [r H]. now injection H as -> _.
  - intros <-. now exists t.
Qed.
Lemma sub_dots_cons c t : has_sub ".." (String c t) = (Ascii.eqb dot c && starts_with "." t || has_sub ".." t)%bool.
Proof.
  rewrite has_sub_eq. f_equal. apply eq_true_iff_eq. rewrite andb_true_iff, !starts_with_spec, Ascii.eqb_eq. split.
  - intros [r H]. injection H as -> ->. split; [reflexivity|now exists r].
  - intros [<- [r ->]]. now exists r.
Qed.
Lemma dotless_cons c t : dotless (String c t) -> Ascii.eqb dot c = false /\ dotless t.
Proof. unfold dotless. cbn [has_char]. rewrite orb_false_iff, Ascii.eqb_sym. auto. Qed.
Lemma starts_dotless x t : dotless x -> x <> ""%string -> starts_with "." (x ++ t) = false.
Proof. intros D N. destruct x as [|c x]; [congruence|]. cbn [append]. rewrite starts_dot_cons. now apply dotless_cons in D. Qed.
Lemma sub_dotless x : dotless x -> has_sub ".." x = false.
Proof.
  induction x as [|c x IH]; intros D; [reflexivity|]. apply dotless_cons in D as [D1 D2]. rewrite sub_dots_cons, D1. now apply IH.
Qed.
Lemma sub_dots_app x t : dotless x -> starts_with "." t = false -> has_sub ".." t = false -> has_sub ".." (x ++ "." ++ t) = false.
Proof.
  induction x as [|c x IH]; intros D A B.
  - cbn [append]. rewrite sub_dots_cons, A, B. reflexivity.
  - apply dotless_cons in D as [D1 D2]. change ((String c x ++ "." ++ t)%string) with (String c (x ++ "." ++ t)).
    rewrite sub_dots_cons, D1. now apply IH.
Qed.
Lemma join_clean l : components l -> starts_with "." (join "." l) = false /\ has_sub ".." (join "." l) = false.
Proof.
  intros [N F]. induction F as [|x l [D X] F IH]; [congruence|]. destruct l as [|y l].
  - cbn [join]. split; [|now apply sub_dotless]. rewrite <- (app_nil_r_s x). now apply starts_dotless.
  - destruct IH as [I1 I2]; [discriminate|]. rewrite join_cons_s by discriminate.
    split; [now apply starts_dotless|now apply sub_dots_app].
Qed.

(** Nothing exists, and neither the name nor one of its packages is in the graph
    or in the table of implied actions. *)
Lemma absent_join E s l : (forall n, nonexistent E n) -> components l ->
  (forall l1 l2, l1 <> [] -> l = l1 ++ l2 -> ~ in_graph s (join "." l1) /\ assoc (join "." l1) (s_lazy s) = None) ->
  absent E s (join "." l).
Proof.
  intros X. induction l as [|x l IH] using rev_ind; intros [N F] H; [congruence|].
  destruct (H (l ++ [x]) []) as [G L]; [exact N|now rewrite app_nil_r|].
  apply Forall_app in F as [F Fx]. inversion Fx as [|? ? [D Y] _]; subst. destruct l as [|y l].
  - apply absent_top; auto.
  - rewrite join_snoc in * by discriminate. assert (C : components (y :: l)) by (split; [discriminate|exact F]).
    apply absent_child; auto.
    + repeat split; [now apply join_nonempty|exact D|apply (join_clean _ C)|].
      rewrite <- join_snoc by discriminate. apply join_clean. split; [exact N|]. apply Forall_app. now split.
    + apply IH; [exact C|]. intros l1 l2 N1 E1. apply (H l1 (l2 ++ [x])); [exact N1|]. rewrite E1. now rewrite app_assoc.
Qed.
