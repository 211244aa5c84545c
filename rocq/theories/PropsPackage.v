(** Theorems about [import_package]: C41, C42. *)
From Verif Require Import BuilderPackage World.
Open Scope string_scope.

(** What the file system holds, for environments that do not change: the .py files
    and the directories in the search locations of [pkg]. *)
Record static (E : env) : Prop := {
  st_spec : forall t f t' f' name, e_find_spec E t f name = e_find_spec E t' f' name;
  st_py : forall t t' path, e_glob_py E t path = e_glob_py E t' path;
  st_dirs : forall t t' path, e_subdirs E t path = e_subdirs E t' path
}.
Definition location (E : env) (pkg path : string) : Prop :=
  exists sp l, e_find_spec E 0 [] pkg = ROk (Some sp) /\ sp_search sp = Some l /\ In path l.
Definition py_in (E : env) (pkg stem : string) : Prop :=
  e_isidentifier E stem = true /\
  exists path l, location E pkg path /\ e_glob_py E 0 path = ROk l /\ In stem l.
Definition dir_in (E : env) (pkg dir : string) : Prop :=
  e_isidentifier E dir = true /\
  exists path l, location E pkg path /\ e_subdirs E 0 path = ROk l /\ In dir l.

(** ** C41: only the modules of the package *)

Definition C41_statement : Prop := forall E s0 s fuel n pkg ans s' fuel2 ans2 s2,
  order_ok E -> static E -> start s0 -> reach E s0 s ->
  top_call E fuel (AImportPackage n pkg) s = Some (ans, s') ->
  top_call E fuel2 ARunStack s' = Some (ans2, s2) ->
  forall last, last = "__init__" \/ last = "__pycache__" ->
  in_graph s2 (pkg ++ "." ++ last) -> in_graph s (pkg ++ "." ++ last).

(** The listing of a package directory always has [__init__], often [__pycache__];
    importlib finds a module of the first name, a namespace package of the second. *)
Definition pkg_world : env := world
  [("main", ESource false [] []); ("pkg", ESource true [] []); ("pkg.__init__", ESource false [] []); ("pkg.m", ESource false [] []);
   ("pkg.__pycache__", ENamespace)] []
  [("pkg", (["__init__"; "m"], ["__pycache__"]))].
Definition pkg_start : st := Eval vm_compute in snd (the_calls pkg_world [AAddModule "main"] new).
Definition pkg_listed : st := Eval vm_compute in snd (the_calls pkg_world [AImportPackage "main" "pkg"] pkg_start).
Definition pkg_done : st := Eval vm_compute in snd (the_calls pkg_world [ARunStack] pkg_listed).

Lemma world_static w scripts files : static (world w scripts files).
Proof. constructor; reflexivity. Qed.

Lemma world_order w scripts files : order_ok (world w scripts files).
Proof. intros l x. reflexivity. Qed.

Theorem C41_refuted : ~ C41_statement.
Proof.
  intros H.
  assert (K : in_graph pkg_start "pkg.__init__").
  { refine (H pkg_world new pkg_start 60 "main" "pkg" (AnsId "pkg") pkg_listed 60 AnsUnit pkg_done _ _ _ _ _ _ "__init__" _ _).
    - apply world_order.
    - apply world_static.
    - now exists [], [], [].
    - apply (ran _ [AAddModule "main"]). vm_compute. reflexivity.
    - vm_compute. reflexivity.
    - vm_compute. reflexivity.
    - now left.
    - vm_compute. discriminate. }
  apply K. vm_compute. reflexivity.
Qed.
Example C41_pycache : in_graph pkg_done "pkg.__pycache__" /\ ~ in_graph pkg_start "pkg.__pycache__".
Proof. split; vm_compute; [discriminate|]. intros K. now apply K. Qed.

(** What holds: the names that [import_package] asks for are those of the .py files
    and directories that are in a location of the package and are identifiers. *)
Theorem C41_listed_partial : forall E s0 s id name,
  static E -> start s0 -> reach E s0 s -> In (EvList id name) (s_log s) ->
  exists pkg stem, name = pkg ++ "." ++ stem /\ (py_in E pkg stem \/ dir_in E pkg stem).
Proof.
  intros E s0 s id name [T1 T2 T3] H0 HR Hl. destruct (reach_packages E s0 s H0 HR) as (_ & _ & B).
  destruct (B id name Hl) as (pkg & stem & -> & Hi & t & f & sp & path & l & A1 & A2 & A3 & A4).
  exists pkg, stem. split; [reflexivity|].
  assert (L : location E pkg path).
  { destruct (sp_search sp) as [ll|] eqn:Es; [|destruct A2]. exists sp, ll. rewrite (T1 0 [] t f). auto. }
  destruct A3 as [(t' & A3)|(t' & A3)]; [left|right]; split; try exact Hi; exists path, l; split; auto.
  - rewrite (T2 0 t'). auto.
  - rewrite (T3 0 t'). auto.
Qed.
Example C41_nonvacuous : In (EvList "pkg" "pkg.m") (s_log pkg_done) /\ py_in pkg_world "pkg" "m".
Proof.
  split; [vm_compute; tauto|]. split; [reflexivity|]. exists "pkg", ["__init__"; "m"]. split; [|split; [reflexivity|cbn; tauto]].
  eexists _, ["pkg"]. split; [reflexivity|]. split; [reflexivity|now left].
Qed.

(** ** C42: all modules of the package and its sub packages *)

(** [pkg] and the packages below it, as the import system finds them. *)
Inductive under (E : env) (pkg : string) : string -> Prop :=
| under_self : under E pkg pkg
| under_sub q x : under E pkg q -> py_in E q x \/ dir_in E q x ->
    (exists path, location E (q ++ "." ++ x) path) -> under E pkg (q ++ "." ++ x).

(** [stem] is linked to the package [q]. *)
Definition linked_in (s : st) (q stem : string) : Prop :=
  exists a m, resolves s q a /\ resolves s (q ++ "." ++ stem) m /\ in_graph s m /\ has_edge (s_graph s) a m (Dep false true false None).

Definition C42_statement : Prop := forall E s0 s fuel n pkg id s1 s2,
  order_ok E -> static E -> start s0 -> reach E s0 s ->
  top_call E fuel (AImportPackage n pkg) s = Some (AnsId id, s1) -> reach E s1 s2 ->
  s_stack s2 = [] -> (forall m p, ~ In (EvFail (DoPackage m p)) (s_log s2)) ->
  forall q stem, under E pkg q -> py_in E q stem -> linked_in s2 q stem.

(** A sub package without [__init__.py] is found, but its modules are not. *)
Definition ns_world : env := world
  [("main", ESource false [] []); ("pkg", ESource true [] []); ("pkg.ns", ENamespace); ("pkg.ns.m", ESource false [] [])] []
  [("pkg", ([], ["ns"])); ("pkg.ns", (["m"], []))].
Definition ns_start : st := Eval vm_compute in snd (the_calls ns_world [AAddModule "main"] new).
Definition ns_listed : st := Eval vm_compute in snd (the_calls ns_world [AImportPackage "main" "pkg"] ns_start).
Definition ns_done : st := Eval vm_compute in snd (the_calls ns_world [ARunStack] ns_listed).

Theorem C42_refuted : ~ C42_statement.
Proof.
  intros H.
  assert (K : linked_in ns_done "pkg.ns" "m").
  { refine (H ns_world new ns_start 60 "main" "pkg" "pkg" ns_listed ns_done _ _ _ _ _ _ _ _ "pkg.ns" "m" _ _).
    - apply world_order.
    - apply world_static.
    - now exists [], [], [].
    - apply (ran _ [AAddModule "main"]). vm_compute. reflexivity.
    - vm_compute. reflexivity.
    - apply (ran _ [ARunStack]). vm_compute. reflexivity.
    - reflexivity.
    - intros m p K. cbn in K. decompose [or] K; try discriminate. contradiction.
    - change "pkg.ns" with ("pkg" ++ "." ++ "ns"). apply under_sub; [apply under_self| |].
      + right. split; [reflexivity|]. exists "pkg", ["ns"]. split; [|split; [reflexivity|now left]].
        eexists _, ["pkg"]. split; [reflexivity|]. split; [reflexivity|now left].
      + exists "pkg.ns". eexists _, ["pkg.ns"]. split; [reflexivity|]. split; [reflexivity|now left].
    - split; [reflexivity|]. exists "pkg.ns", ["m"]. split; [|split; [reflexivity|now left]].
      eexists _, ["pkg.ns"]. split; [reflexivity|]. split; [reflexivity|now left]. }
  destruct K as (a & m & A & B & C & _). destruct B as [->|B].
  - apply C. vm_compute. reflexivity.
  - cbn in B. decompose [or] B; try discriminate. contradiction.
Qed.

(** The nodes of that name (a missing hook can choose another node) are packages. *)
Definition regular (s : st) (name : string) : Prop :=
  forall id, resolves s name id -> exists k, kind_of s id = Some k /\ is_package k = true.

(** [pkg] and what is found below it, as long as the graph has packages. *)
Inductive below (E : env) (s : st) (pkg : string) : string -> Prop :=
| below_self : below E s pkg pkg
| below_sub q x : below E s pkg q -> regular s q -> py_in E q x \/ dir_in E q x -> below E s pkg (q ++ "." ++ x).

Lemma reach_trans E s0 s1 s2 : reach E s0 s1 -> reach E s1 s2 -> reach E s0 s2.
Proof. intros A B. induction B; [exact A|]. eapply reach_call; eassumption. Qed.

Lemma reach_from_grows E s s' : linv s -> reach E s s' -> grows s s' /\ linv s'.
Proof.
  intros L H. induction H as [|s1 fuel a ans s2 H IH Hc]; [split; [apply grows_refl|exact L]|]. destruct IH as [G L1].
  destruct (top_call_closes E fuel a s1 ans s2 L1 Hc) as (G2 & L2 & _). split; [eapply grows_trans; eassumption|exact L2].
Qed.

Section complete.
  Variable E : env.
  Variables s0 s : st.
  Hypothesis HE : order_ok E.
  Hypothesis T : static E.
  Hypothesis H0 : start s0.
  Hypothesis HR : reach E s0 s.
  Hypothesis Z : s_stack s = [].
  Hypothesis F : forall m p, ~ In (EvFail (DoPackage m p)) (s_log s).

  Lemma pushed_done n pkg : In (EvPush n pkg) (s_log s) -> package_done E s n pkg.
  Proof.
    intros Hp. pose proof (reach_facts E s0 s HE H0 HR) as X. destruct (reach_saved E s0 s HE H0 HR) as [R1 R2].
    destruct (f_entered _ X) as (_ & _ & B). destruct (B n pkg Hp) as [K|K].
    - unfold pend in K. rewrite Z, R2 in K. destruct K.
    - destruct (f_tracked _ X _ K) as [K1|[K1|K1]].
      + rewrite R1 in K1. destruct K1.
      + destruct (reach_packages E s0 s H0 HR) as (_ & A & _). now apply A.
      + now apply F in K1.
  Qed.
  Lemma done_modules n q : package_done E s n q -> regular s q ->
    exists id, resolves s q id
      /\ (forall stem, py_in E q stem -> module_linked s id (q ++ "." ++ stem))
      /\ (forall dir, dir_in E q dir -> In (EvPush id (q ++ "." ++ dir)) (s_log s)).
  Proof.
    destruct T as [T1 T2 T3].
    intros (id & A & B & [(k & C1 & C2)|(t & f & sp & C1 & C2)]) Rg.
    - destruct (Rg id A) as (k' & D1 & D2). congruence.
    - exists id. split; [exact A|]. split.
      + intros stem (Hi & path & l & (sp' & ll & L1 & L2 & L3) & G1 & G2). rewrite (T1 0 [] t f) in L1.
        assert (sp' = sp) by congruence. subst sp'. rewrite L2 in C2.
        destruct (C2 path L3) as [(t2 & stems & D1 & D2) _]. apply D2; [|exact Hi]. rewrite (T2 t2 0) in D1. congruence.
      + intros dir (Hi & path & l & (sp' & ll & L1 & L2 & L3) & G1 & G2). rewrite (T1 0 [] t f) in L1.
        assert (sp' = sp) by congruence. subst sp'. rewrite L2 in C2.
        destruct (C2 path L3) as [_ (t2 & dirs & D1 & D2)]. apply D2; [|exact Hi]. rewrite (T3 t2 0) in D1. congruence.
  Qed.
  Lemma below_done n pkg q : package_done E s n pkg -> below E s pkg q -> exists a, package_done E s a q.
  Proof.
    intros P B. induction B as [|q x B (a & IH) Rg Hx]; [now exists n|].
    destruct (done_modules a q IH Rg) as (id & _ & M & D). exists id. apply pushed_done.
    destruct Hx as [Hx|Hx]; [apply (M x Hx)|now apply D].
  Qed.
  Lemma below_linked n pkg q stem : package_done E s n pkg -> below E s pkg q -> regular s q -> py_in E q stem -> linked_in s q stem.
  Proof.
    intros P B Rg Hs. destruct (below_done n pkg q P B) as (a & Q). destruct (done_modules a q Q Rg) as (id & A & M & _).
    destruct (M stem Hs) as (_ & m & M1 & M2). exists id, m. split; [exact A|]. split; [exact M1|]. split; [|exact M2].
    destruct M2 as (ds & I1 & I2). destruct (wf_ends _ (f_wf _ (reach_facts E s0 s HE H0 HR)) _ _ _ I1) as [_ K].
    now apply gfind_ids in K.
  Qed.
End complete.

(** What holds: everything in the directories of the regular packages below [pkg]
    is linked, after the call (by a hook or otherwise) and completed work. *)
Theorem C42_complete_partial : forall E s0 s fuel n pkg id s1 s2,
  order_ok E -> static E -> start s0 -> reach E s0 s ->
  top_call E fuel (AImportPackage n pkg) s = Some (AnsId id, s1) -> reach E s1 s2 ->
  s_stack s2 = [] -> (forall m p, ~ In (EvFail (DoPackage m p)) (s_log s2)) ->
  forall q stem, below E s2 pkg q -> regular s2 q -> py_in E q stem -> linked_in s2 q stem.
Proof.
  intros E s0 s fuel n pkg id s1 s2 HE T H0 HR HC HR2 Z F q stem B Rg Hs.
  pose proof (h_linv _ _ (reach_history E s0 s HE H0 HR)) as L.
  assert (HR1 : reach E s0 s1) by (eapply reach_call; eassumption).
  assert (P : package_done E s1 n pkg).
  { apply top_call_ok in HC as [HC|(e & s3 & _ & _ & K)]; [|discriminate]. cbn [do_action] in HC. unfold bind at 1, note in HC.
    unfold modify in HC. unfold bind in HC.
    destruct (import_package E (exec E fuel) n pkg (log s (EvReq n pkg))) as [[[x|e] s3]|] eqn:Ei; try discriminate. injection HC as <- <-.
    assert (L2 : linv (log s (EvReq n pkg))) by (intros y l [K|K]; [discriminate|now apply (L y l)]).
    apply (cwp_package E _ (closes_exec E fuel) n pkg _ L2 _ _ Ei). }
  pose proof (h_linv _ _ (reach_history E s0 s1 HE H0 HR1)) as L1. destruct (reach_from_grows E s1 s2 L1 HR2) as [G _].
  apply (below_linked E s0 s2 HE T H0 (reach_trans _ _ _ _ HR1 HR2) Z F n pkg); auto. eapply grows_package; eassumption.
Qed.

(** The same for a call in a hook context, which completes the work itself. *)
Theorem C42_hook_context_partial : forall E s0 s fuel n pkg s2,
  order_ok E -> static E -> start s0 -> reach E s0 s ->
  top_call E fuel (AHookContext (PDo (AImportPackage n pkg) (fun ans => match ans with AnsErr e => PRaise e | _ => PRet None end))) s
    = Some (AnsUnit, s2) ->
  (forall m p, ~ In (EvFail (DoPackage m p)) (s_log s2)) ->
  forall q stem, below E s2 pkg q -> regular s2 q -> py_in E q stem -> linked_in s2 q stem.
Proof.
  intros E s0 s fuel n pkg s2 HE T H0 HR HC F q stem B Rg Hs.
  pose proof (h_linv _ _ (reach_history E s0 s HE H0 HR)) as L.
  assert (HR2 : reach E s0 s2) by (eapply reach_call; eassumption).
  pose proof (top_call_drains _ _ _ _ _ _ HC eq_refl eq_refl) as Z.
  assert (P : package_done E s2 n pkg).
  { apply top_call_ok in HC as [HC|(e & s3 & _ & _ & K)]; [|discriminate]. cbn [do_action] in HC. unfold hook_context, bind at 1 2, attempt in HC.
    destruct fuel as [|fuel]; [discriminate|].
    change (f_prog (exec E (S fuel))) with (run_prog E (exec E fuel)) in HC. cbn [run_prog] in HC. unfold bind at 1, call in HC.
    unfold bind at 1, attempt in HC. cbn [do_action] in HC. unfold bind at 1, note, modify in HC. unfold bind at 1 in HC.
    destruct (import_package E (exec E fuel) n pkg (log s (EvReq n pkg))) as [[[x|e] s3]|] eqn:Ei; [| |discriminate].
    - assert (L2 : linv (log s (EvReq n pkg))) by (intros y l [K|K]; [discriminate|now apply (L y l)]).
      destruct (cwp_package E _ (closes_exec E fuel) n pkg _ L2 _ _ Ei) as (_ & L3 & _ & _ & P). cbn [ret run_prog] in HC. unfold ret, bind in HC.
      destruct (f_run (exec E (S fuel)) s3) as [[[u|e] s4]|] eqn:Er; try discriminate. injection HC as <-.
      destruct (c_run _ (closes_exec E (S fuel)) s3 L3 _ _ Er) as (G & _). eapply grows_package; eassumption.
    - cbn in HC. unfold ret, bind, raise in HC. exfalso. cbn in HC.
      destruct (run_body E (exec E fuel) (log s3 EvErr)) as [[[u|e2] s4]|]; discriminate. }
  apply (below_linked E s0 s2 HE T H0 HR2 Z F n pkg); auto.
Qed.

(** A package with a sub package two levels deep. *)
Definition deep_world : env := world
  [("main", ESource false [] []); ("pkg", ESource true [] []); ("pkg.a", ESource true [] []); ("pkg.a.b", ESource true [] []);
   ("pkg.a.b.m", ESource false [imp "main"] []); ("pkg.c", ESource false [] [])] []
  [("pkg", (["c"], ["a"])); ("pkg.a", ([], ["b"])); ("pkg.a.b", (["m"], []))].
Definition deep_start : st := Eval vm_compute in snd (the_calls deep_world [AAddModule "main"] new).
Definition deep_done : st := Eval vm_compute in snd (the_calls deep_world [AHookContext (PDo (AImportPackage "main" "pkg")
  (fun ans => match ans with AnsErr e => PRaise e | _ => PRet None end))] deep_start).
Lemma deep_regular q : In q ["pkg"; "pkg.a"; "pkg.a.b"] -> regular deep_done q.
Proof.
  intros Hq id [->|K]; [|cbn in K; decompose [or] K; try discriminate; contradiction].
  cbn in Hq. destruct Hq as [<-|[<-|[<-|[]]]]; eexists; (split; [vm_compute; reflexivity|reflexivity]).
Qed.
Lemma deep_dir q d : In (q, d) [("pkg", "a"); ("pkg.a", "b")] -> dir_in deep_world q d.
Proof.
  intros K. split; [|exists q, [d]; split; [eexists _, [q]; split|]];
    destruct K as [K|[K|[]]]; injection K as <- <-; try reflexivity; repeat split; now left.
Qed.
Example C42_nonvacuous :
  top_call deep_world 60 (AHookContext (PDo (AImportPackage "main" "pkg")
    (fun ans => match ans with AnsErr e => PRaise e | _ => PRet None end))) deep_start = Some (AnsUnit, deep_done)
  /\ (forall m p, ~ In (EvFail (DoPackage m p)) (s_log deep_done))
  /\ below deep_world deep_done "pkg" "pkg.a.b" /\ regular deep_done "pkg.a.b" /\ py_in deep_world "pkg.a.b" "m"
  /\ In ("pkg.a.b", "pkg.a.b.m") (edge_pairs deep_done).
Proof.
  split; [vm_compute; reflexivity|]. split.
  { intros m p K. cbn in K. decompose [or] K; try discriminate. contradiction. }
  split.
  { change "pkg.a.b" with ("pkg.a" ++ "." ++ "b"). apply below_sub; [|apply deep_regular; cbn; tauto|right; apply deep_dir; cbn; tauto].
    change "pkg.a" with ("pkg" ++ "." ++ "a"). apply below_sub; [apply below_self|apply deep_regular; cbn; tauto|right; apply deep_dir; cbn; tauto]. }
  split; [apply deep_regular; cbn; tauto|]. split; [|vm_compute; tauto].
  split; [reflexivity|]. exists "pkg.a.b", ["m"]. split; [|split; [reflexivity|now left]].
  eexists _, ["pkg.a.b"]. split; [reflexivity|]. split; [reflexivity|now left].
Qed.

Print Assumptions C41_refuted.
Print Assumptions C41_listed_partial.
Print Assumptions C42_refuted.
Print Assumptions C42_complete_partial.
Print Assumptions C42_hook_context_partial.
