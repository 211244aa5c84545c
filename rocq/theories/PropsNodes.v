(** Theorems about single names in all histories: C18, C24, C33, C34. *)
From Verif Require Import BuilderKinds BuiltinHooks World.

Lemma order_world w s f : order_ok (world w s f).
Proof. intros l x. reflexivity. Qed.

(** ** C24: post processing comes after the imports *)

(** [l1] is what happened after the hooks for [n] were called, [l2] what
    happened before. *)
Theorem C24_after_imports : forall E s0 s n l1 l2,
  order_ok E -> calm_start s0 -> calm_reach E s0 s -> s_log s = l1 ++ EvHook n :: l2 ->
  (forall l i, In (EvSched n l) l2 -> In i l -> processed l2 n i)
  /\ forall l i, In (EvAdd n l) (s_log s) -> (forall l', ~ In (EvProc n l') l2) -> In i l -> processed l2 n i.
Proof.
  intros E s0 s n l1 l2 HE H0 HR Hl. destruct (calm_reach_order E s0 s HE H0 HR) as [O [_ U]].
  destruct (O l1 (EvHook n) l2 Hl) as (l3 & -> & A & B).
  assert (X : forall i, processed l3 n i -> processed (EvPop (DoPost n) :: l3) n i).
  { intros i [K|[K1 [K2|(m & [K2|K2])]]]; [left; now right|right; split; [now right|now left]| |];
      right; (split; [now right|]); right; exists m; [left|right]; now right. }
  split.
  - intros l i [K|K] Hi; [discriminate|]. apply X. eapply A; eassumption.
  - intros l i K N Hi. apply X. destruct B as [(l' & B)|(l' & B1 & B2)]; [elim (N l'); now right|].
    replace l with l' in *; [eapply A; eassumption|]. apply (U n l' l); [|exact K].
    rewrite Hl. apply in_app_iff. right. right. now right.
Qed.

(** Without the restriction on missing hooks it is false: a hook that adds a
    module makes the builder post process the importing module early. *)
Definition C24_any_hooks : Prop := forall E s0 s n l1 l2,
  order_ok E -> start s0 -> reach E s0 s -> s_log s = l1 ++ EvHook n :: l2 ->
  forall l i, In (EvAdd n l) (s_log s) -> (forall l', ~ In (EvProc n l') (s_log s)) -> In i l -> processed l2 n i.

Definition busy_hook : missing_hook := fun _ name =>
  if seqb name "nope" then PDo (AAddModule "other") (fun _ => PRet None) else PRet None.
Definition busy_world : env := world [("m", ESource false [imp "nope"] []); ("other", ESource false [] [])] [] [].
Definition busy_new : st := init [] [] [busy_hook].
Definition busy : st := Eval vm_compute in snd (the_calls busy_world [AAddModule "m"] busy_new).

Fixpoint before (e : event -> bool) (l : list event) : list event :=
  match l with [] => [] | x :: r => if e x then r else before e r end.
Fixpoint after (e : event -> bool) (l : list event) : list event :=
  match l with [] => [] | x :: r => if e x then [] else x :: after e r end.
Definition is_hook (n : string) (e : event) : bool := match e with EvHook m => seqb m n | _ => false end.

Theorem C24_any_hooks_refuted : ~ C24_any_hooks.
Proof.
  intros H. set (i := IInfo (IName "nope" None) 0 [] false false false false).
  assert (K : processed (before (is_hook "m") (s_log busy)) "m" i).
  { apply (H busy_world busy_new busy "m" (after (is_hook "m") (s_log busy)) (before (is_hook "m") (s_log busy))) with (l := [i]).
    - apply order_world.
    - now exists [], [], [busy_hook].
    - apply (ran _ [AAddModule "m"]). vm_compute. reflexivity.
    - vm_compute. reflexivity.
    - vm_compute. intuition.
    - intros l'. vm_compute. intuition discriminate.
    - now left. }
  destruct K as [K|[K _]]; vm_compute in K; intuition discriminate.
Qed.

(** ** C18: excluded names *)

(** A call of [add_excludes] with a name that is not in the graph, followed by
    any other calls. *)
Definition excluded_then (E : env) (x : string) (s s' : st) : Prop :=
  exists names fuel ans s1, In x names /\ ~ in_graph s x
    /\ top_call E fuel (AExcludes names) s = Some (ans, s1) /\ reach E s1 s'.

Definition stays_excluded (s : st) (x : string) : Prop :=
  (kind_of s x = Some ExcludedModule \/
   kind_of s x = Some MissingModule /\ exists c, child_of c x /\ kind_of s c = Some MissingModule)
  /\ forall i, ~ scheduled s x i.

Definition C18_statement : Prop := forall E s0 s s' x, order_ok E -> start s0 -> reach E s0 s ->
  excluded_then E x s s' -> in_graph s' x -> stays_excluded s' x.

(** The spec for [a] is the one of [b], as with [os.path] and [posixpath]; the
    excluded module [b] is scanned. *)
Definition aliasing_world : env := world
  [("a", ESpec (Spec "b" (LInspect false (ROk (Some "import c")) (ROk (Some (code_of [] [])))) (Some "b.py") None true (ROk false)));
   ("b", EText false "import c" [imp "c"] [] [])] [] [].
Definition excl_b : st := Eval vm_compute in snd (the_calls aliasing_world [AExcludes ["b"]] new).
Definition excl_a : st := Eval vm_compute in snd (the_calls aliasing_world [AAddModule "a"] excl_b).

Theorem C18_refuted : ~ C18_statement.
Proof.
  intros H. assert (K : stays_excluded excl_a "b").
  { apply (H aliasing_world new new excl_a "b").
    - apply order_world.
    - now exists [], [], [].
    - apply reach_init.
    - exists ["b"], 60, AnsUnit, excl_b. split; [now left|]. split; [intros K; apply K; reflexivity|].
      split; [vm_compute; reflexivity|]. apply (ran _ [AAddModule "a"]). vm_compute. reflexivity.
    - vm_compute. discriminate. }
  destruct K as [[K|[K _]] _]; vm_compute in K; discriminate.
Qed.

(** What holds: unless the name is the target of an aliased spec (or it is the
    name of a script, or of a node added by a hook or user, ...), the node is an
    excluded or missing module and nothing was found in it.  A missing module is
    below a missing one, if there are no missing hooks. *)
Theorem C18_excluded_partial : forall E s0 s s' x, order_ok E -> start s0 -> reach E s0 s ->
  excluded_then E x s s' -> in_graph s' x ->
  foreign s' x
  \/ (s_missing s' <> [] /\ In EvErr (s_log s'))
  \/ ((kind_of s' x = Some ExcludedModule \/
       kind_of s' x = Some MissingModule /\
       (s_missing s' <> [] \/ exists c, child_of c x /\ kind_of s' c = Some MissingModule))
      /\ forall l i, In (EvSched x l) (s_log s') -> In i l -> In (EvProc x l) (s_log s')).
Proof.
  intros E s0 s s' x HE H0 HR (names & fuel & ans & s1 & Hx & Hg & HC & H1) Hi.
  pose proof (reach_call E s0 s fuel _ ans s1 HR HC) as R1.
  destruct (reach_from E s0 s1 s' HE H0 R1 H1) as [R' C].
  assert (F : excluded_fate s1 x).
  { left. unfold top_call, call, attempt, bind, modify, ret in HC. cbn in HC. injection HC as <- <-.
    cbn [s_lazy log set_lazy]. rewrite assoc_excludes. rewrite (proj2 (memb_In x names)) by exact Hx. now split. }
  destruct (chain_excluded _ _ _ _ x C (reach_added E s0 s1 HE H0 R1) F) as [[_ K]|[[K1 K2]|[K|K]]].
  - contradiction.
  - right; right. split; [exact K1|]. intros l i A B.
    destruct (reach_sched_origin E s0 s' HE H0 R' x l A) as [D|D]; [|exact D].
    rewrite (K2 l D) in B. destruct B.
  - now left.
  - right; now left.
Qed.

(** ** C33: below missing and excluded packages *)

Definition same_fate (s : st) : Prop := forall c x kx, child_of c x -> kind_of s x = Some kx ->
  (kind_of s c = Some MissingModule -> kx = MissingModule)
  /\ (kind_of s c = Some ExcludedModule -> kx = ExcludedModule).

Definition C33_statement : Prop := forall E s0 s, order_ok E -> start s0 -> s_post s0 = [] -> s_missing s0 = [] ->
  user_reach E s0 s -> same_fate s.

(** The spec of [a] is the one of [p.b], and [p] is excluded. *)
Definition sub_world : env := world
  [("a", ESpec (Spec "p.b" (LInspect false (ROk (Some "pass")) (ROk (Some (code_of [] [])))) (Some "p/b.py") None true (ROk false)));
   ("p", ESource true [] []); ("p.b", EText false "pass" [] [] [])] [] [].
Definition sub_state : st := Eval vm_compute in snd (the_calls sub_world [AAddModule "a"] (init [("p", ImpNone)] [] [])).

Theorem C33_refuted : ~ C33_statement.
Proof.
  intros H. assert (K : same_fate sub_state).
  { apply (H sub_world (init [("p", ImpNone)] [] []) sub_state).
    - apply order_world.
    - now eexists _, _, _.
    - reflexivity.
    - reflexivity.
    - eapply (user_more _ _ _ 60 (AAddModule "a") (AnsId "a")); [apply user_init|reflexivity|vm_compute; reflexivity]. }
  destruct (K "p" "p.b" (Module MSource)) as [_ K2]; [apply (child_plain "p" "b"); [discriminate|reflexivity]|reflexivity|].
  discriminate K2. reflexivity.
Qed.

(** Without missing hooks, except for nodes of aliased specs, scripts, given
    nodes...: the containing package is in the graph, and if it is missing or
    excluded the node is the same. *)
Theorem C33_below_partial : forall E s0 s, order_ok E -> start s0 -> reach E s0 s -> s_missing s = [] ->
  forall c x, child_of c x -> in_graph s x ->
    foreign s x
    \/ exists kc kx, kind_of s c = Some kc /\ kind_of s x = Some kx
       /\ (kc = MissingModule -> kx = MissingModule) /\ (kc = ExcludedModule -> kx = ExcludedModule).
Proof.
  intros E s0 s HE H0 HR M c x Hc Hx. destruct (reach_family E s0 s HE H0 HR M c x Hc Hx) as [K|(kc & kx & A & B & L1 & L2)].
  - now left.
  - right. exists kc, kx. split; [exact A|]. split; [exact B|]. split; intros ->; auto.
Qed.

(** ** C34: implied references *)

Definition implied_edge (s : st) (x ref : string) : Prop :=
  exists o, resolves s ref o /\ in_graph s o /\ has_edge (s_graph s) x o (Dep false true false None).

Definition C34_statement : Prop := forall E s0 s name fuel ans s' x refs,
  order_ok E -> start s0 -> reach E s0 s -> top_call E fuel (AAddModule name) s = Some (ans, s') ->
  ok_answer ans = true -> assoc x (s_lazy s) = Some (ImpRefs refs) -> ~ in_graph s x ->
  (exists k, kind_of s' x = Some k /\ real_kind k = true /\ k <> MissingModule) ->
  forall ref, In ref refs -> implied_edge s' x ref.

Definition implied_new : st := init [("b", ImpRefs ["z"])] [] [].
Definition implied_done : st := Eval vm_compute in snd (the_calls aliasing_world [AAddModule "a"] implied_new).

(** Again the module is loaded under another name first. *)
Theorem C34_refuted : ~ C34_statement.
Proof.
  intros H. assert (K : implied_edge implied_done "b" "z").
  { apply (H aliasing_world implied_new implied_new "a" 60 (AnsId "a") implied_done "b" ["z"]).
    - apply order_world.
    - now eexists _, _, _.
    - apply reach_init.
    - vm_compute. reflexivity.
    - reflexivity.
    - reflexivity.
    - intros K. apply K. reflexivity.
    - exists (Module MSource). repeat split. discriminate.
    - now left. }
  destruct K as (o & A & B & ds & C & _). destruct A as [-> | A].
  - apply B. reflexivity.
  - vm_compute in A. intuition discriminate.
Qed.

(** [x] had its entry before a call and is loaded afterwards, by looking up its
    own name, and its entry was not changed by the call. *)
Definition loaded_by (s s' : st) (x : string) : Prop :=
  ~ in_graph s x /\ ~ foreign s' x
  /\ (exists k, kind_of s' x = Some k /\ k <> MissingModule /\ k <> ExcludedModule)
  /\ forall names, news s s' (EvConf names) -> ~ In x names.

Lemma edge_target E s0 s a b d : order_ok E -> start s0 -> reach E s0 s -> has_edge (s_graph s) a b d -> in_graph s b.
Proof.
  intros HE H0 HR (ds & A & _). apply (wf_ends _ (f_wf _ (reach_facts E s0 s HE H0 HR))) in A.
  unfold in_graph. rewrite gfind_ids. apply A.
Qed.

Lemma loaded_used E s0 s s' x i : order_ok E -> start s0 -> reach E s0 s -> reach E s s' ->
  assoc x (s_lazy s) = Some i -> loaded_by s s' x -> (s_missing s' = [] \/ ~ In EvErr (s_log s')) ->
  news s s' (EvImplied x i).
Proof.
  intros HE H0 HR H1 Ha (L1 & L2 & (k & L3 & L4 & L5) & L6) Hm.
  destruct (reach_from E s0 s s' HE H0 HR H1) as [R' C].
  destruct (chain_fate _ _ _ _ x i C Ha L1) as [[_ K]|[(names & K1 & K2)|[K|[K|[K|[K|[K1 K2]]]]]]].
  - elim K. unfold in_graph, kind_of in *. destruct (gfind (s_graph s') x); [discriminate|discriminate].
  - now elim (L6 names K1).
  - exact K.
  - contradiction.
  - rewrite L3 in K. injection K as ->. now elim L4.
  - rewrite L3 in K. injection K as ->. now elim L5.
  - destruct Hm; contradiction.
Qed.

(** For a call without exception, if the entry is used for the first time.  [t]
    is [x], unless a missing hook returned another node for [x]. *)
Theorem C34_call_partial : forall E s0 s fuel a ans s' x refs,
  order_ok E -> start s0 -> reach E s0 s -> top_call E fuel a s = Some (ans, s') ->
  errs s' = errs s -> assoc x (s_lazy s) = Some (ImpRefs refs) -> loaded_by s s' x ->
  (s_missing s' = [] \/ ~ In EvErr (s_log s')) -> (forall i, ~ In (EvImplied x i) (s_log s)) ->
  forall ref, In ref refs -> exists t, resolves s' x t /\ implied_edge s' t ref.
Proof.
  intros E s0 s fuel a ans s' x refs HE H0 HR HC N Ha HL Hm Hf ref Hr.
  assert (H1 : reach E s s') by (eapply reach_call; [apply reach_init|exact HC]).
  pose proof (loaded_used E s0 s s' x _ HE H0 HR H1 Ha HL Hm) as K.
  assert (P : paid s' (OImpl x ref)).
  { destruct (top_call_closes E fuel a s ans s' (h_linv _ _ (reach_history E s0 s HE H0 HR)) HC) as (_ & _ & [D|D]);
      [unfold erred in D; lia|].
    destruct (D (OImpl x ref)) as [X|[(refs' & X & _)|[]]]; [|exact X|now elim (Hf _ X)].
    exists refs. split; [apply (news_In _ _ _ K)|exact Hr]. }
  destruct P as (t & o & A & B & D). exists t. split; [exact A|]. exists o. split; [exact B|].
  split; [|exact D]. eapply (edge_target E s0 s'); [exact HE|exact H0|eapply reach_call; eassumption|exact D].
Qed.

(** For any number of calls, as long as nothing has raised. *)
Theorem C34_implied_partial : forall E s0 s s' x refs,
  order_ok E -> start s0 -> reach E s0 s -> reach E s s' -> ~ In EvErr (s_log s') ->
  assoc x (s_lazy s) = Some (ImpRefs refs) -> loaded_by s s' x ->
  forall ref, In ref refs -> exists t, resolves s' x t /\ implied_edge s' t ref.
Proof.
  intros E s0 s s' x refs HE H0 HR H1 N Ha HL ref Hr.
  pose proof (loaded_used E s0 s s' x _ HE H0 HR H1 Ha HL (or_intror N)) as K.
  destruct (reach_from E s0 s s' HE H0 HR H1) as [R' _].
  destruct (h_paid _ _ (reach_history E s0 s' HE H0 R')) as [P|P]; [contradiction|].
  destruct (P (OImpl x ref)) as (t & o & A & B & D).
  { exists refs. split; [apply (news_In _ _ _ K)|exact Hr]. }
  exists t. split; [exact A|]. exists o. split; [exact B|]. split; [|exact D].
  eapply edge_target; [exact HE|exact H0|exact R'|exact D].
Qed.

(** ** Examples *)

(** Package [p] excluded, [q] missing, [m] implies [x] and itself; [m] imports modules below both. *)
Definition kinds_world : env := world
  [("p", ESource true [] []); ("p.a", ESource true [imp "x"] []);
   ("m", ESource false [imp "p.a"; from "q.r" ["t"] 0; imp "y"] []); ("y", ESource false [imp "m"] [])] [] [].
Definition kinds_new : st := init [("m", ImpRefs ["x"; "m"])] [] [].
Definition kinds_ex : st := Eval vm_compute in snd (the_calls kinds_world [AExcludes ["p"]] kinds_new).
Definition kinds_state : st := Eval vm_compute in snd (the_calls kinds_world [AAddModule "m"] kinds_ex).

Example C24_nonvacuous : calm_start kinds_new /\ calm_reach kinds_world kinds_new kinds_state
  /\ exists l1 l2 is, s_log kinds_state = l1 ++ EvHook "m" :: l2 /\ In (EvAdd "m" is) (s_log kinds_state)
     /\ List.length is = 3 /\ forall l, ~ In (EvProc "m" l) l2.
Proof.
  split; [|split].
  - split; [now eexists _, _, _|]. split; intros h [].
  - apply (calm_call _ _ kinds_ex 60 (AAddModule "m") (AnsId "m")); [|exact eq_refl|vm_compute; reflexivity].
    apply (calm_call _ _ kinds_new 60 (AExcludes ["p"]) AnsUnit); [apply calm_init|exact Logic.I|vm_compute; reflexivity].
  - exists (after (is_hook "m") (s_log kinds_state)), (before (is_hook "m") (s_log kinds_state)).
    eexists. split; [vm_compute; reflexivity|]. split; [vm_compute; repeat (try (left; reflexivity); right)|].
    split; [reflexivity|]. intros l. vm_compute. intuition discriminate.
Qed.

Example C18_C33_C34_nonvacuous :
  excluded_then kinds_world "p" kinds_new kinds_state
  /\ node_list kinds_state = [("m", Module MSource); ("x", MissingModule); ("y", Module MSource);
       ("q", MissingModule); ("q.r", MissingModule); ("p", ExcludedModule); ("p.a", ExcludedModule)]
  /\ edge_pairs kinds_state = [("m", "x"); ("m", "m"); ("m", "y"); ("y", "m"); ("q.r", "q"); ("m", "q.r"); ("p.a", "p"); ("m", "p.a")]
  /\ assoc "m" (s_lazy kinds_ex) = Some (ImpRefs ["x"; "m"]) /\ errs kinds_state = errs kinds_ex
  /\ ~ in_graph kinds_ex "m".
Proof.
  split; [exists ["p"], 60, AnsUnit, kinds_ex|].
  - split; [now left|]. split; [intros K; apply K; reflexivity|]. split; [vm_compute; reflexivity|].
    apply (ran _ [AAddModule "m"]). vm_compute. reflexivity.
  - repeat split; try (vm_compute; reflexivity). intros K. apply K. reflexivity.
Qed.
Example loaded_by_nonvacuous : loaded_by kinds_ex kinds_state "m".
Proof.
  split; [intros K; apply K; reflexivity|]. split.
  - intros [K|[K|[K|[K|(y & K1 & K2)]]]]; try (vm_compute in K; intuition discriminate).
    unfold kind_of in K2. destruct (gfind (s_graph kinds_state) y) as [n|] eqn:Ey; [|discriminate].
    assert (L : In n (g_nodes (s_graph kinds_state))) by (apply find_some in Ey; apply Ey).
    vm_compute in L. intuition (subst; discriminate).
  - split; [exists (Module MSource); repeat split; discriminate|].
    intros names (l & A & B) _.
    assert (L : exists l0, s_log kinds_state = l0 ++ s_log kinds_ex /\ forall e, In e l0 -> match e with EvConf _ => False | _ => True end).
    { exists (firstn (List.length (s_log kinds_state) - List.length (s_log kinds_ex)) (s_log kinds_state)).
      split; [vm_compute; reflexivity|]. intros e K. vm_compute in K. intuition (subst; exact Logic.I). }
    destruct L as (l0 & A0 & B0). rewrite A0 in A. apply app_inv_tail in A as ->. exact (B0 _ B).
Qed.

(** *** The built-in tables *)

(** What the name implies on this platform: the table of the platform wins, a
    name that it does not have keeps its entry. *)
Inductive on_platform (win32 : bool) (base special : list (string * implied)) (name : string) : option implied -> Prop :=
| op_special i : win32 = true -> In (name, i) special -> on_platform win32 base special name (Some i)
| op_base i : win32 = false \/ (forall j, ~ In (name, j) special) -> In (name, i) base -> on_platform win32 base special name (Some i)
| op_none : (forall i, ~ In (name, i) base) -> (win32 = false \/ forall j, ~ In (name, j) special) -> on_platform win32 base special name None.
Lemma assoc_once {A} x (v : A) l : NoDup (map fst l) -> (assoc x l = Some v <-> In (x, v) l).
Proof.
  induction l as [|[k w] l IH]; cbn [map assoc fst In]; intros H; [split; [discriminate|intros []]|].
  inversion_clear H as [|? ? H1 H2]. destruct (seqb x k) eqn:E.
  - apply seqb_eq in E as ->. split; [intros X; left; congruence|]. intros [X|X]; [congruence|].
    elim H1. now apply (in_map fst _ (k, v)).
  - rewrite (IH H2). split; [now right|]. intros [X|X]; [|exact X]. injection X as -> ->. unfold seqb in E; now rewrite String.eqb_refl in E.
Qed.
Lemma assoc_never {A} x (l : list (string * A)) : assoc x l = None <-> forall v, ~ In (x, v) l.
Proof.
  induction l as [|[k w] l IH]; cbn [assoc In]; [split; [intros _ v []|reflexivity]|]. destruct (seqb x k) eqn:E.
  - apply seqb_eq in E as ->. split; [discriminate|]. intros H. elim (H w). now left.
  - rewrite IH. split.
    + intros H v [X|X]; [injection X as -> ->; unfold seqb in E; now rewrite String.eqb_refl in E|now apply (H v)].
    + intros H v X. apply (H v). now right.
Qed.
Lemma assoc_update x special : NoDup (map fst special) -> forall base,
  assoc x (fold_left (fun l p => lazy_set (fst p) (snd p) l) special base) = match assoc x special with Some i => Some i | None => assoc x base end.
Proof.
  induction special as [|[k i] l IH]; intros H base; [reflexivity|]. cbn [fold_left fst snd]. inversion_clear H as [|? ? H1 H2]. rewrite (IH H2).
  cbn [assoc]. destruct (seqb x k) eqn:E.
  - apply seqb_eq in E as ->. destruct (assoc k l) as [v|] eqn:Ev.
    + elim H1. apply (assoc_once k v l H2) in Ev. now apply (in_map fst _ (k, v)).
    + rewrite assoc_lazy_set. unfold seqb. now rewrite String.eqb_refl.
  - destruct (assoc x l); [reflexivity|]. rewrite assoc_lazy_set. now rewrite E.
Qed.
Ltac distinct := cbn; repeat (apply NoDup_cons; [cbn; intuition discriminate|]); apply NoDup_nil.
Theorem C34_platform_tables : forall win32 ospath sysconfigdata name,
  on_platform win32 (BASE_IMPLIES ospath sysconfigdata) WIN32_IMPLIES name (assoc name (STDLIB_IMPLIES win32 ospath sysconfigdata)).
Proof.
  intros win32 op sc name.
  assert (B : NoDup (map fst (BASE_IMPLIES op sc))) by distinct.
  assert (W : NoDup (map fst WIN32_IMPLIES)) by distinct.
  unfold STDLIB_IMPLIES. destruct win32.
  - rewrite (assoc_update name WIN32_IMPLIES W). destruct (assoc name WIN32_IMPLIES) as [i|] eqn:E.
    + apply op_special; [reflexivity|now apply assoc_once].
    + destruct (assoc name (BASE_IMPLIES op sc)) as [i|] eqn:Eb.
      * apply op_base; [right; now apply assoc_never|now apply assoc_once].
      * apply op_none; [now apply assoc_never|right; now apply assoc_never].
  - destruct (assoc name (BASE_IMPLIES op sc)) as [i|] eqn:Eb.
    + apply op_base; [now left|now apply assoc_once].
    + apply op_none; [now apply assoc_never|now left].
Qed.
(** With the built-in tables: the references of [time], an alias and a platform. *)
Example C34_tables_nonvacuous :
  let E := world [("time", EExtension); ("_strptime", ESource false [] []); ("ntpath", ESource false [] []); ("os", ESource true [] []);
                  ("signal", EExtension); ("_signal", EExtension); ("_socket", EExtension)] [] [] in
  let calls := [AAddModule "time"; AAddModule "os.path"; AAddModule "signal"] in
  edge_pairs (snd (the_calls E calls (init (STDLIB_IMPLIES false "ntpath" "") [] [])))
    = [("time", "_strptime"); ("os.path", "ntpath"); ("os.path", "os"); ("signal", "_signal")]
  /\ edge_pairs (snd (the_calls E calls (init (STDLIB_IMPLIES true "ntpath" "") [] [])))
    = [("time", "_strptime"); ("os.path", "ntpath"); ("os.path", "os"); ("signal", "_signal"); ("signal", "_socket")].
Proof. vm_compute. auto. Qed.

Print Assumptions C24_after_imports.
Print Assumptions C24_any_hooks_refuted.
Print Assumptions C18_refuted.
Print Assumptions C18_excluded_partial.
Print Assumptions C33_refuted.
Print Assumptions C33_below_partial.
Print Assumptions C34_refuted.
Print Assumptions C34_call_partial.
Print Assumptions C34_implied_partial.
Print Assumptions C34_platform_tables.
