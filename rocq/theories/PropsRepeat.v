(** C87: repeating a call changes nothing. *)
From Verif Require Import BuilderSource BuilderHist BuilderInv BuilderCalls World PropsBuilder PropsCalls PropsPackage.
Open Scope string_scope.

(** Nothing has changed (but for what the environment was asked, and the ghost log). *)
Definition as_before (s s' : st) : Prop :=
  s_graph s' = s_graph s /\ s_lazy s' = s_lazy s /\ s_stack s' = s_stack s /\ s_seen s' = s_seen s
  /\ s_post s' = s_post s /\ s_missing s' = s_missing s /\ s_fakes s' = s_fakes s /\ s_mem s' = s_mem s
  /\ s_run s' = s_run s /\ s_saved s' = s_saved s.
(** The calls that ask for something to be in the graph. *)
Definition repeatable (a : action) : Prop :=
  match a with
  | AAddModule _ | AAddSource _ | AAddDist _ | AAddDistNamed _ | AImportModule _ _ | AAddEdge _ _ _ | AAddRoot _ => True
  | _ => False
  end.

Section again.
  Variable u : st.
  Variable Y : err -> Prop.
  Definition q {A} (m : M A) (Q : A -> Prop) : Prop := forall s r s', as_before u s -> m s = Some (r, s') ->
    as_before u s' /\ match r with ROk a => Q a | RErr e => Y e end.
  Lemma q_ret {A} (a : A) (Q : A -> Prop) : Q a -> q (ret a) Q.
  Proof. intros H s r s' B K. injection K as <- <-. now split. Qed.
  Lemma q_raise {A} (e : err) (Q : A -> Prop) : Y e -> q (@raise A e) Q.
  Proof. intros H s r s' B K. injection K as <- <-. now split. Qed.
  Lemma q_oof {A} (Q : A -> Prop) : q (@out_of_fuel A) Q.
  Proof. intros s r s' B K. discriminate. Qed.
  Lemma q_bind {A B} (m : M A) (f : A -> M B) (P : A -> Prop) (Q : B -> Prop) : q m P -> (forall a, P a -> q (f a) Q) -> q (bind m f) Q.
  Proof.
    intros Hm Hf s r s' HB K. unfold bind in K. destruct (m s) as [[[a|e] s1]|] eqn:Em; [| |discriminate].
    - destruct (Hm _ _ _ HB Em) as [B1 Pa]. eapply Hf; eassumption.
    - destruct (Hm _ _ _ HB Em) as [B1 B2]. injection K as <- <-. now split.
  Qed.
  Lemma q_attempt {A} (m : M A) (Q : A -> Prop) : q m Q -> q (attempt m) (fun r => match r with ROk a => Q a | RErr e => Y e end).
  Proof.
    intros Hm s r s' HB K. unfold attempt in K. destruct (m s) as [[x s1]|] eqn:Em; [|discriminate]. injection K as <- <-.
    exact (Hm _ _ _ HB Em).
  Qed.
  Lemma q_note e : q (note e) (fun _ => True).
  Proof. intros s r s' HB K. injection K as <- <-. split; [exact HB|exact Logic.I]. Qed.
  Lemma q_ask {A} (f : nat -> result A) : (forall t e, f t = RErr e -> Y e) -> q (askr f) (fun a => exists t, f t = ROk a).
  Proof. intros H s r s' HB K. unfold askr in K. injection K as <- <-. split; [exact HB|]. destruct (f (s_clock s)) eqn:Ef; eauto. Qed.
  Lemma q_get id : q (get_node id) (fun n => n = gfind (s_graph u) id).
  Proof. intros s r s' HB K. unfold get_node, gets in K. injection K as <- <-. split; [exact HB|]. now destruct HB as (-> & _). Qed.
  Hypothesis YA : forall id, kind_of u id = Some Distribution -> Y EAssert.
  Lemma q_assert b : (b = false -> Y EAssert) -> q (assert b) (fun _ => b = true).
  Proof. intros H. unfold assert. destruct b; [now apply q_ret|now apply q_raise, H]. Qed.
  Lemma q_module id : in_graph u id -> q (find_module id) (fun n => exists x, n = Some x).
  Proof.
    intros H. unfold find_module. eapply q_bind; [apply q_get|]. intros n ->. unfold in_graph in H.
    destruct (gfind (s_graph u) id) as [x|] eqn:Ef; [|now elim H].
    eapply q_bind; [apply q_assert|intros _ _; apply q_ret; eauto]. intros Hd. apply (YA id). unfold kind_of. rewrite Ef. cbn.
    f_equal. now destruct (n_kind x).
  Qed.
  Lemma q_root id : rooted u id -> q (add_root id) (fun _ => True).
  Proof.
    intros [H1 H2] s r s' HB K. unfold add_root, lift_graph, gadd_root, ghas in K. destruct HB as (A & HB). rewrite A in K.
    unfold in_graph in H1. destruct (gfind (s_graph u) id); [|now elim H1]. injection K as <- <-.
    split; [|exact Logic.I]. split; [|exact HB]. cbn. rewrite (set_add_same _ _ H2). now destruct (s_graph u).
  Qed.
  Lemma edges_same l a b d : (forall ds, In (a, b, ds) l -> In d ds) -> (exists ds, In (a, b, ds) l) -> edges_add l a b d = l.
  Proof.
    induction l as [|[[x y] ds] l IH]; intros H (ds' & K); [destruct K|]. cbn. destruct (seqb a x && seqb b y) eqn:Eq.
    - apply andb_true_iff in Eq as [E1 E2]. apply seqb_eq in E1, E2. subst x y. unfold dep_add.
      assert (X : existsb (dep_eqb d) ds = true).
      { apply existsb_exists. exists d. split; [apply H; now left|]. unfold dep_eqb. destruct d as [? ? ? []]; cbn; rewrite ?Bool.eqb_reflx, ?(proj2 (seqb_eq _ _) eq_refl); reflexivity. }
      now rewrite X.
    - f_equal. apply IH; [intros; apply H; now right|]. destruct K as [K|K]; [|eauto]. injection K as -> -> ->.
      rewrite !(proj2 (seqb_eq _ _) eq_refl) in Eq. discriminate.
  Qed.
  Lemma q_edge a b d : wf (s_graph u) -> has_edge (s_graph u) a b d -> q (add_edge a b d) (fun _ => True).
  Proof.
    intros W (ds & H & Hd) s r s' HB K. unfold add_edge, lift_graph, gadd_edge, ghas in K. destruct HB as (A & HB). rewrite A in K.
    pose proof (wf_edges _ W) as N. destruct (wf_ends _ W _ _ _ H) as [Ga Gb]. apply gfind_ids in Ga, Gb.
    destruct (gfind (s_graph u) a); [|now elim Ga]. destruct (gfind (s_graph u) b); [|now elim Gb]. injection K as <- <-.
    split; [|exact Logic.I]. split; [|exact HB]. cbn. rewrite edges_same; [now destruct (s_graph u)| |eauto].
    intros ds' H'. assert (ds' = ds); [|now subst]. clear - N H H'.  induction (g_edges (s_graph u)) as [|[p e] l IH]; [destruct H|].
    cbn in N. inversion N as [|? ? N1 N2]; subst. destruct H as [H|H], H' as [H'|H']; [congruence| | |auto].
    - injection H as -> ->. elim N1. now apply (in_map fst) in H'.
    - injection H' as -> ->. elim N1. now apply (in_map fst) in H.
  Qed.
  Lemma q_iter {A} (f : A -> M unit) l : (forall x, In x l -> q (f x) (fun _ => True)) -> q (iter f l) (fun _ => True).
  Proof.
    induction l as [|x l IH]; intros H; cbn; [now apply q_ret|]. eapply q_bind; [apply H; now left|]. intros _ _. apply IH. intros y Hy. apply H. now right.
  Qed.
  Variable E : env.
  Lemma q_run k : s_stack u = [] -> q (f_run (exec E k)) (fun _ => True).
  Proof.
    intros H. destruct k as [|k]; [apply q_oof|]. intros s r s' HB K. cbn [exec f_run] in K. unfold run_body in K.
    destruct HB as (A1 & A2 & A3 & HB). rewrite A3, H in K. injection K as <- <-. split; [|exact Logic.I]. repeat (split; [congruence|]). exact HB.
  Qed.
  Lemma q_add_module k name : s_stack u = [] -> rooted u name -> q (add_module (exec E k) name) (fun id => id = name).
  Proof.
    intros Hs [H1 H2]. unfold add_module. eapply q_bind; [now apply q_module|]. intros n (x & ->).
    eapply q_bind; [now apply (q_ret name (fun id => id = name))|]. intros id ->. eapply q_bind; [apply q_note|]. intros _ _.
    eapply q_bind; [now apply q_root|]. intros _ _. eapply q_bind; [now apply q_run|]. intros _ _. now apply q_ret.
  Qed.
  Lemma q_top k a s ans s' (Q : answer -> Prop) : q (do_action E (exec E k) a) Q -> as_before u s ->
    top_call E k a s = Some (ans, s') -> as_before u s' /\ (Q ans \/ exists e, ans = AnsErr e /\ Y e).
  Proof.
    intros H HB HC. unfold top_call, call, attempt, bind in HC. destruct (do_action E (exec E k) a s) as [[[x|e] s2]|] eqn:Ea; [| |discriminate].
    - injection HC as <- <-. destruct (H _ _ _ HB Ea) as [B2 Hq]. auto.
    - injection HC as <- <-. destruct (H _ _ _ HB Ea) as [B2 Hq]. split; [exact B2|]. right. eauto.
  Qed.
End again.

(** What a call that succeeded leaves in the graph. *)
Definition obtained (E : env) (s : st) (a : action) (ans : answer) : Prop :=
  match a with
  | AAddModule name => ans = AnsId name /\ rooted s name
  | AAddSource src => ans = AnsUnit /\ exists c t infos, e_parse E c "-source-code-" src = ROk t
      /\ extract_ast_info (e_names_order E) t = Some infos
      /\ forall i, In i infos -> rooted s (in_name (ii_module i))
         /\ forall nm, In nm (ii_names i) -> rooted s (in_name (ii_module i) ++ "." ++ in_name nm)%string
  | AAddDist d => ans = AnsId (dist_identifier d) /\ kind_of s (dist_identifier d) = Some Distribution
  | AAddDistNamed name => exists c d, e_dist_named E c name = ROk (Some d)
      /\ ans = AnsId (dist_identifier d) /\ kind_of s (dist_identifier d) = Some Distribution
  | AImportModule n name => ans = AnsId name /\ has_edge (s_graph s) n name default_dep
  | AAddEdge n m d => ans = AnsUnit /\ has_edge (s_graph s) n m d
  | AAddRoot id => ans = AnsUnit /\ rooted s id
  | _ => False
  end.
(** Asked again, Python reads the same text alike and knows the same distribution. *)
Definition asked_alike (E : env) (a : action) : Prop :=
  match a with
  | AAddSource src => forall t t', e_parse E t "-source-code-" src = e_parse E t' "-source-code-" src
  | AAddDistNamed name => forall t t', e_dist_named E t name = e_dist_named E t' name
  | _ => True
  end.

Lemma dist_there E fuel d s ans s' : linv s -> order_ok E -> top_call E fuel (AAddDist d) s = Some (ans, s') -> ok_answer ans = true ->
  ans = AnsId (dist_identifier d) /\ kind_of s' (dist_identifier d) = Some Distribution.
Proof.
  intros L HE HC Ho.
  destruct (call_post E fuel (AAddDist d) s ans s' (add_distribution E (exec E fuel) d) AnsId _
    L eq_refl (cwp_distribution E _ (closes_exec E fuel) d s) HC Ho) as (id & -> & Em & G & -> & K).
  split; [reflexivity|]. destruct (gfind (s_graph s) (dist_identifier d)) as [n|] eqn:Ef.
  - unfold add_distribution, get_node, gets, bind in Em. rewrite Ef in Em. unfold assert in Em.
    destruct (is_distribution (n_kind n)) eqn:Ek; [|discriminate]. eapply grows_kind; [exact G|]. unfold kind_of. rewrite Ef. cbn.
    f_equal. now destruct (n_kind n).
  - destruct (K eq_refl) as (_ & (n & Hn & Hk & _) & _). unfold kind_of. rewrite Hn. cbn. now rewrite Hk.
Qed.

Lemma obtained_after E s0 s fuel a ans s' s1 : order_ok E -> start s0 -> reach E s0 s -> repeatable a ->
  top_call E fuel a s = Some (ans, s') -> ok_answer ans = true -> reach E s' s1 ->
  (forall name id, resolves s1 name id -> id = name) -> obtained E s1 a ans.
Proof.
  intros HE H0 HR Ha HC Ho HR1 HN.
  pose proof (h_linv _ _ (reach_history E s0 s HE H0 HR)) as L.
  pose proof (reach_call E s0 s fuel _ ans s' HR HC) as R'.
  pose proof (h_linv _ _ (reach_history E s0 s' HE H0 R')) as L'.
  destruct (reach_from_grows E s' s1 L' HR1) as [G _].
  assert (RF : forall name, root_for s' name -> rooted s1 name).
  { intros name H. apply (grows_root_for _ _ _ G) in H as (id & A & B). apply HN in A. now subst. }
  destruct a as [| |path|m|src|d|dn|prog|n m|n m|hk|hk|names|l|n|n m d|id|id imports| |nm|nm pkg|nm|nm|sp|path|path];
    try contradiction; cbn [obtained].
  - destruct (call_post E fuel (AAddModule m) s ans s' (add_module (exec E fuel) m) AnsId _
      L eq_refl (cwp_module _ (closes_exec E fuel) m s) HC Ho) as (id & -> & _ & _ & Hr & Hi).
    assert (id = m) as -> by (apply HN; eapply grows_resolves; eassumption). split; [reflexivity|]. eapply grows_rooted; eassumption.
  - destruct (call_post E fuel (AAddSource src) s ans s' (add_source E (exec E fuel) src) (fun _ => AnsUnit) _
      L eq_refl (cwp_source E _ (closes_exec E fuel) src s) HC Ho) as (x & -> & _ & _ & t & infos & P1 & P2 & P3).
    split; [reflexivity|]. exists (s_clock s), t, infos. split; [exact P1|]. split; [exact P2|]. intros i Hi.
    destruct (P3 i Hi) as [A B]. split; [now apply RF|]. intros nm Hnm. now apply RF, B.
  - destruct (dist_there E fuel _ s ans s' L HE HC Ho) as [-> K]. split; [reflexivity|]. eapply grows_kind; eassumption.
  - destruct (add_named_ok E fuel _ s ans s' HC Ho) as (d & Hd & HC'). exists (s_clock s), d. split; [exact Hd|].
    destruct (dist_there E fuel d (tick s) ans s') as [-> K]; [|exact HE|exact HC'|exact Ho|].
    + exact L.
    + split; [reflexivity|]. eapply grows_kind; eassumption.
  - destruct (call_post E fuel (AImportModule n m) s ans s' (import_module (exec E fuel) n m) AnsId _
      L eq_refl (cwp_module_edge _ (closes_exec E fuel) n m s) HC Ho) as (id & -> & _ & _ & Hr & Hi).
    assert (id = m) as -> by (apply HN; eapply grows_resolves; eassumption). split; [reflexivity|]. eapply grows_edge; eassumption.
  - apply top_call_ok in HC as [HC|(e & z & _ & _ & ->)]; [|discriminate]. cbn [do_action] in HC. unfold bind, note, modify, add_edge, lift_graph in HC.
    cbn [s_graph log] in HC. destruct (gadd_edge (s_graph s) n m d) as [g|e] eqn:Eg; [|discriminate]. injection HC as <- <-.
    split; [reflexivity|]. eapply grows_edge; [exact G|]. cbn. apply gadd_edge_spec in Eg as (_ & _ & ->). apply edges_add_self.
  - apply top_call_ok in HC as [HC|(e & z & _ & _ & ->)]; [|discriminate]. cbn [do_action] in HC. unfold bind, note, modify, add_root, lift_graph in HC.
    cbn [s_graph log] in HC. destruct (gadd_root (s_graph s) id) as [g|e] eqn:Eg; [|discriminate]. injection HC as <- <-.
    split; [reflexivity|]. eapply grows_rooted; [exact G|]. apply gadd_root_spec in Eg as (A & ->). split; [exact A|].
    cbn. apply set_add_In. now left.
Qed.

Lemma again E k a u ans s2 ans2 : wf (s_graph u) -> s_stack u = [] -> obtained E u a ans -> asked_alike E a ->
  top_call E k a u = Some (ans2, s2) -> as_before u s2 /\ (ans2 = ans \/ ans2 = AnsErr EAssert /\ exists id, kind_of u id = Some Distribution).
Proof.
  intros W Hs Hob Hal HC. set (Y := fun e => e = EAssert /\ exists id, kind_of u id = Some Distribution).
  assert (K : q u Y (do_action E (exec E k) a) (fun x => x = ans)).
  { assert (YA : forall id, kind_of u id = Some Distribution -> Y EAssert) by (intros id Hid; split; [reflexivity|eauto]).
    assert (AM : forall name, rooted u name -> q u Y (add_module (exec E k) name) (fun id => id = name))
      by (intros; now apply q_add_module).
    assert (AD : forall d, kind_of u (dist_identifier d) = Some Distribution ->
      q u Y (add_distribution E (exec E k) d) (fun id => id = dist_identifier d)).
    { intros d Hk. unfold add_distribution. eapply q_bind; [apply q_get|]. intros n ->. unfold kind_of in Hk.
      destruct (gfind (s_graph u) (dist_identifier d)) as [n|]; [|discriminate]. cbn in Hk. injection Hk as Hk. rewrite Hk.
      eapply q_bind; [apply q_assert; discriminate|]. intros _ _. now apply q_ret. }
    destruct a as [| |path|m|src|d|dn|prog|n m|n m|hk|hk|names|l|n|n m d|id|id imports| |nm|nm pkg|nm|nm|sp|path|path];
      try contradiction; cbn [obtained asked_alike do_action] in *.
    - destruct Hob as [-> H]. eapply q_bind; [now apply AM|]. intros id ->. now apply q_ret.
    - destruct Hob as (-> & c & t & infos & P1 & P2 & P3). eapply q_bind; [|intros _ _; now apply q_ret].
      unfold add_source. eapply q_bind; [apply q_ask|].
      + intros c' e K. rewrite (Hal c' c), P1 in K. discriminate.
      + intros t' (c' & K). rewrite (Hal c' c), P1 in K. injection K as <-. rewrite P2. apply q_iter. intros i Hi.
        destruct (P3 i Hi) as [A B]. eapply q_bind; [now apply AM|]. intros _ _. apply q_iter. intros nm Hnm.
        eapply q_bind; [now apply AM, B|]. intros _ _. now apply q_ret.
    - destruct Hob as [-> H]. eapply q_bind; [now apply AD|]. intros id ->. now apply q_ret.
    - destruct Hob as (c & d & P1 & -> & P2). apply (q_bind _ _ _ _ (fun id => id = dist_identifier d)); [|intros id H; apply q_ret; now rewrite H].
      unfold add_distribution_named. eapply q_bind; [apply q_ask|].
      + intros c' e K. rewrite (Hal c' c), P1 in K. discriminate.
      + intros d' (c' & K). rewrite (Hal c' c), P1 in K. injection K as <-. now apply AD.
    - destruct Hob as [-> H]. apply (q_bind _ _ _ _ (fun id => id = m)); [|intros id K; apply q_ret; now rewrite K].
      unfold import_module. eapply q_bind; [apply q_note|]. intros _ _. eapply q_bind; [apply q_module|]; [exact YA| |].
      + destruct H as (ds & H & _). apply (wf_ends _ W) in H as [_ H]. now apply gfind_ids in H.
      + intros x (y & ->). eapply q_bind; [now apply (q_ret _ _ m (fun id => id = m))|]. intros id ->.
        eapply q_bind; [now apply q_edge|]. intros _ _. now apply q_ret.
    - destruct Hob as [-> H]. eapply q_bind; [apply q_note|]. intros _ _. eapply q_bind; [now apply q_edge|]. intros _ _. now apply q_ret.
    - destruct Hob as [-> H]. eapply q_bind; [apply q_note|]. intros _ _. eapply q_bind; [now apply q_root|]. intros _ _. now apply q_ret. }
  destruct (q_top u Y E k a u ans2 s2 _ K) as [A B].
  - repeat split.
  - exact HC.
  - split; [exact A|]. destruct B as [B|(e & -> & -> & B)]; auto.
Qed.

Definition C87_statement : Prop := forall E s0 s fuel a ans s' s1 fuel2 ans2 s2,
  order_ok E -> start s0 -> reach E s0 s -> repeatable a -> asked_alike E a ->
  top_call E fuel a s = Some (ans, s') -> ok_answer ans = true -> reach E s' s1 ->
  top_call E fuel2 a s1 = Some (ans2, s2) -> as_before s1 s2 /\ ans2 = ans.

Theorem C87_partial : forall E s0 s fuel a ans s' s1 fuel2 ans2 s2,
  order_ok E -> start s0 -> reach E s0 s -> repeatable a -> asked_alike E a ->
  top_call E fuel a s = Some (ans, s') -> ok_answer ans = true -> reach E s' s1 ->
  (forall name id, resolves s1 name id -> id = name) -> s_stack s1 = [] ->
  top_call E fuel2 a s1 = Some (ans2, s2) ->
  as_before s1 s2 /\ (ans2 = ans \/ ans2 = AnsErr EAssert /\ exists id, kind_of s1 id = Some Distribution).
Proof.
  intros E s0 s fuel a ans s' s1 fuel2 ans2 s2 HE H0 HR Ha Hal HC Ho HR1 HN Hs HC2.
  pose proof (obtained_after E s0 s fuel a ans s' s1 HE H0 HR Ha HC Ho HR1 HN) as Hob.
  eapply again; try eassumption. apply f_wf. apply (reach_facts E s0 s1 HE H0).
  eapply reach_trans; [|exact HR1]. exact (reach_call E s0 s fuel _ ans s' HR HC).
Qed.

(** Without hooks for missing modules nodes have the names that were asked for. *)
Theorem C87_unhooked_partial : forall E s0 s fuel a ans s' s1 fuel2 ans2 s2,
  order_ok E -> start s0 -> reach E s0 s -> repeatable a -> asked_alike E a ->
  top_call E fuel a s = Some (ans, s') -> ok_answer ans = true -> reach E s' s1 ->
  s_missing s1 = [] -> s_stack s1 = [] -> (forall id, kind_of s1 id <> Some Distribution) ->
  top_call E fuel2 a s1 = Some (ans2, s2) -> as_before s1 s2 /\ ans2 = ans.
Proof.
  intros E s0 s fuel a ans s' s1 fuel2 ans2 s2 HE H0 HR Ha Hal HC Ho HR1 HM Hs Hd HC2.
  destruct (C87_partial E s0 s fuel a ans s' s1 fuel2 ans2 s2 HE H0 HR Ha Hal HC Ho HR1) as [A B]; [|exact Hs|exact HC2|].
  - intros name id. apply (reach_resolves E s0 s1 name id HE H0); [|exact HM].
    eapply reach_trans; [|exact HR1]. exact (reach_call E s0 s fuel _ ans s' HR HC).
  - split; [exact A|]. destruct B as [B|(_ & id & B)]; [exact B|]. now elim (Hd id).
Qed.

(** A script can be added once; adding it again raises ValueError and changes nothing. *)
Theorem C87_script : forall E s0 s fuel path ans s' s1 fuel2 ans2 s2,
  order_ok E -> start s0 -> reach E s0 s -> top_call E fuel (AAddScript path) s = Some (ans, s') -> ok_answer ans = true ->
  reach E s' s1 -> top_call E fuel2 (AAddScript path) s1 = Some (ans2, s2) -> as_before s1 s2 /\ ans2 = AnsErr EValue.
Proof.
  intros E s0 s fuel path ans s' s1 fuel2 ans2 s2 HE H0 HR HC Ho HR1 HC2.
  destruct (C36_new_script E s0 s fuel path ans s' HE H0 HR HC Ho) as (_ & _ & K & _).
  pose proof (reach_call E s0 s fuel _ ans s' HR HC) as R'.
  destruct (reach_from_grows E s' s1 (h_linv _ _ (reach_history E s0 s' HE H0 R')) HR1) as [G _].
  destruct (C36_duplicate_partial E fuel2 path s1 Script) as (s3 & A & l & ->); [eapply grows_kind; eassumption|discriminate|].
  rewrite A in HC2. injection HC2 as <- <-. repeat split.
Qed.

(** Work that an exception has left is done by the second call: it adds [p.m]. *)
Definition left_world : env := world [("p", ESource true [imp "p.m"] []); ("p.m", ESource false [] []); ("q", ESource false [] [])] [] [].
Definition left_q : st := Eval vm_compute in snd (the_calls left_world [AAddModule "q"] new).
Definition left_work : st := Eval vm_compute in snd (the_calls left_world [AAddDist (the_dist ["p"; "a..b"])] left_q).
Definition left_done : st := Eval vm_compute in snd (the_calls left_world [AAddModule "q"] left_work).
Example C87_pending :
  top_call left_world 60 (AAddModule "q") new = Some (AnsId "q", left_q)
  /\ top_call left_world 60 (AAddDist (the_dist ["p"; "a..b"])) left_q = Some (AnsErr EValue, left_work)
  /\ top_call left_world 60 (AAddModule "q") left_work = Some (AnsId "q", left_done)
  /\ map fst (node_list left_work) = ["q"; "/lib/d.dist-info"; "p"]
  /\ map fst (node_list left_done) = ["q"; "/lib/d.dist-info"; "p"; "p.m"].
Proof. vm_compute. auto. Qed.

Theorem C87_refuted : ~ C87_statement.
Proof.
  destruct C87_pending as (P1 & P2 & P3 & P4 & P5).
  intros H. destruct (H left_world new new 60 (AAddModule "q") (AnsId "q") left_q left_work 60 (AnsId "q") left_done) as [A _].
  - apply order_world.
  - now eexists _, _, _.
  - apply reach_init.
  - exact Logic.I.
  - exact Logic.I.
  - exact P1.
  - reflexivity.
  - eapply reach_call; [apply reach_init|exact P2].
  - exact P3.
  - destruct A as [A _]. apply (f_equal (fun g => List.length (g_nodes g))) in A. vm_compute in A. discriminate.
Qed.

(** Three calls, other calls in between, and the three calls again. *)
Definition rep_world : env := world
  [("p", ESource true [imp "p.m"] []); ("p.m", ESource false [] []); ("a", ESource false [imp "p"] []); ("z", ESource false [imp "gone"] [])]
  [("import a; from p import m", [imp "a"; AIf [from "p" ["m"] 0]])] [].
Definition rep_calls : list action := [AAddModule "p"; AAddSource "import a; from p import m"; AImportModule "a" "z"; AAddEdge "z" "p" default_dep; AAddRoot "z"].
Definition rep_more : list action := [AAddModule "z"; AAddModule "zz.y"].
Definition rep_once : st := Eval vm_compute in snd (the_calls rep_world (rep_calls ++ rep_more) new).
Definition rep_twice : st := Eval vm_compute in snd (the_calls rep_world rep_calls rep_once).
Lemma rep_same : as_before rep_once rep_twice.
Proof. vm_compute. repeat split. Qed.
Example C87_nonvacuous : s_stack rep_once = [] /\ s_missing rep_once = []
  /\ fst (the_calls rep_world rep_calls new) = [AnsId "p"; AnsUnit; AnsId "z"; AnsUnit; AnsUnit]
  /\ fst (the_calls rep_world rep_calls rep_once) = [AnsId "p"; AnsUnit; AnsId "z"; AnsUnit; AnsUnit]
  /\ as_before rep_once rep_twice
  /\ map fst (node_list rep_once) = ["p"; "p.m"; "a"; "z"; "gone"; "zz"; "zz.y"].
Proof. split; [reflexivity|]. split; [reflexivity|]. split; [vm_compute; reflexivity|]. split; [vm_compute; reflexivity|]. split; [exact rep_same|]. vm_compute. reflexivity. Qed.

Print Assumptions C87_refuted.
Print Assumptions C87_partial.
Print Assumptions C87_unhooked_partial.
Print Assumptions C87_script.
