(** C66: the graph does not depend on the order in which things are added. *)
From Verif Require Import ReportSpec BuilderSource BuilderHist BuilderInv BuilderCalls World PropsBuilder PropsSource PropsReach BuilderSame.
Open Scope string_scope.

(** ** Nodes for the same name *)

Lemma child_shorter c x : starts_with "." x = false -> child_of c x -> String.length c < String.length x.
Proof.
  intros S0 H. destruct H as [y _ _|k y Hc Hy].
  - rewrite length_app_s. cbn. lia.
  - subst c. cbn in S0. now destruct (repeat_char dot k ++ y)%string.
Qed.
Lemma script_or (k : kind) : k = Script \/ k <> Script.
Proof. destruct k; (now left) || (right; discriminate). Qed.
Lemma dist_or (k : kind) : k = Distribution \/ k <> Distribution.
Proof. destruct k; (now left) || (right; discriminate). Qed.

Section two.
  Variable E : env.
  Variable find : string -> option spec.
  Variables conf1 conf2 : list (string * implied).
  Hypothesis HS : steady E find.
  Hypothesis HT : same_table conf1 conf2.
  Variable DS : dist -> Prop.
  Hypothesis HD : one_each DS.
  Variables s1 s2 : st.
  Hypothesis J1 : J E find conf1 DS s1.
  Hypothesis J2 : J E find conf2 DS s2.
  Hypothesis HQ : same_scripts s1 s2.

  Lemma birth_kind conf s x n l : birth E find conf DS s x n l -> n_kind n = Script -> 
    exists t tree, e_script E t x = ROk tree /\ extract_ast_info (e_names_order E) tree = Some l /\ n = Node x Script [] [] None (Some x) [] false.
  Proof.
    intros [t tree l0 A B|d A B|A|c k A B C D|i k A B C|A B C|sp n0 l0 k t1 t2 A B C D] Hk; cbn [plain_node n_kind] in Hk; try discriminate Hk.
    - now exists t, tree.
    - destruct k; discriminate.
    - destruct i; try discriminate C; injection C as <-; discriminate Hk.
    - apply (nfs_kind E) in D as [_ D]; [|eapply sy_direct; eassumption]. rewrite Hk in D. destruct D.
  Qed.

  Lemma birth_dist conf s x n l : birth E find conf DS s x n l -> n_kind n = Distribution ->
    exists d, DS d /\ x = dist_identifier d /\ n = Node x Distribution [] [] (Some d) None [] false /\ l = [].
  Proof.
    intros [t tree l0 A B|d A B|A|c k A B C D|i k A B C|A B C|sp n0 l0 k t1 t2 A B C D] Hk; cbn [plain_node n_kind] in Hk; try discriminate Hk.
    - now exists d.
    - destruct k; discriminate.
    - destruct i; try discriminate C; injection C as <-; discriminate Hk.
    - apply (nfs_kind E) in D as [_ D]; [|eapply sy_direct; eassumption]. rewrite Hk in D. destruct D.
  Qed.

  Lemma births_agree x : forall a b n n' l l', gfind (s_graph s1) x = Some a -> gfind (s_graph s2) x = Some b ->
    birth E find conf1 DS s1 x n l -> same_node n a -> birth E find conf2 DS s2 x n' l' -> same_node n' b -> n = n' /\ l = l'.
  Proof.
    induction x as [x IH] using (induction_ltof1 _ String.length). unfold ltof in IH.
    intros a b n n' l l' Ha Hb B1 S1 B2 S2.
    assert (KA : kind_of s1 x = Some (n_kind n)) by (unfold kind_of; rewrite Ha; cbn; destruct S1 as (_ & -> & _); reflexivity).
    assert (KB : kind_of s2 x = Some (n_kind n')) by (unfold kind_of; rewrite Hb; cbn; destruct S2 as (_ & -> & _); reflexivity).
    assert (IK : forall c k k', starts_with "." x = false -> child_of c x -> kind_of s1 c = Some k -> kind_of s2 c = Some k' -> k = k').
    { intros c k k' H0 Hc K K'. unfold kind_of in K, K'. destruct (gfind (s_graph s1) c) as [u|] eqn:Eu; [|discriminate].
      destruct (gfind (s_graph s2) c) as [v|] eqn:Ev; [|discriminate]. injection K as <-. injection K' as <-.
      destruct (j_nodes _ _ _ _ _ J1 _ _ Eu) as (n1 & l1 & _ & P1 & Q1). destruct (j_nodes _ _ _ _ _ J2 _ _ Ev) as (n2 & l2 & _ & P2 & Q2).
      destruct (IH c (child_shorter _ _ H0 Hc) _ _ _ _ _ _ Eu Ev P1 Q1 P2 Q2) as [-> _].
      destruct Q1 as (_ & -> & _), Q2 as (_ & -> & _). reflexivity. }
    destruct (script_or (n_kind n)) as [Es|Es].
    - assert (Es' : n_kind n' = Script).
      { destruct (HQ x) as [[X _] _]; [unfold in_graph; congruence..|]. rewrite Es in KA. apply X in KA. congruence. }
      destruct (birth_kind _ _ _ _ _ B1 Es) as (t & tr & A1 & A2 & ->). destruct (birth_kind _ _ _ _ _ B2 Es') as (t' & tr' & A1' & A2' & ->).
      rewrite (sy_script _ _ HS t' t x) in A1'. split; congruence.
    - assert (Es' : n_kind n' <> Script).
      { intros K. destruct (HQ x) as [[_ X] _]; [unfold in_graph; congruence..|]. rewrite K in KB. apply X in KB. congruence. }
      destruct (dist_or (n_kind n)) as [Ed|Ed].
      { assert (Ed' : n_kind n' = Distribution).
        { destruct (HQ x) as [_ [X _]]; [unfold in_graph; congruence..|]. rewrite Ed in KA. apply X in KA. congruence. }
        destruct (birth_dist _ _ _ _ _ B1 Ed) as (d & A1 & A2 & -> & ->). destruct (birth_dist _ _ _ _ _ B2 Ed') as (d' & A1' & A2' & -> & ->).
        rewrite (HD d d'); [now split|exact A1|exact A1'|congruence]. }
      assert (Ed' : n_kind n' <> Distribution).
      { intros K. destruct (HQ x) as [_ [_ X]]; [unfold in_graph; congruence..|]. rewrite K in KB. apply X in KB. congruence. }
      assert (AB : forall c k, above s1 x -> starts_with "." x = false -> child_of c x -> kind_of s2 c = Some k -> is_missing k || is_excluded k = true -> False).
      { intros c k [_ Q] H0 Hc K1 K2. destruct (Q c Hc) as (k' & K3 & K4 & K5). rewrite <- (IK c k' k H0 Hc K3 K1), K4, K5 in K2. discriminate. }
      assert (BA : forall c k, above s2 x -> starts_with "." x = false -> child_of c x -> kind_of s1 c = Some k -> is_missing k || is_excluded k = true -> False).
      { intros c k [_ Q] H0 Hc K1 K2. destruct (Q c Hc) as (k' & K3 & K4 & K5). rewrite (IK c k k' H0 Hc K1 K3), K4, K5 in K2. discriminate. }
      destruct B1 as [t tree l A B|d A B|A|c k A B C D|i k A B C|A B C|sp n l k t1 t2 A B C D]; [now elim Es|now elim Ed|..];
      destruct B2 as [t' tree' l' A' B'|d' A' B'|A'|c' k' A' B' C' D'|i' k' A' B' C'|A' B' C'|sp' n' l' k' t1' t2' A' B' C' D']; try (now elim Es'); try (now elim Ed');
      try (match goal with H : above _ _ |- _ => destruct H as [H _] end; congruence);
      try congruence; try (exfalso; eauto; fail).
      + now split.
      + assert (c' = c) by (eapply child_one; eassumption). subst c'. rewrite (IK c k k' A B C C'). now split.
      + rewrite <- HT in B'. rewrite B in B'. injection B' as <-. rewrite C in C'. injection C' as <-. now split.
      + exfalso. rewrite HT in B. destruct (B' i B) as [K _]. congruence.
      + exfalso. rewrite HT in B. destruct (B' i B) as [K _]. congruence.
      + exfalso. rewrite <- HT in B'. destruct (B i' B') as [K _]. congruence.
      + now split.
      + exfalso. rewrite <- HT in B'. destruct (B i' B') as [K _]. congruence.
      + rewrite C in C'. injection C' as <-.
        pose proof (nfs_same E find HS _ _ _ _ _ _ _ _ _ (sy_direct _ _ HS _ _ C) D D') as K. now injection K.
  Qed.
End two.

(** ** Edges have attributes *)

Definition full (g : graph) : Prop := forall a b ds, In (a, b, ds) (g_edges g) -> ds <> [] /\ NoDup ds.
Lemma dep_add_full d ds : NoDup ds -> dep_add d ds <> [] /\ NoDup (dep_add d ds).
Proof.
  intros H. unfold dep_add. destruct (existsb (dep_eqb d) ds) eqn:E.
  - split; [|exact H]. intros ->. discriminate.
  - split; [destruct ds; discriminate|]. apply (Permutation_NoDup (Permutation_cons_append ds d)). constructor; [|exact H].
    intros K. assert (existsb (dep_eqb d) ds = true) by (apply existsb_exists; exists d; split; [exact K|now apply dep_eqb_eq]). congruence.
Qed.
Lemma edges_add_full l s t d : (forall a b ds, In (a, b, ds) l -> ds <> [] /\ NoDup ds) ->
  forall a b ds, In (a, b, ds) (edges_add l s t d) -> ds <> [] /\ NoDup ds.
Proof.
  induction l as [|[[s' t'] ds0] l IH]; cbn; intros F a b ds H.
  - destruct H as [H|[]]. injection H as <- <- <-. split; [discriminate|repeat constructor; intros []].
  - destruct (seqb s s' && seqb t t').
    + destruct H as [H|H]; [|eapply F; right; exact H]. injection H as <- <- <-. apply dep_add_full. eapply F. now left.
    + destruct H as [H|H]; [injection H as <- <- <-; eapply F; now left|]. eapply IH; [|exact H]. intros x y z K. eapply F. right. exact K.
Qed.
Lemma step_full mrun q s s' : step mrun q s s' -> full (s_graph s) -> full (s_graph s').
Proof.
  intros H W. destruct H as [s' H|m|h H|h H|names|l|e H|name id H|name i H1 H2 H3|name H1 H2 H3|n l H1 H2|n H1 H2
                  |a b d H1 H2 H3|id H1 H2|id names|n l H1|n m i a b H1 H2 H3 H4 H5 H6 H7|n pkg H1 H2|w rest H1 H2 H3
                  |n l H1 H2|w rest H1 H2 H3|w rest H1 H2 H3|H1|a rest H1 H2];
    try exact W; cbn [s_graph log set_graph set_lazy].
  - destruct H as (f & c & ->). exact W.
  - intros x y ds. cbn [g_edges]. now apply edges_add_full.
  - rewrite schedule_graph. exact W.
Qed.
Lemma reach_full E s0 s : order_ok E -> start s0 -> reach E s0 s -> full (s_graph s).
Proof.
  intros HE H0 H. apply (reach_history E s0 s HE H0) in H. destruct H as [C _ _ _ _].
  apply (chain_ind_inv _ _ (fun s => full (s_graph s)) s0 s C); [intros a b; apply step_full|].
  destruct H0 as (i & p & m & ->). intros a b ds [].
Qed.

(** C20, edges: every edge is there for at least one reason, and no reason is
    listed twice. *)
Theorem C20_edge_attributes : forall E s0 s, order_ok E -> start s0 -> reach E s0 s ->
  forall a b ds, In (a, b, ds) (g_edges (s_graph s)) -> ds <> [] /\ NoDup ds.
Proof. exact reach_full. Qed.

(** import m; def f(): import m; import m *)
Example C20_attributes_nonvacuous :
  g_edges (s_graph (snd (the_calls (world [("m", ESource false [] [])]
    [("main.py", [World.imp "m"; AFunctionDef [World.imp "m"]; World.imp "m"])] []) [AAddScript "main.py"] new)))
  = [("main.py", "m", [Dep true false false None; Dep false true false None])].
Proof. vm_compute. reflexivity. Qed.

(** ** Sessions *)

Lemma plain_more E implies more fine s : incl implies more -> plain_history E implies fine s -> plain_history E more fine s.
Proof.
  intros HI. induction 1 as [first HF|s fuel a ans s' H IH Ha HC Hn]; [apply ph_init; eapply incl_tran; eassumption|].
  eapply ph_call; [exact IH| |exact HC|exact Hn]. destruct a; auto. eapply incl_tran; eassumption.
Qed.
Lemma opening_plain E implies s : opening E implies s -> exists all, plain_history E all True s.
Proof.
  induction 1 as [|s fuel names ans s' H (all & IH) HC Ha|s fuel l ans s' H (all & IH) HC Ha].
  - exists implies. apply ph_init, incl_refl.
  - exists all. eapply ph_call; [exact IH| |exact HC|auto]. exact Logic.I.
  - exists (all ++ l)%list. eapply ph_call; [eapply plain_more; [|exact IH]| |exact HC|auto]; [apply incl_appl, incl_refl|]. apply incl_appr, incl_refl.
Qed.
Lemma session_plain E DS implies conf s : dsession E DS implies conf s -> exists all, plain_history E all True s.
Proof.
  induction 1 as [s H _|s fuel a ans s' H (all & IH) Ha HC Hn]; [eapply opening_plain; exact H|]. exists all. eapply ph_call; [exact IH| |exact HC|auto].
  destruct Ha; now destruct a.
Qed.
Lemma opening_user E implies s : opening E implies s -> user_reach E (init implies [] []) s.
Proof.
  induction 1 as [|s fuel names ans s' H IH HC Ha|s fuel l ans s' H IH HC Ha]; [apply user_init|..]; (eapply user_more; [exact IH| |exact HC]; reflexivity).
Qed.
Lemma session_user E DS implies conf s : dsession E DS implies conf s -> user_reach E (init implies [] []) s.
Proof.
  induction 1 as [s H _|s fuel a ans s' H IH Ha HC Hn]; [now apply opening_user|]. eapply user_more; [exact IH| |exact HC].
  destruct Ha as [Ha|Ha]; destruct a; try contradiction Ha; reflexivity.
Qed.
Lemma session_holds E DS implies conf s : dsession E DS implies conf s -> exists all, plain all True s.
Proof. intros H. destruct (session_plain _ _ _ _ _ H) as (all & P). exists all. eapply plain_holds. exact P. Qed.

(** What is known about each of the two. *)
Section one.
  Variable E : env.
  Variable find : string -> option spec.
  Variables implies conf : list (string * implied).
  Hypothesis HE : order_ok E.
  Hypothesis HS : steady E find.
  Hypothesis HC : forall x i, assoc x conf = Some i -> starts_with "." x = false.
  Context {DS : dist -> Prop}.
  Variable s : st.
  Hypothesis HX : dsession E DS implies conf s.
  Let s0 := init implies [] [].
  Lemma one_start : start s0. Proof. now exists implies, [], []. Qed.
  Lemma one_user : user_reach E s0 s. Proof. eapply session_user; exact HX. Qed.
  Lemma one_fine : ~ In EvErr (s_log s).
  Proof. destruct (session_holds _ _ _ _ _ HX) as (all & P). apply (pl_fine _ _ _ P Logic.I). Qed.
  Lemma one_resolves name m : resolves s name m -> m = name.
  Proof.
    apply (reach_resolves E s0 s name m HE one_start (user_is_reach _ _ _ one_user)).
    destruct (session_holds _ _ _ _ _ HX) as (all & P). exact (pl_missing _ _ _ P).
  Qed.
  Lemma one_wf : wf (s_graph s). Proof. exact (f_wf _ (reach_facts E s0 s HE one_start (user_is_reach _ _ _ one_user))). Qed.
  Lemma one_full : full (s_graph s). Proof. exact (reach_full E s0 s HE one_start (user_is_reach _ _ _ one_user)). Qed.
  Lemma one_ends a b d : has_edge (s_graph s) a b d -> in_graph s a /\ in_graph s b.
  Proof. intros (ds & A & _). apply (wf_ends _ one_wf) in A as [A B]. unfold in_graph. now rewrite !gfind_ids. Qed.
  Lemma one_root x : In x (g_roots (s_graph s)) -> in_graph s x.
  Proof. intros A. apply (wf_roots _ one_wf) in A. unfold in_graph. now rewrite gfind_ids. Qed.
  Lemma one_reaches x : reaches (s_graph s) x -> in_graph s x.
  Proof.
    intros [y H|a b ds _ H]; [now apply one_root|]. apply (wf_ends _ one_wf) in H as [_ H]. unfold in_graph. now rewrite gfind_ids.
  Qed.
  (** A statement of a node of the graph. *)
  Lemma one_scheduled n l i : In (EvAdd n l) (s_log s) -> In i l -> scheduled s n i.
  Proof.
    intros A B. destruct (h_paid _ _ (reach_history E s0 s HE one_start (user_is_reach _ _ _ one_user))) as [P|P]; [now elim one_fine|].
    exists l. split; [exact (P (OSched n l) A)|exact B].
  Qed.
  Lemma one_import n l i : In (EvAdd n l) (s_log s) -> In i l -> import_edge s n i.
  Proof. exact (C25_import_edges_partial E s0 s HE one_start one_user one_fine n l i). Qed.
  Lemma pkg_unique n b b' : pkg_node s n b -> pkg_node s n b' -> b = b'.
  Proof. intros (k & A & ->) (k' & A' & ->). congruence. Qed.
  Lemma one_aims n l i m : In (EvAdd n l) (s_log s) -> In i l -> aims s n i m ->
    has_edge (s_graph s) n m (import_dep i) /\ In (EvDone (DoNames n m i)) (s_log s).
  Proof.
    intros A B (b & C & D). pose proof (user_is_reach _ _ _ one_user) as HR.
    pose proof (reach_facts E s0 s HE one_start HR) as F.
    destruct (f_entered _ F) as (T & _ & _). pose proof (one_scheduled n l i A B) as (l' & A' & B').
    assert (NF : forall w, ~ In (EvFail w) (s_log s)).
    { intros w K. destruct (h_paid _ _ (reach_history E s0 s HE one_start HR)) as [P|P]; [now elim one_fine|]. exact (P (OFail w) K). }
    destruct (at_rest E s0 s HE one_start HR (user_reach_empty E s0 s HE one_start one_user one_fine)) as [Rest _].
    destruct (Rest _ (T n l' i A' B')) as [K|K]; [|now elim (NF _ K)].
    destruct (f_results _ F _ K) as [(b' & K1 & K2 & _)|(m' & (b' & name & K1 & K2 & K3) & K4 & K5)];
      rewrite (pkg_unique n b' b K1 C) in K2.
    - now elim (imports_not_beyond _ _ _ _ D).
    - apply one_resolves in K3. subst name. rewrite (imports_name_unique _ _ _ _ _ K2 D) in *.
      split; [exact K4|]. destruct (Rest _ K5) as [K6|K6]; [exact K6|now elim (NF _ K6)].
  Qed.
  Lemma one_beyond n l i b : In (EvAdd n l) (s_log s) -> In i l -> pkg_node s n b -> beyond_top n b i ->
    has_edge (s_graph s) n (invalid_name i) (invalid_dep i).
  Proof.
    intros A B C D. destruct (one_import n l i A B) as [(b' & name & m & K1 & K2 & _)|(b' & _ & _ & _ & K)]; [|exact K].
    rewrite (pkg_unique n b' b K1 C) in K2. now elim (imports_not_beyond _ _ _ _ K2).
  Qed.
  (** The names of its from list. *)
  Lemma one_names n l i m nd nm : In (EvAdd n l) (s_log s) -> In i l -> names_of s n i m nd -> In nm (ii_names i) -> name_done s n m i nm.
  Proof.
    intros A B (m0 & C & D & F & G & K) Hn. destruct (one_aims n l i m0 A B C) as [_ L].
    destruct (f_results _ (reach_facts E s0 s HE one_start (user_is_reach _ _ _ one_user)) _ L K) as (_ & _ & Q & _).
    unfold names_linked in Q. rewrite K in Q. assert (Km : kind_of s m = Some (n_kind nd)) by (unfold kind_of; now rewrite F).
    destruct D as [<-|D].
    - apply (Q (n_kind nd) m Km); [|exact Hn]. left. split; [exact G|reflexivity].
    - apply (Q (AliasNode m) m D); [|exact Hn]. right. split; [reflexivity|]. exists (n_kind nd). split; [exact Km|exact G].
  Qed.
  Lemma names_of_source n i m nd : names_of s n i m nd -> names_source s n i m.
  Proof.
    intros (m0 & (b & A & B) & C & _). exists m0. split; [|exact C]. exists b, m0. split; [exact A|]. split; [exact B|now left].
  Qed.
  Lemma one_JW : JW E find conf DS s. Proof. eapply dsession_JW; eassumption. Qed.

  (** Edges of a node that is not left over. *)
  Lemma dist_paid_kind x : dist_paid s x -> kind_of s x = Some Distribution.
  Proof. intros (nd & d & A & B & _). unfold kind_of. rewrite A. cbn. now rewrite B. Qed.
  Lemma one_node x : in_graph s x -> kind_of s x <> Some Script /\ kind_of s x <> Some Distribution -> starts_with "." x = false ->
    paid (Some x) s x /\ (settled E find s -> reaches (s_graph s) x -> forall c, child_of c x -> has_edge (s_graph s) x c (Dep false true false None)).
  Proof.
    intros A [B B'] C. destruct (w_nodes _ _ _ _ _ one_JW x A) as [[K|K]|[K|[K|(K & m & y & nd & K1 & K2 & K3)]]]; [now elim B|elim B'; now apply dist_paid_kind|destruct K; congruence|..].
    - split; [now apply paid_weaken|]. intros _ _. destruct (pd_parent _ _ _ K) as [K1|K1]; [discriminate|exact K1].
    - split; [exact K|]. intros Hs Hr c Hc. destruct K3 as [K3|K3]; [now elim (se_left _ _ _ Hs _ _ _ K3)|].
      destruct (se_tidy _ _ _ Hs) as [T1 T2]. destruct K1 as (n & i & nm & L1 & L2 & L3 & L4 & L5). subst y.
      rewrite K2 in Hc. rewrite (child_plainly c m (in_name nm)); [exact K3| | |exact Hc].
      + eapply T1; eassumption.
      + eapply T2; eassumption.
  Qed.
End one.

Section pair.
  Variable E : env.
  Variable find : string -> option spec.
  Variables implies1 implies2 conf1 conf2 : list (string * implied).
  Hypothesis HE : order_ok E.
  Hypothesis HS : steady E find.
  Hypothesis HT : same_table conf1 conf2.
  Hypothesis HC : forall x i, assoc x conf1 = Some i -> starts_with "." x = false.
  Context {DS : dist -> Prop}.
  Hypothesis HD : one_each DS.
  Variables s1 s2 : st.
  Hypothesis X1 : dsession E DS implies1 conf1 s1.
  Hypothesis X2 : dsession E DS implies2 conf2 s2.
  Hypothesis HQ : same_scripts s1 s2.

  Lemma HC2 : forall x i, assoc x conf2 = Some i -> starts_with "." x = false.
  Proof. intros x i. rewrite <- HT. apply HC. Qed.
  Let W1 : JW E find conf1 DS s1 := one_JW E find implies1 conf1 HE HS HC s1 X1.
  Let W2 : JW E find conf2 DS s2 := one_JW E find implies2 conf2 HE HS HC2 s2 X2.

  Lemma pair_alike x a b : gfind (s_graph s1) x = Some a -> gfind (s_graph s2) x = Some b -> alike a b.
  Proof.
    intros Ha Hb. destruct (j_nodes _ _ _ _ _ (w_inv _ _ _ _ _ W1) _ _ Ha) as (n1 & l1 & _ & P1 & Q1).
    destruct (j_nodes _ _ _ _ _ (w_inv _ _ _ _ _ W2) _ _ Hb) as (n2 & l2 & _ & P2 & Q2).
    destruct (births_agree E find conf1 conf2 HS HT DS HD s1 s2 (w_inv _ _ _ _ _ W1) (w_inv _ _ _ _ _ W2) HQ x _ _ _ _ _ _ Ha Hb P1 Q1 P2 Q2) as [<- _].
    destruct Q1 as (A1 & A2 & A3 & A4 & A5 & A6 & A7 & _), Q2 as (B1 & B2 & B3 & B4 & B5 & B6 & B7 & _).
    unfold alike. repeat split; congruence.
  Qed.
  Lemma pair_stmts x l : In (EvAdd x l) (s_log s1) -> in_graph s2 x -> In (EvAdd x l) (s_log s2).
  Proof.
    intros A B. destruct (j_added _ _ _ _ _ (w_inv _ _ _ _ _ W1) _ _ A) as (a & n1 & Ha & P1 & Q1 & NK).
    destruct (gfind (s_graph s2) x) as [b|] eqn:Hb; [|now elim B].
    destruct (j_nodes _ _ _ _ _ (w_inv _ _ _ _ _ W2) _ _ Hb) as (n2 & l2 & K & P2 & Q2).
    destruct (births_agree E find conf1 conf2 HS HT DS HD s1 s2 (w_inv _ _ _ _ _ W1) (w_inv _ _ _ _ _ W2) HQ x _ _ _ _ _ _ Ha Hb P1 Q1 P2 Q2) as [-> ->].
    destruct K as [K|K]; [exact K|now elim NK].
  Qed.
  Lemma pair_kind x k : kind_of s1 x = Some k -> in_graph s2 x -> kind_of s2 x = Some k.
  Proof.
    unfold kind_of, in_graph. intros A B. destruct (gfind (s_graph s1) x) as [a|] eqn:Ha; [|discriminate].
    destruct (gfind (s_graph s2) x) as [b|] eqn:Hb; [|now elim B]. injection A as <-. cbn. f_equal. apply (pair_alike x a b Ha Hb).
  Qed.
  Lemma pair_pkg x b : pkg_node s1 x b -> in_graph s2 x -> pkg_node s2 x b.
  Proof. intros (k & A & ->) B. exists k. split; [now apply pair_kind|reflexivity]. Qed.
  Lemma pair_aims x i m : aims s1 x i m -> in_graph s2 x -> aims s2 x i m.
  Proof. intros (b & A & B) C. exists b. split; [now apply pair_pkg|exact B]. Qed.

  Lemma pair_plain x : plainly s1 x -> in_graph s2 x -> (kind_of s2 x <> Some Script /\ kind_of s2 x <> Some Distribution) /\ starts_with "." x = false.
  Proof.
    intros (A & [B B'] & C) D. split; [|exact C]. destruct (HQ x A D) as [K1 K2]. split; intros K; [apply B, K1, K|apply B', K2, K].
  Qed.
  Lemma target_plain x t : kind_of s2 x = Some (AliasNode t) \/ kind_of s2 x = Some (VirtualNode t) ->
    in_graph s2 x /\ has_edge (s_graph s2) x t (Dep false true false None).
  Proof.
    intros K. assert (I2 : in_graph s2 x) by (apply in_kind; destruct K; eauto). split; [exact I2|].
    destruct (w_nodes _ _ _ _ _ W2 x I2) as [[D|D]|[D|[D|(D & _)]]].
    - destruct K; congruence.
    - apply dist_paid_kind in D. destruct K; congruence.
    - unfold kind_of in K. destruct (gfind (s_graph s2) x) as [n|] eqn:Ex; [|destruct K; discriminate].
      destruct (placed_kind _ _ _ HS _ _ _ _ (w_inv _ _ _ _ _ W2) Ex) as [[L|[L _]]|[[L _]|[L _]]]; [| | |destruct D; congruence]; cbn in K; rewrite L in K; destruct K; discriminate.
    - now apply (pd_target _ _ _ D).
    - now apply (pd_target _ _ _ D).
  Qed.

  Lemma pair_names n l i m nd : In (EvAdd n l) (s_log s2) -> In i l -> names_of s1 n i m nd -> in_graph s2 n ->
    exists nd2, names_of s2 n i m nd2 /\ alike nd nd2.
  Proof.
    intros A B (m0 & C & D & F & G & K) I2. pose proof (pair_aims _ _ _ C I2) as C2.
    destruct (one_aims E implies2 conf2 HE s2 X2 n l i m0 A B C2) as [He _].
    destruct (one_ends E implies2 conf2 HE s2 X2 _ _ _ He) as [_ Im].
    assert (D2 : m = m0 \/ kind_of s2 m0 = Some (AliasNode m)) by (destruct D as [D|D]; [now left|right; now apply pair_kind]).
    assert (Jm : in_graph s2 m).
    { destruct D2 as [->|D2]; [exact Im|]. destruct (target_plain m0 m (or_introl D2)) as [_ L].
      apply (one_ends E implies2 conf2 HE s2 X2 _ _ _ L). }
    destruct (gfind (s_graph s2) m) as [nd2|] eqn:Em; [|now elim Jm]. exists nd2. pose proof (pair_alike m nd nd2 F Em) as L.
    split; [|exact L]. exists m0. split; [exact C2|]. split; [exact D2|]. split; [exact Em|]. destruct L as (_ & -> & _). now split.
  Qed.

  Lemma pair_edge a b d : settled E find s1 -> settled E find s2 -> has_edge (s_graph s1) a b d -> reaches (s_graph s2) a ->
    has_edge (s_graph s2) a b d.
  Proof.
    intros Z1 Z2 He Hr. pose proof (one_reaches E implies2 conf2 HE s2 X2 a Hr) as I2.
    destruct (one_ends E implies1 conf1 HE s1 X1 _ _ _ He) as [I1 Ib].
    destruct (j_edges _ _ _ _ _ (w_inv _ _ _ _ _ W1) _ _ _ He)
      as [i A B C|i p A B C D F|i m nd nm A B C D F L K|i m nd nm A B C D F K|x nd A B C|A B C|refs A0 A B C|A B|x i k f A B C|nd dd A B C D F].
    - destruct A as [_ (l & A & A')]. rewrite C. eapply (one_aims E implies2 conf2 HE s2 X2); [exact (pair_stmts _ _ A I2)|exact A'|].
      now apply pair_aims.
    - destruct A as [_ (l & A & A')]. rewrite D, F. eapply (one_beyond E implies2 conf2 HE s2 X2);
        [exact (pair_stmts _ _ A I2)|exact A'|eapply pair_pkg; eassumption|exact C].
    - destruct A as [_ (l & A & A')]. pose proof (pair_stmts _ _ A I2) as A2.
      destruct (pair_names _ _ _ _ _ A2 A' B I2) as (nd2 & B2 & S2). pose proof S2 as (_ & Sk & _).
      assert (F2 : gfind (s_graph s2) m = Some nd2) by (destruct B2 as (m0 & _ & _ & K2 & _); exact K2).
      assert (Own : In (in_name nm) (n_written nd2) -> (forall t, ~ provides (s_graph s2) m (in_name nm) t)
                /\ (is_package (n_kind nd2) = true -> binds E find m (in_name nm))).
      { intros K2. eapply (se_own _ _ _ Z2 a i nm m nd2);
          [eapply (one_scheduled E implies2 conf2 HE s2 X2); eassumption|eapply names_of_source; exact B2|exact D|exact F2|exact K2]. }
      destruct (one_names E implies2 conf2 HE s2 X2 _ _ _ _ _ nm A2 A' B2 D)
        as [(y & t & K1 & K2 & K3 & _)|[(k & K1)|[(t & K1 & K2 & K3)|[(y & t & K1 & K2 & K3 & K4 & K5)|(b' & k & f & ty & x & t & K1 & _)]]]].
      + assert (y = nd2) by congruence. subst y. now elim (proj1 (Own K2) t).
      + unfold kind_of in K1. rewrite F2 in K1. injection K1 as K1. rewrite <- Sk, K1 in C. discriminate.
      + apply (one_resolves E implies2 conf2 HE s2 X2) in K1. rewrite F, K, <- K1. exact K2.
      + assert (y = nd2) by congruence. subst y. apply (one_resolves E implies2 conf2 HE s2 X2) in K4. rewrite <- F in K4. subst t.
        rewrite Sk in K2. destruct (L K2) as (k & L1 & L2); [apply (Own K3); congruence|].
        assert (kind_of s2 b = Some k) by (apply pair_kind; [exact L1|apply in_kind; eauto]). rewrite H in K5. injection K5 as ->. discriminate L2.
      + unfold kind_of in K1. rewrite F2 in K1. injection K1 as K1.
        pose proof (no_six _ _ _ HS _ _ _ _ _ _ _ _ _ (w_inv _ _ _ _ _ W2) F2 K1) as N. discriminate N.
    - exfalso. destruct A as [A _]. destruct (se_own _ _ _ Z1 a i nm m nd A) as [K1 _].
      + eapply names_of_source; exact B.
      + exact C.
      + destruct B as (m0 & _ & _ & B & _). exact B.
      + exact D.
      + now elim (K1 b).
    - subst d. destruct (se_tidy _ _ _ Z1) as [T1 T2]. pose proof (se_script _ _ _ Z1 _ _ _ A) as Sc. rewrite <- B in Sc.
      pose proof A as (n & i & nm & L1 & L2 & L3 & L4 & L5). subst x.
      assert (Hc : child_of b a) by (rewrite B; apply child_plain; [eapply T2|eapply T1]; eassumption).
      assert (Hd : starts_with "." a = false).
      { rewrite <- (child_dots b a Hc). destruct (placed_kind _ _ _ HS _ _ _ _ (w_inv _ _ _ _ _ W1) L4) as [[L|[L _]]|[[L _]|[L _]]]; [| | |exact L];
          rewrite L in L5; discriminate. }
      assert (Hp : plainly s1 a) by (split; [exact I1|now split]). destruct (pair_plain a Hp I2) as [P1 P2].
      apply (one_node E find implies2 conf2 HE HS HC2 s2 X2 a I2 P1 P2); assumption.
    - subst d. destruct (pair_plain a B I2) as [P1 P2]. apply (one_node E find implies2 conf2 HE HS HC2 s2 X2 a I2 P1 P2); assumption.
    - subst d. destruct (pair_plain a A0 I2) as [P1 P2]. destruct A as (A1 & A2 & A3). rewrite HT in A3.
      assert (K : In (EvImplied a (ImpRefs refs)) (s_log s2)).
      { destruct (gfind (s_graph s2) a) as [n2|] eqn:En; [|now elim I2].
        destruct (j_nodes _ _ _ _ _ (w_inv _ _ _ _ _ W2) _ _ En) as (n0 & l & _ & P & (_ & S2 & _)).
        assert (Kn : kind_of s2 a = Some (n_kind n0)) by (unfold kind_of; rewrite En; cbn; now rewrite S2).
        destruct P as [t tree l Q1 Q2|d' Q1 Q2|Q1|c k Q1 Q2 Q3 Q4|i k Q1 Q2 Q3|Q1 Q2 Q3|sp n0 l k t1 t2 Q1 Q2 Q3 Q4].
        - elim (proj1 P1). exact Kn.
        - elim (proj2 P1). exact Kn.
        - congruence.
        - exfalso. destruct (proj2 A2 c Q2) as (k' & L1 & L2 & L3). assert (kind_of s2 c = Some k') by (apply pair_kind; [exact L1|apply in_kind; eauto]).
          assert (k' = k) by congruence. subst k'. rewrite L2, L3 in Q4. discriminate.
        - rewrite A3 in Q2. injection Q2 as <-. discriminate.
        - apply (Q2 _ A3).
        - apply (Q2 _ A3). }
      exact (w_refs _ _ _ _ _ W2 _ _ K b B).
    - subst d. apply target_plain. destruct A as [A|A]; [left|right]; now apply pair_kind.
    - subst d. pose proof (pair_kind _ _ A I2) as A2.
      destruct (w_nodes _ _ _ _ _ W2 a I2) as [[D|D]|[D|[D|(D & _)]]].
      + congruence.
      + apply dist_paid_kind in D. congruence.
      + unfold kind_of in A2. destruct (gfind (s_graph s2) a) as [n|] eqn:Ex; [|discriminate]. injection A2 as A2.
        destruct (placed_kind _ _ _ HS _ _ _ _ (w_inv _ _ _ _ _ W2) Ex) as [[L|[L _]]|[[L _]|[L _]]]; destruct D; congruence.
      + eapply (pd_nspkg _ _ _ D); eassumption.
      + eapply (pd_nspkg _ _ _ D); eassumption.
    - subst d. destruct (gfind (s_graph s2) a) as [nd2|] eqn:Ex; [|now elim I2].
      pose proof (pair_alike a nd nd2 A Ex) as (_ & S2 & _ & S4 & _).
      destruct (w_nodes _ _ _ _ _ W2 a) as [[K|K]|[K|[K|(K & _)]]]; [unfold in_graph; congruence|..].
      + unfold kind_of in K. rewrite Ex in K. cbn in K. congruence.
      + destruct K as (nd' & d' & K1 & K2 & K3 & K4). assert (nd' = nd2) by congruence. subst nd'. apply K4. congruence.
      + elim (proj2 K). unfold kind_of. rewrite Ex. cbn. congruence.
      + elim (proj2 (proj1 (pd_plain _ _ _ K))). unfold kind_of. rewrite Ex. cbn. congruence.
      + elim (proj2 (proj1 (pd_plain _ _ _ K))). unfold kind_of. rewrite Ex. cbn. congruence.
  Qed.
End pair.

Lemma same_scripts_sym s1 s2 : same_scripts s1 s2 -> same_scripts s2 s1.
Proof. intros H x A B. destruct (H x B A) as [P Q]. split; now symmetry. Qed.

(** ** C66: the order of additions does not matter *)

(** Two builders with the same settings, in the same environment. *)
Record twins (E : env) (find : string -> option spec) (DS : dist -> Prop) (conf1 conf2 : list (string * implied)) (s1 s2 : st) : Prop := {
  tw_order : order_ok E;
  tw_env : steady E find;
  tw_table : same_table conf1 conf2;
  tw_names : forall x i, assoc x conf1 = Some i -> starts_with "." x = false;
  tw_dists : one_each DS;
  tw_first : exists implies, dsession E DS implies conf1 s1;
  tw_second : exists implies, dsession E DS implies conf2 s2;
  tw_scripts : same_scripts s1 s2
}.
Definition same_roots (s1 s2 : st) : Prop := forall x, In x (g_roots (s_graph s1)) <-> In x (g_roots (s_graph s2)).

(** Both with the same roots: the same part of the graph is reported. *)
Definition C66_statement : Prop := forall E find DS conf1 conf2 s1 s2, twins E find DS conf1 conf2 s1 s2 -> tidy s1 -> tidy s2 ->
  same_roots s1 s2 -> reported_within (s_graph s1) (s_graph s2).

(** Nodes for the same name are the same but for the globals that star imports add,
    and they have the same import statements. *)
Theorem C66_nodes_partial : forall E find DS conf1 conf2 s1 s2, twins E find DS conf1 conf2 s1 s2 ->
  forall x n n', gfind (s_graph s1) x = Some n -> gfind (s_graph s2) x = Some n' -> alike n n'
    /\ forall l, In (EvAdd x l) (s_log s1) <-> In (EvAdd x l) (s_log s2).
Proof.
  intros E find DS conf1 conf2 s1 s2 [A B C D HD (i1 & F) (i2 & G) H] x n n' Hn Hn'. split.
  - eapply (pair_alike E find i1 i2 conf1 conf2 A B C D HD s1 s2 F G H); eassumption.
  - assert (C' : same_table conf2 conf1) by (intros y; now rewrite C).
    assert (D' : forall y i, assoc y conf2 = Some i -> starts_with "." y = false) by (intros y i; rewrite <- C; apply D).
    assert (H' : same_scripts s2 s1) by now apply same_scripts_sym.
    intros l. split; intros K.
    + apply (pair_stmts E find i1 i2 conf1 conf2 A B C D HD s1 s2 F G H); [exact K|]. unfold in_graph. congruence.
    + apply (pair_stmts E find i2 i1 conf2 conf1 A B C' D' HD s2 s1 G F H'); [exact K|]. unfold in_graph. congruence.
Qed.

(** With more roots nothing that is reported is lost, as long as no name is imported
    from a module that imports it itself. *)
Theorem C66_more_partial : forall E find DS conf1 conf2 s1 s2, twins E find DS conf1 conf2 s1 s2 ->
  settled E find s1 -> settled E find s2 -> (forall x, In x (g_roots (s_graph s1)) -> In x (g_roots (s_graph s2))) ->
  reported_within (s_graph s1) (s_graph s2).
Proof.
  intros E find DS conf1 conf2 s1 s2 [A B C D HD (i1 & F) (i2 & G) H] Z1 Z2 HR.
  assert (K : forall x, reaches (s_graph s1) x -> reaches (s_graph s2) x).
  { intros x. induction 1 as [x Hx|a b ds Ha IH He].
    - apply re_root. auto.
    - assert (N : ds <> []) by (eapply (one_full E i1 conf1 A s1 F); exact He). destruct ds as [|d ds]; [now elim N|].
      assert (Hd : has_edge (s_graph s1) a b d) by (eexists; split; [exact He|now left]).
      apply (pair_edge E find i1 i2 conf1 conf2 A B C D HD s1 s2 F G H _ _ _ Z1 Z2) in Hd as (ds' & Hd & _); [|exact IH].
      eapply re_edge; [exact IH|exact Hd]. }
  intros x Hx. pose proof (K x Hx) as Hx2. split; [exact Hx2|]. split.
  - pose proof (one_reaches E i1 conf1 A s1 F x Hx) as I1. pose proof (one_reaches E i2 conf2 A s2 G x Hx2) as I2.
    destruct (gfind (s_graph s1) x) as [n|] eqn:E1; [|now elim I1]. destruct (gfind (s_graph s2) x) as [n'|] eqn:E2; [|now elim I2].
    exists n, n'. split; [reflexivity|]. split; [reflexivity|]. eapply (pair_alike E find i1 i2 conf1 conf2 A B C D HD s1 s2 F G H); eassumption.
  - intros y d Hy. eapply (pair_edge E find i1 i2 conf1 conf2 A B C D HD s1 s2 F G H); eassumption.
Qed.

(** With the same roots the same part is reported. *)
Corollary C66_same_partial : forall E find DS conf1 conf2 s1 s2, twins E find DS conf1 conf2 s1 s2 ->
  settled E find s1 -> settled E find s2 -> same_roots s1 s2 ->
  reported_within (s_graph s1) (s_graph s2) /\ reported_within (s_graph s2) (s_graph s1).
Proof.
  intros E find DS conf1 conf2 s1 s2 T Z1 Z2 HR. split.
  - eapply C66_more_partial; [exact T|exact Z1|exact Z2|]. intros x. apply HR.
  - eapply (C66_more_partial E find DS conf2 conf1); [|exact Z2|exact Z1|intros x; apply HR].
    destruct T as [A B C D HD F G H]. constructor; auto.
    + intros y. now rewrite C.
    + intros y i. rewrite <- C. apply D.
    + now apply same_scripts_sym.
Qed.

(** ** Examples *)

Definition found_in (w : list (string * entry)) (name : string) : option spec :=
  match assoc name w with Some e => match spec_of name e with ROk x => x | RErr _ => None end | None => None end.
Definition simple_entry (e : entry) : bool := match e with ESource _ _ _ | EText _ _ _ _ _ | EExtension | ENamespace => true | _ => false end.
Lemma world_steady w scripts files : forallb (fun p => simple_entry (snd p)) w = true -> assoc "@@SIX_MOVES@@" w = None ->
  steady (world w scripts files) (found_in w).
Proof.
  intros Hw H6. rewrite forallb_forall in Hw.
  assert (K : forall name e, assoc name w = Some e -> simple_entry e = true) by (intros name e H; apply assoc_In in H; now apply Hw in H).
  constructor; try reflexivity.
  - intros t f name sp H. cbn. unfold found_in in H. destruct (assoc name w) as [e|]; [|discriminate].
    destruct (spec_of name e); [congruence|discriminate].
  - intros t f name H. left. cbn. unfold found_in in H. destruct (assoc name w) as [e|] eqn:Ew; [|reflexivity].
    apply K in Ew. destruct e; discriminate.
  - intros name sp H. unfold found_in in H. destruct (assoc name w) as [e|] eqn:Ew; [|discriminate]. apply K in Ew.
    destruct e; try discriminate Ew; injection H as <-; reflexivity.
  - intros name sp H. unfold found_in in H. destruct (assoc name w) as [e|] eqn:Ew; [|discriminate]. apply K in Ew.
    destruct e; try discriminate Ew; injection H as <-; reflexivity.
  - unfold found_in. now rewrite H6.
Qed.
Definition fine_answer (a : answer) : bool := match a with AnsErr _ => false | _ => true end.
Definition root_b (a : action) : bool := match a with AAddScript _ | AAddModule _ | AAddSource _ | ALook => true | _ => false end.
Lemma calls_session E implies conf fuel l : forall s anss s', session E implies conf s -> forallb root_b l = true ->
  calls E fuel l s = Some (anss, s') -> forallb fine_answer anss = true -> session E implies conf s'.
Proof.
  induction l as [|a l IH]; intros s anss s' HX Hl HC Ha; cbn in HC.
  - injection HC as <- <-. exact HX.
  - destruct (top_call E fuel a s) as [[ans s1]|] eqn:E1; [|discriminate].
    destruct (calls E fuel l s1) as [[anss' s2]|] eqn:E2; [|discriminate]. injection HC as <- <-.
    cbn in Hl, Ha. apply andb_true_iff in Hl as [Hl Hl'], Ha as [Ha Ha']. eapply IH; [|exact Hl'|exact E2|exact Ha'].
    eapply se_call; [exact HX| |exact E1|].
    + destruct a; try discriminate Hl; exact Logic.I.
    + intros e ->. discriminate.
Qed.

Lemma calls_dsession E DS implies conf fuel l : forall s anss s', dsession E DS implies conf s ->
  Forall (fun a => root_action a \/ dist_action E DS a) l ->
  calls E fuel l s = Some (anss, s') -> forallb fine_answer anss = true -> dsession E DS implies conf s'.
Proof.
  induction l as [|a l IH]; intros s anss s' HX Hl HC Ha; cbn in HC.
  - injection HC as <- <-. exact HX.
  - destruct (top_call E fuel a s) as [[ans s1]|] eqn:E1; [|discriminate].
    destruct (calls E fuel l s1) as [[anss' s2]|] eqn:E2; [|discriminate]. injection HC as <- <-.
    cbn in Ha. apply andb_true_iff in Ha as [Ha Ha']. inversion Hl as [|x y L1 L2]; subst. eapply IH; [|exact L2|exact E2|exact Ha'].
    eapply ds_call; [exact HX|exact L1|exact E1|]. intros e ->. discriminate.
Qed.
Definition dist_b (s : st) (x : string) : bool := match kind_of s x with Some Distribution => true | _ => false end.
Definition only_script_b (s : st) (x : string) : bool := match kind_of s x with Some Script => true | _ => false end.
Lemma same_scripts_b s1 s2 : forallb (fun n => (Bool.eqb (only_script_b s1 (n_name n)) (only_script_b s2 (n_name n))
    && Bool.eqb (dist_b s1 (n_name n)) (dist_b s2 (n_name n))) || negb (ghas (s_graph s2) (n_name n))) (g_nodes (s_graph s1)) = true ->
  same_scripts s1 s2.
Proof.
  intros H x A B. unfold in_graph in A. destruct (gfind (s_graph s1) x) as [n|] eqn:En; [|now elim A].
  assert (Hn : In n (g_nodes (s_graph s1)) /\ n_name n = x).
  { unfold gfind in En. revert En. induction (g_nodes (s_graph s1)) as [|m l IH]; cbn; [discriminate|]. destruct (seqb (n_name m) x) eqn:Em.
    - intros K. injection K as <-. apply seqb_eq in Em. auto.
    - intros K. cbn in H. apply andb_true_iff in H as [_ H]. destruct (IH H K). auto. }
  destruct Hn as [Hn Hx]. rewrite forallb_forall in H. apply H in Hn. rewrite Hx in Hn. apply orb_true_iff in Hn as [Hn|Hn].
  - apply andb_true_iff in Hn as [H1 H2]. apply Bool.eqb_prop in H1, H2. unfold only_script_b in H1. unfold dist_b in H2. split; split; intros K;
      [rewrite K in H1|rewrite K in H1|rewrite K in H2|rewrite K in H2].
    + destruct (kind_of s2 x) as [[]|]; try discriminate; reflexivity.
    + destruct (kind_of s1 x) as [[]|]; try discriminate; reflexivity.
    + destruct (kind_of s2 x) as [[]|]; try discriminate; reflexivity.
    + destruct (kind_of s1 x) as [[]|]; try discriminate; reflexivity.
  - unfold ghas in Hn. unfold in_graph in B. destruct (gfind (s_graph s2) x); [discriminate|now elim B].
Qed.

(** A computation that shows that a state is settled. *)
Definition scheds (s : st) : list (string * iinfo) :=
  flat_map (fun e => match e with EvSched n l => map (fun i => (n, i)) l | _ => [] end) (s_log s).
Definition from_names (s : st) : list string := flat_map (fun p => map in_name (ii_names (snd p))) (scheds s).
Lemma scheds_in s n i : scheduled s n i -> In (n, i) (scheds s).
Proof. intros (l & A & B). apply in_flat_map. exists (EvSched n l). split; [exact A|]. now apply in_map. Qed.
Lemma from_names_in s n i nm : scheduled s n i -> In nm (ii_names i) -> In (in_name nm) (from_names s).
Proof. intros A B. apply in_flat_map. exists (n, i). split; [now apply scheds_in|]. cbn. now apply in_map. Qed.
Lemma gfind_in g x n : gfind g x = Some n -> In n (g_nodes g) /\ n_name n = x.
Proof.
  unfold gfind. induction (g_nodes g) as [|m l IH]; cbn; [discriminate|]. destruct (seqb (n_name m) x) eqn:Em.
  - intros K. injection K as <-. apply seqb_eq in Em. auto.
  - intros K. destruct (IH K). auto.
Qed.
Definition closed_b (g : graph) (l : list string) : bool :=
  forallb (fun x => memb x l) (g_roots g) && forallb (fun e => negb (memb (fst (fst e)) l) || memb (snd (fst e)) l) (g_edges g).
Lemma closed_reaches g l x : closed_b g l = true -> reaches g x -> In x l.
Proof.
  intros H. apply andb_true_iff in H as [H1 H2]. rewrite forallb_forall in H1, H2. induction 1 as [x Hx|a b ds _ IH He].
  - apply memb_In. auto.
  - apply H2 in He. cbn in He. apply memb_In in IH. rewrite IH in He. now apply memb_In.
Qed.
Definition provides_b (g : graph) (m x : string) : bool :=
  existsb (fun e => seqb (fst (fst e)) m && (seqb (snd (fst e)) x || existsb (fun d => match d_as d with Some y => seqb y x | None => false end) (snd e))) (g_edges g).
Lemma provides_bool g m x t : provides g m x t -> provides_b g m x = true.
Proof.
  intros (ds & A & B). apply existsb_exists. exists (m, t, ds). split; [exact A|]. cbn. unfold seqb at 1. rewrite String.eqb_refl. cbn.
  destruct B as [(d & B1 & B2)| ->]; [|unfold seqb; now rewrite String.eqb_refl]. apply orb_true_iff. right. apply existsb_exists.
  exists d. split; [exact B1|]. rewrite B2. unfold seqb. apply String.eqb_refl.
Qed.
Definition missing_b (s : st) (x : string) : bool := match kind_of s x with Some MissingModule => true | _ => false end.
Definition script_b (s : st) (x : string) : bool := match kind_of s x with Some Script | Some Distribution => true | _ => false end.
Definition own_b (n : node) (x : string) : bool :=
  memb x (n_written n) || match n_kind n with Package _ init _ _ _ => seqb init "@@SIX_MOVES@@" | _ => false end.
(** [l] are the nodes that can be reached, [bound] names that packages bind. *)
Definition settled_b (s : st) (l : list string) (bound : list (string * string)) : bool :=
  forallb (fun x => negb (has_char dot x)) (from_names s) && closed_b (s_graph s) l &&
  forallb (fun n => negb (has_names (n_kind n)) ||
    (negb (seqb (lstrip dot (n_name n)) "") &&
     forallb (fun x => let id := (n_name n ++ "." ++ x)%string in
       negb (script_b s id) && negb (own_b n x && missing_b s id && memb id l)) (from_names s))) (g_nodes (s_graph s)) &&
  forallb (fun n => forallb (fun x => negb (memb x (n_written n)) ||
     (negb (provides_b (s_graph s) (n_name n) x) && (negb (is_package (n_kind n)) ||
        existsb (fun p => seqb (fst p) (n_name n) && seqb (snd p) x) bound))) (from_names s)) (g_nodes (s_graph s)).
Lemma settled_bool E find DS implies conf s l bound : order_ok E -> dsession E DS implies conf s ->
  settled_b s l bound = true -> (forall m x, In (m, x) bound -> binds E find m x) -> settled E find s.
Proof.
  intros HE HX H HB. apply andb_true_iff in H as [H H4]. apply andb_true_iff in H as [H H3]. apply andb_true_iff in H as [H1 H2].
  rewrite forallb_forall in H1, H3, H4.
  assert (K : forall m x nd, imported_from s m x nd -> lstrip dot m <> "" /\ script_b s (m ++ "." ++ x) = false
     /\ (own_name nd x -> missing_b s (m ++ "." ++ x) = true -> In (m ++ "." ++ x) l -> False)).
  { intros m x nd (n & i & nm & A & B & <- & C & D). apply gfind_in in C as [C <-]. apply H3 in C. rewrite D in C. cbn [negb orb] in C.
    apply andb_true_iff in C as [C1 C2]. rewrite forallb_forall in C2. specialize (C2 _ (from_names_in _ _ _ _ A B)). cbv zeta in C2.
    apply andb_true_iff in C2 as [C2 C3]. split; [intros K; rewrite K in C1; discriminate|]. split; [now apply negb_true_iff|].
    intros K0 K1 K2. apply memb_In in K2. rewrite K1, K2 in C3.
    assert (K3 : own_b nd (in_name nm) = true).
    { unfold own_b. destruct K0 as [_ [K0|(b & k & f & ty & t & K0 & _)]]; [apply memb_In in K0; now rewrite K0|].
      rewrite K0. apply orb_true_r. }
    rewrite K3 in C3. discriminate. }
  constructor.
  - split.
    + intros n i nm A B. apply negb_true_iff, H1. eapply from_names_in; eassumption.
    + intros m nd A B K0. apply gfind_in in A as [A <-]. apply H3 in A. rewrite B in A. cbn [negb orb] in A.
      apply andb_true_iff in A as [A _]. rewrite K0 in A. discriminate.
  - intros m x nd A. apply K in A as (_ & A & _). unfold script_b in A. split; intros K0; rewrite K0 in A; discriminate.
  - intros m x id (nd & A & A' & B & C) Hr. apply (one_resolves E implies conf HE s HX) in B. subst id.
    apply K in A as (_ & _ & A). apply A; [exact A'|unfold missing_b; now rewrite C|]. eapply closed_reaches; eassumption.
  - intros n i nm m nd A _ C D F. apply gfind_in in D as [D <-]. apply H4 in D. rewrite forallb_forall in D.
    specialize (D _ (from_names_in _ _ _ _ A C)). apply memb_In in F. rewrite F in D. cbn [negb orb] in D. apply andb_true_iff in D as [D1 D2]. split.
    + intros t Ht. apply provides_bool in Ht. rewrite Ht in D1. discriminate.
    + intros Hp. rewrite Hp in D2. cbn [negb orb] in D2. apply existsb_exists in D2 as ((a & b) & D2 & D3). apply andb_true_iff in D3 as [D3 D4].
      apply seqb_eq in D3, D4. cbn in D3, D4. subst a b. now apply HB.
Qed.

(** Two scripts; package q binds [name] and [helper], q.core has an implied reference. *)
Definition pair_modules : list (string * entry) :=
  [("q", EText true "from .core import helper" [World.from "core" ["helper"] 1] [] ["helper"; "name"]);
   ("q.core", EText false "def helper" [World.imp "skipped.part"] [] ["helper"]);
   ("q.sub", ESource false [World.imp "os"; World.from "beyond" ["x"] 3] ["os"; "run"]);
   ("os", ESource false [] []); ("json", ENamespace); ("json.tool", EExtension)].
Definition pair_world : env := world pair_modules
  [("main.py", [World.from "q" ["name"; "sub"; "nowhere"] 0; World.imp "old"]);
   ("tool.py", [World.from "q.sub" ["run"] 0; World.from "json" ["tool"] 0; World.imp "none.such"])] [].
Definition pair_implies : list (string * implied) := [("old", ImpAlias "os"); ("q.core", ImpRefs ["json"])].
Definition pair_open : st := Eval vm_compute in snd (the_calls pair_world [AExcludes ["skipped"]] (init pair_implies [] [])).
Definition pair_1 : st := Eval vm_compute in snd (the_calls pair_world [AAddScript "main.py"; AAddScript "tool.py"] pair_open).
Definition pair_2 : st := Eval vm_compute in snd (the_calls pair_world [AAddScript "tool.py"; AAddScript "main.py"] pair_open).
Definition pair_conf : list (string * implied) := s_lazy pair_open.
Lemma pair_steady : steady pair_world (found_in pair_modules).
Proof. now apply world_steady. Qed.
Lemma pair_opened : session pair_world pair_implies pair_conf pair_open.
Proof.
  apply se_open; [|reflexivity]. eapply (op_exclude _ _ (init pair_implies [] []) 60 ["skipped"]); [apply op_init|vm_compute; reflexivity|discriminate].
Qed.
Lemma pair_first : session pair_world pair_implies pair_conf pair_1.
Proof. eapply (calls_session _ _ _ 60 [AAddScript "main.py"; AAddScript "tool.py"]); [exact pair_opened|reflexivity|vm_compute; reflexivity|reflexivity]. Qed.
Lemma pair_second : session pair_world pair_implies pair_conf pair_2.
Proof. eapply (calls_session _ _ _ 60 [AAddScript "tool.py"; AAddScript "main.py"]); [exact pair_opened|reflexivity|vm_compute; reflexivity|reflexivity]. Qed.
Definition pair_reached : list string :=
  ["main.py"; "tool.py"; "old"; "os"; "q"; "q.core"; "json"; "skipped"; "skipped.part"; "q.sub"; "q.nowhere"; "...beyond"; "none"; "none.such"; "json.tool"].
Lemma pair_binds m x : In (m, x) [("q", "name"); ("q", "helper")] -> binds pair_world (found_in pair_modules) m x.
Proof.
  intros H. assert (m = "q" /\ (x = "name" \/ x = "helper")) as [-> Hx].
  { destruct H as [H|[H|[]]]; injection H as <- <-; auto. }
  destruct (found_in pair_modules "q") as [sp|] eqn:Es; [|discriminate].
  destruct (f_nfs (exec pair_world 1) sp pair_open) as [[[[n l]|e] s']|] eqn:En; vm_compute in Es; injection Es as <-; vm_compute in En; try discriminate En.
  exists (Spec "q" (LInspect false (ROk (Some "from .core import helper")) (ROk (Some (code_of [] ["helper"; "name"])))) (Some "q/__init__.py") (Some ["q"]) true (ROk true)), n, l, 1, pair_open, s'.
  split; [reflexivity|]. split; [vm_compute; exact En|]. injection En as <- <- <-. destruct Hx as [-> | ->]; cbn; auto.
Qed.
(** Both orders: a package global that is left over, an alias, an excluded package,
    an implied reference, missing modules and an import beyond the top. *)
Example C66_nonvacuous :
  twins pair_world (found_in pair_modules) (fun _ => False) pair_conf pair_conf pair_1 pair_2
  /\ settled pair_world (found_in pair_modules) pair_1 /\ settled pair_world (found_in pair_modules) pair_2 /\ same_roots pair_1 pair_2
  /\ map n_name (g_nodes (s_graph pair_1)) <> map n_name (g_nodes (s_graph pair_2))
  /\ left_over pair_1 "q" "name" "q.name" /\ In ("q.core", "json") (edge_pairs pair_1) /\ In ("main.py", "q.nowhere") (edge_pairs pair_1).
Proof.
  split.
  { constructor.
    - apply world_order.
    - exact pair_steady.
    - now intros x.
    - intros x i H. apply assoc_In in H. vm_compute in H. repeat (destruct H as [H|H]; [injection H as <- <-; reflexivity|]). destruct H.
    - intros d d' [].
    - exists pair_implies. exact pair_first.
    - exists pair_implies. exact pair_second.
    - apply same_scripts_b. reflexivity. }
  split; [eapply (settled_bool _ _ _ _ _ _ pair_reached [("q", "name"); ("q", "helper")]); [apply world_order|exact pair_first|vm_compute; reflexivity|exact pair_binds]|].
  split; [eapply (settled_bool _ _ _ _ _ _ pair_reached [("q", "name"); ("q", "helper")]); [apply world_order|exact pair_second|vm_compute; reflexivity|exact pair_binds]|].
  split; [intros x; vm_compute; tauto|]. split; [discriminate|]. split.
  { destruct (gfind (s_graph pair_1) "q") as [nd|] eqn:En; [|discriminate]. exists nd. split.
    - eexists "main.py", _, (IName "name" None).
      split; [eexists; split; [vm_compute; repeat (try (left; reflexivity); right)|now left]|]. split; [now left|]. split; [reflexivity|]. split; [exact En|].
      vm_compute in En. injection En as <-. reflexivity.
    - vm_compute in En. injection En as <-. split; [split; [reflexivity|left; vm_compute; auto]|]. split; [now left|reflexivity]. }
  split; vm_compute; intuition.
Qed.

(** The same with a distribution: one of its modules is there, one is missing. *)
Definition pair_dist : dist := Dist 7 "/lib/thing-1.dist-info" "thing" "1" [] ["q.sub"; "json"; "gone"].
Definition pair_3 : st := Eval vm_compute in snd (the_calls pair_world [AAddScript "main.py"; AAddDist pair_dist; AAddScript "tool.py"] pair_open).
Definition pair_4 : st := Eval vm_compute in snd (the_calls pair_world [AAddDist pair_dist; AAddScript "tool.py"; AAddDist pair_dist; AAddScript "main.py"] pair_open).
Lemma pair_dopened DS : dsession pair_world DS pair_implies pair_conf pair_open.
Proof.
  apply ds_open; [|reflexivity]. eapply (op_exclude _ _ (init pair_implies [] []) 60 ["skipped"]); [apply op_init|vm_compute; reflexivity|discriminate].
Qed.
Lemma pair_third : dsession pair_world (eq pair_dist) pair_implies pair_conf pair_3.
Proof.
  eapply (calls_dsession _ _ _ _ 60 [AAddScript "main.py"; AAddDist pair_dist; AAddScript "tool.py"]);
    [apply pair_dopened|repeat (apply Forall_cons; [cbn; auto|]); apply Forall_nil|vm_compute; reflexivity|reflexivity].
Qed.
Lemma pair_fourth : dsession pair_world (eq pair_dist) pair_implies pair_conf pair_4.
Proof.
  eapply (calls_dsession _ _ _ _ 60 [AAddDist pair_dist; AAddScript "tool.py"; AAddDist pair_dist; AAddScript "main.py"]);
    [apply pair_dopened|repeat (apply Forall_cons; [cbn; auto|]); apply Forall_nil|vm_compute; reflexivity|reflexivity].
Qed.
Definition pair_dreached : list string := "/lib/thing-1.dist-info" :: "gone" :: pair_reached.
Example C66_distribution_nonvacuous :
  twins pair_world (found_in pair_modules) (eq pair_dist) pair_conf pair_conf pair_3 pair_4
  /\ settled pair_world (found_in pair_modules) pair_3 /\ settled pair_world (found_in pair_modules) pair_4 /\ same_roots pair_3 pair_4
  /\ map n_name (g_nodes (s_graph pair_3)) <> map n_name (g_nodes (s_graph pair_4))
  /\ In ("/lib/thing-1.dist-info", "q.sub") (edge_pairs pair_3) /\ In ("/lib/thing-1.dist-info", "gone") (edge_pairs pair_4).
Proof.
  split.
  { constructor.
    - apply world_order.
    - exact pair_steady.
    - now intros x.
    - intros x i H. apply assoc_In in H. vm_compute in H. repeat (destruct H as [H|H]; [injection H as <- <-; reflexivity|]). destruct H.
    - intros d d' <- <-. reflexivity.
    - exists pair_implies. exact pair_third.
    - exists pair_implies. exact pair_fourth.
    - apply same_scripts_b. reflexivity. }
  split; [eapply (settled_bool _ _ _ _ _ _ pair_dreached [("q", "name"); ("q", "helper")]); [apply world_order|exact pair_third|vm_compute; reflexivity|exact pair_binds]|].
  split; [eapply (settled_bool _ _ _ _ _ _ pair_dreached [("q", "name"); ("q", "helper")]); [apply world_order|exact pair_fourth|vm_compute; reflexivity|exact pair_binds]|].
  split; [intros x; vm_compute; tauto|]. split; [discriminate|]. split; vm_compute; intuition.
Qed.

(** "import json" in package pkg and "from pkg import json" in its submodule: only when
    the package was handled before is the name known to be the module json. *)
Definition early_modules : list (string * entry) :=
  [("pkg", EText true "import json" [World.imp "json"] [] ["json"]); ("pkg.sub", ESource false [World.from "pkg" ["json"] 0] ["json"]);
   ("json", ENamespace)].
Definition early_world : env := world early_modules [] [].
Definition early_1 : st := Eval vm_compute in snd (the_calls early_world [AAddModule "pkg"; AAddModule "pkg.sub"] new).
Definition early_2 : st := Eval vm_compute in snd (the_calls early_world [AAddModule "pkg.sub"; AAddModule "pkg"] new).
Lemma early_session l s : forallb root_b l = true -> forallb fine_answer (fst (the_calls early_world l new)) = true ->
  the_calls early_world l new = (fst (the_calls early_world l new), s) -> fst (the_calls early_world l new) <> [] ->
  session early_world [] [("__main__", ImpNone)] s.
Proof.
  intros A B C D. unfold the_calls in *. destruct (calls early_world 60 l new) as [[anss s']|] eqn:Ec; [|now elim D].
  cbn [fst] in *. injection C as <-. eapply calls_session; [|exact A|exact Ec|exact B]. apply se_open; [apply op_init|reflexivity].
Qed.
Lemma early_twins : twins early_world (found_in early_modules) (fun _ => False) [("__main__", ImpNone)] [("__main__", ImpNone)] early_1 early_2.
Proof.
  constructor.
  - apply world_order.
  - now apply world_steady.
  - now intros x.
  - intros x i H. apply assoc_In in H. destruct H as [H|[]]. now injection H as <- <-.
  - intros d d' [].
  - exists []. apply (early_session [AAddModule "pkg"; AAddModule "pkg.sub"]); vm_compute; try reflexivity; discriminate.
  - exists []. apply (early_session [AAddModule "pkg.sub"; AAddModule "pkg"]); vm_compute; try reflexivity; discriminate.
  - apply same_scripts_b. reflexivity.
Qed.
Definition tidy_b (s : st) : bool := forallb (fun x => negb (has_char dot x)) (from_names s) &&
  forallb (fun n => negb (seqb (lstrip dot (n_name n)) "")) (g_nodes (s_graph s)).
Lemma tidy_bool s : tidy_b s = true -> tidy s.
Proof.
  intros H. apply andb_true_iff in H as [H1 H2]. rewrite forallb_forall in H1, H2. split.
  - intros n i nm A B. apply negb_true_iff, H1. eapply from_names_in; eassumption.
  - intros m nd A _ K. apply gfind_in in A as [A <-]. apply H2 in A. rewrite K in A. discriminate.
Qed.

Theorem C66_refuted : ~ C66_statement.
Proof.
  intros H. assert (R : same_roots early_1 early_2) by (intros x; vm_compute; tauto).
  destruct (H _ _ _ _ _ _ _ early_twins (tidy_bool early_1 eq_refl) (tidy_bool early_2 eq_refl) R "pkg.sub") as (_ & _ & K).
  - apply re_root. vm_compute. auto.
  - assert (D : exists d, has_edge (s_graph early_1) "pkg.sub" "json" d).
    { eexists. eexists. split; [vm_compute; right; right; left; reflexivity|]. now left. }
    destruct D as (d & D). apply K in D as (ds & D & _). vm_compute in D. repeat (destruct D as [D|D]; [discriminate D|]). destruct D.
Qed.

Print Assumptions C66_refuted.
Print Assumptions C66_nodes_partial.
Print Assumptions C66_more_partial.
Print Assumptions C66_same_partial.
Print Assumptions C20_edge_attributes.
