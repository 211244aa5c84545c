(** C86: the graph does not depend on the hash seed. *)
From Verif Require Import ReportSpec BuilderSource BuilderHist BuilderInv BuilderCalls World AstProofs PropsBuilder PropsCalls PropsHooks PropsRoots PropsSource PropsReach SeedSpec BuilderSame PropsSame.
Open Scope string_scope.

Lemma reseeded_sym E E' : reseeded E E' -> reseeded E' E.
Proof. unfold reseeded. intros ->. destruct E. reflexivity. Qed.
Lemma reseeded_steady E E' find : reseeded E E' -> steady E find -> steady E' find.
Proof. unfold reseeded. intros -> [A1 A2 A3 A4 A5 A6 A7 A8 A9 A10]. constructor; assumption. Qed.
Lemma reseeded_plain E E' : reseeded E E' -> plain_sources E -> plain_sources E'.
Proof. unfold reseeded. intros -> H. exact H. Qed.

(** ** Statements of a source *)

Lemma bool_same (a b : bool) (P : Prop) : (a = true <-> P) -> (b = true <-> P) -> b = a.
Proof. intros A B. destruct a, b; auto; [apply B, A|symmetry; apply A, B]; reflexivity. Qed.
Lemma states_shuffled p w i i' : (match w with WFrom _ names _ => forall x a b, In (x, a) names -> In (x, b) names -> a = b | _ => True end) ->
  states (p, w) i -> states (p, w) i' -> shuffled i i'.
Proof.
  intros Hp [A (C1 & C2 & C3)] [A' (C1' & C2' & C3')]. cbn [fst snd] in *.
  assert (F : ii_in_function i' = ii_in_function i /\ ii_in_conditional i' = ii_in_conditional i /\ ii_in_tryexcept i' = ii_in_tryexcept i)
    by (repeat split; eapply bool_same; eassumption).
  destruct F as (F1 & F2 & F3). unfold states_what in *. destruct w as [n a|m names level].
  - destruct A as (A1 & A2 & A3 & A4), A' as (B1 & B2 & B3 & B4). repeat (split; [congruence|]). rewrite A3, B3. tauto.
  - destruct A as (A1 & A2 & A3 & A4 & A5 & A6), A' as (B1 & B2 & B3 & B4 & B5 & B6).
    assert (K : forall i1 i2, (forall n, In n (map in_name (ii_names i1)) <-> n <> "*" /\ In n (map fst names)) ->
       (forall x, In x (ii_names i1) -> In (in_name x, in_asname x) names) ->
       (forall n, In n (map in_name (ii_names i2)) <-> n <> "*" /\ In n (map fst names)) ->
       (forall x, In x (ii_names i2) -> In (in_name x, in_asname x) names) -> forall nm, In nm (ii_names i1) -> In nm (ii_names i2)).
    { intros i1 i2 P1 P2 Q1 Q2 nm H. assert (H2 : In (in_name nm) (map in_name (ii_names i2))) by (apply Q1, P1; now apply in_map).
      apply in_map_iff in H2 as (nm' & N1 & N2). assert (nm' = nm); [|now subst].
      apply P2 in H. pose proof (Q2 _ N2) as H2. rewrite N1 in H2. pose proof (Hp _ _ _ H H2) as K. destruct nm, nm'. cbn in *. congruence. }
    repeat (split; [first [congruence|eapply bool_same; eassumption]|]). intros nm. split; eapply K; eassumption.
Qed.
Lemma extract_restated o o' t l : set_order o -> set_order o' -> plain_lists t -> extract_ast_info o t = Some l ->
  exists l', extract_ast_info o' t = Some l' /\ restated l l'.
Proof.
  intros Ho Ho' Hp H. destruct (extract_complete o t Ho) as (out & k & A & B & C). destruct (extract_complete o' t Ho') as (out' & k' & A' & B' & C').
  rewrite A in H. injection H as <-. exists out'. split; [exact A'|].
  assert (K : Forall2 shuffled k k').
  { clear - C C' Hp. assert (Hp' : forall x, In x (sites [] t) -> match snd x with WFrom _ names _ => forall x a b, In (x, a) names -> In (x, b) names -> a = b | _ => True end).
    { intros [p [n a|m names level]] H; cbn; [exact Logic.I|]. eapply Hp. exact H. }
    clear Hp. revert k k' C C'. induction (sites [] t) as [|[p w] r IH]; intros k k' C C'; inversion C; inversion C'; subst; constructor.
    - eapply states_shuffled; [|eassumption..]. exact (Hp' (p, w) (or_introl eq_refl)).
    - apply IH; auto. intros x Hx. apply Hp'. now right. }
  split.
  - intros i Hi. apply (Permutation_in _ (Permutation_sym B)) in Hi.
    assert (L : exists i', In i' k' /\ shuffled i i').
    { clear - K Hi. induction K as [|a b k k' H K IH]; [destruct Hi|]. destruct Hi as [<-|Hi]; [exists b; split; [now left|exact H]|].
      destruct (IH Hi) as (i' & I1 & I2). exists i'; split; [now right|exact I2]. }
    destruct L as (i' & L1 & L2). exists i'. split; [|exact L2]. now apply (Permutation_in _ B').
  - intros i' Hi. apply (Permutation_in _ (Permutation_sym B')) in Hi.
    assert (L : exists i, In i k /\ shuffled i i').
    { clear - K Hi. induction K as [|a b k k' H K IH]; [destruct Hi|]. destruct Hi as [<-|Hi]; [exists a; split; [now left|exact H]|].
      destruct (IH Hi) as (i & I1 & I2). exists i; split; [now right|exact I2]. }
    destruct L as (i & L1 & L2). exists i. split; [|exact L2]. now apply (Permutation_in _ B).
Qed.

(** ** Nodes *)

Lemma wrap_lists E sp b src mk n l l' s n' l0 s' : wrap_package E sp b src mk n l s = Some (ROk (n', l0), s') ->
  l0 = l /\ wrap_package E sp b src mk n l' s = Some (ROk (n', l'), s').
Proof.
  unfold wrap_package. intros H. apply ok_bind in H as (p & s1 & H1 & H). unfold bind at 1. rewrite H1.
  destruct p; cbn [negb] in H |- *; [|now injection H as <- <- <-].
  apply ok_bind in H as (search & s2 & H2 & H). unfold bind at 1. rewrite H2. destruct search; [|discriminate].
  apply ok_bind in H as (d & s3 & H3 & H). unfold bind at 1. rewrite H3. now injection H as <- <- <-.
Qed.
Lemma restated_refl l : restated l l.
Proof. split; intros i Hi; exists i; (split; [exact Hi|]); repeat split; auto. Qed.

Section seeds.
  Variables E E' : env.
  Hypothesis HR : reseeded E E'.
  Hypothesis HO : set_order (e_names_order E).
  Hypothesis HO' : set_order (e_names_order E').
  Hypothesis HP : plain_sources E.

  Lemma source_restated sp src s si s1 : source_imports E sp src s = Some (ROk si, s1) ->
    exists si', source_imports E' sp src s = Some (ROk si', s1)
      /\ (si' = si \/ exists l l', si = inr (Some l) /\ si' = inr (Some l') /\ restated l l').
  Proof.
    assert (K : e_parse E' = e_parse E) by (rewrite HR; reflexivity).
    unfold source_imports. rewrite K. intros H. destruct src as [text|]; [|exists si; split; [exact H|now left]].
    destruct (sp_origin sp) as [f|]; [|discriminate]. apply ok_bind in H as (r & s2 & H2 & H). unfold bind. rewrite H2.
    destruct r as [t|e]; [|exists si; split; [exact H|now left]].
    destruct (extract_ast_info (e_names_order E) t) as [l|] eqn:El; [|discriminate]. injection H as <- <-.
    destruct (extract_restated _ (e_names_order E') t l HO HO') as (l' & L1 & L2); [|exact El|].
    - unfold attempt, askr in H2. injection H2 as H2 _. eapply (proj1 HP). exact H2.
    - rewrite L1. exists (inr (Some l')). split; [reflexivity|]. right. now exists l, l'.
  Qed.
  Lemma nfs_restated k sp s n l s' : direct (sp_loader sp) = true -> f_nfs (exec E k) sp s = Some (ROk (n, l), s') ->
    exists l', f_nfs (exec E' k) sp s = Some (ROk (n, l'), s') /\ restated l l'.
  Proof.
    assert (KD : forall o b, dist_of E' o b = dist_of E o b) by (rewrite HR; reflexivity).
    assert (KW : forall sp b src mk n l, wrap_package E' sp b src mk n l = wrap_package E sp b src mk n l) by (rewrite HR; reflexivity).
    assert (KC : forall c, code_info E' c = code_info E c) by (rewrite HR; reflexivity).
    intros Hd H. destruct k as [|k]; [discriminate|]. cbn [exec f_nfs] in H |- *. unfold nfs_body in *.
    destruct (sp_loader sp) as [| | | |frozen gs gc| |[[root vendor]|]| |] eqn:El; try discriminate Hd; try discriminate H.
    - exists l. split; [exact H|apply restated_refl].
    - exists l. split; [exact H|apply restated_refl].
    - exists l. rewrite KW. split; [exact H|apply restated_refl].
    - exists l. rewrite KD. split; [|apply restated_refl]. apply ok_bind in H as (d & s1 & H1 & H). unfold bind. now rewrite H1, KW.
    - destruct gs as [source|e].
      2:{ exists l. split; [|apply restated_refl]. destruct e; try discriminate. rewrite KD. exact H. }
      apply ok_bind in H as (si & s1 & H1 & H). destruct (source_restated _ _ _ _ _ H1) as (si' & S1 & S2). unfold bind at 1. rewrite S1.
      apply ok_bind in H as (ci & s2 & H2 & H). unfold bind at 1. rewrite KC, H2.
      apply ok_bind in H as (d & s3 & H3 & H). unfold bind at 1. rewrite KD, H3.
      destruct (match ci with Some x => x | None => ([], [], []) end) as [[bi wr] rd]. rewrite KW.
      destruct S2 as [->|(l1 & l2 & -> & -> & R)]; [exists l; split; [exact H|apply restated_refl]|].
      destruct (wrap_lists _ _ _ _ _ _ _ l2 _ _ _ _ H) as [-> H']. exists l2. split; [exact H'|exact R].
  Qed.
  Lemma binds_restated find m x : steady E find -> binds E find m x -> binds E' find m x.
  Proof.
    intros HS (sp & n & l & k & s & s' & A & B & C). destruct (nfs_restated k sp s n l s' (sy_direct _ _ HS _ _ A) B) as (l' & B' & _).
    now exists sp, n, l', k, s, s'.
  Qed.
End seeds.

(** ** Two builders with different seeds *)

Lemma shuffled_dep i i' : shuffled i i' -> import_dep i' = import_dep i /\ (forall nm, name_dep i' nm = name_dep i nm)
  /\ invalid_name i' = invalid_name i /\ invalid_dep i' = invalid_dep i.
Proof.
  destruct i, i'. unfold shuffled. cbn. intros (-> & -> & -> & -> & -> & -> & _). repeat split.
Qed.
Lemma shuffled_imports n b i i' m : shuffled i i' -> imports_name n b i m -> imports_name n b i' m.
Proof.
  intros (Hm & Hl & _) [K|q K1 K2 K3|q K1 K2 K3]; rewrite <- ?Hm, <- ?Hl in *.
  - apply imports_absolute. exact K.
  - apply imports_package; assumption.
  - apply imports_relative; assumption.
Qed.
Lemma shuffled_beyond n b i i' : shuffled i i' -> beyond_top n b i -> beyond_top n b i'.
Proof. intros (_ & Hl & _). unfold beyond_top. now rewrite Hl. Qed.
Lemma shuffled_aims s n i i' m : shuffled i i' -> aims s n i m -> aims s n i' m.
Proof. intros H (b & A & B). exists b. split; [exact A|eapply shuffled_imports; eassumption]. Qed.
Lemma shuffled_names s n i i' m nd : shuffled i i' -> BuilderSame.names_of s n i m nd -> BuilderSame.names_of s n i' m nd.
Proof.
  intros H (m0 & A & B & C & D & F). exists m0. split; [eapply shuffled_aims; eassumption|]. repeat (split; [assumption|]).
  destruct H as (_ & _ & -> & _). exact F.
Qed.

Section two.
  Variables E1 E2 : env.
  Hypothesis HR : reseeded E1 E2.
  Hypothesis HO1 : set_order (e_names_order E1).
  Hypothesis HO2 : set_order (e_names_order E2).
  Hypothesis HP : plain_sources E1.
  Variable find : string -> option spec.
  Variables conf1 conf2 : list (string * implied).
  Hypothesis HS : steady E1 find.
  Hypothesis HT : same_table conf1 conf2.
  Context {DS : dist -> Prop}.
  Hypothesis HD : one_each DS.
  Variables s1 s2 : st.
  Hypothesis J1 : J E1 find conf1 DS s1.
  Hypothesis J2 : J E2 find conf2 DS s2.
  Hypothesis HQ : same_scripts s1 s2.
  Let HS2 : steady E2 find := reseeded_steady _ _ _ HR HS.

  Lemma births_restated x : forall a b n n' l l', gfind (s_graph s1) x = Some a -> gfind (s_graph s2) x = Some b ->
    birth E1 find conf1 DS s1 x n l -> same_node n a -> birth E2 find conf2 DS s2 x n' l' -> same_node n' b -> n = n' /\ restated l l'.
  Proof.
    induction x as [x IH] using (induction_ltof1 _ String.length). unfold ltof in IH.
    intros a b n n' l l' Ha Hb B1 S1 B2 S2.
    assert (KA : kind_of s1 x = Some (n_kind n)) by (unfold kind_of; rewrite Ha; cbn; destruct S1 as (_ & -> & _); reflexivity).
    assert (KB : kind_of s2 x = Some (n_kind n')) by (unfold kind_of; rewrite Hb; cbn; destruct S2 as (_ & -> & _); reflexivity).
    assert (IK : forall c k k', starts_with "." x = false -> child_of c x -> kind_of s1 c = Some k -> kind_of s2 c = Some k' -> k = k').
    { intros c k k' H0 Hc K K'. unfold kind_of in K, K'. destruct (gfind (s_graph s1) c) as [u|] eqn:Eu; [|discriminate].
      destruct (gfind (s_graph s2) c) as [v|] eqn:Ev; [|discriminate]. injection K as <-. injection K' as <-.
      destruct (j_nodes _ _ _ _ _ J1 _ _ Eu) as (n1 & l1 & _ & P1 & Q1). destruct (j_nodes _ _ _ _ _ J2 _ _ Ev) as (n2 & l2 & _ & P2 & Q2).
      destruct (IH c (child_shorter _ _ H0 Hc) _ _ _ _ _ _ Eu Ev P1 Q1 P2 Q2) as [-> _].
      destruct Q1 as (_ & -> & _), Q2 as (_ & -> & _). reflexivity. }
    destruct (script_or (n_kind n)) as [Es|Es].
    - assert (Es' : n_kind n' = Script).
      { destruct (HQ x) as [[X _] _]; [unfold in_graph; congruence..|]. rewrite Es in KA. apply X in KA. congruence. }
      destruct (birth_kind _ _ HS _ _ _ _ _ _ B1 Es) as (t & tr & A1 & A2 & ->). destruct (birth_kind _ _ HS2 _ _ _ _ _ _ B2 Es') as (t' & tr' & A1' & A2' & ->).
      assert (K : e_script E2 = e_script E1) by (rewrite HR; reflexivity). rewrite K, (sy_script _ _ HS t' t x) in A1'.
      assert (tr' = tr) by congruence. subst tr'. split; [reflexivity|].
      destruct (extract_restated _ (e_names_order E2) tr l HO1 HO2 (proj2 HP _ _ _ A1) A2) as (l0 & L1 & L2). congruence.
    - assert (Es' : n_kind n' <> Script).
      { intros K. destruct (HQ x) as [[_ X] _]; [unfold in_graph; congruence..|]. rewrite K in KB. apply X in KB. congruence. }
      destruct (dist_or (n_kind n)) as [Ed|Ed].
      { assert (Ed' : n_kind n' = Distribution).
        { destruct (HQ x) as [_ [X _]]; [unfold in_graph; congruence..|]. rewrite Ed in KA. apply X in KA. congruence. }
        destruct (birth_dist _ _ HS _ _ _ _ _ _ B1 Ed) as (d & A1 & A2 & -> & ->). destruct (birth_dist _ _ HS2 _ _ _ _ _ _ B2 Ed') as (d' & A1' & A2' & -> & ->).
        rewrite (HD d d'); [split; [reflexivity|apply restated_refl]|exact A1|exact A1'|congruence]. }
      assert (Ed' : n_kind n' <> Distribution).
      { intros K. destruct (HQ x) as [_ [_ X]]; [unfold in_graph; congruence..|]. rewrite K in KB. apply X in KB. congruence. }
      assert (AB : forall c k, above s1 x -> starts_with "." x = false -> child_of c x -> kind_of s2 c = Some k -> is_missing k || is_excluded k = true -> False).
      { intros c k [_ Q] H0 Hc K1 K2. destruct (Q c Hc) as (k' & K3 & K4 & K5). rewrite <- (IK c k' k H0 Hc K3 K1), K4, K5 in K2. discriminate. }
      assert (BA : forall c k, above s2 x -> starts_with "." x = false -> child_of c x -> kind_of s1 c = Some k -> is_missing k || is_excluded k = true -> False).
      { intros c k [_ Q] H0 Hc K1 K2. destruct (Q c Hc) as (k' & K3 & K4 & K5). rewrite (IK c k k' H0 Hc K1 K3), K4, K5 in K2. discriminate. }
      pose proof (restated_refl []) as R0.
      destruct B1 as [t tree l A B|d0 A B|A|c k A B C D|i k A B C|A B C|sp n l k t1 t2 A B C D]; [now elim Es|now elim Ed|..];
      destruct B2 as [t' tree' l' A' B'|d0' A' B'|A'|c' k' A' B' C' D'|i' k' A' B' C'|A' B' C'|sp' n' l' k' t1' t2' A' B' C' D']; try (now elim Es'); try (now elim Ed');
      try (match goal with H : above _ _ |- _ => destruct H as [H _] end; congruence);
      try congruence; try (exfalso; eauto; fail).
      + now split.
      + assert (c' = c) by (eapply child_one; eassumption). subst c'. rewrite (IK c k k' A B C C'). now split.
      + rewrite <- HT in B'. rewrite B in B'. injection B' as <-. rewrite C in C'. injection C' as <-. now split.
      + exfalso. rewrite HT in B. destruct (B' i B) as [K _]. congruence.
      + exfalso. rewrite HT in B. destruct (B' i B) as [K _]. congruence.
      + exfalso. rewrite <- HT in B'. destruct (B i' B') as [K _]. congruence.
      + now split.
      + exfalso. rewrite <- HT in B'. destruct (B i' B') as [K _]. congruence.
      + rewrite C in C'. injection C' as <-. pose proof (sy_direct _ _ HS _ _ C) as Hd.
        destruct (nfs_restated E1 E2 HR HO1 HO2 HP _ _ _ _ _ _ Hd D) as (l0 & L1 & L2).
        pose proof (nfs_same E2 find HS2 _ _ _ _ _ _ _ _ _ Hd L1 D') as K. injection K as -> ->. now split.
  Qed.
End two.

Section pair.
  Variables E1 E2 : env.
  Hypothesis HR : reseeded E1 E2.
  Hypothesis HO1 : set_order (e_names_order E1).
  Hypothesis HO2 : set_order (e_names_order E2).
  Hypothesis HP : plain_sources E1.
  Variable find : string -> option spec.
  Variables implies1 implies2 conf1 conf2 : list (string * implied).
  Hypothesis HE1 : order_ok E1.
  Hypothesis HE2 : order_ok E2.
  Hypothesis HS : steady E1 find.
  Hypothesis HT : same_table conf1 conf2.
  Hypothesis HC : forall x i, assoc x conf1 = Some i -> starts_with "." x = false.
  Variables s1 s2 : st.
  Context {DS : dist -> Prop}.
  Hypothesis HD : one_each DS.
  Hypothesis X1 : dsession E1 DS implies1 conf1 s1.
  Hypothesis X2 : dsession E2 DS implies2 conf2 s2.
  Hypothesis HQ : same_scripts s1 s2.
  Let HS2 : steady E2 find := reseeded_steady _ _ _ HR HS.

  Lemma seed_HC2 : forall x i, assoc x conf2 = Some i -> starts_with "." x = false.
  Proof. intros x i. rewrite <- HT. apply HC. Qed.
  Let W1 : JW E1 find conf1 DS s1 := one_JW E1 find implies1 conf1 HE1 HS HC s1 X1.
  Let W2 : JW E2 find conf2 DS s2 := one_JW E2 find implies2 conf2 HE2 HS2 seed_HC2 s2 X2.

  Lemma seed_alike x a b : gfind (s_graph s1) x = Some a -> gfind (s_graph s2) x = Some b -> alike a b.
  Proof.
    intros Ha Hb. destruct (j_nodes _ _ _ _ _ (w_inv _ _ _ _ _ W1) _ _ Ha) as (n1 & l1 & _ & P1 & Q1).
    destruct (j_nodes _ _ _ _ _ (w_inv _ _ _ _ _ W2) _ _ Hb) as (n2 & l2 & _ & P2 & Q2).
    destruct (births_restated E1 E2 HR HO1 HO2 HP find conf1 conf2 HS HT HD s1 s2 (w_inv _ _ _ _ _ W1) (w_inv _ _ _ _ _ W2) HQ x _ _ _ _ _ _ Ha Hb P1 Q1 P2 Q2) as [<- _].
    destruct Q1 as (A1 & A2 & A3 & A4 & A5 & A6 & A7 & _), Q2 as (B1 & B2 & B3 & B4 & B5 & B6 & B7 & _).
    unfold alike. repeat split; congruence.
  Qed.
  Lemma seed_stmts x l : In (EvAdd x l) (s_log s1) -> in_graph s2 x -> exists l', In (EvAdd x l') (s_log s2) /\ restated l l'.
  Proof.
    intros A B. destruct (j_added _ _ _ _ _ (w_inv _ _ _ _ _ W1) _ _ A) as (a & n1 & Ha & P1 & Q1 & NK).
    destruct (gfind (s_graph s2) x) as [b|] eqn:Hb; [|now elim B].
    destruct (j_nodes _ _ _ _ _ (w_inv _ _ _ _ _ W2) _ _ Hb) as (n2 & l2 & K & P2 & Q2).
    destruct (births_restated E1 E2 HR HO1 HO2 HP find conf1 conf2 HS HT HD s1 s2 (w_inv _ _ _ _ _ W1) (w_inv _ _ _ _ _ W2) HQ x _ _ _ _ _ _ Ha Hb P1 Q1 P2 Q2) as [-> R].
    exists l2. destruct K as [K|K]; [now split|now elim NK].
  Qed.
  Lemma seed_stmt x i : stmt s1 x i -> in_graph s2 x -> exists l i', In (EvAdd x l) (s_log s2) /\ In i' l /\ shuffled i i'.
  Proof.
    intros [_ (l & A & B)] C. destruct (seed_stmts x l A C) as (l' & D & R & _). destruct (R i B) as (i' & I1 & I2). now exists l', i'.
  Qed.
  Lemma seed_kind x k : kind_of s1 x = Some k -> in_graph s2 x -> kind_of s2 x = Some k.
  Proof.
    unfold kind_of, in_graph. intros A B. destruct (gfind (s_graph s1) x) as [a|] eqn:Ha; [|discriminate].
    destruct (gfind (s_graph s2) x) as [b|] eqn:Hb; [|now elim B]. injection A as <-. cbn. f_equal. apply (seed_alike x a b Ha Hb).
  Qed.
  Lemma seed_pkg x b : pkg_node s1 x b -> in_graph s2 x -> pkg_node s2 x b.
  Proof. intros (k & A & ->) B. exists k. split; [now apply seed_kind|reflexivity]. Qed.
  Lemma seed_aims x i m : aims s1 x i m -> in_graph s2 x -> aims s2 x i m.
  Proof. intros (b & A & B) C. exists b. split; [now apply seed_pkg|exact B]. Qed.

  Lemma seed_plain x : plainly s1 x -> in_graph s2 x -> (kind_of s2 x <> Some Script /\ kind_of s2 x <> Some Distribution) /\ starts_with "." x = false.
  Proof. intros (A & [B B'] & C) D. split; [|exact C]. destruct (HQ x A D) as [K1 K2]. split; intros K; [apply B, K1, K|apply B', K2, K]. Qed.
  Lemma seed_target x t : kind_of s2 x = Some (AliasNode t) \/ kind_of s2 x = Some (VirtualNode t) ->
    in_graph s2 x /\ has_edge (s_graph s2) x t (Dep false true false None).
  Proof.
    intros K. assert (I2 : in_graph s2 x) by (apply in_kind; destruct K; eauto). split; [exact I2|].
    destruct (w_nodes _ _ _ _ _ W2 x I2) as [[D|D]|[D|[D|(D & _)]]].
    - destruct K; congruence.
    - apply dist_paid_kind in D. destruct K; congruence.
    - unfold kind_of in K. destruct (gfind (s_graph s2) x) as [n|] eqn:Ex; [|destruct K; discriminate].
      destruct (placed_kind _ _ _ HS2 _ _ _ _ (w_inv _ _ _ _ _ W2) Ex) as [[L|[L _]]|[[L _]|[L _]]]; [| | |destruct D; congruence]; cbn in K; rewrite L in K; destruct K; discriminate.
    - now apply (pd_target _ _ _ D).
    - now apply (pd_target _ _ _ D).
  Qed.

  Lemma seed_names n l i m nd : In (EvAdd n l) (s_log s2) -> In i l -> BuilderSame.names_of s1 n i m nd -> in_graph s2 n ->
    exists nd2, BuilderSame.names_of s2 n i m nd2 /\ alike nd nd2.
  Proof.
    intros A B (m0 & C & D & F & G & K) I2. pose proof (seed_aims _ _ _ C I2) as C2.
    destruct (one_aims E2 implies2 conf2 HE2 s2 X2 n l i m0 A B C2) as [He _].
    destruct (one_ends E2 implies2 conf2 HE2 s2 X2 _ _ _ He) as [_ Im].
    assert (D2 : m = m0 \/ kind_of s2 m0 = Some (AliasNode m)) by (destruct D as [D|D]; [now left|right; now apply seed_kind]).
    assert (Jm : in_graph s2 m).
    { destruct D2 as [->|D2]; [exact Im|]. destruct (seed_target m0 m (or_introl D2)) as [_ L].
      apply (one_ends E2 implies2 conf2 HE2 s2 X2 _ _ _ L). }
    destruct (gfind (s_graph s2) m) as [nd2|] eqn:Em; [|now elim Jm]. exists nd2. pose proof (seed_alike m nd nd2 F Em) as L.
    split; [|exact L]. exists m0. split; [exact C2|]. split; [exact D2|]. split; [exact Em|]. destruct L as (_ & -> & _). now split.
  Qed.

  Lemma seed_edge a b d : settled E1 find s1 -> settled E2 find s2 -> has_edge (s_graph s1) a b d -> reaches (s_graph s2) a ->
    has_edge (s_graph s2) a b d.
  Proof.
    intros Z1 Z2 He Hr. pose proof (one_reaches E2 implies2 conf2 HE2 s2 X2 a Hr) as I2.
    destruct (one_ends E1 implies1 conf1 HE1 s1 X1 _ _ _ He) as [I1 Ib].
    destruct (j_edges _ _ _ _ _ (w_inv _ _ _ _ _ W1) _ _ _ He)
      as [i A B C|i p A B C D F|i m nd nm A B C D F L K|i m nd nm A B C D F K|x nd A B C|A B C|refs A0 A B C|A B|x i k f A B C|nd dd A B C D F].
    - destruct (seed_stmt _ _ A I2) as (l & i' & A2 & A' & Sh). rewrite C, <- (proj1 (shuffled_dep _ _ Sh)).
      eapply (one_aims E2 implies2 conf2 HE2 s2 X2); [exact A2|exact A'|]. eapply shuffled_aims; [exact Sh|]. now apply seed_aims.
    - destruct (seed_stmt _ _ A I2) as (l & i' & A2 & A' & Sh). destruct (shuffled_dep _ _ Sh) as (_ & _ & D1 & D2).
      rewrite D, F, <- D1, <- D2. eapply (one_beyond E2 implies2 conf2 HE2 s2 X2);
        [exact A2|exact A'|eapply seed_pkg; eassumption|eapply shuffled_beyond; eassumption].
    - destruct (seed_stmt _ _ A I2) as (l & i' & A2 & A' & Sh). apply (shuffled_names _ _ _ i') in B; [|exact Sh].
      destruct (shuffled_dep _ _ Sh) as (_ & Nd & _). rewrite <- Nd in K. destruct Sh as (_ & _ & _ & _ & _ & _ & Sn). apply Sn in D.
      destruct (seed_names _ _ _ _ _ A2 A' B I2) as (nd2 & B2 & S2). pose proof S2 as (_ & Sk & _).
      assert (F2 : gfind (s_graph s2) m = Some nd2) by (destruct B2 as (m0 & _ & _ & K2 & _); exact K2).
      assert (Own : In (in_name nm) (n_written nd2) -> (forall t, ~ provides (s_graph s2) m (in_name nm) t)
                /\ (is_package (n_kind nd2) = true -> binds E2 find m (in_name nm))).
      { intros K2. eapply (se_own _ _ _ Z2 a i' nm m nd2);
          [eapply (one_scheduled E2 implies2 conf2 HE2 s2 X2); eassumption|eapply names_of_source; exact B2|exact D|exact F2|exact K2]. }
      destruct (one_names E2 implies2 conf2 HE2 s2 X2 _ _ _ _ _ nm A2 A' B2 D)
        as [(y & t & K1 & K2 & K3 & _)|[(k & K1)|[(t & K1 & K2 & K3)|[(y & t & K1 & K2 & K3 & K4 & K5)|(b' & k & f & ty & x & t & K1 & _)]]]].
      + assert (y = nd2) by congruence. subst y. now elim (proj1 (Own K2) t).
      + unfold kind_of in K1. rewrite F2 in K1. injection K1 as K1. rewrite <- Sk, K1 in C. discriminate.
      + apply (one_resolves E2 implies2 conf2 HE2 s2 X2) in K1. rewrite F, K, <- K1. exact K2.
      + assert (y = nd2) by congruence. subst y. apply (one_resolves E2 implies2 conf2 HE2 s2 X2) in K4. rewrite <- F in K4. subst t.
        rewrite Sk in K2. destruct (L K2) as (k & L1 & L2);
          [apply (binds_restated E2 E1 (reseeded_sym _ _ HR) HO2 HO1 (reseeded_plain _ _ HR HP) find _ _ HS2), (Own K3); congruence|].
        assert (kind_of s2 b = Some k) by (apply seed_kind; [exact L1|apply in_kind; eauto]). rewrite H in K5. injection K5 as ->. discriminate L2.
      + unfold kind_of in K1. rewrite F2 in K1. injection K1 as K1.
        pose proof (no_six _ _ _ HS2 _ _ _ _ _ _ _ _ _ (w_inv _ _ _ _ _ W2) F2 K1) as N. discriminate N.
    - exfalso. destruct A as [A _]. destruct (se_own _ _ _ Z1 a i nm m nd A) as [K1 _].
      + eapply names_of_source; exact B.
      + exact C.
      + destruct B as (m0 & _ & _ & B & _). exact B.
      + exact D.
      + now elim (K1 b).
    - subst d. destruct (se_tidy _ _ _ Z1) as [T1 T2]. pose proof (se_script _ _ _ Z1 _ _ _ A) as Sc. rewrite <- B in Sc.
      pose proof A as (n & i & nm & L1 & L2 & L3 & L4 & L5). subst x.
      assert (Hc : child_of b a) by (rewrite B; apply child_plain; [eapply T2|eapply T1]; eassumption).
      assert (Hd : starts_with "." a = false).
      { rewrite <- (child_dots b a Hc). destruct (placed_kind _ _ _ HS _ _ _ _ (w_inv _ _ _ _ _ W1) L4) as [[L|[L _]]|[[L _]|[L _]]]; [| | |exact L];
          rewrite L in L5; discriminate. }
      assert (Hp : plainly s1 a) by (split; [exact I1|now split]). destruct (seed_plain a Hp I2) as [P1 P2].
      apply (one_node E2 find implies2 conf2 HE2 HS2 seed_HC2 s2 X2 a I2 P1 P2); assumption.
    - subst d. destruct (seed_plain a B I2) as [P1 P2]. apply (one_node E2 find implies2 conf2 HE2 HS2 seed_HC2 s2 X2 a I2 P1 P2); assumption.
    - subst d. destruct (seed_plain a A0 I2) as [P1 P2]. destruct A as (A1 & A2 & A3). rewrite HT in A3.
      assert (K : In (EvImplied a (ImpRefs refs)) (s_log s2)).
      { destruct (gfind (s_graph s2) a) as [n2|] eqn:En; [|now elim I2].
        destruct (j_nodes _ _ _ _ _ (w_inv _ _ _ _ _ W2) _ _ En) as (n0 & l & _ & P & (_ & S2 & _)).
        assert (Kn : kind_of s2 a = Some (n_kind n0)) by (unfold kind_of; rewrite En; cbn; now rewrite S2).
        destruct P as [t tree l Q1 Q2|d0 Q1 Q2|Q1|c k Q1 Q2 Q3 Q4|i k Q1 Q2 Q3|Q1 Q2 Q3|sp n0 l k t1 t2 Q1 Q2 Q3 Q4].
        - elim (proj1 P1). exact Kn.
        - elim (proj2 P1). exact Kn.
        - congruence.
        - exfalso. destruct (proj2 A2 c Q2) as (k' & L1 & L2 & L3). assert (kind_of s2 c = Some k') by (apply seed_kind; [exact L1|apply in_kind; eauto]).
          assert (k' = k) by congruence. subst k'. rewrite L2, L3 in Q4. discriminate.
        - rewrite A3 in Q2. injection Q2 as <-. discriminate.
        - apply (Q2 _ A3).
        - apply (Q2 _ A3). }
      exact (w_refs _ _ _ _ _ W2 _ _ K b B).
    - subst d. apply seed_target. destruct A as [A|A]; [left|right]; now apply seed_kind.
    - subst d. pose proof (seed_kind _ _ A I2) as A2.
      destruct (w_nodes _ _ _ _ _ W2 a I2) as [[D|D]|[D|[D|(D & _)]]].
      + congruence.
      + apply dist_paid_kind in D. congruence.
      + unfold kind_of in A2. destruct (gfind (s_graph s2) a) as [n|] eqn:Ex; [|discriminate]. injection A2 as A2.
        destruct (placed_kind _ _ _ HS2 _ _ _ _ (w_inv _ _ _ _ _ W2) Ex) as [[L|[L _]]|[[L _]|[L _]]]; destruct D; congruence.
      + eapply (pd_nspkg _ _ _ D); eassumption.
      + eapply (pd_nspkg _ _ _ D); eassumption.
    - subst d. destruct (gfind (s_graph s2) a) as [nd2|] eqn:Ex; [|now elim I2].
      pose proof (seed_alike a nd nd2 A Ex) as (_ & S2 & _ & S4 & _).
      destruct (w_nodes _ _ _ _ _ W2 a) as [[K|K]|[K|[K|(K & _)]]]; [unfold in_graph; congruence|..].
      + unfold kind_of in K. rewrite Ex in K. cbn in K. congruence.
      + destruct K as (nd' & d' & K1 & K2 & K3 & K4). assert (nd' = nd2) by congruence. subst nd'. apply K4. congruence.
      + elim (proj2 K). unfold kind_of. rewrite Ex. cbn. congruence.
      + elim (proj2 (proj1 (pd_plain _ _ _ K))). unfold kind_of. rewrite Ex. cbn. congruence.
      + elim (proj2 (proj1 (pd_plain _ _ _ K))). unfold kind_of. rewrite Ex. cbn. congruence.
  Qed.
End pair.

(** ** The same calls have the same roots *)

Lemma session_reach E DS implies conf s : dsession E DS implies conf s -> reach E (init implies [] []) s.
Proof. intros H. eapply user_is_reach, one_user. exact H. Qed.
Lemma calls_in E DS implies conf fuel : order_ok E -> forall l s anss s', dsession E DS implies conf s ->
  Forall (fun a => root_action a \/ dist_action E DS a) l ->
  calls E fuel l s = Some (anss, s') -> Forall (fun a => ok_answer a = true) anss ->
  dsession E DS implies conf s' /\ grows s s'
  /\ forall a, In a l -> exists s1 ans s2, dsession E DS implies conf s1 /\ top_call E fuel a s1 = Some (ans, s2) /\ ok_answer ans = true /\ grows s2 s'.
Proof.
  intros HE. induction l as [|a l IH]; intros s anss s' HX HL HC HA; cbn in HC.
  - injection HC as <- <-. split; [exact HX|]. split; [apply grows_refl|]. intros b [].
  - destruct (top_call E fuel a s) as [[ans s1]|] eqn:E1; [|discriminate].
    destruct (calls E fuel l s1) as [[anss' s2]|] eqn:E2; [|discriminate]. injection HC as <- <-.
    inversion HL as [|? ? L1 L2]; subst. inversion HA as [|? ? A1 A2]; subst.
    assert (HX1 : dsession E DS implies conf s1) by (eapply ds_call; [exact HX|exact L1|exact E1|intros e ->; discriminate]).
    destruct (IH s1 _ _ HX1 L2 E2 A2) as (K1 & K2 & K3). split; [exact K1|]. split.
    + eapply grows_trans; [|exact K2]. exact (top_call_grows E fuel a s ans s1 (h_linv _ _ (reach_history E _ s HE (one_start implies) (session_reach _ _ _ _ _ HX))) E1).
    + intros b [<-|Hb]; [|now apply K3]. exists s, ans, s1. repeat (split; [assumption|]). exact K2.
Qed.

(** *** Distributions are roots *)

Lemma dsession_more E (DS DS' : dist -> Prop) implies conf s : (forall d, DS d -> DS' d) -> dsession E DS implies conf s -> dsession E DS' implies conf s.
Proof.
  intros H. induction 1 as [s A B|s fuel a ans s' A IH B C D]; [now apply ds_open|]. eapply ds_call; [exact IH| |exact C|exact D].
  destruct B as [B|B]; [now left|right]. destruct a; try destruct B; cbn in *; eauto.
Qed.
Lemma call_grows E DS implies conf s fuel a ans s' : order_ok E -> dsession E DS implies conf s -> top_call E fuel a s = Some (ans, s') -> grows s s'.
Proof.
  intros HE HX HC. exact (top_call_grows E fuel a s ans s' (h_linv _ _ (reach_history E _ s HE (one_start implies) (session_reach _ _ _ _ _ HX))) HC).
Qed.
Lemma grown_in s s' x : grows s s' -> in_graph s x -> in_graph s' x.
Proof. intros G A. apply in_kind in A as (k & A). apply in_kind. exists k. eapply grows_kind; eassumption. Qed.
(** Only those distributions that are in the graph. *)
Lemma dsession_less E DS implies conf s : order_ok E -> steady_dists E -> dsession E DS implies conf s ->
  dsession E (fun d => DS d /\ in_graph s (dist_identifier d)) implies conf s.
Proof.
  intros HE HN. induction 1 as [s A B|s fuel a ans s' A IH B C D]; [now apply ds_open|].
  pose proof (call_grows _ _ _ _ _ _ _ _ _ HE A C) as G.
  assert (Ho : ok_answer ans = true) by (destruct ans; auto; now elim (D e)).
  pose proof (C30_asked_are_roots E _ s fuel a ans s' HE (one_start implies) (session_reach _ _ _ _ _ A) C Ho) as Q.
  assert (X : dsession E DS implies conf s') by (eapply ds_call; eassumption).
  assert (R : forall d, in_graph s (dist_identifier d) \/ In (dist_identifier d) (g_roots (s_graph s')) -> in_graph s' (dist_identifier d)).
  { intros d [K|K]; [eapply grown_in; eassumption|]. exact (one_root E implies conf HE s' X _ K). }
  eapply ds_call; [eapply dsession_more; [|exact IH]| |exact C|exact D].
  - intros d [K1 K2]. split; [exact K1|]. eapply grown_in; eassumption.
  - destruct B as [B|B]; [now left|right]. destruct a; try destruct B; cbn in B |- *.
    + split; [exact B|now apply R].
    + intros t d K. destruct Q as (d' & Q1 & Q2). rewrite (HN _ t), K in Q1. injection Q1 as <-. split; [eapply B; exact K|now apply R].
Qed.
Lemma dist_is_root E find DS implies conf s : order_ok E -> steady E find -> steady_dists E ->
  (forall x i, assoc x conf = Some i -> starts_with "." x = false) -> dsession E DS implies conf s ->
  forall x, kind_of s x = Some Distribution -> In x (g_roots (s_graph s)).
Proof.
  intros HE HS HN HC HX. induction HX as [s A B|s fuel a ans s' A IH B C D]; intros x Hx.
  - exfalso. pose proof (one_JW E find implies conf HE HS HC s (ds_open E (fun _ => False) implies conf s A B)) as W.
    unfold kind_of in Hx. destruct (gfind (s_graph s) x) as [n|] eqn:En; [|discriminate]. injection Hx as Hx.
    destruct (j_nodes _ _ _ _ _ (w_inv _ _ _ _ _ W) _ _ En) as (n0 & l & _ & P & (_ & Q & _)).
    destruct (birth_dist E find HS _ _ _ _ _ _ P) as (d & [] & _). congruence.
  - pose proof (call_grows _ _ _ _ _ _ _ _ _ HE A C) as G.
    destruct (kind_of s x) as [k|] eqn:Kx.
    { rewrite (grows_kind _ _ _ _ G Kx) in Hx. injection Hx as ->. eapply gr_roots; [apply gw_graph; exact G|]. now apply IH. }
    assert (Nx : ~ in_graph s x) by (intros K; apply in_kind in K as (k & K); congruence).
    assert (Ho : ok_answer ans = true) by (destruct ans; auto; now elim (D e)).
    pose proof (C30_asked_are_roots E _ s fuel a ans s' HE (one_start implies) (session_reach _ _ _ _ _ A) C Ho) as Q.
    set (DS1 := fun d => in_graph s (dist_identifier d) \/ In (dist_identifier d) (g_roots (s_graph s'))).
    assert (X : dsession E DS1 implies conf s').
    { eapply ds_call; [eapply dsession_more; [|exact (dsession_less _ _ _ _ _ HE HN A)]| |exact C|exact D].
      - intros d [_ K]. now left.
      - destruct B as [B|B]; [now left|right]. destruct a; try destruct B; cbn in B |- *.
        + exact Q.
        + intros t d K. destruct Q as (d' & Q1 & Q2). rewrite (HN _ t), K in Q1. injection Q1 as <-. exact Q2. }
    pose proof (one_JW E find implies conf HE HS HC s' X) as W.
    unfold kind_of in Hx. destruct (gfind (s_graph s') x) as [n|] eqn:En; [|discriminate]. injection Hx as Hx.
    destruct (j_nodes _ _ _ _ _ (w_inv _ _ _ _ _ W) _ _ En) as (n0 & l & _ & P & (_ & Q' & _)).
    destruct (birth_dist E find HS _ _ _ _ _ _ P) as (d & [K|K] & -> & _); [congruence|contradiction|exact K].
Qed.

(** What root actions ask for. *)
Lemma reseeded_requested E E' DS s a id : reseeded E E' -> root_action a \/ dist_action E DS a -> requested E s a id -> requested E' s a id.
Proof.
  unfold reseeded. intros -> Ha H. destruct H; try (destruct Ha as [Ha|Ha]; destruct Ha; fail); econstructor; eassumption.
Qed.
Lemma asked_root E find DS implies conf fuel l s anss s' : order_ok E -> set_order (e_names_order E) -> steady E find -> steady_dists E ->
  (forall x i, assoc x conf = Some i -> starts_with "." x = false) -> dists_apart DS s' ->
  dsession E DS implies conf s -> Forall (fun a => root_action a \/ dist_action E DS a) l -> calls E fuel l s = Some (anss, s') -> Forall (fun a => ok_answer a = true) anss ->
  forall a u id, In a l -> (forall name m, resolves u name m -> m = name) -> requested E u a id -> In id (g_roots (s_graph s')).
Proof.
  intros HE HO HS HN HT HD HX HL HC HA a u id Ha Hu Hq. destruct (calls_in E DS implies conf fuel HE l s anss s' HX HL HC HA) as (HX' & _ & K).
  destruct (K a Ha) as (s1 & ans & s2 & X1 & C & Ho & G). clear K. rewrite Forall_forall in HL. pose proof (HL a Ha) as Hr.
  pose proof (session_reach _ _ _ _ _ X1) as R1. pose proof (one_start implies) as H0.
  assert (X2 : dsession E DS implies conf s2) by (eapply ds_call; [exact X1|exact Hr|exact C|intros e ->; discriminate]).
  assert (G' : forall x, In x (g_roots (s_graph s2)) -> In x (g_roots (s_graph s'))) by (intros x; eapply gr_roots, gw_graph; exact G).
  pose proof (C30_asked_are_roots E _ s1 fuel a ans s2 HE H0 R1 C Ho) as Q.
  assert (Root : forall name, root_for s2 name -> In name (g_roots (s_graph s'))).
  { intros name (m & M1 & M2). apply (one_resolves E implies conf HE s2 X2) in M1. subst m. apply G', M2. }
  assert (Rd : forall d, DS d -> in_graph s1 (dist_identifier d) \/ In (dist_identifier d) (g_roots (s_graph s2)) -> In (dist_identifier d) (g_roots (s_graph s'))).
  { intros d Hd [K|K]; [|now apply G']. apply (dist_is_root E find DS implies conf s' HE HS HN HT HX'), HD; [exact Hd|].
    eapply grown_in; [exact G|]. eapply grown_in; [|exact K]. exact (call_grows _ _ _ _ _ _ _ _ _ HE X1 C). }
  destruct Hq as [p|name id Hn|src t tree name id Hp Ht Hn|d|name t d Hd|x|p x Hp]; try (destruct Hr as [Hr|Hr]; destruct Hr; fail).
  - now apply G'.
  - apply Hu in Hn. subst name. destruct Q as (x & _ & Q1 & Q2). apply (one_resolves E implies conf HE s2 X2) in Q1. subst x. now apply G'.
  - apply Hu in Hn. subst name. rewrite (sy_parse _ _ HS t (s_clock s1)) in Hp. destruct Ht as (q & stmt & w & B & W & Hw).
    pose proof (C39_source_roots E _ s1 fuel src ans s2 tree HE HO H0 R1 Hp C Ho q stmt w B W) as L. destruct w as [m a|m names level].
    + subst id. now apply Root.
    + cbv zeta in L, Hw. destruct L as [L1 L2]. destruct Hw as [->|(x & asn & I1 & I2 & ->)]; [now apply Root|]. apply Root. eapply L2; eassumption.
  - destruct Hr as [[]|Hr]. now apply Rd.
  - destruct Hr as [[]|Hr]. destruct Q as (d' & Q1 & Q2). rewrite (HN _ t), Hd in Q1. injection Q1 as <-. apply Rd; [eapply Hr; exact Hd|exact Q2].
Qed.
Lemma opening_history E implies s : opening E implies s -> exists l, history_of E (init implies [] []) l s /\ Forall (fun a => (exists names, a = AExcludes names) \/ exists m, a = AImplies m) l.
Proof.
  induction 1 as [|s fuel names ans s' _ (l & IH1 & IH2) HC _|s fuel m ans s' _ (l & IH1 & IH2) HC _].
  - exists []. split; [apply hist_nil|constructor].
  - exists (l ++ [AExcludes names])%list. split; [eapply hist_call; eassumption|]. apply Forall_app. split; [exact IH2|]. constructor; [eauto|constructor].
  - exists (l ++ [AImplies m])%list. split; [eapply hist_call; eassumption|]. apply Forall_app. split; [exact IH2|]. constructor; [eauto|constructor].
Qed.
Lemma calls_history E fuel s0 : forall l l0 s anss s', history_of E s0 l0 s -> calls E fuel l s = Some (anss, s') -> history_of E s0 (l0 ++ l)%list s'.
Proof.
  induction l as [|a l IH]; intros l0 s anss s' H HC; cbn in HC.
  - injection HC as <- <-. now rewrite app_nil_r.
  - destruct (top_call E fuel a s) as [[ans s1]|] eqn:E1; [|discriminate].
    destruct (calls E fuel l s1) as [[anss' s2]|] eqn:E2; [|discriminate]. injection HC as <- <-.
    change (a :: l) with ([a] ++ l)%list. rewrite app_assoc. eapply IH; [|exact E2]. eapply hist_call; eassumption.
Qed.
Lemma root_asked E DS implies fuel l s anss s' : set_order (e_names_order E) -> opening E implies s -> Forall (fun a => root_action a \/ dist_action E DS a) l ->
  calls E fuel l s = Some (anss, s') -> forall id, In id (g_roots (s_graph s')) -> exists a, In a l /\ requested E s' a id.
Proof.
  intros HO HX HL HC id Hi. destruct (opening_history E implies s HX) as (l0 & H0 & F0).
  pose proof (calls_history E fuel _ l l0 s anss s' H0 HC) as H.
  destruct (C30_no_builtin_partial E implies [] (l0 ++ l) s' HO) with (3 := H) (id := id) as (a & A & B); auto.
  - intros h [].
  - apply Forall_app. split.
    + eapply Forall_impl; [|exact F0]. intros a [(names & ->)|(m & ->)]; now apply fine_plain.
    + eapply Forall_impl; [|exact HL]. intros a Ha. destruct a; try (destruct Ha as [Ha|Ha]; destruct Ha; fail); first [now apply fine_root|now apply fine_plain].
  - exists a. split; [|exact B]. apply in_app_or in A as [A|A]; [|exact A]. rewrite Forall_forall in F0. destruct (F0 a A) as [(names & ->)|(m & ->)]; inversion B.
Qed.

(** ** C86 *)

(** The same calls, which do not raise, with two hash seeds. *)
Record seeds (E1 E2 : env) (find : string -> option spec) (DS : dist -> Prop) (implies : list (string * implied)) (s0 : st) (l : list action) (s1 s2 : st) : Prop := {
  sd_env : reseeded E1 E2;
  sd_names1 : set_order (e_names_order E1);
  sd_names2 : set_order (e_names_order E2);
  sd_order1 : order_ok E1;
  sd_order2 : order_ok E2;
  sd_steady : steady E1 find;
  sd_table : forall x i, assoc x (s_lazy s0) = Some i -> starts_with "." x = false;
  sd_open1 : opening E1 implies s0;
  sd_open2 : opening E2 implies s0;
  sd_calls : Forall (fun a => root_action a \/ dist_action E1 DS a) l;
  sd_dists : one_each DS;
  sd_named : steady_dists E1;
  sd_apart1 : dists_apart DS s1;
  sd_apart2 : dists_apart DS s2;
  sd_first : exists fuel anss, calls E1 fuel l s0 = Some (anss, s1) /\ Forall (fun a => ok_answer a = true) anss;
  sd_second : exists fuel anss, calls E2 fuel l s0 = Some (anss, s2) /\ Forall (fun a => ok_answer a = true) anss
}.
Lemma reseeded_calls E1 E2 DS l : reseeded E1 E2 -> Forall (fun a => root_action a \/ dist_action E1 DS a) l -> Forall (fun a => root_action a \/ dist_action E2 DS a) l.
Proof. unfold reseeded. intros ->. intros H. exact H. Qed.
Lemma reseeded_dists E1 E2 : reseeded E1 E2 -> steady_dists E1 -> steady_dists E2.
Proof. unfold reseeded. intros -> H. exact H. Qed.
Lemma seeds_sym E1 E2 find DS implies s0 l s1 s2 : seeds E1 E2 find DS implies s0 l s1 s2 -> seeds E2 E1 find DS implies s0 l s2 s1.
Proof.
  intros [A B C D F G H I J K HD HN P1 P2 L M]. constructor; auto; [now apply reseeded_sym|eapply reseeded_steady; eassumption|eapply reseeded_calls; eassumption|eapply reseeded_dists; eassumption].
Qed.
Lemma seeds_sessions E1 E2 find DS implies s0 l s1 s2 : seeds E1 E2 find DS implies s0 l s1 s2 ->
  dsession E1 DS implies (s_lazy s0) s1 /\ dsession E2 DS implies (s_lazy s0) s2.
Proof.
  intros [A B C D F G H I J K HD HN P1 P2 (f1 & a1 & L1 & L2) (f2 & a2 & M1 & M2)]. split.
  - eapply (calls_in E1); [exact D|apply ds_open; [exact I|reflexivity]|exact K|exact L1|exact L2].
  - eapply (calls_in E2); [exact F|apply ds_open; [exact J|reflexivity]|eapply reseeded_calls; eassumption|exact M1|exact M2].
Qed.

(** The same part of the graph is reported. *)
Definition C86_statement : Prop := forall E1 E2 find DS implies s0 l s1 s2, seeds E1 E2 find DS implies s0 l s1 s2 ->
  tidy s1 -> tidy s2 -> same_scripts s1 s2 -> reported_within (s_graph s1) (s_graph s2).

(** The roots are the same, always. *)
Lemma seeds_roots E1 E2 find DS implies s0 l s1 s2 : seeds E1 E2 find DS implies s0 l s1 s2 ->
  forall x, In x (g_roots (s_graph s1)) -> In x (g_roots (s_graph s2)).
Proof.
  intros T x Hx. destruct (seeds_sessions _ _ _ _ _ _ _ _ _ T) as [X1 X2].
  destruct T as [A B C D F G H I J K HD HN P1 P2 (f1 & a1 & L1 & L2) (f2 & a2 & M1 & M2)].
  destruct (root_asked E1 DS implies f1 l s0 a1 s1 B I K L1 x Hx) as (a & Ha & Q).
  eapply (asked_root E2 find DS implies (s_lazy s0) f2 l s0 a2 s2 F C);
    [eapply reseeded_steady; eassumption|eapply reseeded_dists; eassumption|exact H|exact P2|apply ds_open; [exact J|reflexivity]|eapply reseeded_calls; eassumption|exact M1|exact M2|exact Ha| |].
  - exact (one_resolves E1 implies (s_lazy s0) D s1 X1).
  - rewrite Forall_forall in K. eapply reseeded_requested; [exact A|now apply K|exact Q].
Qed.
Theorem C86_roots_partial : forall E1 E2 find DS implies s0 l s1 s2, seeds E1 E2 find DS implies s0 l s1 s2 -> same_roots s1 s2.
Proof.
  intros E1 E2 find DS implies s0 l s1 s2 T x. split.
  - eapply seeds_roots; exact T.
  - eapply seeds_roots, seeds_sym; exact T.
Qed.

(** Nodes for the same name are the same but for the globals that star imports add, and they have
    the same import statements. *)
Theorem C86_nodes_partial : forall E1 E2 find DS implies s0 l s1 s2, seeds E1 E2 find DS implies s0 l s1 s2 ->
  plain_sources E1 -> same_scripts s1 s2 ->
  forall x n n', gfind (s_graph s1) x = Some n -> gfind (s_graph s2) x = Some n' -> alike n n'
    /\ forall k, In (EvAdd x k) (s_log s1) -> exists k', In (EvAdd x k') (s_log s2) /\ restated k k'.
Proof.
  intros E1 E2 find DS implies s0 l s1 s2 T HP HQ x n n' Hn Hn'. destruct (seeds_sessions _ _ _ _ _ _ _ _ _ T) as [X1 X2].
  destruct T as [A B C D F G H I J K HD HN P1 P2 L M]. split.
  - exact (seed_alike E1 E2 A B C HP find implies implies (s_lazy s0) (s_lazy s0) D F G (fun x => eq_refl) H s1 s2 HD X1 X2 HQ x n n' Hn Hn').
  - intros k Hk. apply (seed_stmts E1 E2 A B C HP find implies implies (s_lazy s0) (s_lazy s0) D F G (fun x => eq_refl) H s1 s2 HD X1 X2 HQ x k Hk).
    unfold in_graph. congruence.
Qed.

(** When no from list has a name twice and no name is imported from a module that imports it itself. *)
Theorem C86_partial : forall E1 E2 find DS implies s0 l s1 s2, seeds E1 E2 find DS implies s0 l s1 s2 ->
  plain_sources E1 -> same_scripts s1 s2 -> settled E1 find s1 -> settled E2 find s2 ->
  reported_within (s_graph s1) (s_graph s2).
Proof.
  intros E1 E2 find DS implies s0 l s1 s2 T HP HQ Z1 Z2. pose proof (seeds_roots _ _ _ _ _ _ _ _ _ T) as HRt.
  destruct (seeds_sessions _ _ _ _ _ _ _ _ _ T) as [X1 X2]. destruct T as [A B C D F G H I J K0 HD HN P1 P2 L M].
  assert (K : forall x, reaches (s_graph s1) x -> reaches (s_graph s2) x).
  { intros x. induction 1 as [x Hx|a b ds Ha IH He].
    - apply re_root. auto.
    - assert (N : ds <> []) by (eapply (one_full E1 implies (s_lazy s0) D s1 X1); exact He). destruct ds as [|d ds]; [now elim N|].
      assert (Hd : has_edge (s_graph s1) a b d) by (eexists; split; [exact He|now left]).
      apply (seed_edge E1 E2 A B C HP find implies implies (s_lazy s0) (s_lazy s0) D F G (fun x => eq_refl) H s1 s2 HD X1 X2 HQ _ _ _ Z1 Z2) in Hd as (ds' & Hd & _); [|exact IH].
      eapply re_edge; [exact IH|exact Hd]. }
  intros x Hx. pose proof (K x Hx) as Hx2. split; [exact Hx2|]. split.
  - pose proof (one_reaches E1 implies _ D s1 X1 x Hx) as I1. pose proof (one_reaches E2 implies _ F s2 X2 x Hx2) as I2.
    destruct (gfind (s_graph s1) x) as [n|] eqn:En1; [|now elim I1]. destruct (gfind (s_graph s2) x) as [n'|] eqn:En2; [|now elim I2].
    exists n, n'. split; [reflexivity|]. split; [reflexivity|].
    exact (seed_alike E1 E2 A B C HP find implies implies (s_lazy s0) (s_lazy s0) D F G (fun x => eq_refl) H s1 s2 HD X1 X2 HQ x n n' En1 En2).
  - intros y d Hy.
    exact (seed_edge E1 E2 A B C HP find implies implies (s_lazy s0) (s_lazy s0) D F G (fun x => eq_refl) H s1 s2 HD X1 X2 HQ _ _ _ Z1 Z2 Hy Hx2).
Qed.

(** ** Examples *)

Definition backwards (E : env) : env := reseed E (@rev _) (@rev _).
Lemma backwards_ok w scripts files : reseeded (world w scripts files) (backwards (world w scripts files))
  /\ set_order (e_names_order (backwards (world w scripts files))) /\ order_ok (backwards (world w scripts files)).
Proof.
  split; [reflexivity|]. split; [intros l; symmetry; apply Permutation_rev|]. intros l x. symmetry. apply in_rev.
Qed.
(** "from . import a as b, b" in package pkg: when a is handled first, b is taken for it. *)
Definition twice_modules : list (string * entry) :=
  [("pkg", EText true "from . import a as b, b" [AImportFrom None [("a", Some "b"); ("b", None)] 1] [] ["b"]);
   ("pkg.a", ESource false [] []); ("pkg.b", ESource false [] [])].
Definition twice_world : env := world twice_modules [] [].
Definition twice_1 : st := Eval vm_compute in snd (the_calls twice_world [AAddModule "pkg"] new).
Definition twice_2 : st := Eval vm_compute in snd (the_calls (backwards twice_world) [AAddModule "pkg"] new).
Lemma twice_seeds : seeds twice_world (backwards twice_world) (found_in twice_modules) (fun _ => False) [] new [AAddModule "pkg"] twice_1 twice_2.
Proof.
  destruct (backwards_ok twice_modules [] []) as (A & B & C). constructor.
  - exact A.
  - intros l. apply Permutation_refl.
  - exact B.
  - apply world_order.
  - exact C.
  - now apply world_steady.
  - intros x i H. apply assoc_In in H. destruct H as [H|[]]. now injection H as <- <-.
  - apply op_init.
  - apply op_init.
  - repeat constructor.
  - intros d d' [].
  - intros t t' name. reflexivity.
  - intros d [].
  - intros d [].
  - exists 60. eexists. split; [vm_compute; reflexivity|]. repeat constructor.
  - exists 60. eexists. split; [vm_compute; reflexivity|]. repeat constructor.
Qed.
(** With the other order pkg.b is in the graph. *)
Theorem C86_refuted : ~ C86_statement.
Proof.
  intros H. destruct (H _ _ _ _ _ _ _ _ _ (seeds_sym _ _ _ _ _ _ _ _ _ twice_seeds) (tidy_bool twice_2 eq_refl) (tidy_bool twice_1 eq_refl)) with (x := "pkg.b") as (K & _).
  - apply same_scripts_b. reflexivity.
  - eapply re_edge; [apply re_root; vm_compute; left; reflexivity|vm_compute; right; right; left; reflexivity].
  - apply (closed_reaches _ ["pkg"; "pkg.a"]) in K; [|reflexivity]. destruct K as [K|[K|[]]]; discriminate.
Qed.
(** "from pkg import a as b, a as c": one of the as-names is lost. *)
Definition both_world : env := world [("pkg", ENamespace); ("pkg.a", ESource false [] [])]
  [("main.py", [AImportFrom (Some "pkg") [("a", Some "b"); ("a", Some "c")] 0])] [].
Example C86_as_names :
  let edges E := filter (fun e => seqb (fst (fst e)) "main.py" && seqb (snd (fst e)) "pkg.a") (g_edges (s_graph (snd (the_calls E [AAddScript "main.py"] new)))) in
  edges both_world = [("main.py", "pkg.a", [Dep false true true (Some "b")])]
  /\ edges (backwards both_world) = [("main.py", "pkg.a", [Dep false true true (Some "c")])].
Proof. vm_compute. auto. Qed.

Fixpoint plain_names (l : list (string * option string)) : bool :=
  match l with [] => true | (x, a) :: r => forallb (fun p => negb (seqb (fst p) x) || pair_eqb p (x, a)) r && plain_names r end.
Lemma plain_names_ok l : plain_names l = true -> forall x a b, In (x, a) l -> In (x, b) l -> a = b.
Proof.
  induction l as [|[y c] r IH]; cbn; intros H x a b A B; [destruct A|]. apply andb_true_iff in H as [H1 H2]. rewrite forallb_forall in H1.
  assert (K : forall a, In (x, a) r -> x = y -> a = c).
  { intros u Hu Hx. apply H1 in Hu. cbn [fst] in Hu. rewrite (proj2 (seqb_eq _ _) Hx) in Hu. cbn [negb orb] in Hu. apply pair_eqb_eq in Hu. congruence. }
  destruct A as [A|A], B as [B|B].
  - congruence.
  - injection A as -> ->. symmetry. now apply K.
  - injection B as -> ->. now apply K.
  - now apply (IH H2 x).
Qed.
Definition plain_tree (t : ast) : bool := forallb (fun p => match snd p with WFrom _ names _ => plain_names names | _ => true end) (sites [] t).
Lemma plain_tree_ok t : plain_tree t = true -> plain_lists t.
Proof. intros H p m names level K. unfold plain_tree in H. rewrite forallb_forall in H. apply H in K. now apply plain_names_ok. Qed.
Definition plain_entry (e : entry) : bool := match e with ESource _ l _ | EText _ _ l _ _ => plain_tree (AOther l) | _ => true end.
Lemma world_plain w scripts files : forallb (fun p => plain_entry (snd p)) w = true -> forallb (fun p => plain_tree (AOther (snd p))) scripts = true ->
  plain_sources (world w scripts files).
Proof.
  intros Hw Hs. rewrite forallb_forall in Hs.
  assert (K : forall x l, assoc x scripts = Some l -> plain_lists (AOther l)).
  { intros x l A. apply assoc_In in A. apply plain_tree_ok. exact (Hs _ A). }
  assert (W : forall x l, text_of w x = Some l -> plain_lists (AOther l)).
  { intros x l. induction w as [|[y e] r IH]; cbn; [discriminate|]. cbn in Hw. apply andb_true_iff in Hw as [H1 H2].
    destruct e; try (destruct (seqb _ x)); intros A; try (now apply IH); injection A as <-; now apply plain_tree_ok. }
  split; cbn.
  - intros _ _ text tree. destruct (text_of w text) as [l|] eqn:Et; [intros A; injection A as <-; now apply (W text)|].
    destruct (assoc text scripts) as [l|] eqn:Es; [intros A; injection A as <-; now apply (K text)|discriminate].
  - intros _ f tree. destruct (assoc f scripts) as [l|] eqn:Es; [intros A; injection A as <-; now apply (K f)|discriminate].
Qed.

(** Two scripts, with from lists of three names, in both orders. *)
Definition turned_world : env := backwards pair_world.
Definition turned_2 : st := Eval vm_compute in snd (the_calls turned_world [AAddScript "main.py"; AAddScript "tool.py"] pair_open).
Lemma turned_open : opening turned_world pair_implies pair_open.
Proof. eapply (op_exclude _ _ (init pair_implies [] []) 60 ["skipped"]); [apply op_init|vm_compute; reflexivity|discriminate]. Qed.
Lemma turned_seeds : seeds pair_world turned_world (found_in pair_modules) (fun _ => False) pair_implies pair_open [AAddScript "main.py"; AAddScript "tool.py"] pair_1 turned_2.
Proof.
  destruct (backwards_ok pair_modules [("main.py", [World.from "q" ["name"; "sub"; "nowhere"] 0; World.imp "old"]);
   ("tool.py", [World.from "q.sub" ["run"] 0; World.from "json" ["tool"] 0; World.imp "none.such"])] []) as (A & B & C). constructor.
  - exact A.
  - intros l. apply Permutation_refl.
  - exact B.
  - apply world_order.
  - exact C.
  - exact pair_steady.
  - intros x i H. apply assoc_In in H. vm_compute in H. repeat (destruct H as [H|H]; [injection H as <- <-; reflexivity|]). destruct H.
  - eapply (op_exclude _ _ (init pair_implies [] []) 60 ["skipped"]); [apply op_init|vm_compute; reflexivity|discriminate].
  - exact turned_open.
  - repeat constructor.
  - intros d d' [].
  - intros t t' name. reflexivity.
  - intros d [].
  - intros d [].
  - exists 60. eexists. split; [vm_compute; reflexivity|]. repeat constructor.
  - exists 60. eexists. split; [vm_compute; reflexivity|]. repeat constructor.
Qed.
Lemma turned_binds m x : In (m, x) [("q", "name"); ("q", "helper")] -> binds turned_world (found_in pair_modules) m x.
Proof.
  intros H. apply pair_binds in H. destruct turned_seeds as [A B C D F G _ _ _ _ _ _ _ _ _ _].
  eapply (binds_restated pair_world turned_world A B C); [now apply world_plain|exact G|exact H].
Qed.
Example C86_nonvacuous :
  seeds pair_world turned_world (found_in pair_modules) (fun _ => False) pair_implies pair_open [AAddScript "main.py"; AAddScript "tool.py"] pair_1 turned_2
  /\ plain_sources pair_world /\ same_scripts pair_1 turned_2
  /\ settled pair_world (found_in pair_modules) pair_1 /\ settled turned_world (found_in pair_modules) turned_2
  /\ map n_name (g_nodes (s_graph pair_1)) <> map n_name (g_nodes (s_graph turned_2))
  /\ In ("main.py", "q.nowhere") (edge_pairs turned_2).
Proof.
  split; [exact turned_seeds|]. split; [now apply world_plain|]. split; [apply same_scripts_b; reflexivity|].
  destruct (seeds_sessions _ _ _ _ _ _ _ _ _ turned_seeds) as [X1 X2].
  split; [eapply (settled_bool _ _ _ _ _ _ pair_reached [("q", "name"); ("q", "helper")]); [apply world_order|exact X1|vm_compute; reflexivity|exact pair_binds]|].
  split; [eapply (settled_bool _ _ _ _ _ _ pair_reached [("q", "name"); ("q", "helper")]); [apply (sd_order2 _ _ _ _ _ _ _ _ _ turned_seeds)|exact X2|vm_compute; reflexivity|exact turned_binds]|].
  split; [discriminate|]. vm_compute. tauto.
Qed.

(** The same with a distribution. *)
Definition turned_calls : list action := [AAddScript "main.py"; AAddDist pair_dist; AAddScript "tool.py"].
Definition turned_3 : st := Eval vm_compute in snd (the_calls turned_world turned_calls pair_open).
Example C86_distribution_nonvacuous :
  seeds pair_world turned_world (found_in pair_modules) (eq pair_dist) pair_implies pair_open turned_calls pair_3 turned_3
  /\ plain_sources pair_world /\ same_scripts pair_3 turned_3
  /\ settled pair_world (found_in pair_modules) pair_3 /\ settled turned_world (found_in pair_modules) turned_3
  /\ map n_name (g_nodes (s_graph pair_3)) <> map n_name (g_nodes (s_graph turned_3))
  /\ In ("/lib/thing-1.dist-info", "gone") (edge_pairs turned_3).
Proof.
  assert (T : seeds pair_world turned_world (found_in pair_modules) (eq pair_dist) pair_implies pair_open turned_calls pair_3 turned_3).
  { destruct turned_seeds as [A B C D F G H I J _ _ _ _ _ _ _]. constructor; auto.
    - repeat (apply Forall_cons; [cbn; auto|]); apply Forall_nil.
    - intros d d' <- <-. reflexivity.
    - intros t t' name. reflexivity.
    - intros d <- _. reflexivity.
    - intros d <- _. reflexivity.
    - exists 60. eexists. split; [vm_compute; reflexivity|]. repeat constructor.
    - exists 60. eexists. split; [vm_compute; reflexivity|]. repeat constructor. }
  split; [exact T|]. split; [now apply world_plain|]. split; [apply same_scripts_b; reflexivity|].
  destruct (seeds_sessions _ _ _ _ _ _ _ _ _ T) as [X1 X2].
  split; [eapply (settled_bool _ _ _ _ _ _ pair_dreached [("q", "name"); ("q", "helper")]); [apply world_order|exact X1|vm_compute; reflexivity|exact pair_binds]|].
  split; [eapply (settled_bool _ _ _ _ _ _ pair_dreached [("q", "name"); ("q", "helper")]); [apply (sd_order2 _ _ _ _ _ _ _ _ _ T)|exact X2|vm_compute; reflexivity|exact turned_binds]|].
  split; [discriminate|]. vm_compute. tauto.
Qed.

Print Assumptions C86_refuted.
Print Assumptions C86_roots_partial.
Print Assumptions C86_nodes_partial.
Print Assumptions C86_partial.
