(** C84: excluding modules takes away these modules and what only they lead to. *)
From Verif Require Import ReportSpec BuilderSource BuilderHist BuilderInv BuilderCalls World PropsBuilder PropsSource PropsReach PropsSame ExcludeSpec BuilderSame.
Open Scope string_scope.

(** ** Nodes for the same name *)

Lemma conf_excluded i : conf_kind i = Some ExcludedModule -> i = ImpNone.
Proof. now destruct i. Qed.

Section two.
  Variable E : env.
  Variable find : string -> option spec.
  Variables conf1 conf2 : list (string * implied).
  Hypothesis HS : steady E find.
  Hypothesis HT : more_excluded conf1 conf2.
  Context {DS : dist -> Prop}.
  Hypothesis HD : one_each DS.
  Variables s1 s2 : st.
  Hypothesis J1 : J E find conf1 DS s1.
  Hypothesis J2 : J E find conf2 DS s2.
  Hypothesis HQ : same_scripts s1 s2.

  Lemma births_differ x : forall a b n n' l l', gfind (s_graph s1) x = Some a -> gfind (s_graph s2) x = Some b ->
    birth E find conf1 DS s1 x n l -> same_node n a -> birth E find conf2 DS s2 x n' l' -> same_node n' b -> n_kind n = ExcludedModule \/ (n = n' /\ l = l').
  Proof.
    induction x as [x IH] using (induction_ltof1 _ String.length). unfold ltof in IH.
    intros a b n n' l l' Ha Hb B1 S1 B2 S2.
    assert (KA : kind_of s1 x = Some (n_kind n)) by (unfold kind_of; rewrite Ha; cbn; destruct S1 as (_ & -> & _); reflexivity).
    assert (KB : kind_of s2 x = Some (n_kind n')) by (unfold kind_of; rewrite Hb; cbn; destruct S2 as (_ & -> & _); reflexivity).
    assert (IK : forall c k k', starts_with "." x = false -> child_of c x -> kind_of s1 c = Some k -> kind_of s2 c = Some k' -> k = ExcludedModule \/ k = k').
    { intros c k k' H0 Hc K K'. unfold kind_of in K, K'. destruct (gfind (s_graph s1) c) as [u|] eqn:Eu; [|discriminate].
      destruct (gfind (s_graph s2) c) as [v|] eqn:Ev; [|discriminate]. injection K as <-. injection K' as <-.
      destruct (j_nodes _ _ _ _ _ J1 _ _ Eu) as (n1 & l1 & _ & P1 & Q1). destruct (j_nodes _ _ _ _ _ J2 _ _ Ev) as (n2 & l2 & _ & P2 & Q2).
      destruct (IH c (child_shorter _ _ H0 Hc) _ _ _ _ _ _ Eu Ev P1 Q1 P2 Q2) as [X|[-> _]].
      - left. destruct Q1 as (_ & -> & _). exact X.
      - right. destruct Q1 as (_ & -> & _), Q2 as (_ & -> & _). reflexivity. }
    destruct (script_or (n_kind n)) as [Es|Es].
    - right. assert (Es' : n_kind n' = Script).
      { destruct (HQ x) as [[X _] _]; [unfold in_graph; congruence..|]. rewrite Es in KA. apply X in KA. congruence. }
      destruct (birth_kind E find HS _ _ _ _ _ _ B1 Es) as (t & tr & A1 & A2 & ->). destruct (birth_kind E find HS _ _ _ _ _ _ B2 Es') as (t' & tr' & A1' & A2' & ->).
      rewrite (sy_script _ _ HS t' t x) in A1'. split; congruence.
    - assert (Es' : n_kind n' <> Script).
      { intros K. destruct (HQ x) as [[_ X] _]; [unfold in_graph; congruence..|]. rewrite K in KB. apply X in KB. congruence. }
      destruct (dist_or (n_kind n)) as [Ed|Ed].
      { right. assert (Ed' : n_kind n' = Distribution).
        { destruct (HQ x) as [_ [X _]]; [unfold in_graph; congruence..|]. rewrite Ed in KA. apply X in KA. congruence. }
        destruct (birth_dist E find HS _ _ _ _ _ _ B1 Ed) as (d & A1 & A2 & -> & ->). destruct (birth_dist E find HS _ _ _ _ _ _ B2 Ed') as (d' & A1' & A2' & -> & ->).
        rewrite (HD d d'); [now split|exact A1|exact A1'|congruence]. }
      assert (Ed' : n_kind n' <> Distribution).
      { intros K. destruct (HQ x) as [_ [_ X]]; [unfold in_graph; congruence..|]. rewrite K in KB. apply X in KB. congruence. }
      assert (AB : forall c k, above s1 x -> starts_with "." x = false -> child_of c x -> kind_of s2 c = Some k -> is_missing k || is_excluded k = true -> False).
      { intros c k [_ Q] H0 Hc K1 K2. destruct (Q c Hc) as (k' & K3 & K4 & K5). destruct (IK c k' k H0 Hc K3 K1) as [-> | <-]; [discriminate|]. rewrite K4, K5 in K2. discriminate. }
      assert (BA : forall c k, above s2 x -> starts_with "." x = false -> child_of c x -> kind_of s1 c = Some k -> is_missing k || is_excluded k = true -> k = ExcludedModule).
      { intros c k [_ Q] H0 Hc K1 K2. destruct (Q c Hc) as (k' & K3 & K4 & K5). destruct (IK c k k' H0 Hc K1 K3) as [-> | ->]; [reflexivity|]. rewrite K4, K5 in K2. discriminate. }
      destruct B1 as [t tree l A B|d0 A B|A|c k A B C D|i k A B C|A B C|sp n l k t1 t2 A B C D]; [now elim Es|now elim Ed|..].
      + (* dots *) destruct B2 as [t' tree' l' A' B'|d0' A' B'|A'|c' k' A' B' C' D'|i' k' A' B' C'|A' B' C'|sp' n' l' k' t1' t2' A' B' C' D']; try (now elim Es'); try (now elim Ed'); [right; now split|..];
          try (match goal with H : above _ _ |- _ => destruct H as [H _] end); congruence.
      + (* below *) destruct B2 as [t' tree' l' A' B'|d0' A' B'|A'|c' k' A' B' C' D'|i' k' A' B' C'|A' B' C'|sp' n' l' k' t1' t2' A' B' C' D']; try (now elim Es'); try (now elim Ed').
        * congruence.
        * assert (c' = c) by (eapply child_one; eassumption). subst c'. destruct (IK c k k' A B C C') as [-> | ->]; [now left|right; now split].
        * left. cbn. eauto.
        * left. cbn. eauto.
        * left. cbn. eauto.
      + (* configured *) destruct (HT x) as [HT'|HT']; [|left; rewrite HT' in B; injection B as <-; now injection C as <-]. pose proof A as [A0 _].
        destruct B2 as [t' tree' l' A' B'|d0' A' B'|A'|c' k' A' B' C' D'|i' k' A' B' C'|A' B' C'|sp' n' l' k' t1' t2' A' B' C' D']; try (now elim Es'); try (now elim Ed').
        * congruence.
        * exfalso. eauto.
        * right. assert (i' = i) by congruence. subst i'. assert (k' = k) by congruence. subst k'. now split.
        * exfalso. rewrite HT' in B. destruct (B' i B) as [K _]. congruence.
        * exfalso. rewrite HT' in B. destruct (B' i B) as [K _]. congruence.
      + (* missing *) assert (HT' : assoc x conf1 = assoc x conf2) by (destruct (HT x) as [X|X]; [exact X|destruct (B _ X) as [K _]; discriminate]). pose proof A as [A0 _]. right.
        destruct B2 as [t' tree' l' A' B'|d0' A' B'|A'|c' k' A' B' C' D'|i' k' A' B' C'|A' B' C'|sp' n' l' k' t1' t2' A' B' C' D']; try (now elim Es'); try (now elim Ed').
        * congruence.
        * exfalso. eauto.
        * exfalso. rewrite <- HT' in B'. destruct (B i' B') as [K _]. congruence.
        * now split.
        * congruence.
      + (* found *) assert (HT' : assoc x conf1 = assoc x conf2) by (destruct (HT x) as [X|X]; [exact X|destruct (B _ X) as [K _]; discriminate]). pose proof A as [A0 _]. right.
        destruct B2 as [t' tree' l' A' B'|d0' A' B'|A'|c' k' A' B' C' D'|i' k' A' B' C'|A' B' C'|sp' n' l' k' t1' t2' A' B' C' D']; try (now elim Es'); try (now elim Ed').
        * congruence.
        * exfalso. eauto.
        * exfalso. rewrite <- HT' in B'. destruct (B i' B') as [K _]. congruence.
        * congruence.
        * rewrite C in C'. injection C' as <-.
          pose proof (nfs_same E find HS _ _ _ _ _ _ _ _ _ (sy_direct _ _ HS _ _ C) D D') as K. now injection K.
  Qed.

  (** [x] is not excluded in the first graph only. *)
  Definition both (x : string) : Prop := kind_of s1 x = Some ExcludedModule -> kind_of s2 x = Some ExcludedModule.
  Lemma birth_excluded conf s x n l : birth E find conf DS s x n l -> n_kind n = ExcludedModule -> n = plain_node ExcludedModule x /\ l = [].
  Proof.
    intros [t tree l0 A B|d0 A B|A|c k A B C D|i k A B C|A B C|sp n0 l0 k t1 t2 A B C D] Hk; cbn [plain_node n_kind] in Hk; try discriminate Hk; try (subst k; now split).
    apply (nfs_kind E) in D as [_ D]; [|eapply sy_direct; eassumption]. rewrite Hk in D. destruct D.
  Qed.
  Lemma births_both x a b n n' l l' : both x -> gfind (s_graph s1) x = Some a -> gfind (s_graph s2) x = Some b ->
    birth E find conf1 DS s1 x n l -> same_node n a -> birth E find conf2 DS s2 x n' l' -> same_node n' b -> n = n' /\ l = l'.
  Proof.
    intros Hx Ha Hb B1 S1 B2 S2. destruct (births_differ x a b n n' l l' Ha Hb B1 S1 B2 S2) as [K|K]; [|exact K].
    assert (K' : n_kind n' = ExcludedModule).
    { assert (X : kind_of s2 x = Some ExcludedModule) by (apply Hx; unfold kind_of; rewrite Ha; cbn; destruct S1 as (_ & -> & _); now f_equal).
      unfold kind_of in X. rewrite Hb in X. cbn in X. injection X as X. destruct S2 as (_ & S2 & _). congruence. }
    destruct (birth_excluded _ _ _ _ _ B1 K) as [-> ->]. destruct (birth_excluded _ _ _ _ _ B2 K') as [-> ->]. now split.
  Qed.
End two.

(** ** Edges of nodes that are the same in both *)

Section edges.
  Variable E : env.
  Variable find : string -> option spec.
  Variables impliesA impliesB confA confB : list (string * implied).
  Hypothesis HE : order_ok E.
  Hypothesis HS : steady E find.
  Hypothesis HA : forall x i, assoc x confA = Some i -> starts_with "." x = false.
  Hypothesis HB : forall x i, assoc x confB = Some i -> starts_with "." x = false.
  Variables sA sB : st.
  Context {DS : dist -> Prop}.
  Hypothesis XA : dsession E DS impliesA confA sA.
  Hypothesis XB : dsession E DS impliesB confB sB.
  Hypothesis HQ : same_scripts sA sB.
  Variable ok : string -> Prop.
  Hypothesis agree : forall x a b n n' l l', ok x -> gfind (s_graph sA) x = Some a -> gfind (s_graph sB) x = Some b ->
    birth E find confA DS sA x n l -> same_node n a -> birth E find confB DS sB x n' l' -> same_node n' b -> n = n' /\ l = l'.
  (** References that the second one may lack. *)
  Variable extra : string -> string -> Prop.
  Hypothesis refs_too : forall x refs b, ok x -> plainly sA x -> plainly sB x -> refs_of confA sA x refs -> In b refs ->
    has_edge (s_graph sB) x b (Dep false true false None) \/ extra x b.

  Let WA : JW E find confA DS sA := one_JW E find impliesA confA HE HS HA sA XA.
  Let WB : JW E find confB DS sB := one_JW E find impliesB confB HE HS HB sB XB.

  Lemma ok_alike x a b : ok x -> gfind (s_graph sA) x = Some a -> gfind (s_graph sB) x = Some b -> alike a b.
  Proof.
    intros Hx Ha Hb. destruct (j_nodes _ _ _ _ _ (w_inv _ _ _ _ _ WA) _ _ Ha) as (n1 & l1 & _ & P1 & Q1).
    destruct (j_nodes _ _ _ _ _ (w_inv _ _ _ _ _ WB) _ _ Hb) as (n2 & l2 & _ & P2 & Q2).
    destruct (agree x _ _ _ _ _ _ Hx Ha Hb P1 Q1 P2 Q2) as [<- _].
    destruct Q1 as (A1 & A2 & A3 & A4 & A5 & A6 & A7 & _), Q2 as (B1 & B2 & B3 & B4 & B5 & B6 & B7 & _).
    unfold alike. repeat split; congruence.
  Qed.
  Lemma ok_stmts x l : ok x -> In (EvAdd x l) (s_log sA) -> in_graph sB x -> In (EvAdd x l) (s_log sB).
  Proof.
    intros Hx A B. destruct (j_added _ _ _ _ _ (w_inv _ _ _ _ _ WA) _ _ A) as (a & n1 & Ha & P1 & Q1 & NK).
    destruct (gfind (s_graph sB) x) as [b|] eqn:Hb; [|now elim B].
    destruct (j_nodes _ _ _ _ _ (w_inv _ _ _ _ _ WB) _ _ Hb) as (n2 & l2 & K & P2 & Q2).
    destruct (agree x _ _ _ _ _ _ Hx Ha Hb P1 Q1 P2 Q2) as [-> ->].
    destruct K as [K|K]; [exact K|now elim NK].
  Qed.
  Lemma ok_kind x k : ok x -> kind_of sA x = Some k -> in_graph sB x -> kind_of sB x = Some k.
  Proof.
    unfold kind_of, in_graph. intros Hx A B. destruct (gfind (s_graph sA) x) as [a|] eqn:Ha; [|discriminate].
    destruct (gfind (s_graph sB) x) as [b|] eqn:Hb; [|now elim B]. injection A as <-. cbn. f_equal. apply (ok_alike x a b Hx Ha Hb).
  Qed.
  Lemma ok_pkg x b : ok x -> pkg_node sA x b -> in_graph sB x -> pkg_node sB x b.
  Proof. intros Hx (k & A & ->) B. exists k. split; [now apply ok_kind|reflexivity]. Qed.
  Lemma ok_aims x i m : ok x -> aims sA x i m -> in_graph sB x -> aims sB x i m.
  Proof. intros Hx (b & A & B) C. exists b. split; [now apply ok_pkg|exact B]. Qed.

  Lemma other_plain x : plainly sA x -> in_graph sB x -> plainly sB x.
  Proof. intros (A & [B B'] & C) D. split; [exact D|]. split; [|exact C]. destruct (HQ x A D) as [K1 K2]. split; intros K; [apply B, K1, K|apply B', K2, K]. Qed.
  Lemma alias_edge x t : kind_of sB x = Some (AliasNode t) \/ kind_of sB x = Some (VirtualNode t) ->
    in_graph sB x /\ has_edge (s_graph sB) x t (Dep false true false None).
  Proof.
    intros K. assert (I2 : in_graph sB x) by (apply in_kind; destruct K; eauto). split; [exact I2|].
    destruct (w_nodes _ _ _ _ _ WB x I2) as [[D|D]|[D|[D|(D & _)]]].
    - destruct K; congruence.
    - apply dist_paid_kind in D. destruct K; congruence.
    - unfold kind_of in K. destruct (gfind (s_graph sB) x) as [n|] eqn:Ex; [|destruct K; discriminate].
      destruct (placed_kind _ _ _ HS _ _ _ _ (w_inv _ _ _ _ _ WB) Ex) as [[L|[L _]]|[[L _]|[L _]]]; [| | |destruct D; congruence]; cbn in K; rewrite L in K; destruct K; discriminate.
    - now apply (pd_target _ _ _ D).
    - now apply (pd_target _ _ _ D).
  Qed.
  Lemma edge_on a b d : reaches (s_graph sB) a -> has_edge (s_graph sB) a b d -> reaches (s_graph sB) b.
  Proof. intros A (ds & B & _). eapply re_edge; eassumption. Qed.

  Lemma ok_names n l i m nd : ok n -> (forall m0, aims sA n i m0 -> m = m0 \/ kind_of sA m0 = Some (AliasNode m) -> ok m0 /\ ok m) ->
    In (EvAdd n l) (s_log sB) -> In i l -> names_of sA n i m nd -> reaches (s_graph sB) n ->
    reaches (s_graph sB) m /\ exists nd2, names_of sB n i m nd2 /\ alike nd nd2.
  Proof.
    intros Hn Ho A B (m0 & C & D & F & G & K) Hr. pose proof (one_reaches E impliesB confB HE sB XB n Hr) as I2.
    destruct (Ho m0 C D) as [O1 O2]. pose proof (ok_aims _ _ _ Hn C I2) as C2.
    destruct (one_aims E impliesB confB HE sB XB n l i m0 A B C2) as [He _]. pose proof (edge_on _ _ _ Hr He) as R0.
    pose proof (one_reaches E impliesB confB HE sB XB _ R0) as Im.
    assert (D2 : m = m0 \/ kind_of sB m0 = Some (AliasNode m)) by (destruct D as [D|D]; [now left|right; now apply ok_kind]).
    assert (Rm : reaches (s_graph sB) m).
    { destruct D2 as [->|D2]; [exact R0|]. destruct (alias_edge m0 m (or_introl D2)) as [_ L]. exact (edge_on _ _ _ R0 L). }
    split; [exact Rm|]. pose proof (one_reaches E impliesB confB HE sB XB _ Rm) as Jm.
    destruct (gfind (s_graph sB) m) as [nd2|] eqn:Em; [|now elim Jm]. exists nd2. pose proof (ok_alike m nd nd2 O2 F Em) as L.
    split; [|exact L]. exists m0. split; [exact C2|]. split; [exact D2|]. split; [exact Em|]. destruct L as (_ & -> & _). now split.
  Qed.

  (** The exception is a name of a package: only one of them has something for it. *)
  Lemma ok_edge a b d : settled E find sA -> settled E find sB -> has_edge (s_graph sA) a b d -> reaches (s_graph sB) a -> ok a ->
    (forall i m0 m nd nm, aims sA a i m0 -> m = m0 \/ kind_of sA m0 = Some (AliasNode m) -> gfind (s_graph sA) m = Some nd -> has_names (n_kind nd) = true -> b = (m ++ "." ++ nm)%string -> ok m0 /\ ok m) ->
    has_edge (s_graph sB) a b d \/ (extra a b /\ d = Dep false true false None) \/
    (~ ok b /\ exists m, child_of m b /\ reaches (s_graph sB) m).
  Proof.
    intros Z1 Z2 He Hr Ho Hon. pose proof (one_reaches E impliesB confB HE sB XB a Hr) as I2.
    destruct (one_ends E impliesA confA HE sA XA _ _ _ He) as [I1 Ib].
    destruct (j_edges _ _ _ _ _ (w_inv _ _ _ _ _ WA) _ _ _ He)
      as [i A B C|i p A B C D F|i m nd nm A B C D F L K|i m nd nm A B C D F K|x nd A B C|A B C|refs A0 A B C|A B|x i k f A B C|nd dd A B C D F].
    - left. destruct A as [_ (l & A & A')]. rewrite C. eapply (one_aims E impliesB confB HE sB XB); [exact (ok_stmts _ _ Ho A I2)|exact A'|].
      now apply ok_aims.
    - left. destruct A as [_ (l & A & A')]. rewrite D, F. eapply (one_beyond E impliesB confB HE sB XB);
        [exact (ok_stmts _ _ Ho A I2)|exact A'|eapply ok_pkg; eassumption|exact C].
    - pose proof A as [AS _]. destruct A as [_ (l & A & A')]. pose proof (ok_stmts _ _ Ho A I2) as A2.
      assert (FA : gfind (s_graph sA) m = Some nd /\ has_names (n_kind nd) = true) by (destruct B as (m0 & _ & _ & K2 & K3 & _); now split). destruct FA as [FA FN].
      assert (Ho' : forall m0, aims sA a i m0 -> m = m0 \/ kind_of sA m0 = Some (AliasNode m) -> ok m0 /\ ok m).
      { intros m0 U1 U2. eapply Hon; [exact U1|exact U2|exact FA|exact FN|exact F]. }
      destruct (ok_names _ _ _ _ _ Ho Ho' A2 A' B Hr) as (Rm & nd2 & B2 & S2). pose proof S2 as (_ & Sk & _).
      assert (F2 : gfind (s_graph sB) m = Some nd2) by (destruct B2 as (m0 & _ & _ & K2 & _); exact K2).
      assert (Own : In (in_name nm) (n_written nd2) -> (forall t, ~ provides (s_graph sB) m (in_name nm) t)
                /\ (is_package (n_kind nd2) = true -> binds E find m (in_name nm))).
      { intros K2. eapply (se_own _ _ _ Z2 a i nm m nd2);
          [eapply (one_scheduled E impliesB confB HE sB XB); eassumption|eapply names_of_source; exact B2|exact D|exact F2|exact K2]. }
      destruct (one_names E impliesB confB HE sB XB _ _ _ _ _ nm A2 A' B2 D)
        as [(y & t & K1 & K2 & K3 & _)|[(k & K1)|[(t & K1 & K2 & K3)|[(y & t & K1 & K2 & K3 & K4 & K5)|(b' & k & f & ty & x & t & K1 & _)]]]].
      + assert (y = nd2) by congruence. subst y. now elim (proj1 (Own K2) t).
      + unfold kind_of in K1. rewrite F2 in K1. injection K1 as K1. rewrite <- Sk, K1 in C. discriminate.
      + left. apply (one_resolves E impliesB confB HE sB XB) in K1. rewrite F, K, <- K1. exact K2.
      + right. right. assert (y = nd2) by congruence. subst y. apply (one_resolves E impliesB confB HE sB XB) in K4. rewrite <- F in K4. subst t. split.
        * intros Hb. rewrite Sk in K2. destruct (L K2) as (k & L1 & L2); [apply (Own K3); congruence|].
          assert (kind_of sB b = Some k) by (apply ok_kind; [exact Hb|exact L1|apply in_kind; eauto]). rewrite H in K5. injection K5 as ->. discriminate L2.
        * exists m. split; [|exact Rm]. rewrite F. destruct (se_tidy _ _ _ Z1) as [T1 T2]. apply child_plain; [eapply T2|eapply T1]; eassumption.
      + unfold kind_of in K1. rewrite F2 in K1. injection K1 as K1.
        pose proof (no_six _ _ _ HS _ _ _ _ _ _ _ _ _ (w_inv _ _ _ _ _ WB) F2 K1) as N. discriminate N.
    - exfalso. destruct A as [A _]. destruct (se_own _ _ _ Z1 a i nm m nd A) as [K1 _].
      + eapply names_of_source; exact B.
      + exact C.
      + destruct B as (m0 & _ & _ & B & _). exact B.
      + exact D.
      + now elim (K1 b).
    - left. subst d. destruct (se_tidy _ _ _ Z1) as [T1 T2]. pose proof (se_script _ _ _ Z1 _ _ _ A) as Sc. rewrite <- B in Sc.
      pose proof A as (n & i & nm & L1 & L2 & L3 & L4 & L5). subst x.
      assert (Hc : child_of b a) by (rewrite B; apply child_plain; [eapply T2|eapply T1]; eassumption).
      assert (Hd : starts_with "." a = false).
      { rewrite <- (child_dots b a Hc). destruct (placed_kind _ _ _ HS _ _ _ _ (w_inv _ _ _ _ _ WA) L4) as [[L|[L _]]|[[L _]|[L _]]]; [| | |exact L];
          rewrite L in L5; discriminate. }
      assert (Hp : plainly sA a) by (split; [exact I1|now split]). destruct (other_plain a Hp I2) as (_ & P1 & P2).
      apply (one_node E find impliesB confB HE HS HB sB XB a I2 P1 P2); assumption.
    - left. subst d. destruct (other_plain a B I2) as (_ & P1 & P2). apply (one_node E find impliesB confB HE HS HB sB XB a I2 P1 P2); assumption.
    - subst d. pose proof (other_plain a A0 I2) as P. destruct (refs_too a refs b Ho A0 P A B) as [K|K]; auto.
    - left. subst d. apply alias_edge. destruct A as [A|A]; [left|right]; now apply ok_kind.
    - left. subst d. pose proof (ok_kind _ _ Ho A I2) as A2.
      destruct (w_nodes _ _ _ _ _ WB a I2) as [[D|D]|[D|[D|(D & _)]]].
      + congruence.
      + apply dist_paid_kind in D. congruence.
      + unfold kind_of in A2. destruct (gfind (s_graph sB) a) as [n|] eqn:Ex; [|discriminate]. injection A2 as A2.
        destruct (placed_kind _ _ _ HS _ _ _ _ (w_inv _ _ _ _ _ WB) Ex) as [[L|[L _]]|[[L _]|[L _]]]; destruct D; congruence.
      + eapply (pd_nspkg _ _ _ D); eassumption.
      + eapply (pd_nspkg _ _ _ D); eassumption.
    - left. subst d. destruct (gfind (s_graph sB) a) as [nd2|] eqn:Ex; [|now elim I2].
      pose proof (ok_alike a nd nd2 Ho A Ex) as (_ & S2 & _ & S4 & _).
      destruct (w_nodes _ _ _ _ _ WB a) as [[K|K]|[K|[K|(K & _)]]]; [unfold in_graph; congruence|..].
      + unfold kind_of in K. rewrite Ex in K. cbn in K. congruence.
      + destruct K as (nd' & d' & K1 & K2 & K3 & K4). assert (nd' = nd2) by congruence. subst nd'. apply K4. congruence.
      + elim (proj2 K). unfold kind_of. rewrite Ex. cbn. congruence.
      + elim (proj2 (proj1 (pd_plain _ _ _ K))). unfold kind_of. rewrite Ex. cbn. congruence.
      + elim (proj2 (proj1 (pd_plain _ _ _ K))). unfold kind_of. rewrite Ex. cbn. congruence.
  Qed.
End edges.

(** ** Both directions *)

(** Two builders in the same environment, where the first excludes more. *)
Record excluding (E : env) (find : string -> option spec) (DS : dist -> Prop) (conf1 conf2 : list (string * implied)) (s1 s2 : st) : Prop := {
  ex_order : order_ok E;
  ex_env : steady E find;
  ex_table : more_excluded conf1 conf2;
  ex_names : forall x i, assoc x conf1 = Some i \/ assoc x conf2 = Some i -> starts_with "." x = false;
  ex_dists : one_each DS;
  ex_first : exists implies, dsession E DS implies conf1 s1;
  ex_second : exists implies, dsession E DS implies conf2 s2;
  ex_scripts : same_scripts s1 s2
}.

Section directions.
  Variable E : env.
  Variable find : string -> option spec.
  Variables implies1 implies2 conf1 conf2 : list (string * implied).
  Hypothesis HE : order_ok E.
  Hypothesis HS : steady E find.
  Hypothesis HT : more_excluded conf1 conf2.
  Hypothesis HN : forall x i, assoc x conf1 = Some i \/ assoc x conf2 = Some i -> starts_with "." x = false.
  Variables s1 s2 : st.
  Context {DS : dist -> Prop}.
  Hypothesis HD : one_each DS.
  Hypothesis X1 : dsession E DS implies1 conf1 s1.
  Hypothesis X2 : dsession E DS implies2 conf2 s2.
  Hypothesis HQ : same_scripts s1 s2.

  Lemma HN1 x i : assoc x conf1 = Some i -> starts_with "." x = false. Proof. intros H. eapply HN. now left; exact H. Qed.
  Lemma HN2 x i : assoc x conf2 = Some i -> starts_with "." x = false. Proof. intros H. eapply HN. now right; exact H. Qed.
  Let W1 : JW E find conf1 DS s1 := one_JW E find implies1 conf1 HE HS HN1 s1 X1.
  Let W2 : JW E find conf2 DS s2 := one_JW E find implies2 conf2 HE HS HN2 s2 X2.
  Let J1 : J E find conf1 DS s1 := w_inv _ _ _ _ _ W1.
  Let J2 : J E find conf2 DS s2 := w_inv _ _ _ _ _ W2.

  Lemma born1 x k : kind_of s1 x = Some k -> exists n l, birth E find conf1 DS s1 x n l /\ n_kind n = k.
  Proof.
    unfold kind_of. destruct (gfind (s_graph s1) x) as [a|] eqn:Ea; [|discriminate]. intros K. injection K as <-.
    destruct (j_nodes _ _ _ _ _ J1 _ _ Ea) as (n & l & _ & A & (_ & B & _)). now exists n, l.
  Qed.
  Lemma born2 x k : kind_of s2 x = Some k -> exists n l, birth E find conf2 DS s2 x n l /\ n_kind n = k.
  Proof.
    unfold kind_of. destruct (gfind (s_graph s2) x) as [a|] eqn:Ea; [|discriminate]. intros K. injection K as <-.
    destruct (j_nodes _ _ _ _ _ J2 _ _ Ea) as (n & l & _ & A & (_ & B & _)). now exists n, l.
  Qed.
  Lemma kinds_differ x k k' : kind_of s1 x = Some k -> kind_of s2 x = Some k' -> k = ExcludedModule \/ k = k'.
  Proof.
    unfold kind_of. destruct (gfind (s_graph s1) x) as [a|] eqn:Ea; [|discriminate]. destruct (gfind (s_graph s2) x) as [b|] eqn:Eb; [|discriminate].
    intros K K'. injection K as <-. injection K' as <-.
    destruct (j_nodes _ _ _ _ _ J1 _ _ Ea) as (n1 & l1 & _ & P1 & Q1). destruct (j_nodes _ _ _ _ _ J2 _ _ Eb) as (n2 & l2 & _ & P2 & Q2).
    destruct (births_differ E find conf1 conf2 HS HT HD s1 s2 J1 J2 HQ x _ _ _ _ _ _ Ea Eb P1 Q1 P2 Q2) as [X|[-> _]].
    - left. destruct Q1 as (_ & -> & _). exact X.
    - right. destruct Q1 as (_ & -> & _), Q2 as (_ & -> & _). reflexivity.
  Qed.
  Lemma spec_excluded sp x n l k t1 t2 : find x = Some sp -> f_nfs (exec E k) sp t1 = Some (ROk (n, l), t2) -> n_kind n <> ExcludedModule /\ (forall t, n_kind n <> AliasNode t).
  Proof.
    intros A B. apply (nfs_kind E) in B as [_ D]; [|eapply sy_direct; eassumption]. split; [|intros t]; intros K; rewrite K in D; destruct D.
  Qed.
  (** Names with references are not excluded. *)
  Lemma refs_not_excluded conf s x refs n l : birth E find conf DS s x n l -> above s x -> assoc x conf = Some (ImpRefs refs) -> n_kind n <> ExcludedModule.
  Proof.
    intros B [A0 A] C. destruct B as [t tree l Q1 Q2|d0 Q1 Q2|Q1|c k Q1 Q2 Q3 Q4|i k Q1 Q2 Q3|Q1 Q2 Q3|sp n0 l k t1 t2 Q1 Q2 Q3 Q4]; cbn [plain_node n_kind]; try discriminate.
    - destruct (A c Q2) as (k' & L1 & L2 & L3). assert (k' = k) by congruence. subst k'. rewrite L2, L3 in Q4. discriminate.
    - rewrite C in Q2. injection Q2 as <-. discriminate.
    - eapply spec_excluded; eassumption.
  Qed.

  Lemma refs_12 x refs : both s1 s2 x -> plainly s1 x -> plainly s2 x -> refs_of conf1 s1 x refs -> In (EvImplied x (ImpRefs refs)) (s_log s2).
  Proof.
    intros _ _ (I2 & P1 & P2) (_ & A2 & A3). apply in_kind in I2 as (k2 & K2). destruct (born2 x k2 K2) as (n0 & l & P & Pk).
    assert (C3 : assoc x conf2 = Some (ImpRefs refs)) by (destruct (HT x) as [H|H]; congruence).
    destruct P as [t tree l Q1 Q2|d0 Q1 Q2|Q1|c k Q1 Q2 Q3 Q4|i k Q1 Q2 Q3|Q1 Q2 Q3|sp n0 l k t1 t2 Q1 Q2 Q3 Q4].
    - elim (proj1 P1). cbn in Pk. congruence.
    - elim (proj2 P1). cbn in Pk. congruence.
    - congruence.
    - exfalso. destruct (proj2 A2 c Q2) as (k' & L1 & L2 & L3). destruct (kinds_differ c k' k L1 Q3) as [-> | ->]; [discriminate|]. rewrite L2, L3 in Q4. discriminate.
    - rewrite C3 in Q2. injection Q2 as <-. discriminate.
    - apply (Q2 _ C3).
    - apply (Q2 _ C3).
  Qed.
  Lemma refs_21 x refs : both s1 s2 x -> plainly s2 x -> plainly s1 x -> refs_of conf2 s2 x refs -> In (EvImplied x (ImpRefs refs)) (s_log s1).
  Proof.
    intros Hb (I2 & _) (I1 & P1 & P2) (_ & A2 & A3). apply in_kind in I1 as (k1 & K1). destruct (born1 x k1 K1) as (n0 & l & P & Pk).
    apply in_kind in I2 as (k2 & K2). destruct (born2 x k2 K2) as (n2 & l2 & R & Rk).
    assert (NE : k1 <> ExcludedModule).
    { intros ->. apply Hb in K1. assert (k2 = ExcludedModule) by congruence. eapply refs_not_excluded; [exact R|exact A2|exact A3|]. congruence. }
    assert (C3 : assoc x conf1 = Some (ImpRefs refs) \/ assoc x conf1 = Some ImpNone) by (destruct (HT x) as [H|H]; [left; congruence|now right]).
    destruct P as [t tree l Q1 Q2|d0 Q1 Q2|Q1|c k Q1 Q2 Q3 Q4|i k Q1 Q2 Q3|Q1 Q2 Q3|sp n0 l k t1 t2 Q1 Q2 Q3 Q4].
    - elim (proj1 P1). cbn in Pk. congruence.
    - elim (proj2 P1). cbn in Pk. congruence.
    - congruence.
    - exfalso. destruct (proj2 A2 c Q2) as (k' & L1 & L2 & L3). destruct (kinds_differ c k k' Q3 L1) as [-> | ->]; [now elim NE|]. rewrite L2, L3 in Q4. discriminate.
    - destruct C3 as [C3|C3]; rewrite C3 in Q2; injection Q2 as <-; [discriminate|]. injection Q3 as <-. now elim NE.
    - destruct C3 as [C3|C3]; [apply (Q2 _ C3)|]. now destruct (Q2 _ C3).
    - destruct C3 as [C3|C3]; [apply (Q2 _ C3)|]. now destruct (Q2 _ C3).
  Qed.

  Lemma edges_refs_12 x refs b : both s1 s2 x -> plainly s1 x -> plainly s2 x -> refs_of conf1 s1 x refs -> In b refs ->
    has_edge (s_graph s2) x b (Dep false true false None) \/ False.
  Proof. intros A B C D F. left. exact (w_refs _ _ _ _ _ W2 _ _ (refs_12 x refs A B C D) b F). Qed.
  Lemma edges_refs_21 x refs b : both s1 s2 x -> plainly s2 x -> plainly s1 x -> refs_of conf2 s2 x refs -> In b refs ->
    has_edge (s_graph s1) x b (Dep false true false None) \/ False.
  Proof. intros A B C D F. left. exact (w_refs _ _ _ _ _ W1 _ _ (refs_21 x refs A B C D) b F). Qed.

  Lemma agree_12 x a b n n' l l' : both s1 s2 x -> gfind (s_graph s1) x = Some a -> gfind (s_graph s2) x = Some b ->
    birth E find conf1 DS s1 x n l -> same_node n a -> birth E find conf2 DS s2 x n' l' -> same_node n' b -> n = n' /\ l = l'.
  Proof. exact (births_both E find conf1 conf2 HS HT HD s1 s2 J1 J2 HQ x a b n n' l l'). Qed.
  Lemma agree_21 x a b n n' l l' : both s1 s2 x -> gfind (s_graph s2) x = Some a -> gfind (s_graph s1) x = Some b ->
    birth E find conf2 DS s2 x n l -> same_node n a -> birth E find conf1 DS s1 x n' l' -> same_node n' b -> n = n' /\ l = l'.
  Proof. intros A B C D F G H. destruct (agree_12 x b a n' n l' l A C B G H D F) as [-> ->]. now split. Qed.

  (** *** What is left *)

  Lemma not_both x : ~ both s1 s2 x -> kind_of s1 x = Some ExcludedModule.
  Proof.
    intros H. destruct (kind_of s1 x) as [k|] eqn:K; [|elim H; unfold both; congruence].
    destruct k; try (elim H; unfold both; congruence). reflexivity.
  Qed.
  Lemma excluded_or x : kind_of s1 x = Some ExcludedModule \/ both s1 s2 x /\ kind_of s1 x <> Some ExcludedModule.
  Proof. unfold both. destruct (kind_of s1 x) as [[]|]; try (now left); right; split; congruence. Qed.

  (** Edges of excluded modules lead to their packages. *)
  Lemma excluded_edge a b d : settled E find s1 -> kind_of s1 a = Some ExcludedModule -> has_edge (s_graph s1) a b d -> child_of b a.
  Proof.
    intros Z1 Ka He. destruct (born1 a _ Ka) as (n & l & B & Bk).
    assert (NS : forall i, ~ stmt s1 a i).
    { intros i (_ & l' & A & A'). destruct (j_added _ _ _ _ _ J1 _ _ A) as (n' & n0 & P1 & P2 & (_ & P3 & _) & _).
      destruct (birth_excluded E find HS _ _ _ _ _ P2) as [_ ->]; [|exact A']. unfold kind_of in Ka. rewrite P1 in Ka. injection Ka as Ka. congruence. }
    destruct (j_edges _ _ _ _ _ J1 _ _ _ He)
      as [i A B' C|i p A B' C D F|i m nd nm A B' C D F L K|i m nd nm A B' C D F K|x nd A B' C|A B' C|refs A0 A B' C|A B'|x i k f A B' C|nd dd A B' C D F];
      try (now elim (NS i)).
    - destruct (se_tidy _ _ _ Z1) as [T1 T2]. pose proof A as (n' & i & nm & L1 & L2 & L3 & L4 & L5). subst x.
      rewrite B'. apply child_plain; [eapply T2|eapply T1]; eassumption.
    - exact A.
    - exfalso. destruct A as (_ & A2 & A3). eapply refs_not_excluded; eassumption.
    - destruct A; congruence.
    - congruence.
    - exfalso. unfold kind_of in Ka. rewrite A in Ka. cbn in Ka. congruence.
  Qed.

  Lemma edge_12 a b d : settled E find s1 -> settled E find s2 -> has_edge (s_graph s1) a b d -> reaches (s_graph s2) a -> both s1 s2 a ->
    has_edge (s_graph s2) a b d \/ (kind_of s1 b = Some ExcludedModule /\ exists m, child_of m b /\ reaches (s_graph s2) m).
  Proof.
    intros Z1 Z2 He Hr Hb.
    destruct (ok_edge E find implies1 implies2 conf1 conf2 HE HS HN1 HN2 s1 s2 X1 X2 HQ (both s1 s2) agree_12 (fun _ _ => False) edges_refs_12 a b d Z1 Z2 He Hr Hb) as [K|[[[] _]|[K K']]].
    - intros i m0 m nd nm A B C D F. assert (Km : kind_of s1 m <> Some ExcludedModule).
      { unfold kind_of. rewrite C. cbn. intros K. injection K as K. rewrite K in D. discriminate. }
      assert (Om : both s1 s2 m) by (unfold both; congruence). split; [|exact Om]. destruct B as [<-|B]; [exact Om|unfold both; congruence].
    - now left.
    - right. split; [now apply not_both|exact K'].
  Qed.

  Lemma kept_12 : settled E find s1 -> settled E find s2 -> (forall x, In x (g_roots (s_graph s1)) -> In x (g_roots (s_graph s2))) ->
    forall x, reaches (s_graph s1) x -> (reaches (s_graph s2) x \/ kind_of s1 x = Some ExcludedModule) /\
      (kind_of s1 x = Some ExcludedModule -> forall c, child_of c x -> reaches (s_graph s2) c).
  Proof.
    intros Z1 Z2 HR.
    assert (Up : forall x c, reaches (s_graph s2) x -> kind_of s1 x = Some ExcludedModule -> child_of c x -> reaches (s_graph s2) c).
    { intros x c Hx Kx Hc. pose proof (one_reaches E implies2 conf2 HE s2 X2 x Hx) as I2.
      assert (P : plainly s1 x).
      { split; [apply in_kind; eauto|]. split; [split; congruence|]. destruct (born1 x _ Kx) as (n & l & B & Bk).
        destruct B as [t tree l Q1 Q2|d0 Q1 Q2|Q1|c' k Q1 Q2 Q3 Q4|i k [Q1 _] Q2 Q3|[Q1 _] Q2 Q3|sp n l k t1 t2 [Q1 _] Q2 Q3 Q4]; try exact Q1; discriminate. }
      pose proof P as (P0 & P1 & P2). assert (N2 : kind_of s2 x <> Some Script /\ kind_of s2 x <> Some Distribution)
        by (destruct P1 as [P1 P1'], (HQ x P0 I2) as [Q1 Q2]; split; intros K; [apply P1, Q1, K|apply P1', Q2, K]).
      destruct (one_node E find implies2 conf2 HE HS HN2 s2 X2 x I2 N2 P2) as [_ Q]. eapply edge_on; [exact Hx|]. now apply Q. }
    intros x. induction 1 as [x Hx|a b ds Ha IH He].
    - assert (Rx : reaches (s_graph s2) x) by (apply re_root; auto). split; [now left|]. intros Kx c. now apply Up.
    - assert (N : ds <> []) by (eapply (one_full E implies1 conf1 HE s1 X1); exact He). destruct ds as [|d ds]; [now elim N|].
      assert (Hd : has_edge (s_graph s1) a b d) by (eexists; split; [exact He|now left]).
      assert (Q : reaches (s_graph s2) b \/ (kind_of s1 b = Some ExcludedModule /\ exists m, child_of m b /\ reaches (s_graph s2) m)).
      { destruct (excluded_or a) as [Ka|[Oa Ka]].
        - left. apply IH; [exact Ka|]. eapply excluded_edge; eassumption.
        - destruct IH as [[IH|IH] _]; [|congruence]. destruct (edge_12 a b d Z1 Z2 Hd IH Oa) as [K|K]; [|now right].
          left. eapply edge_on; eassumption. }
      destruct Q as [Q|[Q (m & Q1 & Q2)]].
      + split; [now left|]. intros Kb c. now apply Up.
      + split; [now right|]. intros _ c Hc. rewrite (child_of_fun c m b Hc Q1). exact Q2.
  Qed.

  (** *** What is not taken away *)

  Lemma child_in c x : starts_with "." x = false -> child_of c x -> exists rest, x = (c ++ "." ++ rest)%string.
  Proof.
    intros S0 H. destruct H as [y Hc Hy|k y Hc Hy]; [now exists y|]. subst c. cbn in S0. now destruct (repeat_char dot k ++ y)%string.
  Qed.
  Lemma out_below y x rest : out conf1 conf2 y -> x = (y ++ "." ++ rest)%string -> out conf1 conf2 x.
  Proof.
    intros (z & A & B & [->|(r & ->)]) ->; exists z; (split; [exact A|]); (split; [exact B|]); right; [now exists rest|].
    exists (r ++ "." ++ rest)%string. now rewrite !app_assoc_s.
  Qed.
  Lemma kept_both x : in_graph s2 x -> ~ out conf1 conf2 x -> both s1 s2 x.
  Proof.
    induction x as [x IH] using (induction_ltof1 _ String.length). unfold ltof in IH. intros I2 NO K1.
    apply in_kind in I2 as (k2 & K2). destruct (born1 x _ K1) as (n1 & l1 & P & Pk). destruct (born2 x _ K2) as (n2 & l2 & R & Rk).
    assert (NS : k2 <> Script /\ k2 <> Distribution).
    { split; intros ->; (destruct (HQ x) as [[_ X] [_ X']]; [apply in_kind; eauto..|]); [apply X in K2|apply X' in K2]; congruence. }
    destruct NS as [NS ND].
    destruct P as [t tree l1 Q1 Q2|d0 Q1 Q2|Q1|c k Q1 Q2 Q3 Q4|i k Q1 Q2 Q3|Q1 Q2 Q3|sp n1 l1 k t1 t2 Q1 Q2 Q3 Q4]; try discriminate Pk.
    - cbn in Pk. subst k.
      assert (NC : ~ out conf1 conf2 c).
      { intros K. apply NO. destruct (child_in c x Q1 Q2) as (rest & Er). eapply out_below; eassumption. }
      assert (XC : in_graph s2 c -> kind_of s2 c = Some ExcludedModule).
      { intros Ic. apply (IH c (child_shorter _ _ Q1 Q2) Ic NC Q3). }
      assert (AB : above s2 x -> False).
      { intros [_ A]. destruct (A c Q2) as (k & L1 & L2 & L3). rewrite (XC ltac:(apply in_kind; eauto)) in L1. injection L1 as <-. discriminate. }
      destruct R as [t' tree' l' A' B'|d0' A' B'|A'|c' k' A' B' C' D'|i' k' A' B' C'|A' B' C'|sp' n' l' k' t1' t2' A' B' C' D'];
        [now elim NS|now elim ND|congruence| |now elim AB..].
      assert (c' = c) by (eapply child_one; eassumption). subst c'. rewrite (XC ltac:(apply in_kind; eauto)) in C'. injection C' as <-. cbn in Rk. congruence.
    - cbn in Pk. subst k. apply conf_excluded in Q3. subst i.
      assert (C2 : assoc x conf2 = Some ImpNone).
      { destruct (assoc x conf2) as [[]|] eqn:Ec; try reflexivity; elim NO; exists x; (split; [exact Q2|]); (split; [congruence|now left]). }
      pose proof Q1 as [Q0 A].
      destruct R as [t' tree' l' A' B'|d0' A' B'|A'|c' k' A' B' C' D'|i' k' A' B' C'|A' B' C'|sp' n' l' k' t1' t2' A' B' C' D']; [now elim NS|now elim ND|congruence|..].
      + exfalso. destruct (A c' B') as (k & L1 & L2 & L3). destruct (kinds_differ c' k k' L1 C') as [-> | ->]; [discriminate|]. rewrite L2, L3 in D'. discriminate.
      + rewrite C2 in B'. injection B' as <-. injection C' as <-. cbn in Rk. congruence.
      + now destruct (B' _ C2).
      + now destruct (B' _ C2).
    - elim (proj1 (spec_excluded _ _ _ _ _ _ _ Q3 Q4)). exact Pk.
  Qed.
  Lemma alias_conf x t : kind_of s2 x = Some (AliasNode t) -> assoc x conf2 = Some (ImpAlias t).
  Proof.
    intros K. destruct (born2 x _ K) as (n & l & B & Bk).
    destruct B as [t0 tree l Q1 Q2|d0 Q1 Q2|Q1|c k Q1 Q2 Q3 Q4|i k Q1 Q2 Q3|Q1 Q2 Q3|sp n l k t1 t2 Q1 Q2 Q3 Q4]; cbn in Bk; try discriminate Bk.
    - subst k. discriminate.
    - subst k. destruct i; cbn in Q3; try discriminate Q3. injection Q3 as ->. exact Q2.
    - elim (proj2 (spec_excluded _ _ _ _ _ _ _ Q3 Q4) t). exact Bk.
  Qed.

  Hypothesis HA : forall x t, assoc x conf2 = Some (ImpAlias t) -> ~ out conf1 conf2 x.

  Lemma edge_21 a b d : settled E find s1 -> settled E find s2 -> has_edge (s_graph s2) a b d -> reaches (s_graph s1) a ->
    ~ out conf1 conf2 a -> ~ out conf1 conf2 b -> has_edge (s_graph s1) a b d.
  Proof.
    intros Z1 Z2 He Hr Oa Ob. destruct (one_ends E implies2 conf2 HE s2 X2 _ _ _ He) as [Ia Ib].
    pose proof (same_scripts_sym _ _ HQ) as HQ'.
    destruct (ok_edge E find implies2 implies1 conf2 conf1 HE HS HN2 HN1 s2 s1 X2 X1 HQ' (both s1 s2) agree_21 (fun _ _ => False) edges_refs_21 a b d Z2 Z1 He Hr (kept_both a Ia Oa)) as [K|[[[] _]|[K _]]].
    - intros i m0 m nd nm A B C D F. assert (Om : ~ out conf1 conf2 m) by (intros K; apply Ob; eapply out_below; eassumption).
      assert (Bm : both s1 s2 m) by (apply kept_both; [unfold in_graph; congruence|exact Om]). split; [|exact Bm].
      destruct B as [<-|B]; [exact Bm|]. apply kept_both; [apply in_kind; eauto|]. eapply HA, alias_conf; exact B.
    - exact K.
    - elim K. now apply kept_both.
  Qed.
End directions.

(** ** C84: excluding modules only takes away *)

(** The same roots, with more excluded modules: no other modules are reported. *)
Definition C84_statement : Prop := forall E find DS conf1 conf2 s1 s2, excluding E find DS conf1 conf2 s1 s2 -> tidy s1 -> tidy s2 ->
  same_roots s1 s2 -> only_less (s_graph s1) (s_graph s2).

(** Names are not imported from modules that import them. *)
Theorem C84_less_partial : forall E find DS conf1 conf2 s1 s2, excluding E find DS conf1 conf2 s1 s2 ->
  settled E find s1 -> settled E find s2 -> (forall x, In x (g_roots (s_graph s1)) -> In x (g_roots (s_graph s2))) ->
  only_less (s_graph s1) (s_graph s2).
Proof.
  intros E find DS conf1 conf2 s1 s2 [A B C D HD (i1 & F) (i2 & G) H] Z1 Z2 HR x Hx.
  destruct (kept_12 E find i1 i2 conf1 conf2 A B C D s1 s2 HD F G H Z1 Z2 HR x Hx) as [K _].
  assert (X : forall y, kind_of s1 y = Some ExcludedModule -> excluded_in (s_graph s1) y).
  { intros y Ky. unfold kind_of in Ky. destruct (gfind (s_graph s1) y) as [n|] eqn:En; [|discriminate]. injection Ky as Ky. now exists n. }
  destruct (excluded_or s1 s2 x) as [Kx|[Ox Kx]]; [left; now apply X|]. right. destruct K as [K|K]; [|congruence].
  split; [exact K|]. pose proof (one_reaches E i1 conf1 A s1 F x Hx) as I1. pose proof (one_reaches E i2 conf2 A s2 G x K) as I2. split.
  - destruct (gfind (s_graph s1) x) as [n|] eqn:E1; [|now elim I1]. destruct (gfind (s_graph s2) x) as [n'|] eqn:E2; [|now elim I2].
    exists n, n'. split; [reflexivity|]. split; [reflexivity|].
    eapply (ok_alike E find i1 i2 conf1 conf2 A B (HN1 conf1 conf2 D) (HN2 conf1 conf2 D) s1 s2 F G (both s1 s2)); [|exact Ox|exact E1|exact E2].
    exact (agree_12 E find i1 i2 conf1 conf2 A B C D s1 s2 HD F G H).
  - intros y d Hy. destruct (edge_12 E find i1 i2 conf1 conf2 A B C D s1 s2 HD F G H x y d Z1 Z2 Hy K Ox) as [L|[L _]]; [now right|left; now apply X].
Qed.

(** Whatever the roots lead to without the excluded modules is still there. *)
Theorem C84_rest_partial : forall E find DS conf1 conf2 s1 s2, excluding E find DS conf1 conf2 s1 s2 ->
  settled E find s1 -> settled E find s2 -> (forall x, In x (g_roots (s_graph s2)) -> In x (g_roots (s_graph s1))) ->
  (forall x t, assoc x conf2 = Some (ImpAlias t) -> ~ out conf1 conf2 x) ->
  rest_kept (out conf1 conf2) (s_graph s2) (s_graph s1).
Proof.
  intros E find DS conf1 conf2 s1 s2 [A B C D HD (i1 & F) (i2 & G) H] Z1 Z2 HR HA.
  assert (K : forall x, reaches_without (s_graph s2) (out conf1 conf2) x -> reaches (s_graph s1) x /\ in_graph s2 x /\ ~ out conf1 conf2 x).
  { intros x. induction 1 as [x Hx Nx|a b ds Ha (IH & Ia & Na) He Nb].
    - split; [apply re_root; auto|]. split; [exact (one_root E i2 conf2 A s2 G x Hx)|exact Nx].
    - assert (N : ds <> []) by (eapply (one_full E i2 conf2 A s2 G); exact He). destruct ds as [|d ds]; [now elim N|].
      assert (Hd : has_edge (s_graph s2) a b d) by (eexists; split; [exact He|now left]). split.
      + eapply edge_on; [exact IH|]. eapply (edge_21 E find i1 i2 conf1 conf2 A B C D s1 s2 HD F G H HA); eassumption.
      + split; [|exact Nb]. exact (proj2 (one_ends E i2 conf2 A s2 G _ _ _ Hd)). }
  intros x Hx. destruct (K x Hx) as (R1 & I2 & Nx). split; [exact R1|]. pose proof (one_reaches E i1 conf1 A s1 F x R1) as I1. split.
  - destruct (gfind (s_graph s2) x) as [n|] eqn:E2; [|now elim I2]. destruct (gfind (s_graph s1) x) as [n'|] eqn:E1; [|now elim I1].
    exists n, n'. split; [reflexivity|]. split; [reflexivity|].
    eapply (ok_alike E find i2 i1 conf2 conf1 A B (HN2 conf1 conf2 D) (HN1 conf1 conf2 D) s2 s1 G F (both s1 s2)); [| |exact E2|exact E1].
    + exact (agree_21 E find i1 i2 conf1 conf2 A B C D s1 s2 HD F G H).
    + eapply (kept_both E find i1 i2 conf1 conf2 A B C D s1 s2 HD F G H); [unfold in_graph; congruence|exact Nx].
  - intros y d Hy Ny. eapply (edge_21 E find i1 i2 conf1 conf2 A B C D s1 s2 HD F G H HA); eassumption.
Qed.

(** ** Examples *)

(** Two more excluded modules: q.sub, and a name that q binds. *)
Definition less_open : st := Eval vm_compute in snd (the_calls pair_world [AExcludes ["skipped"; "q.sub"; "q.name"]] (init pair_implies [] [])).
Definition less_1 : st := Eval vm_compute in snd (the_calls pair_world [AAddScript "main.py"; AAddScript "tool.py"] less_open).
Definition less_conf : list (string * implied) := s_lazy less_open.
Lemma less_opened : session pair_world pair_implies less_conf less_open.
Proof.
  apply se_open; [|reflexivity]. eapply (op_exclude _ _ (init pair_implies [] []) 60 ["skipped"; "q.sub"; "q.name"]); [apply op_init|vm_compute; reflexivity|discriminate].
Qed.
Lemma less_first : session pair_world pair_implies less_conf less_1.
Proof. eapply (calls_session _ _ _ 60 [AAddScript "main.py"; AAddScript "tool.py"]); [exact less_opened|reflexivity|vm_compute; reflexivity|reflexivity]. Qed.
Definition less_reached : list string :=
  ["main.py"; "tool.py"; "old"; "os"; "q"; "q.core"; "json"; "skipped"; "skipped.part"; "q.sub"; "q.name"; "q.nowhere"; "none"; "none.such"; "json.tool"].

Definition more_excluded_b (c1 c2 : list (string * implied)) : bool :=
  forallb (fun x => match assoc x c1, assoc x c2 with
                    | Some ImpNone, _ => true
                    | Some (ImpAlias a), Some (ImpAlias b) => seqb a b
                    | Some (ImpRefs [a]), Some (ImpRefs [b]) => seqb a b
                    | None, None => true
                    | _, _ => false end) (map fst c1 ++ map fst c2)%list.
Lemma more_excluded_bool c1 c2 : more_excluded_b c1 c2 = true -> more_excluded c1 c2.
Proof.
  intros H x. unfold more_excluded_b in H. rewrite forallb_forall in H.
  destruct (assoc x c1) as [i|] eqn:E1.
  - assert (K : In x (map fst c1 ++ map fst c2)%list) by (apply in_app_iff; left; apply assoc_In in E1; exact (in_map fst _ _ E1)).
    apply H in K. rewrite E1 in K. destruct i as [|a|a|[|a [|? ?]]]; [now right|..]; try discriminate K;
      left; destruct (assoc x c2) as [[|b|b|[|b [|? ?]]]|]; try discriminate K; apply seqb_eq in K; now subst.
  - destruct (assoc x c2) as [i|] eqn:E2; [|now left].
    assert (K : In x (map fst c1 ++ map fst c2)%list) by (apply in_app_iff; right; apply assoc_In in E2; exact (in_map fst _ _ E2)).
    apply H in K. rewrite E1, E2 in K. discriminate.
Qed.
Lemma less_excluding : excluding pair_world (found_in pair_modules) (fun _ => False) less_conf pair_conf less_1 pair_1.
Proof.
  constructor.
  - apply world_order.
  - exact pair_steady.
  - apply more_excluded_bool. reflexivity.
  - intros x i [H|H]; apply assoc_In in H; vm_compute in H; repeat (destruct H as [H|H]; [injection H as <- <-; reflexivity|]); destruct H.
  - intros d d' [].
  - exists pair_implies. exact less_first.
  - exists pair_implies. exact pair_first.
  - now apply same_scripts_b.
Qed.
Lemma less_out x : out less_conf pair_conf x -> exists y, (y = "q.sub" \/ y = "q.name") /\ (x = y \/ exists rest, x = (y ++ "." ++ rest)%string).
Proof.
  intros (y & A & B & C). exists y. split; [|exact C]. apply assoc_In in A. vm_compute in A.
  repeat (destruct A as [A|A]; [injection A as <-; try discriminate; auto; elim B; reflexivity|]). destruct A.
Qed.

(** q.name is excluded although nothing leads to a node for it without that; q.sub and
    the import beyond the top in it are gone. *)
Example C84_nonvacuous :
  excluding pair_world (found_in pair_modules) (fun _ => False) less_conf pair_conf less_1 pair_1
  /\ settled pair_world (found_in pair_modules) less_1 /\ settled pair_world (found_in pair_modules) pair_1 /\ same_roots less_1 pair_1
  /\ (forall x t, assoc x pair_conf = Some (ImpAlias t) -> ~ out less_conf pair_conf x)
  /\ reaches (s_graph less_1) "q.name" /\ ~ reaches (s_graph pair_1) "q.name" /\ kind_of less_1 "q.name" = Some ExcludedModule
  /\ reaches (s_graph pair_1) "...beyond" /\ ~ in_graph less_1 "...beyond"
  /\ reaches_without (s_graph pair_1) (out less_conf pair_conf) "q.core".
Proof.
  assert (NO : forall x, out less_conf pair_conf x -> "q.sub" = substring 0 5 x \/ "q.name" = substring 0 6 x).
  { intros x H. apply less_out in H as (y & [-> | ->] & [-> | (r & ->)]); [now left|left|now right|right]; cbn; now destruct r. }
  split; [exact less_excluding|].
  split; [eapply (settled_bool _ _ _ _ _ _ less_reached [("q", "name"); ("q", "helper")]); [apply world_order|exact less_first|vm_compute; reflexivity|exact pair_binds]|].
  split; [eapply (settled_bool _ _ _ _ _ _ pair_reached [("q", "name"); ("q", "helper")]); [apply world_order|exact pair_first|vm_compute; reflexivity|exact pair_binds]|].
  split; [intros x; vm_compute; tauto|].
  split. { intros x t H K. apply assoc_In in H. vm_compute in H. repeat (destruct H as [H|H]; [try discriminate H|]); [|destruct H].
           injection H as <- <-. apply NO in K. destruct K; discriminate. }
  assert (M1 : reaches (s_graph less_1) "main.py") by (apply re_root; vm_compute; auto).
  assert (M2 : reaches (s_graph pair_1) "main.py") by (apply re_root; vm_compute; auto).
  split. { eapply re_edge; [exact M1|]. vm_compute. repeat (try (left; reflexivity); right). }
  split. { intros K. eapply (closed_reaches _ pair_reached) in K; [|vm_compute; reflexivity]. vm_compute in K. repeat (destruct K as [K|K]; [discriminate K|]). destruct K. }
  split; [reflexivity|].
  split. { eapply (re_edge _ "q.sub"); [eapply re_edge; [exact M2|]|]; vm_compute; repeat (try (left; reflexivity); right). }
  split; [intros K; apply K; reflexivity|].
  eapply (rw_edge _ _ "q"); [eapply (rw_edge _ _ "main.py"); [apply rw_root; [vm_compute; auto|]| |]| |]; try (intros K; apply NO in K; destruct K; discriminate);
    vm_compute; repeat (try (left; reflexivity); right).
Qed.

(** The same with a distribution that has the excluded module. *)
Definition less_3 : st := Eval vm_compute in snd (the_calls pair_world [AAddScript "main.py"; AAddDist pair_dist; AAddScript "tool.py"] less_open).
Lemma less_dopened DS : dsession pair_world DS pair_implies less_conf less_open.
Proof.
  apply ds_open; [|reflexivity]. eapply (op_exclude _ _ (init pair_implies [] []) 60 ["skipped"; "q.sub"; "q.name"]); [apply op_init|vm_compute; reflexivity|discriminate].
Qed.
Lemma less_third : dsession pair_world (eq pair_dist) pair_implies less_conf less_3.
Proof.
  eapply (calls_dsession _ _ _ _ 60 [AAddScript "main.py"; AAddDist pair_dist; AAddScript "tool.py"]);
    [apply less_dopened|repeat (apply Forall_cons; [cbn; auto|]); apply Forall_nil|vm_compute; reflexivity|reflexivity].
Qed.
Example C84_distribution_nonvacuous :
  excluding pair_world (found_in pair_modules) (eq pair_dist) less_conf pair_conf less_3 pair_3
  /\ settled pair_world (found_in pair_modules) less_3 /\ settled pair_world (found_in pair_modules) pair_3 /\ same_roots less_3 pair_3
  /\ In ("/lib/thing-1.dist-info", "q.sub") (edge_pairs less_3) /\ kind_of less_3 "q.sub" = Some ExcludedModule
  /\ reaches_without (s_graph pair_3) (out less_conf pair_conf) "gone".
Proof.
  assert (NO : forall x, out less_conf pair_conf x -> "q.sub" = substring 0 5 x \/ "q.name" = substring 0 6 x).
  { intros x H. apply less_out in H as (y & [-> | ->] & [-> | (r & ->)]); [now left|left|now right|right]; cbn; now destruct r. }
  split.
  { constructor.
    - apply world_order.
    - exact pair_steady.
    - apply more_excluded_bool. reflexivity.
    - intros x i [H|H]; apply assoc_In in H; vm_compute in H; repeat (destruct H as [H|H]; [injection H as <- <-; reflexivity|]); destruct H.
    - intros d d' <- <-. reflexivity.
    - exists pair_implies. exact less_third.
    - exists pair_implies. exact pair_third.
    - apply same_scripts_b. vm_compute. reflexivity. }
  split; [eapply (settled_bool _ _ _ _ _ _ ("/lib/thing-1.dist-info" :: "gone" :: less_reached) [("q", "name"); ("q", "helper")]); [apply world_order|exact less_third|vm_compute; reflexivity|exact pair_binds]|].
  split; [eapply (settled_bool _ _ _ _ _ _ pair_dreached [("q", "name"); ("q", "helper")]); [apply world_order|exact pair_third|vm_compute; reflexivity|exact pair_binds]|].
  split; [intros x; vm_compute; tauto|]. split; [vm_compute; repeat (try (left; reflexivity); right)|]. split; [reflexivity|].
  eapply (rw_edge _ _ "/lib/thing-1.dist-info"); [apply rw_root; [vm_compute; auto|]| |]; try (intros K; apply NO in K; destruct K; discriminate);
    vm_compute; repeat (try (left; reflexivity); right).
Qed.

(** p has "from q import *" and q binds z: "from p import z" needs a module p.z when q
    is excluded, and that is missing. *)
Definition star_modules : list (string * entry) :=
  [("p", EText true "from q import *" [World.from "q" ["*"] 0] [] []); ("q", ESource false [] ["z"])].
Definition star_world : env := world star_modules [("main.py", [World.imp "p"; World.from "p" ["z"] 0])] [].
Definition star_open : st := Eval vm_compute in snd (the_calls star_world [AExcludes ["q"]] new).
Definition star_1 : st := Eval vm_compute in snd (the_calls star_world [AAddScript "main.py"] star_open).
Definition star_2 : st := Eval vm_compute in snd (the_calls star_world [AAddScript "main.py"] new).
Lemma star_opened : session star_world [] (s_lazy star_open) star_open.
Proof. apply se_open; [|reflexivity]. eapply (op_exclude _ _ new 60 ["q"]); [apply op_init|vm_compute; reflexivity|discriminate]. Qed.
Lemma star_first : session star_world [] (s_lazy star_open) star_1.
Proof. eapply (calls_session _ _ _ 60 [AAddScript "main.py"]); [exact star_opened|reflexivity|vm_compute; reflexivity|reflexivity]. Qed.
Lemma star_new : session star_world [] (s_lazy new) new.
Proof. apply se_open; [apply op_init|reflexivity]. Qed.
Lemma star_second : session star_world [] (s_lazy new) star_2.
Proof. eapply (calls_session _ _ _ 60 [AAddScript "main.py"]); [exact star_new|reflexivity|vm_compute; reflexivity|reflexivity]. Qed.
Lemma star_excluding : excluding star_world (found_in star_modules) (fun _ => False) (s_lazy star_open) (s_lazy new) star_1 star_2.
Proof.
  constructor.
  - apply world_order.
  - now apply world_steady.
  - apply more_excluded_bool. reflexivity.
  - intros x i [H|H]; apply assoc_In in H; vm_compute in H; repeat (destruct H as [H|H]; [injection H as <- <-; reflexivity|]); destruct H.
  - intros d d' [].
  - exists []. exact star_first.
  - exists []. exact star_second.
  - now apply same_scripts_b.
Qed.

Theorem C84_refuted : ~ C84_statement.
Proof.
  intros H. assert (R : same_roots star_1 star_2) by (intros x; vm_compute; tauto).
  destruct (H _ _ _ _ _ _ _ star_excluding (tidy_bool star_1 eq_refl) (tidy_bool star_2 eq_refl) R "p.z") as [(n & K1 & K2)|(K & _)].
  - eapply (re_edge _ "main.py"); [apply re_root; vm_compute; auto|]. vm_compute. repeat (try (left; reflexivity); right).
  - vm_compute in K1. injection K1 as <-. discriminate.
  - eapply (closed_reaches _ ["main.py"; "p"; "q"]) in K; [|vm_compute; reflexivity]. destruct K as [K|[K|[K|[]]]]; discriminate K.
Qed.

Print Assumptions C84_refuted.
Print Assumptions C84_less_partial.
Print Assumptions C84_rest_partial.
