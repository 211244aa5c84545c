(** C89: implied references only add. *)
From Verif Require Import ReportSpec BuilderSource BuilderHist BuilderInv BuilderCalls World PropsBuilder PropsSource PropsReach PropsSame ImplySpec BuilderSame ExcludeSpec PropsExclude.
Open Scope string_scope.

Section two.
  Variable E : env.
  Variable find : string -> option spec.
  Variables conf1 conf2 : list (string * implied).
  Hypothesis HS : steady E find.
  Hypothesis HT : more_refs conf1 conf2.
  Context {DS : dist -> Prop}.
  Hypothesis HD : one_each DS.
  Variables s1 s2 : st.
  Hypothesis J1 : J E find conf1 DS s1.
  Hypothesis J2 : J E find conf2 DS s2.
  Hypothesis HQ : same_scripts s1 s2.

  (** References do not make nodes of their own. *)
  Lemma conf_same x i k : conf_kind i = Some k -> assoc x conf1 = Some i <-> assoc x conf2 = Some i.
  Proof.
    intros K. destruct (HT x) as [->|(refs & A & [B|(r1 & B & _)])]; [reflexivity|..]; rewrite A, B; split; intros C; try discriminate C;
      injection C as <-; discriminate K.
  Qed.
  Lemma births_refs x : forall a b n n' l l', gfind (s_graph s1) x = Some a -> gfind (s_graph s2) x = Some b ->
    birth E find conf1 DS s1 x n l -> same_node n a -> birth E find conf2 DS s2 x n' l' -> same_node n' b -> n = n' /\ l = l'.
  Proof.
    induction x as [x IH] using (induction_ltof1 _ String.length). unfold ltof in IH.
    intros a b n n' l l' Ha Hb B1 S1 B2 S2.
    assert (KA : kind_of s1 x = Some (n_kind n)) by (unfold kind_of; rewrite Ha; cbn; destruct S1 as (_ & -> & _); reflexivity).
    assert (KB : kind_of s2 x = Some (n_kind n')) by (unfold kind_of; rewrite Hb; cbn; destruct S2 as (_ & -> & _); reflexivity).
    assert (IK : forall c k k', starts_with "." x = false -> child_of c x -> kind_of s1 c = Some k -> kind_of s2 c = Some k' -> k = k').
    { intros c k k' H0 Hc K K'. unfold kind_of in K, K'. destruct (gfind (s_graph s1) c) as [u|] eqn:Eu; [|discriminate].
      destruct (gfind (s_graph s2) c) as [v|] eqn:Ev; [|discriminate]. injection K as <-. injection K' as <-.
      destruct (j_nodes _ _ _ _ _ J1 _ _ Eu) as (n1 & l1 & _ & P1 & Q1). destruct (j_nodes _ _ _ _ _ J2 _ _ Ev) as (n2 & l2 & _ & P2 & Q2).
      destruct (IH c (child_shorter _ _ H0 Hc) _ _ _ _ _ _ Eu Ev P1 Q1 P2 Q2) as [-> _].
      destruct Q1 as (_ & -> & _), Q2 as (_ & -> & _). reflexivity. }
    destruct (script_or (n_kind n)) as [Es|Es].
    - assert (Es' : n_kind n' = Script).
      { destruct (HQ x) as [[X _] _]; [unfold in_graph; congruence..|]. rewrite Es in KA. apply X in KA. congruence. }
      destruct (birth_kind E find HS _ _ _ _ _ _ B1 Es) as (t & tr & A1 & A2 & ->). destruct (birth_kind E find HS _ _ _ _ _ _ B2 Es') as (t' & tr' & A1' & A2' & ->).
      rewrite (sy_script _ _ HS t' t x) in A1'. split; congruence.
    - assert (Es' : n_kind n' <> Script).
      { intros K. destruct (HQ x) as [[_ X] _]; [unfold in_graph; congruence..|]. rewrite K in KB. apply X in KB. congruence. }
      destruct (dist_or (n_kind n)) as [Ed|Ed].
      { assert (Ed' : n_kind n' = Distribution).
        { destruct (HQ x) as [_ [X _]]; [unfold in_graph; congruence..|]. rewrite Ed in KA. apply X in KA. congruence. }
        destruct (birth_dist E find HS _ _ _ _ _ _ B1 Ed) as (d & A1 & A2 & -> & ->). destruct (birth_dist E find HS _ _ _ _ _ _ B2 Ed') as (d' & A1' & A2' & -> & ->).
        rewrite (HD d d'); [now split|exact A1|exact A1'|congruence]. }
      assert (Ed' : n_kind n' <> Distribution).
      { intros K. destruct (HQ x) as [_ [_ X]]; [unfold in_graph; congruence..|]. rewrite K in KB. apply X in KB. congruence. }
      assert (AB : forall c k, above s1 x -> starts_with "." x = false -> child_of c x -> kind_of s2 c = Some k -> is_missing k || is_excluded k = true -> False).
      { intros c k [_ Q] H0 Hc K1 K2. destruct (Q c Hc) as (k' & K3 & K4 & K5). rewrite <- (IK c k' k H0 Hc K3 K1), K4, K5 in K2. discriminate. }
      assert (BA : forall c k, above s2 x -> starts_with "." x = false -> child_of c x -> kind_of s1 c = Some k -> is_missing k || is_excluded k = true -> False).
      { intros c k [_ Q] H0 Hc K1 K2. destruct (Q c Hc) as (k' & K3 & K4 & K5). rewrite (IK c k k' H0 Hc K1 K3), K4, K5 in K2. discriminate. }
      destruct B1 as [t tree l A B|d0 A B|A|c k A B C D|i k A B C|A B C|sp n l k t1 t2 A B C D]; [now elim Es|now elim Ed|..];
      destruct B2 as [t' tree' l' A' B'|d0' A' B'|A'|c' k' A' B' C' D'|i' k' A' B' C'|A' B' C'|sp' n' l' k' t1' t2' A' B' C' D'];
        try (now elim Es'); try (now elim Ed'); try (now split);
        try (pose proof A as [A0 _]); try (pose proof A' as [A0' _]); try congruence;
        try (exfalso; eauto; fail).
      + assert (c' = c) by (eapply child_one; eassumption). subst c'. rewrite (IK c k k' A B C C'). now split.
      + apply (proj1 (conf_same x i k C)) in B. rewrite B in B'. injection B' as <-. rewrite C in C'. injection C' as <-. now split.
      + exfalso. apply (proj1 (conf_same x i k C)) in B. destruct (B' i B) as [K _]. congruence.
      + exfalso. apply (proj1 (conf_same x i k C)) in B. destruct (B' i B) as [K _]. congruence.
      + exfalso. apply (proj2 (conf_same x i' k' C')) in B'. destruct (B i' B') as [K _]. congruence.
      + exfalso. apply (proj2 (conf_same x i' k' C')) in B'. destruct (B i' B') as [K _]. congruence.
      + rewrite C in C'. injection C' as <-.
        pose proof (nfs_same E find HS _ _ _ _ _ _ _ _ _ (sy_direct _ _ HS _ _ C) D D') as K. now injection K.
  Qed.
End two.

(** Two builders in the same environment, where the second has more references. *)
Record implying (E : env) (find : string -> option spec) (DS : dist -> Prop) (conf1 conf2 : list (string * implied)) (s1 s2 : st) : Prop := {
  im_order : order_ok E;
  im_env : steady E find;
  im_table : more_refs conf1 conf2;
  im_names : forall x i, assoc x conf1 = Some i \/ assoc x conf2 = Some i -> starts_with "." x = false;
  im_dists : one_each DS;
  im_first : exists implies, dsession E DS implies conf1 s1;
  im_second : exists implies, dsession E DS implies conf2 s2;
  im_scripts : same_scripts s1 s2
}.

Section directions.
  Variable E : env.
  Variable find : string -> option spec.
  Variables implies1 implies2 conf1 conf2 : list (string * implied).
  Hypothesis HE : order_ok E.
  Hypothesis HS : steady E find.
  Hypothesis HT : more_refs conf1 conf2.
  Hypothesis HN : forall x i, assoc x conf1 = Some i \/ assoc x conf2 = Some i -> starts_with "." x = false.
  Variables s1 s2 : st.
  Context {DS : dist -> Prop}.
  Hypothesis HD : one_each DS.
  Hypothesis X1 : dsession E DS implies1 conf1 s1.
  Hypothesis X2 : dsession E DS implies2 conf2 s2.
  Hypothesis HQ : same_scripts s1 s2.

  Let W1 : JW E find conf1 DS s1 := one_JW E find implies1 conf1 HE HS (HN1 conf1 conf2 HN) s1 X1.
  Let W2 : JW E find conf2 DS s2 := one_JW E find implies2 conf2 HE HS (HN2 conf1 conf2 HN) s2 X2.
  Let J1 : J E find conf1 DS s1 := w_inv _ _ _ _ _ W1.
  Let J2 : J E find conf2 DS s2 := w_inv _ _ _ _ _ W2.

  Lemma kinds_same x k k' : kind_of s1 x = Some k -> kind_of s2 x = Some k' -> k = k'.
  Proof.
    unfold kind_of. destruct (gfind (s_graph s1) x) as [a|] eqn:Ea; [|discriminate]. destruct (gfind (s_graph s2) x) as [b|] eqn:Eb; [|discriminate].
    intros K K'. injection K as <-. injection K' as <-.
    destruct (j_nodes _ _ _ _ _ J1 _ _ Ea) as (n1 & l1 & _ & P1 & Q1). destruct (j_nodes _ _ _ _ _ J2 _ _ Eb) as (n2 & l2 & _ & P2 & Q2).
    destruct (births_refs E find conf1 conf2 HS HT HD s1 s2 J1 J2 HQ x _ _ _ _ _ _ Ea Eb P1 Q1 P2 Q2) as [-> _].
    destruct Q1 as (_ & -> & _), Q2 as (_ & -> & _). reflexivity.
  Qed.

  (** A node that has references by its table has been told. *)
  Lemma refs_told conf s x refs : JW E find conf DS s -> (forall c k, child_of c x -> kind_of s c = Some k -> is_missing k || is_excluded k = true -> False) ->
    starts_with "." x = false -> plainly s x -> assoc x conf = Some (ImpRefs refs) -> In (EvImplied x (ImpRefs refs)) (s_log s).
  Proof.
    intros W NA H0 (I & P1 & P2) C. apply in_kind in I as (k0 & K0). unfold kind_of in K0. destruct (gfind (s_graph s) x) as [a|] eqn:Ea; [|discriminate].
    injection K0 as K0. destruct (j_nodes _ _ _ _ _ (w_inv _ _ _ _ _ W) _ _ Ea) as (n & l & _ & P & (_ & Q & _)).
    unfold kind_of in P1. rewrite Ea in P1. cbn in P1. rewrite Q in P1.
    destruct P as [t tree l Q1 Q2|d0 Q1 Q2|Q1|c k Q1 Q2 Q3 Q4|i k Q1 Q2 Q3|Q1 Q2 Q3|sp n0 l k t1 t2 Q1 Q2 Q3 Q4].
    - elim (proj1 P1). reflexivity.
    - elim (proj2 P1). reflexivity.
    - congruence.
    - exfalso. eauto.
    - rewrite C in Q2. injection Q2 as <-. discriminate.
    - apply (Q2 _ C).
    - apply (Q2 _ C).
  Qed.
  Lemma refs_12 x refs b : True -> plainly s1 x -> plainly s2 x -> refs_of conf1 s1 x refs -> In b refs ->
    has_edge (s_graph s2) x b (Dep false true false None) \/ False.
  Proof.
    intros _ _ P2 (_ & [H0 A] & C) Hb. left.
    assert (C2 : exists refs2, assoc x conf2 = Some (ImpRefs refs2) /\ In b refs2).
    { destruct (HT x) as [K|(refs2 & K & [L|(r1 & L & M)])]; [exists refs; split; [congruence|exact Hb]|congruence|].
      exists refs2. split; [exact K|]. apply M. congruence. }
    destruct C2 as (refs2 & C2 & Hb2). apply (w_refs _ _ _ _ _ W2 x refs2); [|exact Hb2].
    apply (refs_told conf2 s2); auto. intros c k Hc K N. destruct (A c Hc) as (k' & L1 & L2 & L3). rewrite <- (kinds_same c k' k L1 K), L2, L3 in N. discriminate.
  Qed.
  Lemma refs_21 x refs b : True -> plainly s2 x -> plainly s1 x -> refs_of conf2 s2 x refs -> In b refs ->
    has_edge (s_graph s1) x b (Dep false true false None) \/ further conf1 conf2 x b.
  Proof.
    intros _ _ P1 (_ & [H0 A] & C) Hb.
    assert (C1 : (exists refs1, assoc x conf1 = Some (ImpRefs refs1) /\ In b refs1) \/ ~ exists refs1, assoc x conf1 = Some (ImpRefs refs1) /\ In b refs1).
    { destruct (assoc x conf1) as [[|?|?|refs1]|]; try (right; intros (? & K & _); discriminate).
      destruct (in_dec string_dec b refs1) as [K|K]; [left; eauto|]. right. intros (r & L & M). injection L as <-. now apply K. }
    destruct C1 as [(refs1 & C1 & Hb1)|C1]; [left|right; now exists refs].
    apply (w_refs _ _ _ _ _ W1 x refs1); [|exact Hb1].
    apply (refs_told conf1 s1); auto. intros c k Hc K N. destruct (A c Hc) as (k' & L1 & L2 & L3). rewrite (kinds_same c k k' K L1), L2, L3 in N. discriminate.
  Qed.
  Lemma agree_12 x a b n n' l l' : True -> gfind (s_graph s1) x = Some a -> gfind (s_graph s2) x = Some b ->
    birth E find conf1 DS s1 x n l -> same_node n a -> birth E find conf2 DS s2 x n' l' -> same_node n' b -> n = n' /\ l = l'.
  Proof. intros _. exact (births_refs E find conf1 conf2 HS HT HD s1 s2 J1 J2 HQ x a b n n' l l'). Qed.
  Lemma agree_21 x a b n n' l l' : True -> gfind (s_graph s2) x = Some a -> gfind (s_graph s1) x = Some b ->
    birth E find conf2 DS s2 x n l -> same_node n a -> birth E find conf1 DS s1 x n' l' -> same_node n' b -> n = n' /\ l = l'.
  Proof. intros _ B C D F G H. destruct (agree_12 x b a n' n l' l Logic.I C B G H D F) as [-> ->]. now split. Qed.

  Lemma edge_12 a b d : settled E find s1 -> settled E find s2 -> has_edge (s_graph s1) a b d -> reaches (s_graph s2) a -> has_edge (s_graph s2) a b d.
  Proof.
    intros Z1 Z2 He Hr.
    destruct (ok_edge E find implies1 implies2 conf1 conf2 HE HS (HN1 conf1 conf2 HN) (HN2 conf1 conf2 HN) s1 s2 X1 X2 HQ (fun _ => True) agree_12 (fun _ _ => False) refs_12
      a b d Z1 Z2 He Hr Logic.I) as [K|[[[] _]|[K _]]]; auto. now elim K.
  Qed.
  Lemma edge_21 a b d : settled E find s1 -> settled E find s2 -> has_edge (s_graph s2) a b d -> reaches (s_graph s1) a ->
    has_edge (s_graph s1) a b d \/ (further conf1 conf2 a b /\ d = Dep false true false None).
  Proof.
    intros Z1 Z2 He Hr. pose proof (same_scripts_sym _ _ HQ) as HQ'.
    destruct (ok_edge E find implies2 implies1 conf2 conf1 HE HS (HN2 conf1 conf2 HN) (HN1 conf1 conf2 HN) s2 s1 X2 X1 HQ' (fun _ => True) agree_21 (further conf1 conf2) refs_21
      a b d Z2 Z1 He Hr Logic.I) as [K|[K|[K _]]]; auto. now elim K.
  Qed.
End directions.

(** ** C89: implied references only add *)

(** The same roots, with more references: all that was reported still is, and what
    comes with it is what the further references lead to. *)
Definition C89_statement : Prop := forall E find DS conf1 conf2 s1 s2, implying E find DS conf1 conf2 s1 s2 -> tidy s1 -> tidy s2 ->
  same_roots s1 s2 -> reported_within (s_graph s1) (s_graph s2) /\ only_refs (further conf1 conf2) (s_graph s1) (s_graph s2).

(** Names are not imported from modules that import them. *)
Theorem C89_kept_partial : forall E find DS conf1 conf2 s1 s2, implying E find DS conf1 conf2 s1 s2 ->
  settled E find s1 -> settled E find s2 -> (forall x, In x (g_roots (s_graph s1)) -> In x (g_roots (s_graph s2))) ->
  reported_within (s_graph s1) (s_graph s2).
Proof.
  intros E find DS conf1 conf2 s1 s2 [A B C D HD (i1 & F) (i2 & G) H] Z1 Z2 HR.
  assert (K : forall x, reaches (s_graph s1) x -> reaches (s_graph s2) x).
  { induction 1 as [x Hx|a b ds Ha IH He]; [apply re_root; auto|].
    assert (N : ds <> []) by (eapply (one_full E i1 conf1 A s1 F); exact He). destruct ds as [|d ds]; [now elim N|].
    eapply edge_on; [exact IH|]. eapply (edge_12 E find i1 i2 conf1 conf2 A B C D s1 s2 HD F G H a b d Z1 Z2); [|exact IH].
    eexists. split; [exact He|now left]. }
  intros x Hx. specialize (K x Hx). split; [exact K|]. split.
  - pose proof (one_reaches E i1 conf1 A s1 F x Hx) as I1. pose proof (one_reaches E i2 conf2 A s2 G x K) as I2.
    destruct (gfind (s_graph s1) x) as [n|] eqn:E1; [|now elim I1]. destruct (gfind (s_graph s2) x) as [n'|] eqn:E2; [|now elim I2].
    exists n, n'. split; [reflexivity|]. split; [reflexivity|].
    eapply (ok_alike E find i1 i2 conf1 conf2 A B (HN1 conf1 conf2 D) (HN2 conf1 conf2 D) s1 s2 F G (fun _ => True)); [|exact Logic.I|exact E1|exact E2].
    exact (agree_12 E find i1 i2 conf1 conf2 A B C D s1 s2 HD F G H).
  - intros y d Hy. exact (edge_12 E find i1 i2 conf1 conf2 A B C D s1 s2 HD F G H x y d Z1 Z2 Hy K).
Qed.

Theorem C89_added_partial : forall E find DS conf1 conf2 s1 s2, implying E find DS conf1 conf2 s1 s2 ->
  settled E find s1 -> settled E find s2 -> same_roots s1 s2 -> only_refs (further conf1 conf2) (s_graph s1) (s_graph s2).
Proof.
  intros E find DS conf1 conf2 s1 s2 HX Z1 Z2 HR. pose proof HX as [A B C D HD (i1 & F) (i2 & G) H].
  assert (K : forall x y d, reaches (s_graph s1) x -> has_edge (s_graph s2) x y d -> has_edge (s_graph s1) x y d \/ (further conf1 conf2 x y /\ d = Dep false true false None)).
  { intros x y d Hx Hy. exact (edge_21 E find i1 i2 conf1 conf2 A B C D s1 s2 HD F G H x y d Z1 Z2 Hy Hx). }
  split; [|exact K]. induction 1 as [x Hx|a b ds Ha [IH|IH] He]; [left; apply re_root; now apply HR| |right; eapply bh_edge; eassumption].
  assert (N : ds <> []) by (eapply (one_full E i2 conf2 A s2 G); exact He). destruct ds as [|d ds]; [now elim N|].
  destruct (K a b d IH) as [L|[L _]]; [eexists; split; [exact He|now left]|left; eapply edge_on; eassumption|right; eapply bh_ref; eassumption].
Qed.

(** ** Examples *)

(** More references for q.core, and references of a missing module, by a call of add_implies. *)
Definition imply_more : list (string * implied) := [("q.core", ImpRefs ["none.such"; "skipped"; "json"]); ("none", ImpRefs ["tool.box"])].
Definition imply_open : st := Eval vm_compute in snd (the_calls pair_world [AExcludes ["skipped"]; AImplies imply_more] (init pair_implies [] [])).
Definition imply_1 : st := Eval vm_compute in snd (the_calls pair_world [AAddScript "main.py"; AAddScript "tool.py"] imply_open).
Definition imply_conf : list (string * implied) := s_lazy imply_open.
Lemma imply_opened : session pair_world pair_implies imply_conf imply_open.
Proof.
  apply se_open; [|reflexivity]. eapply (op_imply _ _ pair_open 60 imply_more); [|vm_compute; reflexivity|discriminate].
  eapply (op_exclude _ _ (init pair_implies [] []) 60 ["skipped"]); [apply op_init|vm_compute; reflexivity|discriminate].
Qed.
Lemma imply_first : session pair_world pair_implies imply_conf imply_1.
Proof. eapply (calls_session _ _ _ 60 [AAddScript "main.py"; AAddScript "tool.py"]); [exact imply_opened|reflexivity|vm_compute; reflexivity|reflexivity]. Qed.
Definition more_refs_b (c1 c2 : list (string * implied)) : bool :=
  forallb (fun x => match assoc x c1, assoc x c2 with
                    | Some ImpNone, Some ImpNone => true
                    | Some (ImpAlias a), Some (ImpAlias b) => seqb a b
                    | Some (ImpRefs l), Some (ImpRefs l') => forallb (fun a => memb a l') l
                    | None, Some (ImpRefs _) | None, None => true
                    | _, _ => false end) (map fst c1 ++ map fst c2)%list.
Lemma more_refs_bool c1 c2 : more_refs_b c1 c2 = true -> more_refs c1 c2.
Proof.
  intros H x. unfold more_refs_b in H. rewrite forallb_forall in H.
  destruct (assoc x c1) as [i|] eqn:E1.
  - assert (K : In x (map fst c1 ++ map fst c2)%list) by (apply in_app_iff; left; apply assoc_In in E1; exact (in_map fst _ _ E1)).
    apply H in K. rewrite E1 in K. destruct i as [|a|a|l], (assoc x c2) as [[|b|b|l']|]; try discriminate K; [now left|left; apply seqb_eq in K; now subst|].
    right. exists l'. split; [reflexivity|]. right. exists l. split; [reflexivity|]. rewrite forallb_forall in K. intros y Hy. apply K in Hy. now apply memb_In in Hy.
  - destruct (assoc x c2) as [i|] eqn:E2; [|now left].
    assert (K : In x (map fst c1 ++ map fst c2)%list) by (apply in_app_iff; right; apply assoc_In in E2; exact (in_map fst _ _ E2)).
    apply H in K. rewrite E1, E2 in K. destruct i; try discriminate K. right. eauto.
Qed.
Definition imply_reached : list string := ("tool" :: "tool.box" :: pair_reached)%list.
Example C89_nonvacuous :
  implying pair_world (found_in pair_modules) (fun _ => False) pair_conf imply_conf pair_1 imply_1
  /\ settled pair_world (found_in pair_modules) pair_1 /\ settled pair_world (found_in pair_modules) imply_1 /\ same_roots pair_1 imply_1
  /\ reaches (s_graph pair_1) "q.core" /\ further pair_conf imply_conf "q.core" "skipped" /\ ~ In ("q.core", "skipped") (edge_pairs pair_1)
  /\ In ("q.core", "skipped") (edge_pairs imply_1) /\ behind (s_graph pair_1) (further pair_conf imply_conf) (s_graph imply_1) "tool"
  /\ ~ in_graph pair_1 "tool".
Proof.
  split.
  { constructor.
    - apply world_order.
    - exact pair_steady.
    - apply more_refs_bool. reflexivity.
    - intros x i [H|H]; apply assoc_In in H; vm_compute in H; repeat (destruct H as [H|H]; [injection H as <- <-; reflexivity|]); destruct H.
    - intros d d' [].
    - exists pair_implies. exact pair_first.
    - exists pair_implies. exact imply_first.
    - now apply same_scripts_b. }
  split; [eapply (settled_bool _ _ _ _ _ _ pair_reached [("q", "name"); ("q", "helper")]); [apply world_order|exact pair_first|vm_compute; reflexivity|exact pair_binds]|].
  split; [eapply (settled_bool _ _ _ _ _ _ imply_reached [("q", "name"); ("q", "helper")]); [apply world_order|exact imply_first|vm_compute; reflexivity|exact pair_binds]|].
  split; [intros x; vm_compute; tauto|].
  assert (M : reaches (s_graph pair_1) "main.py") by (apply re_root; vm_compute; auto).
  assert (T : reaches (s_graph pair_1) "tool.py") by (apply re_root; vm_compute; auto).
  split. { eapply (re_edge _ "q"); [eapply re_edge; [exact M|]|]; vm_compute; repeat (try (left; reflexivity); right). }
  split. { eexists. split; [reflexivity|]. split; [cbn; auto|]. intros (r & K1 & K2). vm_compute in K1. injection K1 as <-. destruct K2 as [K2|[]]. discriminate. }
  split. { intros K. vm_compute in K. repeat (destruct K as [K|K]; [discriminate K|]). destruct K. }
  split. { vm_compute. repeat (try (left; reflexivity); right). }
  split.
  { eapply (bh_edge _ _ _ "tool.box"); [|vm_compute; repeat (try (left; reflexivity); right)]. apply (bh_ref _ _ _ "none").
    - eapply (re_edge _ "none.such"); [eapply re_edge; [exact T|]|]; vm_compute; repeat (try (left; reflexivity); right).
    - eexists. split; [reflexivity|]. split; [cbn; auto|]. intros (r & K1 & _). discriminate. }
  intros K. now apply K.
Qed.

(** "import json" in package pkg, "from pkg import json" in pkg.sub: a reference of first
    to pkg.sub has the imports of pkg.sub handled before those of pkg, and the edge from
    pkg.sub to json is gone. *)
Definition soon_modules : list (string * entry) := (("first", ENamespace) :: early_modules)%list.
Definition soon_world : env := world soon_modules [] [].
Definition soon_open : st := Eval vm_compute in snd (the_calls soon_world [AImplies [("first", ImpRefs ["pkg.sub"])]] new).
Definition soon_calls : list action := [AAddModule "first"; AAddModule "pkg"; AAddModule "pkg.sub"].
Definition soon_1 : st := Eval vm_compute in snd (the_calls soon_world soon_calls new).
Definition soon_2 : st := Eval vm_compute in snd (the_calls soon_world soon_calls soon_open).
Lemma soon_opened : session soon_world [] (s_lazy soon_open) soon_open.
Proof. apply se_open; [|reflexivity]. eapply (op_imply _ _ new 60 [("first", ImpRefs ["pkg.sub"])]); [apply op_init|vm_compute; reflexivity|discriminate]. Qed.
Lemma soon_new : session soon_world [] (s_lazy new) new.
Proof. apply se_open; [apply op_init|reflexivity]. Qed.
Lemma soon_implying : implying soon_world (found_in soon_modules) (fun _ => False) (s_lazy new) (s_lazy soon_open) soon_1 soon_2.
Proof.
  constructor.
  - apply world_order.
  - now apply world_steady.
  - apply more_refs_bool. reflexivity.
  - intros x i [H|H]; apply assoc_In in H; vm_compute in H; repeat (destruct H as [H|H]; [injection H as <- <-; reflexivity|]); destruct H.
  - intros d d' [].
  - exists []. eapply (calls_session _ _ _ 60 soon_calls); [exact soon_new|reflexivity|vm_compute; reflexivity|reflexivity].
  - exists []. eapply (calls_session _ _ _ 60 soon_calls); [exact soon_opened|reflexivity|vm_compute; reflexivity|reflexivity].
  - now apply same_scripts_b.
Qed.

Theorem C89_refuted : ~ C89_statement.
Proof.
  intros H. assert (R : same_roots soon_1 soon_2) by (intros x; vm_compute; tauto).
  destruct (H _ _ _ _ _ _ _ soon_implying (tidy_bool soon_1 eq_refl) (tidy_bool soon_2 eq_refl) R) as [K _].
  destruct (K "pkg.sub") as (_ & _ & L); [apply re_root; vm_compute; auto|].
  assert (D : exists d, has_edge (s_graph soon_1) "pkg.sub" "json" d).
  { eexists. eexists. split; [vm_compute; repeat (try (left; reflexivity); right)|]. now left. }
  destruct D as (d & D). apply L in D as (ds & D & _). vm_compute in D. repeat (destruct D as [D|D]; [discriminate D|]). destruct D.
Qed.

Print Assumptions C89_refuted.
Print Assumptions C89_kept_partial.
Print Assumptions C89_added_partial.
