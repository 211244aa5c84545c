(** C95: more import statements only add. *)
From Verif Require Import ReportSpec BuilderSource BuilderHist BuilderInv BuilderCalls World AstProofs PropsBuilder PropsCalls PropsHooks PropsRoots PropsSource PropsReach SeedSpec BuilderSame PropsSame PropsSeed MoreSpec.
Open Scope string_scope.

Lemma more_refl l : more_statements l l.
Proof. exact (proj1 (restated_refl l)). Qed.
Lemma akin_refl n : akin n n.
Proof. repeat split. Qed.

(** ** Statements and nodes *)
Lemma extract_more o o' t t' l l' : set_order o -> set_order o' -> plain_lists t -> more_imports t t' ->
  extract_ast_info o t = Some l -> extract_ast_info o' t' = Some l' -> more_statements l l'.
Proof.
  intros Ho Ho' Hp Hm H H'. destruct (extract_complete o t Ho) as (out & k & A & B & C). destruct (extract_complete o' t' Ho') as (out' & k' & A' & B' & C').
  rewrite A in H. injection H as <-. rewrite A' in H'. injection H' as <-.
  intros i Hi. apply (Permutation_in _ (Permutation_sym B)) in Hi.
  assert (L : exists p w, In (p, w) (sites [] t) /\ states (p, w) i).
  { clear - C Hi. induction C as [|[p w] b r k H C IH]; [destruct Hi|]. destruct Hi as [<-|Hi]; [exists p, w; split; [now left|exact H]|].
    destruct (IH Hi) as (p' & w' & I1 & I2). exists p', w'; split; [now right|exact I2]. }
  destruct L as (p & w & L1 & L2). pose proof (Hm _ _ L1) as L3.
  assert (L : exists i', In i' k' /\ states (p, w) i').
  { clear - C' L3. induction C' as [|x b r k H C IH]; [destruct L3|]. destruct L3 as [->|L3]; [exists b; split; [now left|exact H]|].
    destruct (IH L3) as (i' & I1 & I2). exists i'; split; [now right|exact I2]. }
  destruct L as (i' & L4 & L5). exists i'. split; [now apply (Permutation_in _ B')|].
  eapply states_shuffled; [|exact L2|exact L5]. destruct w as [n a|m names level]; [exact Logic.I|]. eapply Hp. exact L1.
Qed.
Lemma extract_some o t : set_order o -> exists l, extract_ast_info o t = Some l.
Proof. intros H. destruct (extract_complete o t H) as (out & k & A & _). now exists out. Qed.

Section nodes.
  Variables E E' : env.
  Variables find find' : string -> option spec.
  Hypothesis HX : extended E E' find find'.
  Hypothesis HO : set_order (e_names_order E).
  Hypothesis HO' : set_order (e_names_order E').
  Hypothesis HP : plain_sources E.
  Hypothesis HS' : steady E' find'.
  Let HR : E' = recode E (e_find_spec E') (e_script E') (e_names_order E') (e_order E') := ex_env _ _ _ _ HX.

  Lemma source_more sp src s si s1 : source_imports E sp src s = Some (ROk si, s1) ->
    exists si', source_imports E' sp src s = Some (ROk si', s1)
      /\ (si' = si \/ exists l l', si = inr (Some l) /\ si' = inr (Some l') /\ restated l l').
  Proof.
    assert (K : e_parse E' = e_parse E) by (rewrite HR; reflexivity).
    unfold source_imports. rewrite K. intros H. destruct src as [text|]; [|exists si; split; [exact H|now left]].
    destruct (sp_origin sp) as [f|]; [|discriminate]. apply ok_bind in H as (r & s2 & H2 & H). unfold bind. rewrite H2.
    destruct r as [t|e]; [|exists si; split; [exact H|now left]].
    destruct (extract_ast_info (e_names_order E) t) as [l|] eqn:El; [|discriminate]. injection H as <- <-.
    destruct (extract_restated _ (e_names_order E') t l HO HO') as (l' & L1 & L2); [|exact El|].
    - unfold attempt, askr in H2. injection H2 as H2 _. eapply (proj1 HP). exact H2.
    - rewrite L1. exists (inr (Some l')). split; [reflexivity|]. right. now exists l, l'.
  Qed.
  Lemma nfs_kept k sp s n l s' : direct (sp_loader sp) = true -> f_nfs (exec E k) sp s = Some (ROk (n, l), s') ->
    exists l', f_nfs (exec E' k) sp s = Some (ROk (n, l'), s') /\ more_statements l l'.
  Proof.
    assert (KD : forall o b, dist_of E' o b = dist_of E o b) by (rewrite HR; reflexivity).
    assert (KW : forall sp b src mk n l, wrap_package E' sp b src mk n l = wrap_package E sp b src mk n l) by (rewrite HR; reflexivity).
    assert (KC : forall c, code_info E' c = code_info E c) by (rewrite HR; reflexivity).
    intros Hd H. destruct k as [|k]; [discriminate|]. cbn [exec f_nfs] in H |- *. unfold nfs_body in *.
    destruct (sp_loader sp) as [| | | |frozen gs gc| |[[root vendor]|]| |] eqn:El; try discriminate Hd; try discriminate H.
    - exists l. split; [exact H|apply more_refl].
    - exists l. split; [exact H|apply more_refl].
    - exists l. rewrite KW. split; [exact H|apply more_refl].
    - exists l. rewrite KD. split; [|apply more_refl]. apply ok_bind in H as (d & s1 & H1 & H). unfold bind. now rewrite H1, KW.
    - destruct gs as [source|e].
      2:{ exists l. split; [|apply more_refl]. destruct e; try discriminate. rewrite KD. exact H. }
      apply ok_bind in H as (si & s1 & H1 & H). destruct (source_more _ _ _ _ _ H1) as (si' & S1 & S2). unfold bind at 1. rewrite S1.
      apply ok_bind in H as (ci & s2 & H2 & H). unfold bind at 1. rewrite KC, H2.
      apply ok_bind in H as (d & s3 & H3 & H). unfold bind at 1. rewrite KD, H3.
      destruct (match ci with Some x => x | None => ([], [], []) end) as [[bi wr] rd]. rewrite KW.
      destruct S2 as [->|(l1 & l2 & -> & -> & R)]; [exists l; split; [exact H|apply more_refl]|].
      destruct (wrap_lists _ _ _ _ _ _ _ l2 _ _ _ _ H) as [-> H']. exists l2. split; [exact H'|exact (proj1 R)].
  Qed.
  Lemma wrap_edited sp sp' b text text' mk name w r w' r' d file l l' s n0 l0 s' :
    sp_ispkg sp' = sp_ispkg sp -> sp_search sp' = sp_search sp -> memb "__import__" r' = memb "__import__" r ->
    has_sub "pkg_resources" text' = has_sub "pkg_resources" text -> has_sub "pkgutil" text' = has_sub "pkgutil" text ->
    wrap_package E sp b (Some text) mk (Node name (Module mk) w r d file [] false) l s = Some (ROk (n0, l0), s') ->
    l0 = l /\ exists n1, wrap_package E sp' b (Some text') mk (Node name (Module mk) w' r' d file [] false) l' s = Some (ROk (n1, l'), s') /\ akin n0 n1.
  Proof.
    unfold wrap_package. cbn [n_name n_file n_read n_written n_dist]. intros -> -> -> -> -> H. apply ok_bind in H as (p & s1 & H1 & H). unfold bind at 1. rewrite H1.
    destruct p; cbn [negb] in H |- *; [|injection H as <- <- <-; split; [reflexivity|]; eexists; split; [reflexivity|]; repeat split].
    apply ok_bind in H as (search & s2 & H2 & H). unfold bind at 1. rewrite H2. destruct search; [|discriminate].
    apply ok_bind in H as (dd & s3 & H3 & H). unfold bind at 1. rewrite H3. injection H as <- <- <-. split; [reflexivity|]. eexists; split; [reflexivity|]. repeat split.
  Qed.
  Lemma nfs_edited k sp sp' s n l s' : edited E sp sp' -> f_nfs (exec E k) sp s = Some (ROk (n, l), s') ->
    exists n' l', f_nfs (exec E' k) sp' s = Some (ROk (n', l'), s') /\ akin n n' /\ more_statements l l'.
  Proof.
    assert (KD : forall o b, dist_of E' o b = dist_of E o b) by (rewrite HR; reflexivity).
    assert (KW : forall sp b src mk n l, wrap_package E' sp b src mk n l = wrap_package E sp b src mk n l) by (rewrite HR; reflexivity).
    assert (KC : forall c, code_info E' c = code_info E c) by (rewrite HR; reflexivity).
    assert (KP : e_parse E' = e_parse E) by (rewrite HR; reflexivity).
    intros [A1 A2 A3 A4 (frozen & text & text' & c & c' & b & w & r & b' & w' & r' & B1 & B2 & B3 & B4 & B5 & B6 & B7 & B8)] H.
    destruct k as [|k]; [discriminate|]. cbn [exec f_nfs] in H |- *. unfold nfs_body in *. rewrite B1 in H. rewrite B2, A1, A2.
    apply ok_bind in H as (si & s1 & H1 & H). unfold source_imports in H1 |- *. rewrite A2. destruct (sp_origin sp) as [f|] eqn:Eo; [|discriminate].
    apply ok_bind in H1 as (t & s2 & H2 & H1). unfold attempt, askr in H2.
    destruct (B3 (s_clock s) f eq_refl) as (tree & tree' & P1 & P2 & P3). rewrite P1 in H2. injection H2 as <- <-.
    destruct (extract_ast_info (e_names_order E) tree) as [l1|] eqn:El; [|discriminate]. injection H1 as <- <-.
    destruct (extract_some (e_names_order E') tree' HO') as (l2 & El').
    apply ok_bind in H as (ci & s2 & H2 & H). unfold code_info in H2. rewrite B4 in H2. injection H2 as <- <-.
    apply ok_bind in H as (d & s3 & H3 & H). cbn [code_info] in H.
    destruct (wrap_edited _ sp' _ _ text' _ _ _ _ w' r' _ _ _ l2 _ _ _ _ A4 A3 B6 B7 B8 H) as (-> & n1 & W & K).
    exists n1, l2. split; [|split; [exact K|exact (extract_more _ _ _ _ _ _ HO HO' (proj1 HP _ _ _ _ P1) P3 El El')]].
    unfold bind at 1. unfold bind at 1. unfold attempt, askr. rewrite KP, P2, El'. cbn beta iota. unfold ret at 1.
    unfold bind at 1. rewrite KC. unfold code_info. rewrite B5. unfold ret at 1. unfold bind at 1. rewrite KD, H3. rewrite KW. exact W.
  Qed.
  Lemma nfs_more x sp sp' k k' s t s' t' n l n' l' : direct (sp_loader sp) = true -> find x = Some sp -> find' x = Some sp' ->
    f_nfs (exec E k) sp s = Some (ROk (n, l), s') -> f_nfs (exec E' k') sp' t = Some (ROk (n', l'), t') -> akin n n' /\ more_statements l l'.
  Proof.
    intros Hd F F' H H'. destruct (ex_some _ _ _ _ HX _ _ F) as (sp2 & F2 & K). assert (sp2 = sp') by congruence. subst sp2.
    destruct K as [->|K].
    - destruct (nfs_kept _ _ _ _ _ _ Hd H) as (l2 & L1 & L2).
      pose proof (nfs_same E' find' HS' _ _ _ _ _ _ _ _ _ Hd L1 H') as N. injection N as -> ->. split; [apply akin_refl|exact L2].
    - destruct (nfs_edited _ _ _ _ _ _ _ K H) as (n2 & l2 & L1 & L2 & L3).
      pose proof (nfs_same E' find' HS' _ _ _ _ _ _ _ _ _ (sy_direct _ _ HS' _ _ F') L1 H') as N. injection N as -> ->. now split.
  Qed.
End nodes.

(** ** Two builders *)

Section two.
  Variables E1 E2 : env.
  Variables find find2 : string -> option spec.
  Hypothesis HR : extended E1 E2 find find2.
  Hypothesis HO1 : set_order (e_names_order E1).
  Hypothesis HO2 : set_order (e_names_order E2).
  Hypothesis HP : plain_sources E1.
  Variables conf1 conf2 : list (string * implied).
  Hypothesis HS : steady E1 find.
  Hypothesis HS2 : steady E2 find2.
  Hypothesis HT : same_table conf1 conf2.
  Context {DS : dist -> Prop}.
  Hypothesis HD : one_each DS.
  Variables s1 s2 : st.
  Hypothesis J1 : J E1 find conf1 DS s1.
  Hypothesis J2 : J E2 find2 conf2 DS s2.
  Hypothesis HQ : same_scripts s1 s2.

  Lemma births_more x : forall a b n n' l l', gfind (s_graph s1) x = Some a -> gfind (s_graph s2) x = Some b ->
    birth E1 find conf1 DS s1 x n l -> same_node n a -> birth E2 find2 conf2 DS s2 x n' l' -> same_node n' b ->
    (n_kind n = MissingModule /\ l = []) \/ (akin n n' /\ more_statements l l').
  Proof.
    induction x as [x IH] using (induction_ltof1 _ String.length). unfold ltof in IH.
    intros a b n n' l l' Ha Hb B1 S1 B2 S2.
    assert (KA : kind_of s1 x = Some (n_kind n)) by (unfold kind_of; rewrite Ha; cbn; destruct S1 as (_ & -> & _); reflexivity).
    assert (KB : kind_of s2 x = Some (n_kind n')) by (unfold kind_of; rewrite Hb; cbn; destruct S2 as (_ & -> & _); reflexivity).
    assert (IK : forall c k k', starts_with "." x = false -> child_of c x -> kind_of s1 c = Some k -> is_missing k = false -> kind_of s2 c = Some k' -> k = k').
    { intros c k k' H0 Hc K NM K'. unfold kind_of in K, K'. destruct (gfind (s_graph s1) c) as [u|] eqn:Eu; [|discriminate].
      destruct (gfind (s_graph s2) c) as [v|] eqn:Ev; [|discriminate]. injection K as <-. injection K' as <-.
      destruct (j_nodes _ _ _ _ _ J1 _ _ Eu) as (n1 & l1 & _ & P1 & Q1). destruct (j_nodes _ _ _ _ _ J2 _ _ Ev) as (n2 & l2 & _ & P2 & Q2).
      destruct (IH c (child_shorter _ _ H0 Hc) _ _ _ _ _ _ Eu Ev P1 Q1 P2 Q2) as [[MK _]|[(_ & AK & _) _]].
      { destruct Q1 as (_ & Q1 & _). rewrite Q1, MK in NM. discriminate. }
      destruct Q1 as (_ & -> & _), Q2 as (_ & -> & _). now symmetry. }
    destruct (script_or (n_kind n)) as [Es|Es].
    - assert (Es' : n_kind n' = Script).
      { destruct (HQ x) as [[X _] _]; [unfold in_graph; congruence..|]. rewrite Es in KA. apply X in KA. congruence. }
      destruct (birth_kind _ _ HS _ _ _ _ _ _ B1 Es) as (t & tr & A1 & A2 & ->). destruct (birth_kind _ _ HS2 _ _ _ _ _ _ B2 Es') as (t' & tr' & A1' & A2' & ->).
      right. split; [apply akin_refl|].
      exact (extract_more _ _ _ _ _ _ HO1 HO2 (proj2 HP _ _ _ A1) (ex_script _ _ _ _ HR _ _ _ _ _ A1 A1') A2 A2').
    - assert (Es' : n_kind n' <> Script).
      { intros K. destruct (HQ x) as [[_ X] _]; [unfold in_graph; congruence..|]. rewrite K in KB. apply X in KB. congruence. }
      destruct (dist_or (n_kind n)) as [Ed|Ed].
      { assert (Ed' : n_kind n' = Distribution).
        { destruct (HQ x) as [_ [X _]]; [unfold in_graph; congruence..|]. rewrite Ed in KA. apply X in KA. congruence. }
        destruct (birth_dist _ _ HS _ _ _ _ _ _ B1 Ed) as (d & A1 & A2 & -> & ->). destruct (birth_dist _ _ HS2 _ _ _ _ _ _ B2 Ed') as (d' & A1' & A2' & -> & ->).
        rewrite (HD d d'); [right; split; [apply akin_refl|apply more_refl]|exact A1|exact A1'|congruence]. }
      assert (Ed' : n_kind n' <> Distribution).
      { intros K. destruct (HQ x) as [_ [_ X]]; [unfold in_graph; congruence..|]. rewrite K in KB. apply X in KB. congruence. }
      assert (AB : forall c k, above s1 x -> starts_with "." x = false -> child_of c x -> kind_of s2 c = Some k -> is_missing k || is_excluded k = true -> False).
      { intros c k [_ Q] H0 Hc K1 K2. destruct (Q c Hc) as (k' & K3 & K4 & K5). rewrite <- (IK c k' k H0 Hc K3 K4 K1), K4, K5 in K2. discriminate. }
      assert (BA : forall c k, above s2 x -> starts_with "." x = false -> child_of c x -> kind_of s1 c = Some k -> is_missing k || is_excluded k = true ->
        k = MissingModule).
      { intros c k [_ Q] H0 Hc K1 K2. destruct (Q c Hc) as (k' & K3 & K4 & K5). destruct (is_missing k) eqn:NM; [destruct k; try discriminate NM; reflexivity|].
        rewrite (IK c k k' H0 Hc K1 NM K3), K5 in K2. discriminate. }
      pose proof (more_refl []) as R0.
      destruct B1 as [t tree l A B|d0 A B|A|c k A B C D|i k A B C|A B C|sp n l k t1 t2 A B C D]; [now elim Es|now elim Ed|..];
      destruct B2 as [t' tree' l' A' B'|d0' A' B'|A'|c' k' A' B' C' D'|i' k' A' B' C'|A' B' C'|sp' n' l' k' t1' t2' A' B' C' D']; try (now elim Es'); try (now elim Ed');
      try (match goal with H : above _ _ |- _ => destruct H as [H _] end; congruence);
      try congruence; try (exfalso; eauto; fail).
      + right. now split.
      + assert (c' = c) by (eapply child_one; eassumption). subst c'. destruct (is_missing k) eqn:NM; [left; destruct k; try discriminate NM; now split|].
        rewrite (IK c k k' A B C NM C'). right. now split.
      + left. rewrite (BA c k A' A B C D). now split.
      + left. rewrite (BA c k A' A B C D). now split.
      + left. rewrite (BA c k A' A B C D). now split.
      + rewrite <- HT in B'. rewrite B in B'. injection B' as <-. rewrite C in C'. injection C' as <-. right. now split.
      + exfalso. rewrite HT in B. destruct (B' i B) as [K _]. congruence.
      + exfalso. rewrite HT in B. destruct (B' i B) as [K _]. congruence.
      + left. now split.
      + left. now split.
      + left. now split.
      + exfalso. rewrite <- HT in B'. destruct (B i' B') as [K _]. congruence.
      + exfalso. destruct (ex_some _ _ _ _ HR _ _ C) as (sp2 & C2 & _). congruence.
      + right. exact (nfs_more E1 E2 find find2 HR HO1 HO2 HP HS2 x _ _ _ _ _ _ _ _ _ _ _ _ (sy_direct _ _ HS _ _ C) C C' D D').
  Qed.
End two.

(** When no module is found that was not found before, missing modules remain missing. *)
Section known.
  Variables E1 E2 : env.
  Variables find find2 : string -> option spec.
  Hypothesis HR : extended E1 E2 find find2.
  Hypothesis HN : nothing_new find find2.
  Hypothesis HO1 : set_order (e_names_order E1).
  Hypothesis HO2 : set_order (e_names_order E2).
  Hypothesis HP : plain_sources E1.
  Variables conf1 conf2 : list (string * implied).
  Hypothesis HS : steady E1 find.
  Hypothesis HS2 : steady E2 find2.
  Hypothesis HT : same_table conf1 conf2.
  Context {DS : dist -> Prop}.
  Hypothesis HD : one_each DS.
  Variables s1 s2 : st.
  Hypothesis J1 : J E1 find conf1 DS s1.
  Hypothesis J2 : J E2 find2 conf2 DS s2.
  Hypothesis HQ : same_scripts s1 s2.

  Lemma births_akin x : forall a b n n' l l', gfind (s_graph s1) x = Some a -> gfind (s_graph s2) x = Some b ->
    birth E1 find conf1 DS s1 x n l -> same_node n a -> birth E2 find2 conf2 DS s2 x n' l' -> same_node n' b -> akin n n' /\ more_statements l l'.
  Proof.
    induction x as [x IH] using (induction_ltof1 _ String.length). unfold ltof in IH.
    intros a b n n' l l' Ha Hb B1 S1 B2 S2.
    assert (KA : kind_of s1 x = Some (n_kind n)) by (unfold kind_of; rewrite Ha; cbn; destruct S1 as (_ & -> & _); reflexivity).
    assert (KB : kind_of s2 x = Some (n_kind n')) by (unfold kind_of; rewrite Hb; cbn; destruct S2 as (_ & -> & _); reflexivity).
    assert (IK : forall c k k', starts_with "." x = false -> child_of c x -> kind_of s1 c = Some k -> kind_of s2 c = Some k' -> k = k').
    { intros c k k' H0 Hc K K'. unfold kind_of in K, K'. destruct (gfind (s_graph s1) c) as [u|] eqn:Eu; [|discriminate].
      destruct (gfind (s_graph s2) c) as [v|] eqn:Ev; [|discriminate]. injection K as <-. injection K' as <-.
      destruct (j_nodes _ _ _ _ _ J1 _ _ Eu) as (n1 & l1 & _ & P1 & Q1). destruct (j_nodes _ _ _ _ _ J2 _ _ Ev) as (n2 & l2 & _ & P2 & Q2).
      destruct (IH c (child_shorter _ _ H0 Hc) _ _ _ _ _ _ Eu Ev P1 Q1 P2 Q2) as [(_ & AK & _) _].
      destruct Q1 as (_ & -> & _), Q2 as (_ & -> & _). now symmetry. }
    destruct (script_or (n_kind n)) as [Es|Es].
    - assert (Es' : n_kind n' = Script).
      { destruct (HQ x) as [[X _] _]; [unfold in_graph; congruence..|]. rewrite Es in KA. apply X in KA. congruence. }
      destruct (birth_kind _ _ HS _ _ _ _ _ _ B1 Es) as (t & tr & A1 & A2 & ->). destruct (birth_kind _ _ HS2 _ _ _ _ _ _ B2 Es') as (t' & tr' & A1' & A2' & ->).
      split; [apply akin_refl|].
      exact (extract_more _ _ _ _ _ _ HO1 HO2 (proj2 HP _ _ _ A1) (ex_script _ _ _ _ HR _ _ _ _ _ A1 A1') A2 A2').
    - assert (Es' : n_kind n' <> Script).
      { intros K. destruct (HQ x) as [[_ X] _]; [unfold in_graph; congruence..|]. rewrite K in KB. apply X in KB. congruence. }
      destruct (dist_or (n_kind n)) as [Ed|Ed].
      { assert (Ed' : n_kind n' = Distribution).
        { destruct (HQ x) as [_ [X _]]; [unfold in_graph; congruence..|]. rewrite Ed in KA. apply X in KA. congruence. }
        destruct (birth_dist _ _ HS _ _ _ _ _ _ B1 Ed) as (d & A1 & A2 & -> & ->). destruct (birth_dist _ _ HS2 _ _ _ _ _ _ B2 Ed') as (d' & A1' & A2' & -> & ->).
        rewrite (HD d d'); [split; [apply akin_refl|apply more_refl]|exact A1|exact A1'|congruence]. }
      assert (Ed' : n_kind n' <> Distribution).
      { intros K. destruct (HQ x) as [_ [_ X]]; [unfold in_graph; congruence..|]. rewrite K in KB. apply X in KB. congruence. }
      assert (AB : forall c k, above s1 x -> starts_with "." x = false -> child_of c x -> kind_of s2 c = Some k -> is_missing k || is_excluded k = true -> False).
      { intros c k [_ Q] H0 Hc K1 K2. destruct (Q c Hc) as (k' & K3 & K4 & K5). rewrite <- (IK c k' k H0 Hc K3 K1), K4, K5 in K2. discriminate. }
      assert (BA : forall c k, above s2 x -> starts_with "." x = false -> child_of c x -> kind_of s1 c = Some k -> is_missing k || is_excluded k = true -> False).
      { intros c k [_ Q] H0 Hc K1 K2. destruct (Q c Hc) as (k' & K3 & K4 & K5). rewrite (IK c k k' H0 Hc K1 K3), K4, K5 in K2. discriminate. }
      pose proof (more_refl []) as R0.
      destruct B1 as [t tree l A B|d0 A B|A|c k A B C D|i k A B C|A B C|sp n l k t1 t2 A B C D]; [now elim Es|now elim Ed|..];
      destruct B2 as [t' tree' l' A' B'|d0' A' B'|A'|c' k' A' B' C' D'|i' k' A' B' C'|A' B' C'|sp' n' l' k' t1' t2' A' B' C' D']; try (now elim Es'); try (now elim Ed');
      try (match goal with H : above _ _ |- _ => destruct H as [H _] end; congruence);
      try congruence; try (exfalso; eauto; fail).
      + now split.
      + assert (c' = c) by (eapply child_one; eassumption). subst c'. rewrite (IK c k k' A B C C'). now split.
      + rewrite <- HT in B'. rewrite B in B'. injection B' as <-. rewrite C in C'. injection C' as <-. now split.
      + exfalso. rewrite HT in B. destruct (B' i B) as [K _]. congruence.
      + exfalso. rewrite HT in B. destruct (B' i B) as [K _]. congruence.
      + exfalso. rewrite <- HT in B'. destruct (B i' B') as [K _]. congruence.
      + now split.
      + exfalso. apply HN in C. congruence.
      + exfalso. rewrite <- HT in B'. destruct (B i' B') as [K _]. congruence.
      + exfalso. destruct (ex_some _ _ _ _ HR _ _ C) as (sp2 & C2 & _). congruence.
      + exact (nfs_more E1 E2 find find2 HR HO1 HO2 HP HS2 x _ _ _ _ _ _ _ _ _ _ _ _ (sy_direct _ _ HS _ _ C) C C' D D').
  Qed.
End known.

(** Missing modules have no imports. *)
Lemma missing_birth E find conf DS s x n l : steady E find -> birth E find conf DS s x n l -> n_kind n = MissingModule -> l = [].
Proof.
  intros HS [t tree l0 A B|d0 A B|A|c k A B C D|i k A B C|A B C|sp n0 l0 k t1 t2 A B C D] K; try reflexivity; try discriminate K.
  destruct (nfs_kind E k sp t1 n0 l0 t2 (sy_direct _ _ HS _ _ C) D) as [_ N]. rewrite K in N. destruct N.
Qed.

Section pair.
  Variables E1 E2 : env.
  Variables find find2 : string -> option spec.
  Hypothesis HR : extended E1 E2 find find2.
  Hypothesis HO1 : set_order (e_names_order E1).
  Hypothesis HO2 : set_order (e_names_order E2).
  Hypothesis HP : plain_sources E1.
  Variables implies1 implies2 conf1 conf2 : list (string * implied).
  Hypothesis HE1 : order_ok E1.
  Hypothesis HE2 : order_ok E2.
  Hypothesis HS : steady E1 find.
  Hypothesis HS2 : steady E2 find2.
  Hypothesis HT : same_table conf1 conf2.
  Hypothesis HC : forall x i, assoc x conf1 = Some i -> starts_with "." x = false.
  Variables s1 s2 : st.
  Context {DS : dist -> Prop}.
  Hypothesis HD : one_each DS.
  Hypothesis X1 : dsession E1 DS implies1 conf1 s1.
  Hypothesis X2 : dsession E2 DS implies2 conf2 s2.
  Hypothesis HQ : same_scripts s1 s2.

  Lemma more_HC2 : forall x i, assoc x conf2 = Some i -> starts_with "." x = false.
  Proof. intros x i. rewrite <- HT. apply HC. Qed.
  Let W1 : JW E1 find conf1 DS s1 := one_JW E1 find implies1 conf1 HE1 HS HC s1 X1.
  Let W2 : JW E2 find2 conf2 DS s2 := one_JW E2 find2 implies2 conf2 HE2 HS2 more_HC2 s2 X2.

  Lemma more_alike x a b : gfind (s_graph s1) x = Some a -> gfind (s_graph s2) x = Some b -> n_kind a = MissingModule \/ akin a b.
  Proof.
    intros Ha Hb. destruct (j_nodes _ _ _ _ _ (w_inv _ _ _ _ _ W1) _ _ Ha) as (n1 & l1 & _ & P1 & Q1).
    destruct (j_nodes _ _ _ _ _ (w_inv _ _ _ _ _ W2) _ _ Hb) as (n2 & l2 & _ & P2 & Q2).
    destruct (births_more E1 E2 find find2 HR HO1 HO2 HP conf1 conf2 HS HS2 HT HD s1 s2 (w_inv _ _ _ _ _ W1) (w_inv _ _ _ _ _ W2) HQ x _ _ _ _ _ _ Ha Hb P1 Q1 P2 Q2) as [[K _]|[(K1 & K2 & K3 & K4 & K5 & K6) _]]; [left; destruct Q1 as (_ & -> & _); exact K|right].
    destruct Q1 as (A1 & A2 & A3 & A4 & A5 & A6 & A7 & _), Q2 as (B1 & B2 & B3 & B4 & B5 & B6 & B7 & _).
    unfold akin. repeat split; congruence.
  Qed.
  Lemma more_akin (HN : nothing_new find find2) x a b : gfind (s_graph s1) x = Some a -> gfind (s_graph s2) x = Some b -> akin a b.
  Proof.
    intros Ha Hb. destruct (j_nodes _ _ _ _ _ (w_inv _ _ _ _ _ W1) _ _ Ha) as (n1 & l1 & _ & P1 & Q1).
    destruct (j_nodes _ _ _ _ _ (w_inv _ _ _ _ _ W2) _ _ Hb) as (n2 & l2 & _ & P2 & Q2).
    destruct (births_akin E1 E2 find find2 HR HN HO1 HO2 HP conf1 conf2 HS HS2 HT HD s1 s2 (w_inv _ _ _ _ _ W1) (w_inv _ _ _ _ _ W2) HQ x _ _ _ _ _ _ Ha Hb P1 Q1 P2 Q2) as [(K1 & K2 & K3 & K4 & K5 & K6) _].
    destruct Q1 as (A1 & A2 & A3 & A4 & A5 & A6 & A7 & _), Q2 as (B1 & B2 & B3 & B4 & B5 & B6 & B7 & _).
    unfold akin. repeat split; congruence.
  Qed.
  Lemma more_stmts x l : In (EvAdd x l) (s_log s1) -> in_graph s2 x -> l = [] \/ (kind_of s1 x <> Some MissingModule /\ exists l', In (EvAdd x l') (s_log s2) /\ more_statements l l').
  Proof.
    intros A B. destruct (j_added _ _ _ _ _ (w_inv _ _ _ _ _ W1) _ _ A) as (a & n1 & Ha & P1 & Q1 & NK).
    destruct (gfind (s_graph s2) x) as [b|] eqn:Hb; [|now elim B].
    destruct (j_nodes _ _ _ _ _ (w_inv _ _ _ _ _ W2) _ _ Hb) as (n2 & l2 & K & P2 & Q2).
    destruct (births_more E1 E2 find find2 HR HO1 HO2 HP conf1 conf2 HS HS2 HT HD s1 s2 (w_inv _ _ _ _ _ W1) (w_inv _ _ _ _ _ W2) HQ x _ _ _ _ _ _ Ha Hb P1 Q1 P2 Q2) as [[_ K0]|[(_ & AK & _) R]]; [now left|].
    destruct (kind_of s1 x) as [[]|] eqn:KM; try (right; split; [discriminate|]; exists l2; destruct K as [K|K]; [now split|elim NK; congruence]).
    left. unfold kind_of in KM. rewrite Ha in KM. injection KM as KM. destruct Q1 as (_ & Q1 & _). rewrite Q1 in KM.
    eapply missing_birth; [exact HS|exact P1|exact KM].
  Qed.
  Lemma more_stmt x i : stmt s1 x i -> in_graph s2 x ->
    exists l i', In (EvAdd x l) (s_log s2) /\ In i' l /\ shuffled i i' /\ kind_of s1 x <> Some MissingModule.
  Proof.
    intros [_ (l & A & B)] C. destruct (more_stmts x l A C) as [->|(NM & l' & D & R)]; [destruct B|]. destruct (R i B) as (i' & I1 & I2). now exists l', i'.
  Qed.
  Lemma more_kind x k : k <> MissingModule -> kind_of s1 x = Some k -> in_graph s2 x -> kind_of s2 x = Some k.
  Proof.
    unfold kind_of, in_graph. intros NM A B. destruct (gfind (s_graph s1) x) as [a|] eqn:Ha; [|discriminate].
    destruct (gfind (s_graph s2) x) as [b|] eqn:Hb; [|now elim B]. injection A as <-. cbn. f_equal. destruct (more_alike x a b Ha Hb) as [K|K]; [now elim NM|apply K].
  Qed.
  Lemma more_pkg x b : kind_of s1 x <> Some MissingModule -> pkg_node s1 x b -> in_graph s2 x -> pkg_node s2 x b.
  Proof. intros NM (k & A & ->) B. exists k. split; [apply more_kind; [congruence|exact A|exact B]|reflexivity]. Qed.
  Lemma more_aims x i m : kind_of s1 x <> Some MissingModule -> aims s1 x i m -> in_graph s2 x -> aims s2 x i m.
  Proof. intros NM (b & A & B) C. exists b. split; [now apply more_pkg|exact B]. Qed.

  Lemma more_plain x : plainly s1 x -> in_graph s2 x -> (kind_of s2 x <> Some Script /\ kind_of s2 x <> Some Distribution) /\ starts_with "." x = false.
  Proof. intros (A & [B B'] & C) D. split; [|exact C]. destruct (HQ x A D) as [K1 K2]. split; intros K; [apply B, K1, K|apply B', K2, K]. Qed.
  Lemma more_target x t : kind_of s2 x = Some (AliasNode t) \/ kind_of s2 x = Some (VirtualNode t) ->
    in_graph s2 x /\ has_edge (s_graph s2) x t (Dep false true false None).
  Proof.
    intros K. assert (I2 : in_graph s2 x) by (apply in_kind; destruct K; eauto). split; [exact I2|].
    destruct (w_nodes _ _ _ _ _ W2 x I2) as [[D|D]|[D|[D|(D & _)]]].
    - destruct K; congruence.
    - apply dist_paid_kind in D. destruct K; congruence.
    - unfold kind_of in K. destruct (gfind (s_graph s2) x) as [n|] eqn:Ex; [|destruct K; discriminate].
      destruct (placed_kind _ _ _ HS2 _ _ _ _ (w_inv _ _ _ _ _ W2) Ex) as [[L|[L _]]|[[L _]|[L _]]]; [| | |destruct D; congruence]; cbn in K; rewrite L in K; destruct K; discriminate.
    - now apply (pd_target _ _ _ D).
    - now apply (pd_target _ _ _ D).
  Qed.

  Lemma more_names n l i m nd : kind_of s1 n <> Some MissingModule -> In (EvAdd n l) (s_log s2) -> In i l -> BuilderSame.names_of s1 n i m nd -> in_graph s2 n ->
    exists nd2, BuilderSame.names_of s2 n i m nd2 /\ akin nd nd2.
  Proof.
    intros NM A B (m0 & C & D & F & G & K) I2. pose proof (more_aims _ _ _ NM C I2) as C2.
    destruct (one_aims E2 implies2 conf2 HE2 s2 X2 n l i m0 A B C2) as [He _].
    destruct (one_ends E2 implies2 conf2 HE2 s2 X2 _ _ _ He) as [_ Im].
    assert (D2 : m = m0 \/ kind_of s2 m0 = Some (AliasNode m)) by (destruct D as [D|D]; [now left|right; apply more_kind; [discriminate|exact D|exact Im]]).
    assert (Jm : in_graph s2 m).
    { destruct D2 as [->|D2]; [exact Im|]. destruct (more_target m0 m (or_introl D2)) as [_ L].
      apply (one_ends E2 implies2 conf2 HE2 s2 X2 _ _ _ L). }
    destruct (gfind (s_graph s2) m) as [nd2|] eqn:Em; [|now elim Jm]. exists nd2. destruct (more_alike m nd nd2 F Em) as [L|L]; [rewrite L in G; discriminate|].
    split; [|exact L]. exists m0. split; [exact C2|]. split; [exact D2|]. split; [exact Em|]. destruct L as (_ & -> & _). now split.
  Qed.

  Lemma more_edge a b d : no_repair E1 E2 find find2 s1 -> settled E1 find s1 -> settled E2 find2 s2 -> has_edge (s_graph s1) a b d -> reaches (s_graph s2) a ->
    has_edge (s_graph s2) a b d.
  Proof.
    intros NR Z1 Z2 He Hr. pose proof (one_reaches E2 implies2 conf2 HE2 s2 X2 a Hr) as I2.
    destruct (one_ends E1 implies1 conf1 HE1 s1 X1 _ _ _ He) as [I1 Ib].
    destruct (j_edges _ _ _ _ _ (w_inv _ _ _ _ _ W1) _ _ _ He)
      as [i A B C|i p A B C D F|i m nd nm A B C D F L K|i m nd nm A B C D F K|x nd A B C|A B C|refs A0 A B C|A B|x i k f A B C|nd dd A B C D F].
    - destruct (more_stmt _ _ A I2) as (l & i' & A2 & A' & Sh & NM). rewrite C, <- (proj1 (shuffled_dep _ _ Sh)).
      eapply (one_aims E2 implies2 conf2 HE2 s2 X2); [exact A2|exact A'|]. eapply shuffled_aims; [exact Sh|]. now apply more_aims.
    - destruct (more_stmt _ _ A I2) as (l & i' & A2 & A' & Sh & NM). destruct (shuffled_dep _ _ Sh) as (_ & _ & D1 & D2).
      rewrite D, F, <- D1, <- D2. eapply (one_beyond E2 implies2 conf2 HE2 s2 X2);
        [exact A2|exact A'|eapply more_pkg; eassumption|eapply shuffled_beyond; eassumption].
    - destruct (more_stmt _ _ A I2) as (l & i' & A2 & A' & Sh & NM). apply (shuffled_names _ _ _ i') in B; [|exact Sh].
      destruct (shuffled_dep _ _ Sh) as (_ & Nd & _). rewrite <- Nd in K. destruct Sh as (_ & _ & _ & _ & _ & _ & Sn). apply Sn in D.
      destruct (more_names _ _ _ _ _ NM A2 A' B I2) as (nd2 & B2 & S2). pose proof S2 as (_ & Sk & _).
      assert (F2 : gfind (s_graph s2) m = Some nd2) by (destruct B2 as (m0 & _ & _ & K2 & _); exact K2).
      assert (Own : In (in_name nm) (n_written nd2) -> (forall t, ~ provides (s_graph s2) m (in_name nm) t)
                /\ (is_package (n_kind nd2) = true -> binds E2 find2 m (in_name nm))).
      { intros K2. eapply (se_own _ _ _ Z2 a i' nm m nd2);
          [eapply (one_scheduled E2 implies2 conf2 HE2 s2 X2); eassumption|eapply names_of_source; exact B2|exact D|exact F2|exact K2]. }
      destruct (one_names E2 implies2 conf2 HE2 s2 X2 _ _ _ _ _ nm A2 A' B2 D)
        as [(y & t & K1 & K2 & K3 & _)|[(k & K1)|[(t & K1 & K2 & K3)|[(y & t & K1 & K2 & K3 & K4 & K5)|(b' & k & f & ty & x & t & K1 & _)]]]].
      + assert (y = nd2) by congruence. subst y. now elim (proj1 (Own K2) t).
      + unfold kind_of in K1. rewrite F2 in K1. injection K1 as K1. rewrite <- Sk, K1 in C. discriminate.
      + apply (one_resolves E2 implies2 conf2 HE2 s2 X2) in K1. rewrite F, K, <- K1. exact K2.
      + assert (y = nd2) by congruence. subst y. apply (one_resolves E2 implies2 conf2 HE2 s2 X2) in K4. rewrite <- F in K4. subst t.
        destruct (in_kind s1 b) as [X _]. destruct (X Ib) as (kb & Kb). assert (kb = MissingModule) as ->.
        { destruct (is_missing kb) eqn:KM; [destruct kb; try discriminate KM; reflexivity|].
          rewrite (more_kind b kb) in K5; [congruence|intros ->; discriminate KM|exact Kb|apply in_kind; eauto]. }
        rewrite Sk in K2. destruct (L K2) as (k & L1 & L2); [|rewrite Kb in L1; injection L1 as <-; discriminate L2].
        eapply NR; [|rewrite <- F; exact Kb|apply (Own K3); congruence].
        exists a, i, nm. split; [exact (proj1 A)|]. split; [now apply Sn|]. split; [reflexivity|]. destruct B as (m0 & _ & _ & B3 & B4 & _). split; [exact B3|exact B4].
      + unfold kind_of in K1. rewrite F2 in K1. injection K1 as K1.
        pose proof (no_six _ _ _ HS2 _ _ _ _ _ _ _ _ _ (w_inv _ _ _ _ _ W2) F2 K1) as N. discriminate N.
    - exfalso. destruct A as [A _]. destruct (se_own _ _ _ Z1 a i nm m nd A) as [K1 _].
      + eapply names_of_source; exact B.
      + exact C.
      + destruct B as (m0 & _ & _ & B & _). exact B.
      + exact D.
      + now elim (K1 b).
    - subst d. destruct (se_tidy _ _ _ Z1) as [T1 T2]. pose proof (se_script _ _ _ Z1 _ _ _ A) as Sc. rewrite <- B in Sc.
      pose proof A as (n & i & nm & L1 & L2 & L3 & L4 & L5). subst x.
      assert (Hc : child_of b a) by (rewrite B; apply child_plain; [eapply T2|eapply T1]; eassumption).
      assert (Hd : starts_with "." a = false).
      { rewrite <- (child_dots b a Hc). destruct (placed_kind _ _ _ HS _ _ _ _ (w_inv _ _ _ _ _ W1) L4) as [[L|[L _]]|[[L _]|[L _]]]; [| | |exact L];
          rewrite L in L5; discriminate. }
      assert (Hp : plainly s1 a) by (split; [exact I1|now split]). destruct (more_plain a Hp I2) as [P1 P2].
      apply (one_node E2 find2 implies2 conf2 HE2 HS2 more_HC2 s2 X2 a I2 P1 P2); assumption.
    - subst d. destruct (more_plain a B I2) as [P1 P2]. apply (one_node E2 find2 implies2 conf2 HE2 HS2 more_HC2 s2 X2 a I2 P1 P2); assumption.
    - subst d. destruct (more_plain a A0 I2) as [P1 P2]. destruct A as (A1 & A2 & A3). rewrite HT in A3.
      assert (K : In (EvImplied a (ImpRefs refs)) (s_log s2)).
      { destruct (gfind (s_graph s2) a) as [n2|] eqn:En; [|now elim I2].
        destruct (j_nodes _ _ _ _ _ (w_inv _ _ _ _ _ W2) _ _ En) as (n0 & l & _ & P & (_ & S2 & _)).
        assert (Kn : kind_of s2 a = Some (n_kind n0)) by (unfold kind_of; rewrite En; cbn; now rewrite S2).
        destruct P as [t tree l Q1 Q2|d0 Q1 Q2|Q1|c k Q1 Q2 Q3 Q4|i k Q1 Q2 Q3|Q1 Q2 Q3|sp n0 l k t1 t2 Q1 Q2 Q3 Q4].
        - elim (proj1 P1). exact Kn.
        - elim (proj2 P1). exact Kn.
        - congruence.
        - exfalso. destruct (proj2 A2 c Q2) as (k' & L1 & L2 & L3). assert (kind_of s2 c = Some k') by (apply more_kind; [intros ->; discriminate L2|exact L1|apply in_kind; eauto]).
          assert (k' = k) by congruence. subst k'. rewrite L2, L3 in Q4. discriminate.
        - rewrite A3 in Q2. injection Q2 as <-. discriminate.
        - apply (Q2 _ A3).
        - apply (Q2 _ A3). }
      exact (w_refs _ _ _ _ _ W2 _ _ K b B).
    - subst d. apply more_target. destruct A as [A|A]; [left|right]; (apply more_kind; [discriminate|exact A|exact I2]).
    - subst d. assert (A2 : kind_of s2 a = Some (Package x i k f (Some b))) by (apply more_kind; [discriminate|exact A|exact I2]).
      destruct (w_nodes _ _ _ _ _ W2 a I2) as [[D|D]|[D|[D|(D & _)]]].
      + congruence.
      + apply dist_paid_kind in D. congruence.
      + unfold kind_of in A2. destruct (gfind (s_graph s2) a) as [n|] eqn:Ex; [|discriminate]. injection A2 as A2.
        destruct (placed_kind _ _ _ HS2 _ _ _ _ (w_inv _ _ _ _ _ W2) Ex) as [[L|[L _]]|[[L _]|[L _]]]; destruct D; congruence.
      + eapply (pd_nspkg _ _ _ D); eassumption.
      + eapply (pd_nspkg _ _ _ D); eassumption.
    - subst d. destruct (gfind (s_graph s2) a) as [nd2|] eqn:Ex; [|now elim I2].
      destruct (more_alike a nd nd2 A Ex) as [L|(_ & S2 & S4 & _)]; [congruence|].
      destruct (w_nodes _ _ _ _ _ W2 a) as [[K|K]|[K|[K|(K & _)]]]; [unfold in_graph; congruence|..].
      + unfold kind_of in K. rewrite Ex in K. cbn in K. congruence.
      + destruct K as (nd' & d' & K1 & K2 & K3 & K4). assert (nd' = nd2) by congruence. subst nd'. apply K4. congruence.
      + elim (proj2 K). unfold kind_of. rewrite Ex. cbn. congruence.
      + elim (proj2 (proj1 (pd_plain _ _ _ K))). unfold kind_of. rewrite Ex. cbn. congruence.
      + elim (proj2 (proj1 (pd_plain _ _ _ K))). unfold kind_of. rewrite Ex. cbn. congruence.
  Qed.
End pair.

(** The same program with less and with more imports, in builders with the same settings. *)
Record growing (E1 E2 : env) (find find2 : string -> option spec) (DS : dist -> Prop) (conf1 conf2 : list (string * implied)) (s1 s2 : st) : Prop := {
  gw_code : extended E1 E2 find find2;
  gw_names1 : set_order (e_names_order E1);
  gw_names2 : set_order (e_names_order E2);
  gw_plain : plain_sources E1;
  gw_order1 : order_ok E1;
  gw_order2 : order_ok E2;
  gw_steady1 : steady E1 find;
  gw_steady2 : steady E2 find2;
  gw_table : same_table conf1 conf2;
  gw_dots : forall x i, assoc x conf1 = Some i -> starts_with "." x = false;
  gw_dists : one_each DS;
  gw_first : exists implies, dsession E1 DS implies conf1 s1;
  gw_second : exists implies, dsession E2 DS implies conf2 s2;
  gw_scripts : same_scripts s1 s2;
  gw_roots : forall x, In x (g_roots (s_graph s1)) -> In x (g_roots (s_graph s2))
}.

Definition C95_statement : Prop := forall E1 E2 find find2 DS conf1 conf2 s1 s2, growing E1 E2 find find2 DS conf1 conf2 s1 s2 ->
  nothing_new find find2 -> no_repair E1 E2 find find2 s1 -> tidy s1 -> tidy s2 -> included (s_graph s1) (s_graph s2).

Theorem C95_nodes_partial : forall E1 E2 find find2 DS conf1 conf2 s1 s2, growing E1 E2 find find2 DS conf1 conf2 s1 s2 -> nothing_new find find2 ->
  forall x n n', gfind (s_graph s1) x = Some n -> gfind (s_graph s2) x = Some n' -> akin n n'.
Proof.
  intros E1 E2 find find2 DS conf1 conf2 s1 s2 [A B C D F G H I J K L (i1 & M) (i2 & N) O _] HN x n n'.
  apply (more_akin E1 E2 find find2 A B C D i1 i2 conf1 conf2 F G H I J K s1 s2 L M N O HN).
Qed.
Theorem C95_partial : forall E1 E2 find find2 DS conf1 conf2 s1 s2, growing E1 E2 find find2 DS conf1 conf2 s1 s2 ->
  nothing_new find find2 -> no_repair E1 E2 find find2 s1 -> settled E1 find s1 -> settled E2 find2 s2 -> included (s_graph s1) (s_graph s2).
Proof.
  intros E1 E2 find find2 DS conf1 conf2 s1 s2 T HN NR Z1 Z2. pose proof (C95_nodes_partial _ _ _ _ _ _ _ _ _ T HN) as KN.
  destruct T as [A B C D F G H I J K L (i1 & M) (i2 & N) O P].
  pose proof (fun a b d => more_edge E1 E2 find find2 A B C D i1 i2 conf1 conf2 F G H I J K s1 s2 L M N O a b d NR Z1 Z2) as KE.
  assert (KR : forall x, reaches (s_graph s1) x -> reaches (s_graph s2) x).
  { intros x. induction 1 as [x Hx|a b ds Ha IH He].
    - apply re_root. auto.
    - assert (Q : ds <> []) by (eapply (one_full E1 i1 conf1 F s1 M); exact He). destruct ds as [|d ds]; [now elim Q|].
      assert (Hd : has_edge (s_graph s1) a b d) by (eexists; split; [exact He|now left]).
      apply KE in Hd as (ds' & Hd & _); [|exact IH]. eapply re_edge; [exact IH|exact Hd]. }
  intros x Hx. pose proof (KR x Hx) as Hx2. split; [exact Hx2|]. split; [|intros y d Hy; exact (KE _ _ _ Hy Hx2)].
  pose proof (one_reaches E1 i1 conf1 F s1 M x Hx) as I1. pose proof (one_reaches E2 i2 conf2 G s2 N x Hx2) as I2.
  destruct (gfind (s_graph s1) x) as [n|] eqn:En1; [|now elim I1]. destruct (gfind (s_graph s2) x) as [n'|] eqn:En2; [|now elim I2].
  exists n, n'. split; [reflexivity|]. split; [reflexivity|]. now apply (KN x).
Qed.

(** ** Examples *)
Definition recoded (E : env) (w : list (string * entry)) (scripts : list (string * list ast)) : env :=
  recode E (e_find_spec (world w scripts [])) (e_script (world w scripts [])) (fun l => l) (fun l => l).
Lemma recoded_steady w scripts w' scripts' : steady (world w scripts []) (found_in w) -> steady (world w' scripts' []) (found_in w') ->
  steady (recoded (world w scripts []) w' scripts') (found_in w').
Proof. intros [A1 A2 A3 A4 A5 A6 A7 A8 A9 A10] [B1 B2 B3 B4 B5 B6 B7 B8 B9 B10]. constructor; assumption. Qed.
Definition missing_free (s : st) (x : string) : Prop := kind_of s x <> Some MissingModule.
Lemma missing_check s x : forallb (fun n => negb (is_missing (n_kind n))) (g_nodes (s_graph s)) = true -> missing_free s x.
Proof.
  intros H K. unfold kind_of in K. destruct (gfind (s_graph s) x) as [n|] eqn:En; [|discriminate]. injection K as K.
  apply gfind_in in En as [En _]. rewrite forallb_forall in H. apply H in En. rewrite K in En. discriminate.
Qed.

(** Package q gets "import json as name", and has a module q.name: "from q import name"
    in main.py does not lead to q.name any more. *)
Definition gain_modules : list (string * entry) :=
  [("q", EText true "a" [] [] []); ("q.name", ESource false [] []); ("json", ESource false [] []); ("#", EText true "b" [AImport [("json", Some "name")]] [] ["name"])].
Definition gain_modules' : list (string * entry) :=
  [("q", EText true "b" [AImport [("json", Some "name")]] [] ["name"]); ("q.name", ESource false [] []); ("json", ESource false [] []); ("#", EText true "b" [AImport [("json", Some "name")]] [] ["name"])].
Definition gain_scripts : list (string * list ast) := [("main.py", [World.from "q" ["name"] 0])].
Definition gain_world : env := world gain_modules gain_scripts [].
Definition gain_world' : env := recoded gain_world gain_modules' gain_scripts.
Definition gain_1 : st := Eval vm_compute in snd (the_calls gain_world [AAddScript "main.py"] new).
Definition gain_2 : st := Eval vm_compute in snd (the_calls gain_world' [AAddScript "main.py"] new).
Definition main_conf : list (string * implied) := Eval vm_compute in s_lazy new.
Lemma new_session E : session E [] main_conf new.
Proof. apply se_open; [apply op_init|reflexivity]. Qed.
Lemma edited_text E name p text text' body body' reads reads' writes writes' (tree tree' : ast) sp sp' :
  spec_of name (EText p text body reads writes) = ROk (Some sp) -> spec_of name (EText p text' body' reads' writes') = ROk (Some sp') ->
  (forall t f, e_parse E t f text = ROk tree /\ e_parse E t f text' = ROk tree') -> more_imports tree tree' ->
  (exists b w r b' w' r', extract_bytecode_info (e_ge311 E) (code_of reads writes) = Some (ROk (b, w, r))
    /\ extract_bytecode_info (e_ge311 E) (code_of reads' writes') = Some (ROk (b', w', r')) /\ memb "__import__" r' = memb "__import__" r) ->
  has_sub "pkg_resources" text' = has_sub "pkg_resources" text -> has_sub "pkgutil" text' = has_sub "pkgutil" text -> edited E sp sp'.
Proof.
  intros H H' P M (b & w & r & b' & w' & r' & C1 & C2 & C3) T1 T2. cbn in H, H'. injection H as <-. injection H' as <-. constructor; try reflexivity.
  exists false, text, text', (code_of reads writes), (code_of reads' writes'), b, w, r, b', w', r'. repeat (split; [solve [reflexivity|assumption]|]).
  split; [intros t f _; destruct (P t f) as [P1 P2]; now exists tree, tree'|]. now repeat split.
Qed.
Lemma found_other w w' x : assoc x w = assoc x w' -> found_in w x = found_in w' x.
Proof. unfold found_in. now intros ->. Qed.
Lemma gain_known : nothing_new (found_in gain_modules) (found_in gain_modules').
Proof. intros x H. unfold found_in in *. cbn [gain_modules gain_modules' assoc] in *. destruct (seqb x "q"); [discriminate|exact H]. Qed.
Lemma gain_extended : extended gain_world gain_world' (found_in gain_modules) (found_in gain_modules').
Proof.
  constructor.
  - reflexivity.
  - intros x sp H. destruct (seqb x "q") eqn:Ex.
    + apply seqb_eq in Ex. subst x. eexists. split; [reflexivity|]. right. vm_compute in H. injection H as <-.
      eapply (edited_text gain_world "q" true "a" "b" [] [AImport [("json", Some "name")]] [] [] [] ["name"] (AOther []) (AOther [AImport [("json", Some "name")]]));
        [reflexivity|reflexivity|intros t f; split; reflexivity|intros p w []| |reflexivity|reflexivity].
      do 6 eexists. split; [vm_compute; reflexivity|]. split; [vm_compute; reflexivity|reflexivity].
    + exists sp. split; [|now left]. rewrite <- H. apply found_other. cbn [gain_modules gain_modules' assoc]. now rewrite Ex.
  - intros t t' f tree tree' H H'. cbn in H, H'. rewrite H in H'. injection H' as <-. now intros p w.
Qed.
Lemma gain_growing : growing gain_world gain_world' (found_in gain_modules) (found_in gain_modules') (fun _ => False) main_conf main_conf gain_1 gain_2.
Proof.
  constructor.
  - exact gain_extended.
  - intros l. apply Permutation_refl.
  - intros l. apply Permutation_refl.
  - now apply world_plain.
  - apply world_order.
  - intros l x. reflexivity.
  - now apply world_steady.
  - apply recoded_steady; now apply world_steady.
  - now intros x.
  - intros x i H. apply assoc_In in H. destruct H as [H|[]]. now injection H as <- <-.
  - intros d d' [].
  - exists []. eapply (calls_session _ _ _ 60 [AAddScript "main.py"]); [apply new_session|reflexivity|vm_compute; reflexivity|reflexivity].
  - exists []. eapply (calls_session _ _ _ 60 [AAddScript "main.py"]); [apply new_session|reflexivity|vm_compute; reflexivity|reflexivity].
  - apply same_scripts_b. reflexivity.
  - intros x. vm_compute. tauto.
Qed.
Theorem C95_refuted : ~ C95_statement.
Proof.
  intros H. pose proof (H _ _ _ _ _ _ _ _ _ gain_growing) as K. destruct K with (x := "q.name") as [R _].
  - exact gain_known.
  - intros m x nd _ M. now elim (missing_check gain_1 (m ++ "." ++ x) eq_refl).
  - now apply tidy_bool.
  - now apply tidy_bool.
  - eapply re_edge; [apply re_root; vm_compute; left; reflexivity|]. vm_compute. repeat (try (left; reflexivity); right).
  - apply (closed_reaches _ ["main.py"; "q"; "json"]) in R; [|vm_compute; reflexivity].
    destruct R as [R|[R|[R|[]]]]; discriminate R.
Qed.

(** A module and a script get more imports; one of the new modules is missing, and
    so is one of the old ones. *)
Definition edit_modules : list (string * entry) :=
  [("q", EText true "from .core import helper" [World.from "core" ["helper"] 1] [] ["helper"]); ("q.core", EText false "b" [World.imp "os"] [] ["helper"; "os"]);
   ("os", ESource false [] []); ("json", ESource false [] []); ("#", EText false "c" [World.imp "json"; AFunctionDef [World.imp "gone"]; World.imp "os"] [] ["helper"; "json"; "os"])].
Definition edit_modules' : list (string * entry) :=
  [("q", EText true "from .core import helper" [World.from "core" ["helper"] 1] [] ["helper"]); ("q.core", EText false "c" [World.imp "json"; AFunctionDef [World.imp "gone"]; World.imp "os"] [] ["helper"; "json"; "os"]);
   ("os", ESource false [] []); ("json", ESource false [] []); ("#", EText false "c" [World.imp "json"; AFunctionDef [World.imp "gone"]; World.imp "os"] [] ["helper"; "json"; "os"])].
Definition edit_scripts : list (string * list ast) := [("main.py", [World.from "q" ["helper"; "core"] 0; World.imp "none"])].
Definition edit_scripts' : list (string * list ast) := [("main.py", [World.imp "json"; World.from "q" ["helper"; "core"] 0; World.imp "none"])].
Definition edit_world : env := world edit_modules edit_scripts [].
Definition edit_world' : env := recoded edit_world edit_modules' edit_scripts'.
Definition edit_1 : st := Eval vm_compute in snd (the_calls edit_world [AAddScript "main.py"] new).
Definition edit_2 : st := Eval vm_compute in snd (the_calls edit_world' [AAddModule "json"; AAddScript "main.py"] new).
Lemma edit_known : nothing_new (found_in edit_modules) (found_in edit_modules').
Proof. intros x H. unfold found_in in *. cbn [edit_modules edit_modules' assoc] in *. destruct (seqb x "q"); [discriminate|]. destruct (seqb x "q.core"); [discriminate|exact H]. Qed.
Lemma edit_extended : extended edit_world edit_world' (found_in edit_modules) (found_in edit_modules').
Proof.
  constructor.
  - reflexivity.
  - intros x sp H. destruct (seqb x "q.core") eqn:Ex.
    + apply seqb_eq in Ex. subst x. eexists. split; [reflexivity|]. right. vm_compute in H. injection H as <-.
      eapply (edited_text edit_world "q.core" false "b" "c" [World.imp "os"] [] [] [] ["helper"; "os"] ["helper"; "json"; "os"] (AOther [World.imp "os"]) (AOther [World.imp "json"; AFunctionDef [World.imp "gone"]; World.imp "os"]));
        [reflexivity|reflexivity|intros t f; split; reflexivity|intros p w; cbn; tauto| |reflexivity|reflexivity].
      do 6 eexists. split; [vm_compute; reflexivity|]. split; [vm_compute; reflexivity|reflexivity].
    + exists sp. split; [|now left]. rewrite <- H. apply found_other. cbn [edit_modules edit_modules' assoc]. now rewrite Ex.
  - intros t t' f tree tree' H H'. cbn [edit_world edit_world' recoded recode world e_script assoc edit_scripts edit_scripts'] in H, H'.
    destruct (seqb f "main.py"); [|discriminate]. injection H as <-. injection H' as <-. intros p w. cbn. tauto.
Qed.
Definition edit_reached : list string := ["main.py"; "json"; "q"; "q.core"; "os"; "gone"; "none"].
Example C95_nonvacuous : growing edit_world edit_world' (found_in edit_modules) (found_in edit_modules') (fun _ => False) main_conf main_conf edit_1 edit_2
  /\ nothing_new (found_in edit_modules) (found_in edit_modules') /\ no_repair edit_world edit_world' (found_in edit_modules) (found_in edit_modules') edit_1
  /\ settled edit_world (found_in edit_modules) edit_1 /\ settled edit_world' (found_in edit_modules') edit_2
  /\ In ("q.core", "gone") (edge_pairs edit_2) /\ In ("main.py", "none") (edge_pairs edit_1) /\ In ("main.py", "q.core") (edge_pairs edit_1).
Proof.
  assert (X1 : session edit_world [] main_conf edit_1) by (eapply (calls_session _ _ _ 60 [AAddScript "main.py"]); [apply new_session|reflexivity|vm_compute; reflexivity|reflexivity]).
  assert (X2 : session edit_world' [] main_conf edit_2) by (eapply (calls_session _ _ _ 60 [AAddModule "json"; AAddScript "main.py"]); [apply new_session|reflexivity|vm_compute; reflexivity|reflexivity]).
  assert (S1 : steady edit_world (found_in edit_modules)) by now apply world_steady.
  assert (S2 : steady edit_world' (found_in edit_modules')) by (apply recoded_steady; now apply world_steady).
  assert (O2 : order_ok edit_world') by (intros l x; reflexivity).
  assert (B : forall E find, find "q" = found_in edit_modules "q" -> (forall sp, found_in edit_modules "q" = Some sp -> f_nfs (exec E 1) sp new = f_nfs (exec edit_world 1) sp new) -> forall m x, In (m, x) [("q", "helper")] -> binds E find m x).
  { intros E find F N m x [H|[]]. injection H as <- <-. destruct (found_in edit_modules "q") as [sp|] eqn:Es; [|discriminate]. specialize (N _ eq_refl).
    destruct (f_nfs (exec edit_world 1) sp new) as [[[[n l]|e] s']|] eqn:En; vm_compute in Es; injection Es as <-; vm_compute in En; try discriminate En.
    eexists _, n, l, 1, new, s'. split; [exact F|]. split; [rewrite N; reflexivity|]. injection En as <- <- <-. cbn. auto. }
  split.
  { constructor.
    - exact edit_extended.
    - intros l. apply Permutation_refl.
    - intros l. apply Permutation_refl.
    - now apply world_plain.
    - apply world_order.
    - exact O2.
    - exact S1.
    - exact S2.
    - now intros x.
    - intros x i H. apply assoc_In in H. destruct H as [H|[]]. now injection H as <- <-.
    - intros d d' [].
    - now exists [].
    - now exists [].
    - apply same_scripts_b. reflexivity.
    - intros x. vm_compute. tauto. }
  split; [exact edit_known|].
  split.
  { intros m x nd (n & i & nm & F1 & F2 & F0 & F3 & _) M _. apply (from_names_in _ _ _ _ F1) in F2. rewrite F0 in F2. apply gfind_in in F3 as [F3 <-].
    vm_compute in F2. vm_compute in F3. apply B; [reflexivity|reflexivity|].
    repeat (destruct F3 as [<-|F3]; [repeat (destruct F2 as [<-|F2]; [first [left; reflexivity|vm_compute in M; discriminate M]|]); destruct F2|]). destruct F3. }
  split; [eapply (settled_bool _ _ _ _ _ _ edit_reached [("q", "helper")]); [apply world_order|exact X1|vm_compute; reflexivity|apply B; [reflexivity|intros sp Es; vm_compute in Es; injection Es as <-; vm_compute; reflexivity]]|].
  split; [eapply (settled_bool _ _ _ _ _ _ edit_reached [("q", "helper")]); [exact O2|exact X2|vm_compute; reflexivity|apply B; [reflexivity|intros sp Es; vm_compute in Es; injection Es as <-; vm_compute; reflexivity]]|].
  vm_compute. tauto.
Qed.

Print Assumptions C95_refuted.
Print Assumptions C95_nodes_partial.
Print Assumptions C95_partial.
