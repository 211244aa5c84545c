From Coq Require Import Permutation.
From Verif Require Import PyStrFacts.
From Verif Require Export Dists.

(** ** Paths as lists of components *)

Definition free (c : ascii) (s : string) : Prop := has_char c s = false.

Lemma split_all_ne c s : split_all c s <> [].
Proof. induction s as [|a s IH]; cbn; [discriminate|]. destruct (Ascii.eqb a c); [discriminate|]. destruct (split_all c s); [contradiction|discriminate]. Qed.

Lemma split_all_free c s : free c s -> split_all c s = [s].
Proof.
  unfold free. induction s as [|a s IH]; cbn; intros H; [reflexivity|].
  apply orb_false_iff in H as [H1 H2]. rewrite H1, (IH H2). reflexivity.
Qed.

Lemma split_all_app c a b : split_all c (a ++ String c b) = split_all c a ++ split_all c b.
Proof.
  induction a as [|x a IH]; cbn.
  - now rewrite Ascii.eqb_refl.
  - destruct (Ascii.eqb x c) eqn:E; [now rewrite IH|].
    rewrite IH. destruct (split_all c a) eqn:E2; [now apply split_all_ne in E2|]. reflexivity.
Qed.

Lemma split_all_Forall c s : Forall (free c) (split_all c s).
Proof.
  induction s as [|a s IH]; cbn; [repeat constructor|].
  destruct (Ascii.eqb a c) eqn:E; [constructor; [reflexivity|auto]|].
  destruct (split_all c s) as [|w ws] eqn:E2; [now apply split_all_ne in E2|].
  inversion IH; subst. constructor; auto. unfold free. cbn. now rewrite E.
Qed.

Lemma split_all_join c l : l <> [] -> Forall (free c) l -> split_all c (join (ch c) l) = l.
Proof.
  induction l as [|x l IH]; intros Hne H; [congruence|]. inversion H; subst.
  destruct l as [|y l]; [now apply split_all_free|].
  rewrite join_cons_s by discriminate.
  replace (x ++ ch c ++ join (ch c) (y :: l))%string with (x ++ String c (join (ch c) (y :: l)))%string by reflexivity.
  rewrite split_all_app, (IH ltac:(discriminate)) by auto. now rewrite (split_all_free c x).
Qed.

Lemma join_split_all c s : join (ch c) (split_all c s) = s.
Proof.
  induction s as [|a s IH]; cbn; [reflexivity|].
  destruct (Ascii.eqb a c) eqn:E.
  - apply Ascii.eqb_eq in E. subst a. destruct (split_all c s) as [|w ws] eqn:E2; [now apply split_all_ne in E2|].
    rewrite join_cons_s by discriminate. rewrite IH. reflexivity.
  - destruct (split_all c s) as [|w ws] eqn:E2; [now apply split_all_ne in E2|].
    destruct ws; cbn in *; now rewrite <- IH.
Qed.

Lemma replace_char_app a b s t : replace_char a b (s ++ t) = (replace_char a b s ++ replace_char a b t)%string.
Proof. induction s as [|x s IH]; cbn; [reflexivity|]. now rewrite IH. Qed.

Lemma replace_char_free a b s : free a s -> replace_char a b s = s.
Proof.
  unfold free. induction s as [|x s IH]; cbn; [reflexivity|]. intros H. apply orb_false_iff in H as [H1 H2].
  now rewrite H1, IH.
Qed.

Lemma replace_char_join a b l : Forall (free a) l -> replace_char a b (join (ch a) l) = join (ch b) l.
Proof.
  induction l as [|x l IH]; intros H; [reflexivity|]. inversion H; subst.
  destruct l as [|y l]; [now apply replace_char_free|].
  rewrite !join_cons_s by discriminate. rewrite !replace_char_app, IH by auto.
  rewrite (replace_char_free a b x) by auto. cbn. now rewrite Ascii.eqb_refl.
Qed.

(** [in_pycache] looks at the directories only. *)
Lemma in_pycache_spec dirs f : Forall (free slash) (dirs ++ [f]) ->
  in_pycache (join "/" (dirs ++ [f])) = true <-> In "__pycache__" dirs.
Proof.
  intros H. set (s := join "/" (dirs ++ [f])).
  assert (split_all slash s = dirs ++ [f]) as ES.
  { apply (split_all_join slash); auto. destruct dirs; discriminate. }
  unfold in_pycache. rewrite orb_true_iff, has_sub_spec, starts_with_spec. split.
  - intros [(a & b & E)|(b & E)].
    + assert (s = (a ++ String slash ("__pycache__" ++ String slash b))%string) as E' by (rewrite E; reflexivity).
      rewrite E' in ES. rewrite split_all_app, split_all_app in ES.
      rewrite (split_all_free slash "__pycache__") in ES by reflexivity.
      destruct (exists_last (split_all_ne slash b)) as (lb & z & Eb). rewrite Eb in ES.
      rewrite !app_assoc in ES. apply app_inj_tail in ES as [<- _].
      apply in_or_app. left. apply in_or_app. right. now left.
    + assert (s = ("__pycache__" ++ String slash b)%string) as E' by (rewrite E; reflexivity).
      rewrite E' in ES. rewrite split_all_app in ES.
      rewrite (split_all_free slash "__pycache__") in ES by reflexivity.
      destruct (exists_last (split_all_ne slash b)) as (lb & z & Eb). rewrite Eb in ES.
      rewrite !app_assoc in ES. apply app_inj_tail in ES as [<- _]. now left.
  - intros Hi. apply in_split in Hi as (l1 & l2 & ->).
    assert (forall l2, exists b, join "/" ("__pycache__" :: l2 ++ [f]) = ("__pycache__/" ++ b)%string) as HB.
    { intros l. exists (join "/" (l ++ [f])). rewrite join_cons_s by (destruct l; discriminate). reflexivity. }
    destruct (HB l2) as (b & Eb).
    destruct l1 as [|x l1]; [right; exists b; exact Eb|left].
    assert (exists a, s = (a ++ "/__pycache__/" ++ b)%string) as (a & Ea).
    { unfold s. clear - Eb. revert x. induction l1 as [|y l1 IH]; intros x.
      - exists x. cbn [app]. rewrite join_cons_s by discriminate. cbn [app] in Eb. rewrite Eb. reflexivity.
      - destruct (IH y) as (a & Ea). exists (x ++ "/" ++ a)%string. cbn [app] in *.
        rewrite join_cons_s by discriminate. rewrite Ea. now rewrite !app_assoc_s. }
    exists a, b. exact Ea.
Qed.

(** A suffix without the separator is a suffix of the last component. *)
Lemma suffix_last c t sfx p f : free c sfx -> (t ++ sfx = p ++ String c f)%string ->
  exists u, f = (u ++ sfx)%string /\ t = (p ++ String c u)%string.
Proof.
  unfold free. revert t. induction p as [|x p IH]; intros t Hf E; cbn in E.
  - destruct t as [|y t]; cbn in E.
    + subst sfx. cbn in Hf. now rewrite Ascii.eqb_refl in Hf.
    + injection E as -> E. exists t. auto.
  - destruct t as [|y t]; cbn in E.
    + subst sfx. cbn in Hf. rewrite has_char_app in Hf. cbn in Hf.
      rewrite Ascii.eqb_refl in Hf. rewrite !orb_true_r in Hf. discriminate.
    + injection E as -> E. destruct (IH t Hf E) as (u & -> & ->). exists u. auto.
Qed.

Lemma join_last dirs f : join "/" (dirs ++ [f]) =
  match dirs with [] => f | _ => (join "/" dirs ++ String slash f)%string end.
Proof. destruct dirs; [reflexivity|]. rewrite join_snoc by discriminate. reflexivity. Qed.

Lemma ends_with_last sfx dirs f : free slash sfx ->
  ends_with sfx (join "/" (dirs ++ [f])) = ends_with sfx f.
Proof.
  intros Hf. apply eq_true_iff_eq. rewrite !ends_with_spec, join_last. split.
  - intros (t & E). destruct dirs as [|d dirs]; [eauto|]. symmetry in E.
    destruct (suffix_last _ _ _ _ _ Hf E) as (u & -> & _). eauto.
  - intros (t & ->). destruct dirs as [|d dirs]; [eauto|].
    exists (join "/" (d :: dirs) ++ String slash t)%string. now rewrite <- app_assoc_s.
Qed.

Lemma app_eq_len_s a b c d : String.length b = String.length d -> (a ++ b = c ++ d)%string -> a = c /\ b = d.
Proof.
  revert c. induction a as [|x a IH]; intros [|y c] H E; cbn in *; auto.
  - exfalso. subst b. cbn in H. rewrite length_app_s in H. lia.
  - exfalso. subst d. cbn in H. rewrite length_app_s in H. lia.
  - injection E as -> E. destruct (IH _ H E) as [-> ->]. auto.
Qed.

Lemma ends_with_init sfx dirs f : free slash sfx -> free slash f ->
  ends_with ("/__init__" ++ sfx) (join "/" (dirs ++ [f])) = true
  <-> dirs <> [] /\ f = ("__init__" ++ sfx)%string.
Proof.
  intros Hs Hf. rewrite ends_with_spec, join_last. split.
  - intros (t & E). destruct dirs as [|d dirs].
    + exfalso. rewrite E in Hf. unfold free in Hf. rewrite has_char_app in Hf.
      cbn in Hf. rewrite orb_true_r in Hf. discriminate.
    + split; [discriminate|].
      assert (free slash ("__init__" ++ sfx)) as H2 by (unfold free in *; rewrite has_char_app, Hs; reflexivity).
      assert ((t ++ String slash "" ++ ("__init__" ++ sfx)) = join "/" (d :: dirs) ++ String slash f)%string as E2 by (rewrite E; reflexivity).
      rewrite app_assoc_s in E2.
      destruct (suffix_last _ _ _ _ _ H2 E2) as (u & -> & E3).
      destruct u as [|x u]; [reflexivity|exfalso].
      assert (has_char slash (String x u) = true) as Hu.
      { clear - E3. revert E3. generalize (join "/" (d :: dirs)). intros p E3.
        assert (forall u t p, (t ++ String slash "" = p ++ String slash u)%string -> u <> EmptyString -> has_char slash u = true) as K.
        { clear. intros u t p E Hne. revert p E. induction t as [|y t IHt]; intros [|z p] E; cbn in E.
          - injection E as <-. congruence.
          - injection E as -> E. destruct p; discriminate.
          - injection E as -> E. subst. clear. rewrite has_char_app. cbn. now rewrite orb_true_r.
          - injection E as -> E. eapply IHt; eauto. }
        eapply K; [exact E3|discriminate]. }
      unfold free in Hf. rewrite has_char_app, Hu in Hf. discriminate.
  - intros (Hd & ->). destruct dirs as [|d dirs]; [congruence|].
    exists (join "/" (d :: dirs)). reflexivity.
Qed.

(** ** Import names *)

(** [sfx] is the first of [l] that ends [f]. *)
Definition first_suffix (l : list string) (f sfx : string) : Prop :=
  exists l1 l2, l = l1 ++ sfx :: l2 /\ ends_with sfx f = true
    /\ Forall (fun x => ends_with x f = false) l1.

(** Dotted name of the module in file [base] plus suffix in [dirs]. *)
Definition module_name (dirs : list string) (base : string) : string :=
  match dirs with
  | [] => base
  | _ => if seqb base "__init__" then join "." dirs else join "." (dirs ++ [base])
  end.

Lemma sdrop_last_join sfx dirs base :
  sdrop_last (String.length sfx) (join "/" (dirs ++ [(base ++ sfx)%string])) = join "/" (dirs ++ [base]).
Proof.
  assert (join "/" (dirs ++ [(base ++ sfx)%string]) = (join "/" (dirs ++ [base]) ++ sfx)%string) as ->.
  { rewrite !join_last. destruct dirs; [reflexivity|]. now rewrite <- app_assoc_s. }
  now rewrite sdrop_last_app.
Qed.

Lemma sdrop_last_init sfx dirs : dirs <> [] ->
  sdrop_last (String.length "/__init__" + String.length sfx) (join "/" (dirs ++ [("__init__" ++ sfx)%string]))
  = join "/" dirs.
Proof.
  intros H. rewrite join_last. destruct dirs as [|d dirs]; [congruence|].
  change (String slash ("__init__" ++ sfx)) with ("/__init__" ++ sfx)%string.
  apply sdrop_last_app. now rewrite length_app_s.
Qed.

Lemma import_name_loop_spec sfxs dirs f : Forall (free slash) sfxs -> Forall (free slash) (dirs ++ [f]) ->
  forall n, import_name_loop sfxs (join "/" (dirs ++ [f])) = Some n
    <-> exists sfx base, first_suffix sfxs f sfx /\ f = (base ++ sfx)%string /\ n = module_name dirs base.
Proof.
  intros Hs Hf n. assert (free slash f) as Hff.
  { apply Forall_app in Hf as [_ Hf]. now inversion Hf. }
  induction Hs as [|sfx sfxs Hsf Hs IH]; cbn [import_name_loop].
  - split; [discriminate|]. intros (sfx & base & (l1 & l2 & E & _) & _). destruct l1; discriminate.
  - rewrite ends_with_last by auto. destruct (ends_with sfx f) eqn:E; cbn [negb].
    + pose proof E as E'. apply ends_with_spec in E' as (base & ->).
      assert (forall n', (exists sfx0 base0, first_suffix (sfx :: sfxs) (base ++ sfx) sfx0
                 /\ (base ++ sfx)%string = (base0 ++ sfx0)%string /\ n' = module_name dirs base0)
               <-> n' = module_name dirs base) as HU.
      { intros n'. split.
        - intros (sfx0 & base0 & (l1 & l2 & El & _ & Hl) & Eb & ->).
          destruct l1 as [|y l1]; cbn in El.
          + injection El as <- _. apply app_inj_r in Eb. now subst.
          + injection El as <- _. inversion Hl. congruence.
        - intros ->. exists sfx, base. repeat split; auto. exists [], sfxs. repeat split; auto. }
      rewrite HU. clear HU.
      destruct (ends_with ("/__init__" ++ sfx) (join "/" (dirs ++ [(base ++ sfx)%string]))) eqn:EI.
      * apply ends_with_init in EI as [Hd EI]; auto. apply app_inj_r in EI. subst base.
        rewrite sdrop_last_init by auto.
        assert (Forall (free slash) dirs) as Hfd by (apply Forall_app in Hf; tauto).
        change "/" with (ch slash). rewrite replace_char_join by auto.
        unfold module_name. destruct dirs; [congruence|]. cbn [seqb]. split; intros H; [now injection H|now subst].
      * rewrite sdrop_last_join.
        assert (Forall (free slash) (dirs ++ [base])) as Hfd.
        { apply Forall_app in Hf as [H1 H2]. apply Forall_app. split; auto. constructor; auto.
          unfold free in Hff. rewrite has_char_app in Hff. apply orb_false_iff in Hff. tauto. }
        change "/" with (ch slash). rewrite replace_char_join by auto.
        assert (module_name dirs base = join (ch dot) (dirs ++ [base])) as ->.
        { unfold module_name. destruct dirs as [|d dirs]; [reflexivity|].
          destruct (seqb base "__init__") eqn:EB; [|reflexivity]. apply seqb_eq in EB. subst base.
          exfalso. assert (ends_with ("/__init__" ++ sfx) (join "/" ((d :: dirs) ++ [("__init__" ++ sfx)%string])) = true).
          { apply ends_with_init; auto. split; [discriminate|reflexivity]. }
          congruence. }
        split; intros H; [now injection H|now subst].
    + rewrite IH. split.
      * intros (s0 & b0 & (l1 & l2 & -> & H1 & H2) & H3 & H4). exists s0, b0. repeat split; auto.
        exists (sfx :: l1), l2. repeat split; auto.
      * intros (s0 & b0 & (l1 & l2 & El & H1 & H2) & H3 & H4). exists s0, b0. repeat split; auto.
        destruct l1 as [|y l1]; cbn in El; injection El as <- ->.
        -- congruence.
        -- inversion H2; subst. exists l1, l2. repeat split; auto.
Qed.

Lemma import_name_of_spec exts dirs f : Forall (free slash) exts -> Forall (free slash) (dirs ++ [f]) ->
  forall n, import_name_of exts (join "/" (dirs ++ [f])) = Some n
    <-> ~ In "__pycache__" dirs /\
        exists sfx base, first_suffix ([".py"; ".pyc"] ++ exts) f sfx
          /\ f = (base ++ sfx)%string /\ n = module_name dirs base.
Proof.
  intros He Hf n. unfold import_name_of.
  destruct (in_pycache (join "/" (dirs ++ [f]))) eqn:E.
  - apply in_pycache_spec in E; auto. split; [discriminate|tauto].
  - assert (~ In "__pycache__" dirs) as Hn by (intros Hi; apply (in_pycache_spec dirs f Hf) in Hi; congruence).
    rewrite import_name_loop_spec; auto.
    + tauto.
    + repeat constructor; auto.
Qed.

Lemma filter_map_In {A B} (f : A -> option B) l y : In y (filter_map f l) <-> exists x, In x l /\ f x = Some y.
Proof.
  unfold filter_map. rewrite in_flat_map. split.
  - intros (x & Hx & Hy). exists x. split; auto. destruct (f x); [|contradiction]. destruct Hy as [<-|[]]. auto.
  - intros (x & Hx & Hy). exists x. split; auto. rewrite Hy. now left.
Qed.

Lemma create_distribution_ok E t df d : create_distribution E t df = ROk d ->
  exists name version lines, fs_meta E t df = ROk (Some name, Some version) /\ fs_record E t df = ROk lines
    /\ oid d = t /\ dist_identifier d = df /\ dist_name d = name /\ dist_version d = version
    /\ (forall f, In f (dist_files d) <-> exists ln, In ln lines /\ f = fs_abspath E df (record_relpath ln))
    /\ (forall n, In n (dist_import_names d) <->
          exists ln, In ln lines /\ import_name_of (fs_ext_suffixes E) (record_relpath ln) = Some n).
Proof.
  unfold create_distribution. destruct (fs_meta E t df) as [[[name|] [version|]]|]; cbn; try discriminate.
  destruct (fs_record E t df) as [lines|]; cbn; [|discriminate]. intros H. injection H as <-.
  exists name, version, lines. cbn. repeat split; auto.
  - unfold set_of. rewrite set_union_In. intros [[]|H]. rewrite map_map in H. apply in_map_iff in H as (ln & <- & Hl). eauto.
  - intros (ln & Hl & ->). unfold set_of. rewrite set_union_In. right. rewrite map_map. apply in_map_iff. eauto.
  - unfold set_of. rewrite set_union_In. intros [[]|H]. apply filter_map_In in H as (x & Hx & Hn).
    apply in_map_iff in Hx as (ln & <- & Hl). eauto.
  - intros (ln & Hl & Hn). unfold set_of. rewrite set_union_In. right. apply filter_map_In.
    exists (record_relpath ln). split; auto. now apply in_map.
Qed.

(** ** Lines of RECORD *)

Lemma rsplit2 x a b : free comma a -> free comma b ->
  rsplit comma 2 (x ++ "," ++ a ++ "," ++ b) = [x; a; b].
Proof.
  intros Ha Hb. cbn [rsplit].
  assert (x ++ "," ++ a ++ "," ++ b = (x ++ "," ++ a) ++ String comma b)%string as ->.
  { now rewrite <- !app_assoc_s. }
  rewrite rpart_app_char by exact Hb. cbn [rsplit].
  change ("," ++ a)%string with (String comma a). rewrite rpart_app_char by exact Ha. reflexivity.
Qed.

Lemma strip_ends_quote s : strip_ends (ch dquote ++ s ++ ch dquote) = s.
Proof. unfold strip_ends. cbn [ch sdrop append]. now apply sdrop_last_app. Qed.

(** ** The generator *)

Definition cache_ok (s : dstate) : Prop :=
  (forall k d, dget (dcached s) k = Some d -> dist_identifier d = k).

Definition cache_le (s s' : dstate) : Prop :=
  forall k d, dget (dcached s) k = Some d -> dget (dcached s') k = Some d.

Lemma cache_le_refl s : cache_le s s. Proof. intros k d H. exact H. Qed.
Lemma cache_le_trans a b c : cache_le a b -> cache_le b c -> cache_le a c.
Proof. intros H1 H2 k d H. auto. Qed.

Lemma scan_names_cache E entry names : forall s r s', scan_names E entry names s = (r, s') -> cache_ok s ->
  cache_ok s' /\ cache_le s s'
  /\ match r with
     | inl (Some (d, rest)) => dget (dcached s') (dist_identifier d) = Some d
     | _ => True
     end.
Proof.
  induction names as [|f names IH]; intros s r s' H Hc; cbn [scan_names] in H.
  - injection H as <- <-. split; [exact Hc|]. split; [apply cache_le_refl|exact I].
  - destruct (negb (ends_with ".dist-info" f)); [now apply IH|].
    destruct (dget (dcached s) (fs_join E entry f)) as [d|] eqn:Ed.
    + injection H as <- <-. split; [exact Hc|]. split; [apply cache_le_refl|].
      now rewrite (Hc _ _ Ed).
    + destruct (create_distribution E (dclock s) (fs_join E entry f)) as [d|e] eqn:Ec; injection H as <- <-.
      * apply create_distribution_ok in Ec as (_ & _ & _ & _ & _ & _ & Hi & _).
        split; [|split].
        -- intros k d'. cbn. unfold seqb. destruct (String.eqb_spec k (fs_join E entry f)); intros Hk.
           ++ injection Hk as <-. congruence.
           ++ now apply Hc.
        -- intros k d' Hk. cbn. unfold seqb. destruct (String.eqb_spec k (fs_join E entry f)); [|exact Hk].
           subst k. congruence.
        -- cbn. rewrite Hi. unfold seqb. now rewrite String.eqb_refl.
      * split; [exact Hc|]. split; [intros k d Hk; exact Hk|exact I].
Qed.

Lemma next_entry_cache E entries : forall s r g s', next_entry E entries s = (r, g, s') -> cache_ok s ->
  cache_ok s' /\ cache_le s s'
  /\ match r with Yield d => dget (dcached s') (dist_identifier d) = Some d | _ => True end.
Proof.
  induction entries as [|e entries IH]; intros s r g s' H Hc; cbn [next_entry] in H.
  - injection H as <- <- <-. split; [exact Hc|]. split; [apply cache_le_refl|exact I].
  - set (s1 := DState (dcached s) (S (dclock s))) in *.
    assert (cache_ok s1) as Hc1 by exact Hc.
    assert (cache_le s s1) as Hl1 by (intros k d Hk; exact Hk).
    destruct (fs_listdir E (dclock s) e) as [names|er].
    + destruct (scan_names E e names s1) as [[[[d more]|]|er] s2] eqn:Es;
        destruct (scan_names_cache _ _ _ _ _ _ Es Hc1) as (Hc2 & Hl2 & Hr).
      * injection H as <- <- <-. split; [exact Hc2|]. split; [eapply cache_le_trans; [exact Hl1|exact Hl2]|exact Hr].
      * destruct (IH _ _ _ _ H Hc2) as (Q1 & Q2 & Q3). split; [exact Q1|]. split; [|exact Q3].
        eapply cache_le_trans; [exact Hl1|]. eapply cache_le_trans; [exact Hl2|exact Q2].
      * destruct er; try (injection H as <- <- <-; split; [exact Hc2|]; split; [eapply cache_le_trans; [exact Hl1|exact Hl2]|exact I]).
        destruct (IH _ _ _ _ H Hc2) as (Q1 & Q2 & Q3). split; [exact Q1|]. split; [|exact Q3].
        eapply cache_le_trans; [exact Hl1|]. eapply cache_le_trans; [exact Hl2|exact Q2].
    + destruct er; try (injection H as <- <- <-; split; [exact Hc1|]; split; [exact Hl1|exact I]).
      destruct (IH _ _ _ _ H Hc1) as (Q1 & Q2 & Q3). split; [exact Q1|]. split; [|exact Q3]. first [eapply cache_le_trans; [exact Hl2|exact Q2] | eapply cache_le_trans; [exact Hl1|exact Q2]].
Qed.

Lemma gen_next_cache E g s r g' s' : gen_next E g s = (r, g', s') -> cache_ok s ->
  cache_ok s' /\ cache_le s s'
  /\ match r with Yield d => dget (dcached s') (dist_identifier d) = Some d | _ => True end.
Proof.
  unfold gen_next. intros H Hc. destruct (g_cur g) as [[e names]|]; [|now eapply next_entry_cache; eauto].
  destruct (scan_names E e names s) as [[[[d more]|]|er] s2] eqn:Es;
    destruct (scan_names_cache _ _ _ _ _ _ Es Hc) as (Hc2 & Hl2 & Hr).
  - injection H as <- <- <-. auto.
  - destruct (next_entry_cache _ _ _ _ _ _ H Hc2) as (Q1 & Q2 & Q3). split; [exact Q1|]. split; [|exact Q3]. first [eapply cache_le_trans; [exact Hl2|exact Q2] | eapply cache_le_trans; [exact Hl1|exact Q2]].
  - destruct er; try (injection H as <- <- <-; auto; fail).
    destruct (next_entry_cache _ _ _ _ _ _ H Hc2) as (Q1 & Q2 & Q3). split; [exact Q1|]. split; [|exact Q3]. first [eapply cache_le_trans; [exact Hl2|exact Q2] | eapply cache_le_trans; [exact Hl1|exact Q2]].
Qed.
