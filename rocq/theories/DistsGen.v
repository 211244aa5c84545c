(** Complete runs of the [all_distributions] generator. *)
From Verif Require Import PyStrFacts.
From Verif Require Export DistsProofs.

(** [yields E g s ds fin s']: from state [s] the generator yields [ds] and then
    ends with [fin]. *)
Inductive yields (E : fsenv) : gen -> dstate -> list dist -> result unit -> dstate -> Prop :=
| y_stop g s g' s' : gen_next E g s = (Stop, g', s') -> yields E g s [] (ROk tt) s'
| y_raise g s e g' s' : gen_next E g s = (Raise e, g', s') -> yields E g s [] (RErr e) s'
| y_yield g s d g1 s1 ds fin s' :
    gen_next E g s = (Yield d, g1, s1) -> yields E g1 s1 ds fin s' -> yields E g s (d :: ds) fin s'.

Lemma yields_step E g s g2 s2 ds fin s' :
  gen_next E g s = gen_next E g2 s2 -> yields E g s ds fin s' -> yields E g2 s2 ds fin s'.
Proof.
  intros Hg H. inversion H; subst; rewrite Hg in *.
  - eapply y_stop; eauto.
  - eapply y_raise; eauto.
  - eapply y_yield; eauto.
Qed.

Lemma next_entry_gen E entries s : next_entry E entries s = gen_next E (Gen entries None) s.
Proof. reflexivity. Qed.

(** The generator always comes to an end. *)
Lemma scan_names_more E entry : forall names s d more s',
  scan_names E entry names s = (inl (Some (d, more)), s') -> List.length more < List.length names.
Proof.
  induction names as [|f names IH]; intros s d more s' H; cbn in H; [discriminate|].
  destruct (negb (ends_with ".dist-info" f)).
  - apply IH in H. cbn. lia.
  - destruct (dget (dcached s) (fs_join E entry f)); [injection H as _ <- _; cbn; lia|].
    destruct (create_distribution E (dclock s) (fs_join E entry f)); [|discriminate].
    injection H as _ <- _. cbn. lia.
Qed.

Lemma yields_exists_aux E : forall entries,
  (forall s, exists ds fin s', yields E (Gen entries None) s ds fin s')
  /\ (forall n entry names s, List.length names <= n ->
        exists ds fin s', yields E (Gen entries (Some (entry, names))) s ds fin s').
Proof.
  assert (forall entries, (forall s, exists ds fin s', yields E (Gen entries None) s ds fin s') ->
    forall n entry names s, List.length names <= n ->
        exists ds fin s', yields E (Gen entries (Some (entry, names))) s ds fin s') as K.
  { intros entries HE. induction n as [|n IH]; intros entry names s Hl.
    - destruct names; [|cbn in Hl; lia]. destruct (HE s) as (ds & fin & s' & H).
      exists ds, fin, s'. eapply yields_step; [|exact H]. reflexivity.
    - destruct (scan_names E entry names s) as [[[[d more]|]|e] s2] eqn:Es.
      + pose proof (scan_names_more _ _ _ _ _ _ _ Es).
        destruct (IH entry more s2) as (ds & fin & s' & H'); [lia|].
        exists (d :: ds), fin, s'. eapply y_yield; [|exact H']. unfold gen_next. cbn. now rewrite Es.
      + destruct (HE s2) as (ds & fin & s' & H). exists ds, fin, s'.
        eapply yields_step; [|exact H]. unfold gen_next at 2. cbn [g_cur]. rewrite Es. reflexivity.
      + destruct e;
          try (eexists [], _, s2; eapply y_raise; unfold gen_next; cbn [g_cur]; rewrite Es; reflexivity).
        destruct (HE s2) as (ds & fin & s' & H). exists ds, fin, s'.
        eapply yields_step; [|exact H]. unfold gen_next at 2. cbn [g_cur]. rewrite Es. reflexivity. }
  assert (forall entries s, exists ds fin s', yields E (Gen entries None) s ds fin s') as L.
  { induction entries as [|entry entries IH]; intros s.
    - exists [], (ROk tt), s. eapply y_stop. reflexivity.
    - destruct (fs_listdir E (dclock s) entry) as [names|e] eqn:El.
      + destruct (K entries IH (List.length names) entry names (DState (dcached s) (S (dclock s))) (le_n _))
          as (ds & fin & s' & H).
        exists ds, fin, s'. eapply yields_step; [|exact H]. unfold gen_next. cbn [g_cur g_entries next_entry].
        now rewrite El.
      + destruct e;
          try (eexists [], _, _; eapply y_raise; unfold gen_next; cbn [g_cur g_entries next_entry]; rewrite El; reflexivity).
        destruct (IH (DState (dcached s) (S (dclock s)))) as (ds & fin & s' & H). exists ds, fin, s'.
        eapply yields_step; [|exact H]. unfold gen_next. cbn [g_cur g_entries next_entry]. now rewrite El. }
  intros entries. split; [apply L|]. apply K, L.
Qed.

Lemma yields_exists E g s : exists ds fin s', yields E g s ds fin s'.
Proof.
  destruct g as [entries [[entry names]|]].
  - destruct (yields_exists_aux E entries) as [_ H]. eapply H. apply le_n.
  - destruct (yields_exists_aux E entries) as [H _]. apply H.
Qed.

(** ** Searching *)

Lemma find_dist_spec E p g s ds fin s' : yields E g s ds fin s' ->
  forall fuel, List.length ds < fuel -> exists s2,
  find_dist E fuel p g s = Some
    (match find p ds with
     | Some d => ROk (Some d)
     | None => match fin with ROk _ => ROk None | RErr e => RErr e end
     end, s2).
Proof.
  induction 1 as [g s g' s' H|g s e g' s' H|g s d g1 s1 ds fin s' H Hy IH]; intros fuel Hf;
    (destruct fuel as [|fuel]; [cbn in Hf; lia|]); cbn [find_dist find]; rewrite H; eauto.
  destruct (p d); [eauto|]. apply IH. cbn in Hf. lia.
Qed.

(** ** File systems that do not change *)

Record static (E : fsenv) : Prop := {
  st_listdir : forall t t' p, fs_listdir E t p = fs_listdir E t' p;
  st_meta : forall t t' p, fs_meta E t p = fs_meta E t' p;
  st_record : forall t t' p, fs_record E t p = fs_record E t' p
}.

(** The dist-info directory can be read. *)
Definition readable (E : fsenv) (p : string) : Prop :=
  exists name version lines, fs_meta E 0 p = ROk (Some name, Some version) /\ fs_record E 0 p = ROk lines.

Lemma readable_create E t p : static E -> readable E p -> exists d, create_distribution E t p = ROk d /\ dist_identifier d = p.
Proof.
  intros HS (name & version & lines & H1 & H2).
  rewrite (st_meta E HS 0 t) in H1. rewrite (st_record E HS 0 t) in H2.
  unfold create_distribution. rewrite H1. cbn. rewrite H2. cbn. eexists. split; [reflexivity|reflexivity].
Qed.

Definition dist_info (fname : string) : bool := ends_with ".dist-info" fname.

(** A readable entry is yielded if the ones before it are readable. *)
Lemma yields_names E entry fname rest l2 : static E -> forall l1 s ds fin s',
  Forall (fun x => dist_info x = true -> readable E (fs_join E entry x)) l1 ->
  dist_info fname = true -> readable E (fs_join E entry fname) -> cache_ok s ->
  yields E (Gen rest (Some (entry, l1 ++ fname :: l2))) s ds fin s' ->
  exists d, In d ds /\ dist_identifier d = fs_join E entry fname.
Proof.
  intros HS. induction l1 as [|x l1 IH]; intros s ds fin s' Hl Hd Hr Hc Hy.
  - cbn [app] in Hy. destruct (scan_names E entry (fname :: l2) s) as [r s2] eqn:Es.
    pose proof Es as Es'. cbn [scan_names] in Es. unfold dist_info in Hd. rewrite Hd in Es. cbn [negb] in Es.
    destruct (dget (dcached s) (fs_join E entry fname)) as [d|] eqn:Eg.
    + injection Es as <- <-. inversion Hy as [g0 ? ? ? Hg|g0 ? ? ? ? Hg|g0 ? ? ? ? ? ? ? Hg Hg2]; subst;
        unfold gen_next in Hg; cbn [g_cur] in Hg; rewrite Es' in Hg; try discriminate.
      injection Hg as <- <- <-. exists d. split; [now left|]. now apply Hc.
    + destruct (readable_create E (dclock s) _ HS Hr) as (d & Ed & Ei). rewrite Ed in Es.
      injection Es as <- <-. inversion Hy as [g0 ? ? ? Hg|g0 ? ? ? ? Hg|g0 ? ? ? ? ? ? ? Hg Hg2]; subst;
        unfold gen_next in Hg; cbn [g_cur] in Hg; rewrite Es' in Hg; try discriminate.
      injection Hg as <- <- <-. exists d. split; [now left|exact Ei].
  - inversion Hl as [|? ? Hx Hl']; subst.
    destruct (dist_info x) eqn:Edx.
    + destruct (scan_names E entry ((x :: l1) ++ fname :: l2) s) as [r s2] eqn:Es.
      pose proof Es as Es'. cbn [app scan_names] in Es. unfold dist_info in Edx. rewrite Edx in Es. cbn [negb] in Es.
      assert (exists d, r = inl (Some (d, l1 ++ fname :: l2))) as (d & ->).
      { destruct (dget (dcached s) (fs_join E entry x)) as [d|]; [injection Es as <- <-; eauto|].
        destruct (readable_create E (dclock s) _ HS (Hx eq_refl)) as (d & Ed & Ei). rewrite Ed in Es.
        injection Es as <- <-. eauto. }
      destruct (scan_names_cache _ _ _ _ _ _ Es' Hc) as (Hc2 & _ & _).
      inversion Hy as [g0 ? ? ? Hg|g0 ? ? ? ? Hg|g0 ? ? ? ? ? ? ? Hg Hg2]; subst;
        unfold gen_next in Hg; cbn [g_cur] in Hg; rewrite Es' in Hg; try discriminate.
      cbn [g_entries] in Hg. injection Hg as <- <- <-.
      destruct (IH _ _ _ _ Hl' Hd Hr Hc2 Hg2) as (d' & Hi & He). exists d'. split; [now right|exact He].
    + apply (IH s ds fin s' Hl' Hd Hr Hc). eapply yields_step; [|exact Hy].
      unfold gen_next. cbn [g_cur app scan_names]. unfold dist_info in Edx. rewrite Edx. reflexivity.
Qed.

(** When the entry is reached. *)
Lemma next_entry_visit E entry names : static E -> fs_listdir E 0 entry = ROk names ->
  forall entries s r g s', In entry entries -> cache_ok s ->
  next_entry E entries s = (r, g, s') -> (forall e, r <> Raise e) ->
  (In entry (g_entries g))
  \/ exists rest s1, cache_ok s1 /\ gen_next E (Gen rest (Some (entry, names))) s1 = (r, g, s').
Proof.
  intros HS Hn. induction entries as [|e entries IH]; intros s r g s' Hi Hc H Hr; [contradiction|].
  cbn [next_entry] in H.
  set (s1 := DState (dcached s) (S (dclock s))) in *.
  assert (cache_ok s1) as Hc1 by exact Hc.
  destruct (string_dec e entry) as [->|Hne].
  - right. exists entries, s1. split; [exact Hc1|].
    rewrite (st_listdir E HS 0 (dclock s)) in Hn. rewrite Hn in H. exact H.
  - destruct Hi as [->|Hi]; [congruence|].
    destruct (fs_listdir E (dclock s) e) as [nms|er].
    + destruct (scan_names E e nms s1) as [[[[d more]|]|er] s2] eqn:Es;
        destruct (scan_names_cache _ _ _ _ _ _ Es Hc1) as (Hc2 & _ & _).
      * injection H as <- <- <-. now left.
      * now apply (IH _ _ _ _ Hi Hc2 H Hr).
      * destruct er; try (injection H as <- <- <-; exfalso; eapply Hr; reflexivity).
        now apply (IH _ _ _ _ Hi Hc2 H Hr).
    + destruct er; try (injection H as <- <- <-; exfalso; eapply Hr; reflexivity).
      now apply (IH _ _ _ _ Hi Hc1 H Hr).
Qed.

Lemma gen_next_visit E entry names g s r g' s' : static E -> fs_listdir E 0 entry = ROk names ->
  In entry (g_entries g) -> cache_ok s -> gen_next E g s = (r, g', s') -> (forall e, r <> Raise e) ->
  (In entry (g_entries g'))
  \/ exists rest s1, cache_ok s1 /\ gen_next E (Gen rest (Some (entry, names))) s1 = (r, g', s').
Proof.
  intros HS Hn Hi Hc H Hr. unfold gen_next in H. destruct (g_cur g) as [[e nms]|].
  - destruct (scan_names E e nms s) as [[[[d more]|]|er] s2] eqn:Es;
      destruct (scan_names_cache _ _ _ _ _ _ Es Hc) as (Hc2 & _ & _).
    + injection H as <- <- <-. now left.
    + eapply next_entry_visit; eauto.
    + destruct er; try (injection H as <- <- <-; exfalso; eapply Hr; reflexivity).
      eapply next_entry_visit; eauto.
  - eapply next_entry_visit; eauto.
Qed.

Lemma yields_entry E entry l1 fname l2 : static E -> fs_listdir E 0 entry = ROk (l1 ++ fname :: l2) ->
  Forall (fun x => dist_info x = true -> readable E (fs_join E entry x)) l1 ->
  dist_info fname = true -> readable E (fs_join E entry fname) ->
  forall g s ds fin s', yields E g s ds fin s' -> fin = ROk tt -> cache_ok s -> In entry (g_entries g) ->
  exists d, In d ds /\ dist_identifier d = fs_join E entry fname.
Proof.
  intros HS Hn Hl Hd Hr. induction 1 as [g s g' s' H|g s e g' s' H|g s d g1 s1 ds fin s' H Hy IH]; intros Hf Hc Hi.
  - destruct (gen_next_visit E entry _ _ _ _ _ _ HS Hn Hi Hc H) as [Hg|(rest & s1 & Hc1 & Hg)]; [discriminate| |].
    + exfalso. clear - H Hg. assert (forall entries s, forall g', next_entry E entries s = (Stop, g', s') -> g_entries g' = []) as K.
      { induction entries as [|e entries IH]; intros s0 g0 H0; cbn [next_entry] in H0.
        - now injection H0 as <- _.
        - destruct (fs_listdir E (dclock s0) e) as [nms|er].
          + destruct (scan_names E e nms _) as [[[[d more]|]|er] s2]; [discriminate|eauto|].
            destruct er; try discriminate. eauto.
          + destruct er; try discriminate. eauto. }
      unfold gen_next in H. destruct (g_cur g) as [[e nms]|].
      * destruct (scan_names E e nms s) as [[[[d more]|]|er] s2]; [discriminate| |].
        -- apply K in H. now rewrite H in Hg.
        -- destruct er; try discriminate. apply K in H. now rewrite H in Hg.
      * apply K in H. now rewrite H in Hg.
    + eapply (yields_names E entry fname rest l2 HS l1 s1); eauto. eapply y_stop. exact Hg.
  - discriminate.
  - destruct (gen_next_visit E entry _ _ _ _ _ _ HS Hn Hi Hc H) as [Hg|(rest & s0 & Hc1 & Hg)]; [discriminate| |].
    + destruct (gen_next_cache _ _ _ _ _ _ H Hc) as (Hc1 & _ & _).
      destruct (IH Hf Hc1 Hg) as (d' & Hi' & He). exists d'. split; [now right|exact He].
    + eapply (yields_names E entry fname rest l2 HS l1 s0); eauto. eapply y_yield; eauto.
Qed.

(** ** Order *)

Definition entry_paths (E : fsenv) (entry : string) (names : list string) : list string :=
  map (fs_join E entry) (filter dist_info names).

(** The dist-info paths on the search path, in order. *)
Definition path_paths (E : fsenv) (path : list string) : list string :=
  flat_map (fun e => match fs_listdir E 0 e with ROk names => entry_paths E e names | RErr _ => [] end) path.

Record healthy (E : fsenv) : Prop := {
  h_static : static E;
  h_listdir : forall p e, fs_listdir E 0 p = RErr e -> e = EOS;
  h_readable : forall p names x, fs_listdir E 0 p = ROk names -> In x names -> dist_info x = true ->
     readable E (fs_join E p x)
}.

Lemma scan_names_order E entry : static E -> forall names s r s',
  (forall x, In x names -> dist_info x = true -> readable E (fs_join E entry x)) -> cache_ok s ->
  scan_names E entry names s = (r, s') ->
  match r with
  | inl (Some (d, more)) => entry_paths E entry names = dist_identifier d :: entry_paths E entry more
       /\ (forall x, In x more -> In x names)
  | inl None => entry_paths E entry names = []
  | inr _ => False
  end.
Proof.
  intros HS. induction names as [|f names IH]; intros s r s' Hr Hc H; cbn [scan_names] in H.
  - now injection H as <- <-.
  - unfold entry_paths. cbn [filter]. fold (dist_info f) in H. destruct (dist_info f) eqn:Ef; cbn [negb] in H.
    + cbn [map]. destruct (dget (dcached s) (fs_join E entry f)) as [d|] eqn:Eg.
      * injection H as <- <-. rewrite (Hc _ _ Eg). split; [reflexivity|]. intros x Hx. now right.
      * destruct (readable_create E (dclock s) (fs_join E entry f) HS) as (d & Ed & Ei).
        { apply Hr; auto. now left. }
        rewrite Ed in H. injection H as <- <-. rewrite Ei. split; [reflexivity|]. intros x Hx. now right.
    + specialize (IH s r s'). destruct r as [[[d more]|]|e].
      * destruct IH as [IH1 IH2]; auto. { intros x Hx. apply Hr. now right. }
        split; [exact IH1|]. intros x Hx. right. auto.
      * apply IH; auto. intros x Hx. apply Hr. now right.
      * apply IH; auto. intros x Hx. apply Hr. now right.
Qed.

Definition gen_paths (E : fsenv) (g : gen) : list string :=
  match g_cur g with Some (e, names) => entry_paths E e names | None => [] end ++ path_paths E (g_entries g).

Definition gen_good (E : fsenv) (g : gen) : Prop :=
  match g_cur g with
  | Some (e, names) => forall x, In x names -> dist_info x = true -> readable E (fs_join E e x)
  | None => True
  end.

Lemma next_entry_order E : healthy E -> forall entries s r g s', cache_ok s ->
  next_entry E entries s = (r, g, s') ->
  match r with
  | Yield d => path_paths E entries = dist_identifier d :: gen_paths E g /\ gen_good E g
  | Stop => path_paths E entries = []
  | Raise _ => False
  end.
Proof.
  intros HE. pose proof (h_static E HE) as HS.
  induction entries as [|e entries IH]; intros s r g s' Hc H; cbn [next_entry] in H.
  - now injection H as <- <- <-.
  - set (s1 := DState (dcached s) (S (dclock s))) in *.
    assert (cache_ok s1) as Hc1 by exact Hc.
    cbn [path_paths flat_map]. rewrite (st_listdir E HS 0 (dclock s)).
    destruct (fs_listdir E (dclock s) e) as [names|er] eqn:El; rewrite (st_listdir E HS _ 0) in El.
    + destruct (scan_names E e names s1) as [sr s2] eqn:Es.
      destruct (scan_names_cache _ _ _ _ _ _ Es Hc1) as (Hc2 & _ & _).
      assert (forall x, In x names -> dist_info x = true -> readable E (fs_join E e x)) as Hr
        by (intros; eapply h_readable; eauto).
      pose proof (scan_names_order E e HS names s1 sr s2 Hr Hc1 Es) as HO.
      destruct sr as [[[d more]|]|er]; [| |contradiction].
      * injection H as <- <- <-. destruct HO as [HO1 HO2]. rewrite HO1. split; [reflexivity|].
        intros x Hx. apply Hr. auto.
      * rewrite HO. cbn [app]. apply (IH _ _ _ _ Hc2 H).
    + apply (h_listdir E HE) in El. subst er. cbn [app]. apply (IH _ _ _ _ Hc1 H).
Qed.

Lemma gen_next_order E g s r g' s' : healthy E -> gen_good E g -> cache_ok s -> gen_next E g s = (r, g', s') ->
  match r with
  | Yield d => gen_paths E g = dist_identifier d :: gen_paths E g' /\ gen_good E g'
  | Stop => gen_paths E g = []
  | Raise _ => False
  end.
Proof.
  intros HE Hg Hc H. pose proof (h_static E HE) as HS. unfold gen_next in H. unfold gen_paths at 1 3.
  destruct g as [entries [[e names]|]]; cbn [g_cur g_entries] in *.
  - destruct (scan_names E e names s) as [sr s2] eqn:Es.
    destruct (scan_names_cache _ _ _ _ _ _ Es Hc) as (Hc2 & _ & _).
    pose proof (scan_names_order E e HS names s sr s2 Hg Hc Es) as HO.
    destruct sr as [[[d more]|]|er]; [| |contradiction].
    + injection H as <- <- <-. destruct HO as [HO1 HO2]. rewrite HO1. split; [reflexivity|].
      intros x Hx. apply Hg. auto.
    + rewrite HO. cbn [app]. apply (next_entry_order E HE _ _ _ _ _ Hc2 H).
  - cbn [app]. apply (next_entry_order E HE _ _ _ _ _ Hc H).
Qed.

Lemma yields_order E : healthy E -> forall g s ds fin s', yields E g s ds fin s' ->
  gen_good E g -> cache_ok s -> fin = ROk tt /\ map dist_identifier ds = gen_paths E g.
Proof.
  intros HE. induction 1 as [g s g' s' H|g s e g' s' H|g s d g1 s1 ds fin s' H Hy IH]; intros Hg Hc;
    pose proof (gen_next_order _ _ _ _ _ _ HE Hg Hc H) as HO; cbn in HO.
  - auto.
  - contradiction.
  - destruct HO as [HO1 HO2]. destruct (gen_next_cache _ _ _ _ _ _ H Hc) as (Hc1 & _ & _).
    destruct (IH HO2 Hc1) as [-> IH2]. split; [reflexivity|]. cbn. now rewrite IH2.
Qed.
