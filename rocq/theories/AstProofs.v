From Verif Require Import PyStrFacts ImportInfo ImportInfoProofs AstSpec.

Lemma pair_eqb_eq a b : pair_eqb a b = true <-> a = b.
Proof.
  destruct a as [x [y|]], b as [x' [y'|]]; unfold pair_eqb; cbn;
    rewrite ?andb_true_iff, ?seqb_eq; split; try intros [? ?]; try intros H; try discriminate;
    try (injection H; intros; subst; auto); subst; auto.
Qed.

Lemma pair_set_In l : forall acc x,
  In x (fold_left (fun acc x => if existsb (pair_eqb x) acc then acc else acc ++ [x]) l acc)
  <-> In x acc \/ In x l.
Proof.
  induction l as [|y l IH]; intros acc x; cbn [fold_left In]; [tauto|].
  rewrite IH. destruct (existsb (pair_eqb y) acc) eqn:E.
  - apply existsb_exists in E as (z & H & E). apply pair_eqb_eq in E. subst z.
    split; [tauto|]. intros [H'|[->|H']]; auto.
  - rewrite in_app_iff. cbn. tauto.
Qed.

Definition context (p : list edge) : bool * bool * bool :=
  (existsb (fun k => match k with KDef => true | _ => false end) p,
   existsb (fun k => match k with KIf => true | _ => false end) p,
   existsb (fun k => match k with KTry => true | _ => false end) p).

Lemma context_spec p i :
  context p = (ii_in_function i, ii_in_conditional i, ii_in_tryexcept i) -> states_context p i.
Proof.
  intros H. unfold context in H. injection H as H1 H2 H3. unfold states_context.
  rewrite <- H1, <- H2, <- H3. clear.
  rewrite !existsb_exists. repeat split.
  1,3,5: intros (k & Hk & E); destruct k; try discriminate; exact Hk.
  all: intros Hk; eexists; split; [exact Hk|reflexivity].
Qed.

Definition expect order (s : list edge * what) : iinfo :=
  let '(d, c, t) := context (fst s) in
  match snd s with
  | WImport n a => create_importinfo (n, a) None 0 d c t
  | WFrom m names level => create_importinfo (or_empty m, None) (Some (order (pair_set names))) level d c t
  end.

Lemma expect_states order s : set_order order -> states s (expect order s).
Proof.
  intros Ho. destruct s as [p w]. split.
  - cbn [snd]. unfold expect. cbn [fst snd]. destruct (context p) as [[d c] t].
    destruct w as [n a|m names level].
    + cbn. auto.
    + unfold states_what.
      destruct (create_importinfo_names (or_empty m, None) (order (pair_set names)) level d c t)
        as (A & B & C & D).
      assert (forall x, In x (order (pair_set names)) <-> In x names) as Hs.
      { intros x. split; intros H.
        - apply (Permutation_in _ (Ho _)) in H. unfold pair_set in H.
          apply pair_set_In in H as [[]|H]; auto.
        - apply (Permutation_in _ (Permutation_sym (Ho _))). apply pair_set_In. auto. }
      assert (forall n, In n (map fst (order (pair_set names))) <-> In n (map fst names)) as Hf.
      { intros n. rewrite !in_map_iff. split; intros (x & E & H); exists x; split; auto; now apply Hs. }
      split; [|split; [|split; [|split; [|split]]]].
      * unfold create_importinfo. destruct (in_names _ _); reflexivity.
      * unfold create_importinfo. destruct (in_names _ _); reflexivity.
      * intros n. rewrite A, Hf. tauto.
      * exact B.
      * rewrite C. apply Hf.
      * intros x H. apply Hs. auto.
  - apply context_spec. unfold expect. cbn [fst snd]. destruct (context p) as [[d c] t].
    destruct w; unfold create_importinfo; try destruct (in_names _ _); reflexivity.
Qed.

(** Induction principle with hypotheses for all children. *)
Lemma list_sum_app l r : list_sum (l ++ r) = list_sum l + list_sum r.
Proof. unfold list_sum. induction l; cbn; lia. Qed.

Definition qsize (q : list qitem) : nat := list_sum (map (fun it => ast_size (fst it)) q).

Lemma qsize_app a b : qsize (a ++ b) = qsize a + qsize b.
Proof. unfold qsize. now rewrite map_app, list_sum_app. Qed.

Lemma qsize_map f cs : qsize (map (fun c => (c, f)) cs) = list_sum (map ast_size cs).
Proof. unfold qsize. rewrite map_map. reflexivity. Qed.

Lemma step_size order it out new : scan_step order it = (out, new) -> qsize [it] = S (qsize new).
Proof.
  destruct it as [t [[d c] e]]. destruct t; cbn; intros H; injection H as <- <-;
    rewrite ?qsize_app, ?qsize_map, ?map_app, ?list_sum_app; cbn; lia.
Qed.

(** A queue whose items carry paths. *)
Definition unpath (x : list edge * ast) : qitem := (snd x, context (fst x)).
Definition path_sites (x : list edge * ast) := sites (fst x) (snd x).

Definition path_kids (x : list edge * ast) : list (list edge * ast) :=
  map (fun k => (fst k :: fst x, snd k)) (kids (snd x)).

Lemma flat_map_app' {A B} (f : A -> list B) l r : flat_map f (l ++ r) = flat_map f l ++ flat_map f r.
Proof. apply flat_map_app. Qed.

Lemma flat_map_map' {A B C} (f : A -> B) (g : B -> list C) l :
  flat_map g (map f l) = flat_map (fun x => g (f x)) l.
Proof. induction l; cbn; congruence. Qed.

Lemma step_path order x :
  let '(out, new) := scan_step order (unpath x) in
  new = map unpath (path_kids x)
  /\ exists here, out = map (expect order) here
     /\ path_sites x = here ++ flat_map path_sites (path_kids x).
Proof.
  destruct x as [p t].
  destruct t; unfold unpath, path_kids, path_sites; cbn [fst snd scan_step context].
  - (* import *) split; [reflexivity|].
    exists (map (fun n => (p, WImport (fst n) (snd n))) names). split.
    + rewrite map_map. apply map_ext. intros [n a]. reflexivity.
    + cbn. now rewrite app_nil_r.
  - split; [reflexivity|]. exists [(p, WFrom module names level)]. split; reflexivity.
  - split.
    + cbn [kids]. rewrite !map_map. reflexivity.
    + exists []. split; [reflexivity|]. cbn [kids sites]. rewrite !map_map, flat_map_map'. reflexivity.
  - split.
    + cbn [kids]. rewrite !map_map. reflexivity.
    + exists []. split; [reflexivity|]. cbn [kids sites]. rewrite !map_map, flat_map_map'. reflexivity.
  - split.
    + cbn [kids]. rewrite !map_map. reflexivity.
    + exists []. split; [reflexivity|]. cbn [kids sites]. rewrite !map_map, flat_map_map'. reflexivity.
  - split.
    + cbn [kids]. rewrite !map_app, !map_map, <- !app_assoc. reflexivity.
    + exists []. split; [reflexivity|]. cbn [kids sites app].
      rewrite !map_app, !map_map, !flat_map_app', !flat_map_map', <- !app_assoc. reflexivity.
  - split.
    + cbn [kids]. rewrite !map_app, !map_map, <- !app_assoc. reflexivity.
    + exists []. split; [reflexivity|]. cbn [kids sites app].
      rewrite !map_app, !map_map, !flat_map_app', !flat_map_map', <- !app_assoc. reflexivity.
  - split.
    + cbn [kids]. rewrite !map_map. reflexivity.
    + exists []. split; [reflexivity|]. cbn [kids sites]. rewrite !map_map, flat_map_map'. reflexivity.
Qed.

Lemma scan_loop_paths order : forall fuel q,
  qsize (map unpath q) <= fuel ->
  exists out, scan_loop order fuel (map unpath q) = Some out
    /\ Permutation out (map (expect order) (flat_map path_sites q)).
Proof.
  induction fuel as [|fuel IH]; intros q H.
  - destruct q as [|[p t] q]; [exists []; split; [reflexivity|constructor]|].
    unfold qsize in H. destruct t; cbn in H; lia.
  - destruct q as [|x q]; [exists []; split; [reflexivity|constructor]|].
    cbn [map scan_loop].
    pose proof (step_path order x) as S. destruct (scan_step order (unpath x)) as [out new] eqn:E.
    destruct S as [-> (here & -> & Hs)].
    rewrite <- map_app.
    destruct (IH (q ++ path_kids x)) as (rest & -> & P).
    { rewrite map_app, qsize_app. apply step_size in E.
      change (map unpath (x :: q)) with ([unpath x] ++ map unpath q) in H.
      rewrite qsize_app in H. lia. }
    eexists; split; [reflexivity|].
    cbn [flat_map]. rewrite flat_map_app' in P. rewrite Hs, <- app_assoc, !map_app.
    apply Permutation_app_head. etransitivity; [exact P|].
    rewrite map_app. apply Permutation_app_comm.
Qed.

Lemma Forall2_expect order l : set_order order -> Forall2 states l (map (expect order) l).
Proof. intros H. induction l; constructor; auto. now apply expect_states. Qed.

(** The loop needs no more fuel than the number of nodes; more is harmless. *)
Lemma extract_complete order t : set_order order ->
  exists out l, extract_ast_info order t = Some out
    /\ Permutation l out /\ Forall2 states (sites [] t) l.
Proof.
  intros Ho. unfold extract_ast_info.
  destruct (scan_loop_paths order (ast_size t) [([], t)]) as (out & E & P).
  { unfold qsize; cbn. lia. }
  exists out, (map (expect order) (sites [] t)). split; [exact E|]. split.
  - symmetry. cbn in P. unfold path_sites in P. cbn in P. now rewrite app_nil_r in P.
  - now apply Forall2_expect.
Qed.

(** [sites] enumerates exactly the occurrences. *)
Section ast_ind.
  Variable P : ast -> Prop.
  Hypothesis H : forall t, (forall k c, In (k, c) (kids t) -> P c) -> P t.

  Lemma ast_size_ind : forall n t, ast_size t <= n -> P t.
  Proof.
    assert (forall l c, In c l -> ast_size c <= list_sum (map ast_size l)) as Hl.
    { induction l as [|a l IHl]; intros c []; [subst; cbn; lia|].
      specialize (IHl _ H0). cbn. unfold list_sum in *. lia. }
    induction n as [|n IH]; intros t Hs; [destruct t; cbn in Hs; lia|].
    apply H. intros k c Hc. apply IH.
    destruct t; cbn [kids] in Hc; cbn [ast_size] in Hs; try contradiction.
    all: repeat (rewrite in_app_iff in Hc || rewrite in_map_iff in Hc).
    all: try destruct Hc as [Hc|Hc].
    all: try rewrite in_map_iff in Hc.
    all: destruct Hc as (c' & E & Hc); injection E as <- <-.
    all: repeat rewrite in_app_iff in Hc.
    all: try (destruct Hc as [Hc|[Hc|Hc]]; apply Hl in Hc; lia).
    all: apply Hl in Hc; lia.
  Qed.

  Lemma ast_kids_ind : forall t, P t.
  Proof. intros t. eapply ast_size_ind. reflexivity. Qed.
End ast_ind.

Lemma sites_kids p t :
  sites p t = map (fun w => (p, w)) (whats t) ++ flat_map (fun k => sites (fst k :: p) (snd k)) (kids t).
Proof.
  destruct t; cbn [sites whats kids map app].
  - rewrite map_map. cbn. now rewrite app_nil_r.
  - reflexivity.
  - now rewrite flat_map_map'.
  - now rewrite flat_map_map'.
  - now rewrite flat_map_map'.
  - now rewrite !flat_map_app', !flat_map_map', !flat_map_app', <- !app_assoc.
  - now rewrite !flat_map_app', !flat_map_map', !flat_map_app', <- !app_assoc.
  - now rewrite flat_map_map'.
Qed.

Lemma sites_below t : forall q p w,
  In (p, w) (sites q t) <-> exists p' s, p = p' ++ q /\ below p' t s /\ In w (whats s).
Proof.
  induction t as [t IH] using ast_kids_ind. intros q p w.
  rewrite sites_kids, in_app_iff, in_map_iff, in_flat_map. split.
  - intros [(w' & E & H)|([k c] & Hk & H)].
    + injection E as <- <-. exists [], t. repeat split; auto. constructor.
    + cbn [fst snd] in H. apply (IH _ _ Hk) in H as (p' & s & -> & Hb & Hw).
      exists (p' ++ [k]), s. rewrite <- app_assoc. repeat split; auto. econstructor; eauto.
  - intros (p' & s & -> & Hb & Hw). inversion Hb as [t0|p0 t0 k c s0 Hk Hb0]; subst.
    + left. exists w. auto.
    + right. exists (k, c). split; auto. cbn [fst snd]. apply (IH _ _ Hk). exists p0, s.
      rewrite <- app_assoc. auto.
Qed.

Lemma Forall2_In_l {A B} (R : A -> B -> Prop) l r x : Forall2 R l r -> In x l -> exists y, In y r /\ R x y.
Proof.
  induction 1; intros []; [subst; eauto using in_eq|].
  destruct (IHForall2 H1) as (z & ? & ?). eauto using in_cons.
Qed.

Lemma Forall2_In_r {A B} (R : A -> B -> Prop) l r y : Forall2 R l r -> In y r -> exists x, In x l /\ R x y.
Proof.
  induction 1; intros []; [subst; eauto using in_eq|].
  destruct (IHForall2 H1) as (z & ? & ?). eauto using in_cons.
Qed.

Lemma extract_contexts order t : set_order order ->
  exists out, extract_ast_info order t = Some out
    /\ (forall p s w, below p t s -> In w (whats s) ->
          exists i, In i out /\ states_what w i /\ states_context p i)
    /\ (forall i, In i out ->
          exists p s w, below p t s /\ In w (whats s) /\ states_what w i /\ states_context p i).
Proof.
  intros Ho. destruct (extract_complete order t Ho) as (out & l & E & P & F).
  exists out. split; [exact E|]. split.
  - intros p s w Hb Hw.
    assert (In (p, w) (sites [] t)) as Hin.
    { apply sites_below. exists p, s. rewrite app_nil_r. auto. }
    destruct (Forall2_In_l _ _ _ _ F Hin) as (i & Hi & S1 & S2).
    exists i. split; auto. eapply Permutation_in; eauto.
  - intros i Hi. apply (Permutation_in _ (Permutation_sym P)) in Hi.
    destruct (Forall2_In_r _ _ _ _ F Hi) as ([p w] & Hin & S1 & S2).
    apply sites_below in Hin as (p' & s & -> & Hb & Hw). rewrite app_nil_r in *.
    exists p', s, w. auto.
Qed.
