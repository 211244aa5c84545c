(** C97: what the graph says to be needed is needed. *)
From Verif Require Import ReportSpec BuilderSource BuilderHist BuilderInv BuilderCalls World AstProofs PropsBuilder PropsCalls PropsHooks PropsRoots PropsSource PropsReach SeedSpec BuilderSame PropsLoad PropsNeed PropsSame PropsSeed MoreSpec PropsMore MustSpec.
Open Scope string_scope.

(** ** Runs *)

Section runs.
  Variable find : string -> option spec.
  Variable code : string -> option (list piece).
  Variable may : mods -> string -> Prop.

  Definition have (z : mods) (x : string) : Prop := In x (loaded z) \/ In x (circled z).
  Definition met (z : mods) (n : string) (k : option bool) (l : list what) : Prop := forall w, In w l -> exists c, target n k w c /\ have z c.
  Record inv (z : mods) : Prop := {
    v_found : forall x, In x (loaded z) -> find x <> None;
    v_package : forall x c, In x (loaded z) -> child_of c x -> have z c;
    v_lines : forall x sp l, In x (loaded z) -> find x = Some sp -> code x = Some l -> met z x (Some (spec_pkg sp)) (flat_map musts l);
    v_circled : forall x, In x (circled z) -> In x (loaded z) \/ In x (loading z) \/ In x (failed z)
  }.
  Record later (z z' : mods) : Prop := {
    la_loaded : forall x, In x (loaded z) -> In x (loaded z');
    la_loading : loading z' = loading z;
    la_failed : forall x, In x (failed z) -> In x (failed z');
    la_circled : forall x, In x (circled z) -> In x (circled z')
  }.
  Lemma later_refl z : later z z.
  Proof. constructor; auto. Qed.
  Lemma later_trans z z1 z2 : later z z1 -> later z1 z2 -> later z z2.
  Proof. intros [A B C D] [A' B' C' D']. constructor; auto. congruence. Qed.
  Lemma later_have z z' x : later z z' -> have z x -> have z' x.
  Proof. intros [A _ _ D] [H|H]; [left|right]; auto. Qed.
  Lemma later_met z z' n k l : later z z' -> met z n k l -> met z' n k l.
  Proof. intros L H w Hw. destruct (H w Hw) as (c & A & B). exists c. split; [exact A|]. eapply later_have; eassumption. Qed.
  Lemma met_app z n k l l' : met z n k l -> met z n k l' -> met z n k (l ++ l').
  Proof. intros A B w H. apply in_app_or in H as [H|H]; auto. Qed.

  Definition before (t : task) (z : mods) : Prop := match t with Loads x => forall p, child_of p x -> have z p | _ => True end.
  Definition after (t : task) (z : mods) : Prop :=
    match t with
    | Lines n k l => met z n k (flat_map musts l)
    | Line n k p => met z n k (musts p)
    | Import x | Loads x => have z x
    | _ => True
    end.
  Lemma inv_circle x z : In x (loading z) -> inv z -> inv (circle x z).
  Proof.
    intros H [A B C D]. assert (L : forall y, have z y -> have (circle x z) y) by (intros y [K|K]; [now left|right; now right]). constructor; cbn.
    - exact A.
    - intros y c Hy Hc. apply L. eapply B; eassumption.
    - intros y sp l Hy Hf Hc w Hw. destruct (C y sp l Hy Hf Hc w Hw) as (c & C1 & C2). exists c. auto.
    - intros y [<-|Hy]; auto.
  Qed.
  Lemma later_circle x z : later z (circle x z).
  Proof. constructor; cbn; auto. Qed.
  Lemma inv_begin x z : inv z -> inv (begin x z).
  Proof. intros [A B C D]. constructor; cbn; try assumption. intros y Hy. destruct (D y Hy) as [H|[H|H]]; auto. Qed.
  Lemma later_finish x z z1 : later (begin x z) z1 -> later z (finish x z1).
  Proof. intros [A B C D]. constructor; cbn in *; auto. now rewrite B. Qed.
  Lemma later_abandon x z z1 : later (begin x z) z1 -> later z (abandon x z1).
  Proof. intros [A B C D]. constructor; cbn in *; auto. now rewrite B. Qed.
  Lemma inv_abandon x z z1 : later (begin x z) z1 -> inv z1 -> inv (abandon x z1).
  Proof.
    intros L [A B C D]. constructor; cbn; try assumption. intros y Hy. pose proof (la_loading _ _ L) as K. cbn in K. destruct (D y Hy) as [H|[H|H]]; auto.
    rewrite K in *. destruct H as [<-|H]; auto.
  Qed.
  Lemma inv_finish x z z1 : later (begin x z) z1 -> inv z1 -> find x <> None -> (forall p, child_of p x -> have z p) ->
    (forall sp l, find x = Some sp -> code x = Some l -> met z1 x (Some (spec_pkg sp)) (flat_map musts l)) -> inv (finish x z1).
  Proof.
    intros L [A B C D] F P M. assert (K : forall y, have z1 y -> have (finish x z1) y) by (intros y [H|H]; [left; now right|now right]).
    assert (K2 : forall n k l, met z1 n k l -> met (finish x z1) n k l) by (intros n k l H w Hw; destruct (H w Hw) as (c & H1 & H2); exists c; auto).
    constructor; cbn [loaded finish].
    - intros y [<-|Hy]; auto.
    - intros y c [<-|Hy] Hc; apply K; [|eauto]. destruct (P c Hc) as [H|H]; [left; now apply (la_loaded _ _ L)|right; now apply (la_circled _ _ L)].
    - intros y sp l [<-|Hy] Hf Hc; apply K2; eauto.
    - intros y Hy. pose proof (la_loading _ _ L) as K3. cbn in *. destruct (D y Hy) as [H|[H|H]]; auto. rewrite K3 in *. destruct H as [<-|H]; auto.
  Qed.
  Lemma run_inv t z o z' : run find code may t z o z' -> inv z -> before t z -> inv z' /\ later z z' /\ (o = Next -> after t z').
  Proof.
    assert (N : forall y k n, met y n k []) by (intros y k n w []).
    assert (R : forall y k n l b, later y b -> met y n k l -> met b n k l) by (intros; eapply later_met; eassumption).
    induction 1; intros V P; cbn [before after musts flat_map] in *; repeat match goal with
    | H : inv ?y -> True -> _, K : inv ?y |- _ => destruct (H K Logic.I) as (? & ? & ?); clear H
    end;
    try (split; [assumption|split; [first [apply later_refl|eassumption|eapply later_trans; eassumption|eapply later_trans; [eassumption|eapply later_trans; eassumption]]|]]);
    try (intros; discriminate); try (intros; now auto); try (intros ->; now auto).
    - intros ->. apply met_app; [eapply R; [eassumption|auto]|auto].
    - intros -> w [<-|Hw]; [|now apply H6].
      exists x. split; [destruct k; cbn; [apply (mentions_absolute _ _ (WImport x a)); reflexivity|now split]|]. eapply later_have; [eassumption|auto].
    - intros -> w [<-|[]]. exists t. split; [assumption|]. eapply later_have; [eassumption|auto].
    - intros _. eapply R; [eassumption|auto].
    - intros _. now left.
    - split; [now apply inv_circle|]. split; [apply later_circle|]. intros _. right. now left.
    - apply IHrun; [exact V|]. intros p Hp. now elim (H0 p).
    - destruct IHrun2 as (A & B & C); [assumption|intros q Hq; assert (q = p) as -> by (eapply child_one; eassumption); auto|].
      split; [exact A|]. split; [eapply later_trans; eassumption|exact C].
    - intros _. now left.
    - split; [now apply inv_circle|]. split; [apply later_circle|]. intros _. right. now left.
    - destruct (IHrun (inv_begin x z V) Logic.I) as (A & B & C).
      destruct o; (split; [|split]); try (now eapply inv_abandon; eassumption); try (now eapply later_abandon; eassumption); try discriminate.
      + eapply inv_finish; try eassumption; [congruence|]. intros sp' l' F K. assert (sp' = sp) as -> by congruence. assert (l' = l) as -> by congruence. auto.
      + now eapply later_finish.
      + intros _. left. now left.
    - destruct (IHrun (inv_begin x z V) Logic.I) as (A & B & C).
      destruct o; (split; [|split]); try (now eapply inv_abandon; eassumption); try (now eapply later_abandon; eassumption); try discriminate.
      + eapply inv_finish; try eassumption; congruence.
      + now eapply later_finish.
      + intros _. left. now left.
  Qed.

  Lemma rest_inv z : at_rest find code z -> inv z.
  Proof.
    intros [A B C D F G]. constructor.
    - exact D.
    - intros x c Hx Hc. left. apply (G x); [exact Hx|now apply rq_package].
    - intros x sp l Hx Hf Hc w Hw. destruct (F x sp l w Hx Hf Hc Hw) as (c & K). exists c. split; [exact K|]. left.
      apply (G x); [exact Hx|]. eapply rq_line; eassumption.
    - rewrite C. intros x [].
  Qed.
  (** At the end nothing is being loaded. *)
  Lemma sound_have t z o z' x : at_rest find code z -> run find code may t z o z' -> before t z -> sound_circles z' -> have z' x -> In x (loaded z').
  Proof.
    intros R H B S [K|K]; [exact K|]. destruct (run_inv _ _ _ _ H (rest_inv z R) B) as (V & L & _).
    destruct (v_circled _ V x K) as [A|[A|A]]; [exact A| |now elim (S x K)].
    rewrite (la_loading _ _ L), (ar_loading _ _ _ R) in A. destruct A.
  Qed.
End runs.

(** ** Statements and trees *)

Section pieces.
  Variable P : piece -> Prop.
  Hypothesis H1 : forall names, P (PImport names).
  Hypothesis H2 : forall m names level, P (PFrom m names level).
  Hypothesis H3 : P PSimple.
  Hypothesis H4 : P PJump.
  Hypothesis H5 : forall a b, Forall P a -> Forall P b -> P (PIf a b).
  Hypothesis H6 : forall a b, Forall P a -> Forall P b -> P (PLoop a b).
  Hypothesis H7 : forall a, Forall P a -> P (PWith a).
  Hypothesis H8 : forall cs, Forall (Forall P) cs -> P (PMatch cs).
  Hypothesis H9 : forall b a, Forall P a -> P (PDef b a).
  Hypothesis H10 : forall a, Forall P a -> P (PClass a).
  Hypothesis H11 : forall st b h e f, Forall P b -> Forall (Forall P) h -> Forall P e -> Forall P f -> P (PTry st b h e f).
  Fixpoint piece_all (p : piece) : P p :=
    let fl := fix fl (l : list piece) : Forall P l := match l with [] => Forall_nil _ | x :: r => Forall_cons _ (piece_all x) (fl r) end in
    let fll := fix fll (l : list (list piece)) : Forall (Forall P) l := match l with [] => Forall_nil _ | x :: r => Forall_cons _ (fl x) (fll r) end in
    match p with
    | PImport names => H1 names
    | PFrom m names level => H2 m names level
    | PSimple => H3
    | PJump => H4
    | PIf a b => H5 a b (fl a) (fl b)
    | PLoop a b => H6 a b (fl a) (fl b)
    | PWith a => H7 a (fl a)
    | PMatch cs => H8 cs (fll cs)
    | PDef b a => H9 b a (fl a)
    | PClass a => H10 a (fl a)
    | PTry st b h e f => H11 st b h e f (fl b) (fll h) (fl e) (fl f)
    end.
End pieces.

Definition clean (q : list edge) : Prop := ~ In KDef q /\ ~ In KIf q /\ ~ In KTry q.
Lemma sites_path k q p w t : In (p, w) (sites (k :: q) t) -> clean p -> k <> KDef /\ k <> KIf /\ k <> KTry.
Proof.
  intros H (A & B & C). apply sites_below in H as (r & s & -> & _). repeat split; intros ->; [apply A|apply B|apply C]; apply in_or_app; right; now left.
Qed.
Definition found_exposed (p : piece) : Prop := forall q r w, In (r, w) (sites q (tree p)) -> clean r -> In w (exposed p).
Lemma exposed_list l q r w : Forall found_exposed l -> In (r, w) (flat_map (sites q) (map tree l)) -> clean r -> In w (flat_map exposed l).
Proof.
  intros F H C. apply in_flat_map in H as (t & Ht & H). apply in_map_iff in Ht as (p & <- & Hp). rewrite Forall_forall in F.
  apply in_flat_map. exists p. split; [exact Hp|]. eapply F; eassumption.
Qed.
Lemma exposed_lists l q r w : Forall (Forall found_exposed) l -> In (r, w) (flat_map (sites q) (map (fun c => AOther (map tree c)) l)) -> clean r ->
  In w (flat_map (flat_map exposed) l).
Proof.
  intros F H C. apply in_flat_map in H as (t & Ht & H). apply in_map_iff in Ht as (p & <- & Hp). rewrite Forall_forall in F.
  apply in_flat_map. exists p. split; [exact Hp|]. eapply exposed_list; [now apply F|exact H|exact C].
Qed.
Lemma guarded_list k q r w l : In (r, w) (flat_map (sites (k :: q)) l) -> clean r -> k = KDef \/ k = KIf \/ k = KTry -> False.
Proof. intros H C K. apply in_flat_map in H as (t & _ & H). destruct (sites_path _ _ _ _ _ H C) as (A & B & D). intuition congruence. Qed.
Lemma exposed_sites p : found_exposed p.
Proof.
  induction p using piece_all; intros q r w Hs C; cbn [tree exposed] in *.
  - cbn in Hs. apply in_map_iff in Hs as (x & E & Hx). injection E as <- <-. apply in_map_iff. now exists x.
  - destruct Hs as [E|[]]. injection E as <- <-. now left.
  - destruct Hs.
  - destruct Hs.
  - exfalso. cbn [sites] in Hs. eapply guarded_list; eauto.
  - cbn [sites] in Hs. rewrite flat_map_app in Hs. apply in_or_app. apply in_app_or in Hs as [Hs|Hs]; [left|right]; eapply exposed_list; eassumption.
  - eapply exposed_list; eassumption.
  - eapply exposed_lists; eassumption.
  - exfalso. destruct b; cbn [sites] in Hs; eapply guarded_list; eauto.
  - eapply exposed_list; eassumption.
  - destruct st; cbn [sites exposed] in *.
    + repeat (apply in_app_or in Hs as [Hs|Hs]; [apply in_or_app; left; first [eapply exposed_list; eassumption|eapply exposed_lists; eassumption]|apply in_or_app; right]).
      eapply exposed_list; eassumption.
    + do 3 (apply in_app_or in Hs as [Hs|Hs]; [exfalso; eapply guarded_list; eauto|]). eapply exposed_list; eassumption.
Qed.
Lemma straight_list l : fold_right (fun x P => straight x /\ P) True l <-> Forall straight l.
Proof. induction l as [|x l IH]; cbn; [split; auto|]. rewrite IH. split; [intros []; now constructor|intros H; now inversion H]. Qed.
Lemma straight_musts p : straight p -> forall w, In w (exposed p) -> In w (musts p).
Proof.
  assert (L : forall l, Forall (fun p => straight p -> forall w, In w (exposed p) -> In w (musts p)) l -> Forall straight l -> forall w, In w (flat_map exposed l) -> In w (flat_map musts l)).
  { intros l F S w H. apply in_flat_map in H as (x & Hx & H). rewrite Forall_forall in F, S. apply in_flat_map. exists x. split; auto. }
  induction p using piece_all; intros S w Hw; cbn [straight exposed musts] in *; try (rewrite S in Hw; now destruct Hw); auto.
  - apply straight_list in S. eauto.
  - destruct st; cbn [exposed] in *.
    + destruct S as (S1 & S2 & S3 & S). rewrite S1, S2, S3 in Hw. cbn in Hw. apply straight_list in S. eauto.
    + apply straight_list in S. eauto.
Qed.
(** What the scan says not to be optional is made when the statements have been run. *)
Lemma told_musts l fn w : Forall straight l -> tree_says (module_tree l) fn false w -> In w (flat_map musts l).
Proof.
  intros S (p & A & _ & B). cbn [module_tree sites] in A.
  assert (C : clean p) by (repeat split; intros K; assert (X : false = true) by (apply B; auto); discriminate X).
  assert (H : In w (flat_map exposed l)) by (eapply exposed_list; [|exact A|exact C]; apply Forall_forall; intros x _; apply exposed_sites).
  apply in_flat_map in H as (x & Hx & H). rewrite Forall_forall in S. apply in_flat_map. exists x. split; [exact Hx|]. apply straight_musts; auto.
Qed.

(** ** The graph *)

Lemma mentions_one n b w x y : mentions n b w x -> mentions n b w y -> x = y.
Proof. intros H H'. destruct H; destruct H'; try congruence; try (pose proof (up_unique _ _ _ _ H0 H3); congruence). Qed.
Lemma source_statements E sp text file l j fz c s n i s' tr : set_order (e_names_order E) -> sp_loader sp = LInspect fz (ROk (Some text)) c -> sp_origin sp = Some file ->
  (forall t, e_parse E t file text = ROk tr) -> f_nfs (exec E j) sp s = Some (ROk (n, l), s') -> In i l -> exists fn opt w, tree_says tr fn opt w /\ recorded fn opt w i.
Proof.
  intros HO El Eo Ep H Hi. destruct j as [|j]; [discriminate|]. cbn [exec f_nfs] in H. unfold nfs_body in H. rewrite El in H.
  apply ok_bind in H as (si & s1 & H1 & H). apply ok_bind in H as (ci & s2 & H2 & H). apply ok_bind in H as (d & s3 & _ & H).
  unfold source_imports in H1. rewrite Eo in H1. apply ok_bind in H1 as (r & s4 & H3 & H1). unfold attempt, askr in H3. rewrite Ep in H3. injection H3 as <- <-.
  destruct (extract_ast_info (e_names_order E) tr) as [l0|] eqn:Ex; [|discriminate]. injection H1 as <- <-.
  destruct (match ci with Some x => x | None => ([], [], []) end) as [[bi wr] rd].
  apply wrap_pkg in H as (-> & _); [|reflexivity]. exact (proj2 (tree_covers _ _ _ HO Ex) i Hi).
Qed.
Lemma other_statements E sp l j s n s' : direct (sp_loader sp) = true -> (forall fz src c, sp_loader sp <> LInspect fz src c) ->
  f_nfs (exec E j) sp s = Some (ROk (n, l), s') -> l = [].
Proof.
  intros Hd N H. destruct j as [|j]; [discriminate|]. cbn [exec f_nfs] in H. unfold nfs_body in H.
  destruct (sp_loader sp) as [| | | |frozen gs gc| |[[root vendor]|]| |] eqn:El; try discriminate Hd; try discriminate H.
  - destruct (sp_search sp); [|discriminate]. now injection H as <- <- <-.
  - destruct (sp_search sp); [|discriminate]. now injection H as <- <- <-.
  - now apply wrap_pkg in H as (-> & _).
  - apply ok_bind in H as (d & s3 & _ & H). now apply wrap_pkg in H as (-> & _).
  - now elim (N frozen gs gc).
Qed.

Section graph.
  Variable E : env.
  Variable find : string -> option spec.
  Variables implies conf : list (string * implied).
  Variable code : string -> option (list piece).
  Variable f : string.
  Variable l : list piece.
  Hypothesis HE : order_ok E.
  Hypothesis HO : set_order (e_names_order E).
  Hypothesis HS : steady E find.
  Hypothesis HC : forall x i, assoc x conf = Some i -> starts_with "." x = false.
  Hypothesis HX : excludes_only conf.
  Context {DS : dist -> Prop}.
  Variable s : st.
  Hypothesis HG : dsession E DS implies conf s.
  (** Whether it is script [f] that is run. *)
  Variable FS : Prop.
  Hypothesis HF : FS -> kind_of s f = Some Script.
  Hypothesis HP : FS -> forall t, e_script E t f = ROk (module_tree l).
  Hypothesis HW : sources E find code.
  Hypothesis HT : no_tools s.
  Hypothesis HY : tidy s.
  Hypothesis HA : scripts_apart s.
  Hypothesis ST : FS -> Forall straight l.
  Hypothesis SC : forall x b, code x = Some b -> Forall straight b.
  Variable z' : mods.
  Hypothesis V : inv find code z'.
  Hypothesis M : FS -> met z' f None (flat_map musts l).
  Hypothesis SH : forall x, have z' x -> In x (loaded z').
  Let W0 : J E find conf DS s := w_inv _ _ _ _ _ (one_JW E find implies conf HE HS HC s HG).
  Notation g := (s_graph s).

  (** A statement that is not optional, of a script or module that has been run. *)
  Lemma must_stmt a i : (FS /\ a = f) \/ (In a (loaded z') /\ kind_of s a <> Some Script) -> stmt s a i -> is_optional i = false ->
    exists nd fn w, gfind g a = Some nd /\ recorded fn false w i /\ ((a = f /\ exists c, target f None w c /\ In c (loaded z'))
      \/ (exists c, mentions a (node_is_pkg nd) w c /\ In c (loaded z'))).
  Proof.
    intros Ha (_ & b & A & B) Hi. destruct (j_added _ _ _ _ _ W0 _ _ A) as (nd & n0 & G1 & B1 & (_ & S & _) & _). exists nd.
    assert (K : kind_of s a = Some (n_kind n0)) by (unfold kind_of; rewrite G1; cbn; now rewrite S).
    assert (R0 : forall fn opt w, recorded fn opt w i -> opt = false) by (intros fn opt w (_ & _ & <-); exact Hi).
    destruct B1 as [t tr b A1 B1|d0 A1 B1|A1|c' k' A1 B1 C1 D1|i' k' A1 B1 C1|A1 B1 C1|sp n0 b k' s1 s2 A1 B1 C1 D1]; try destruct B.
    - destruct Ha as [[FF ->]|[_ Ha]]; [|now elim Ha].
      rewrite (HP FF) in A1. injection A1 as <-.
      destruct (proj2 (tree_covers _ _ _ HO B1) i B) as (fn & opt & w & T & R). pose proof (R0 _ _ _ R). subst opt. exists fn, w.
      split; [exact G1|]. split; [exact R|]. left. split; [reflexivity|]. destruct (M FF w) as (c & C1 & C2); [eapply told_musts; [exact (ST FF)|eassumption]|]. exists c. split; [exact C1|now apply SH].
    - pose proof (sy_direct _ _ HS _ _ C1) as Hd. destruct (nfs_kind _ _ _ _ _ _ _ Hd D1) as [_ NK].
      assert (NS : ~ (FS /\ a = f)) by (intros [FF ->]; rewrite (HF FF) in K; injection K as K; rewrite <- K in NK; destruct NK).
      pose proof (HW _ _ C1) as WS.
      destruct (sp_loader sp) as [| | | |fz src c| |at_| |] eqn:El; try (assert (b = []) as -> by (eapply other_statements; [rewrite El; exact Hd| |exact D1]; congruence); destruct B).
      destruct WS as (text & file & b' & -> & Eo & Ec & Ep).
      destruct (source_statements _ _ _ _ _ _ _ _ _ _ i _ _ HO El Eo Ep D1 B) as (fn & opt & w & T & R). pose proof (R0 _ _ _ R). subst opt. exists fn, w.
      split; [exact G1|]. split; [exact R|]. right. destruct Ha as [Ha|[Ha _]]; [contradiction|].
      destruct (v_lines _ _ _ V a sp b' Ha C1 Ec w) as (c1 & K1 & K2); [eapply told_musts; [eapply SC; exact Ec|exact T]|]. exists c1. split; [|now apply SH].
      assert (P : node_is_pkg nd = spec_pkg sp).
      { unfold node_is_pkg. rewrite S. fold (node_is_pkg n0). eapply nfs_pkg; [rewrite El; exact Hd| |exact D1].
        intros (fz' & c' & El'). congruence. }
      rewrite P. exact K1.
  Qed.
  Lemma target_kind a t : ~ (kind_of s a = Some (AliasNode t) \/ kind_of s a = Some (VirtualNode t)).
  Proof.
    intros H. unfold kind_of in H. destruct (gfind g a) as [nd|] eqn:Ea; [|destruct H; discriminate]. cbn in H.
    destruct (j_nodes _ _ _ _ _ W0 _ _ Ea) as (n0 & b & _ & B & (_ & S & _)). rewrite S in H.
    assert (K : n_kind n0 = AliasNode t \/ n_kind n0 = VirtualNode t) by (destruct H as [H|H]; injection H; auto). clear H.
    destruct B as [t0 tr b A B|d0 A B|A|c' k' A B C D|i k' A B C|A B C|sp n0 b k' s1 s2 A B C D]; cbn [plain_node n_kind] in *; try (destruct K; discriminate).
    - destruct K as [-> | ->]; discriminate.
    - rewrite (HX _ _ B) in C. injection C as <-. destruct K; discriminate.
    - apply (nfs_kind E) in D as [_ D]; [|eapply sy_direct; eassumption]. destruct K as [K|K]; rewrite K in D; destruct D.
  Qed.

  Lemma needed_loaded r b : (FS /\ r = f) \/ (In r (loaded z') /\ kind_of s r <> Some Script /\ kind_of s r <> Some Distribution) -> needed g r b ->
    (FS /\ b = f) \/ (In b (loaded z') /\ kind_of s b <> Some Script /\ kind_of s b <> Some Distribution).
  Proof.
    intros H0. induction 1 as [|a b d Ha IH He Ho Hf]; [exact H0|].
    assert (NB : kind_of s b <> Some Script /\ kind_of s b <> Some Distribution).
    { split; intros K; [destruct (HA b (or_introl K)) as (N & _)|destruct (HA b (or_intror K)) as (N & _)]; now apply (N a d). }
    right. enough (In b (loaded z')) by (split; assumption).
    assert (IH' : (FS /\ a = f) \/ (In a (loaded z') /\ kind_of s a <> Some Script)) by (destruct IH as [IH|(I1 & I2 & _)]; auto).
    destruct (j_edges _ _ _ _ _ W0 _ _ _ He) as [i A B ->|i p A B C _ ->|i m nd nm A B C D F G ->|i m nd nm A B C D F ->|x nd A -> ->|A B ->|refs A B C ->|A ->|x i k fl A B ->|nd dd A B C D ->].
    - destruct (must_stmt a i IH' A Ho) as (nd & fn & w & G1 & R & [(-> & c & (T1 & ->) & T2)|(c & T1 & T2)]).
      + pose proof (aims_mentions s f nd fn false w i b G1 R B) as K. destruct K as [K|q K _ _|q K _ _]; [exact T2| |]; contradiction.
      + pose proof (aims_mentions s a nd fn false w i b G1 R B) as K. now rewrite (mentions_one _ _ _ _ _ K T1).
    - exfalso. destruct (must_stmt a i IH' A Ho) as (nd & fn & w & G1 & R & K).
      assert (L0 : ii_level i = w_level w) by (destruct R as (Hw & _); destruct w as [n0 a0|m names lv]; cbn in Hw |- *; now destruct Hw as (_ & -> & _)).
      destruct K as [(-> & c & (T1 & _) & _)|(c & T1 & _)].
      + destruct C as [C _]. congruence.
      + pose proof (gfind_name _ _ _ G1) as En. rewrite <- En in *. apply (own_pkg_unique s nd p G1) in B as ->.
        apply (recorded_names s nd fn false w i c R G1) in T1. now apply (imports_not_beyond _ _ _ _ T1).
    - discriminate Hf.
    - discriminate Hf.
    - destruct IH' as [[FF Ef]|[I1 _]].
      + destruct (HA _ (or_introl (HF FF))) as (_ & _ & N). now elim (N b x nd A).
      + apply SH, (v_package _ _ _ V _ _ I1). destruct HY as [T1 T2]. destruct A as (n & i & nm & A1 & A2 & <- & A4 & A5). apply child_plain; [eapply T2; eassumption|eapply T1; eassumption].
    - destruct IH' as [[FF ->]|[I1 _]]; [pose proof (HF FF) as HF'; destruct B as (_ & [B _] & _); contradiction|]. apply SH, (v_package _ _ _ V _ _ I1 A).
    - exfalso. destruct B as (_ & _ & B). apply HX in B. discriminate B.
    - exfalso. now apply (target_kind a b).
    - exfalso. now apply HT in A.
    - exfalso. assert (K : kind_of s a = Some Distribution) by (unfold kind_of; rewrite A; cbn; now rewrite B).
      destruct IH as [[FF ->]|(_ & _ & I3)]; [rewrite (HF FF) in K; discriminate K|contradiction].
  Qed.
  Lemma missing_not_loaded b : kind_of s b = Some MissingModule -> ~ In b (loaded z').
  Proof.
    induction b as [b IH] using (induction_ltof1 _ String.length). unfold ltof in IH. intros K L. unfold kind_of in K.
    destruct (gfind g b) as [nd|] eqn:Eb; [|discriminate]. injection K as K. destruct (j_nodes _ _ _ _ _ W0 _ _ Eb) as (n0 & l0 & _ & B & (_ & S & _)). rewrite S in K.
    destruct B as [t0 tr b0 A B|d0 A B|A|c k A B C D|i k A B C|A B C|sp n0 b0 k' s1 s2 A B C D]; cbn [plain_node n_kind] in K; try discriminate K.
    - subst k. apply (IH c); [now apply child_shorter|exact C|]. apply SH, (v_package _ _ _ V _ _ L B).
    - rewrite (HX _ _ B) in C. injection C as <-. discriminate K.
    - now apply (v_found _ _ _ V _ L).
    - apply (nfs_kind E) in D as [_ D]; [|eapply sy_direct; eassumption]. rewrite K in D. destruct D.
  Qed.
End graph.

(** ** Theorems *)

(** A graph for a program, which is not configured but for excludes. *)
Record tested (E : env) (find : string -> option spec) (code : string -> option (list piece)) (DS : dist -> Prop) (conf : list (string * implied)) (f : string) (l : list piece) (s : st) : Prop := {
  te_order : order_ok E;
  te_names : set_order (e_names_order E);
  te_steady : steady E find;
  te_dots : forall x i, assoc x conf = Some i -> starts_with "." x = false;
  te_conf : excludes_only conf;
  te_session : exists implies, dsession E DS implies conf s;
  te_script : kind_of s f = Some Script;
  te_source : written E find code f l;
  te_tools : no_tools s;
  te_tidy : tidy s;
  te_apart : scripts_apart s
}.
(** No run of a program comes to its end if the graph says that a missing module is needed. *)
Definition C97_statement : Prop := forall E find code may DS conf f l s z z' b, tested E find code DS conf f l s -> at_rest find code z ->
  needed (s_graph s) f b -> kind_of s b = Some MissingModule -> ~ run find code may (Lines f None l) z Next z'.
(** The same for programs that only have the statements that the scan knows about. *)
Definition C97_straight_statement : Prop := forall E find code may DS conf f l s z z' b, tested E find code DS conf f l s -> at_rest find code z ->
  Forall straight l -> (forall x c, code x = Some c -> Forall straight c) ->
  needed (s_graph s) f b -> kind_of s b = Some MissingModule -> ~ run find code may (Lines f None l) z Next z'.

(** Such a graph, which may be that of other programs. *)
Record explored (E : env) (find : string -> option spec) (code : string -> option (list piece)) (DS : dist -> Prop) (conf : list (string * implied)) (s : st) : Prop := {
  xp_order : order_ok E;
  xp_names : set_order (e_names_order E);
  xp_steady : steady E find;
  xp_dots : forall x i, assoc x conf = Some i -> starts_with "." x = false;
  xp_conf : excludes_only conf;
  xp_session : exists implies, dsession E DS implies conf s;
  xp_source : sources E find code;
  xp_tools : no_tools s;
  xp_tidy : tidy s;
  xp_apart : scripts_apart s
}.

Theorem C97_loaded_partial : forall E find code may DS conf f l s z z', tested E find code DS conf f l s -> at_rest find code z ->
  Forall straight l -> (forall x c, code x = Some c -> Forall straight c) ->
  run find code may (Lines f None l) z Next z' -> sound_circles z' ->
  forall b, needed (s_graph s) f b -> b = f \/ In b (loaded z').
Proof.
  intros E find code may DS conf f l s z z' [A B C D F (i & G) H [I I'] K L M] R S1 S2 N S b Hb.
  destruct (run_inv _ _ _ _ _ _ _ N (rest_inv _ _ z R) Logic.I) as (V & _ & T).
  destruct (needed_loaded E find i conf code f l A B C D F s G True (fun _ => H) (fun _ => I) I' K L M (fun _ => S1) S2 z' V (fun _ => T eq_refl)
    (fun x => sound_have _ _ _ _ _ _ _ x R N Logic.I S) f b) as [[_ ->]|(X & _)]; auto.
Qed.
Theorem C97_partial : forall E find code may DS conf f l s z z' b, tested E find code DS conf f l s -> at_rest find code z ->
  Forall straight l -> (forall x c, code x = Some c -> Forall straight c) ->
  needed (s_graph s) f b -> kind_of s b = Some MissingModule -> run find code may (Lines f None l) z Next z' -> ~ sound_circles z'.
Proof.
  intros E find code may DS conf f l s z z' b HT R S1 S2 Hb Km N S.
  destruct (C97_loaded_partial _ _ _ _ _ _ _ _ _ _ _ HT R S1 S2 N S b Hb) as [->|X]; destruct HT as [A B C D F (i & G) H [I I'] K L M]; [congruence|].
  revert X. destruct (run_inv _ _ _ _ _ _ _ N (rest_inv _ _ z R) Logic.I) as (V & _ & T).
  exact (missing_not_loaded E find i conf code A C D F s G z' V (fun x => sound_have _ _ _ _ _ _ _ x R N Logic.I S) b Km).
Qed.
(** Whatever a run does, no module is loaded without what the graph says that it needs. *)
Theorem C97_modules_partial : forall E find code may DS conf f l s z o z', explored E find code DS conf s -> at_rest find code z ->
  (forall x c, code x = Some c -> Forall straight c) ->
  run find code may (Lines f None l) z o z' -> sound_circles z' ->
  forall a b, In a (loaded z') -> modular s a -> needed (s_graph s) a b -> In b (loaded z') /\ kind_of s b <> Some MissingModule.
Proof.
  intros E find code may DS conf f l s z o z' [A B C D F (i & G) I K L M] R S2 N S a b Ha [Hm1 Hm2] Hb.
  destruct (run_inv _ _ _ _ _ _ _ N (rest_inv _ _ z R) Logic.I) as (V & _ & _).
  destruct (needed_loaded E find i conf code f l A B C D F s G False (False_ind _) (False_ind _) I K L M (False_ind _) S2 z' V (False_ind _)
    (fun x => sound_have _ _ _ _ _ _ _ x R N Logic.I S) a b) as [[[] _]|(X & _)]; [right; auto|exact Hb|]. split; [exact X|]. intros Km. revert X.
  exact (missing_not_loaded E find i conf code A C D F s G z' V (fun x => sound_have _ _ _ _ _ _ _ x R N Logic.I S) b Km).
Qed.
(** Nothing can be imported that needs a missing module. *)
Theorem C97_import_partial : forall E find code may DS conf s z z' x, explored E find code DS conf s -> at_rest find code z ->
  (forall x c, code x = Some c -> Forall straight c) ->
  run find code may (Import x) z Next z' -> sound_circles z' -> modular s x ->
  forall b, needed (s_graph s) x b -> In b (loaded z') /\ kind_of s b <> Some MissingModule.
Proof.
  intros E find code may DS conf s z z' x [A B C D F (i & G) I K L M] R S2 N S [Hm1 Hm2] b Hb.
  destruct (run_inv _ _ _ _ _ _ _ N (rest_inv _ _ z R) Logic.I) as (V & _ & T). specialize (T eq_refl). cbn [after] in T.
  assert (SH : forall y, have z' y -> In y (loaded z')) by (intros y; exact (sound_have _ _ _ _ _ _ _ y R N Logic.I S)).
  destruct (needed_loaded E find i conf code x [] A B C D F s G False (False_ind _) (False_ind _) I K L M (False_ind _) S2 z' V (False_ind _)
    SH x b) as [[[] _]|(X & _)]; [right; auto|exact Hb|]. split; [exact X|]. intros Km. revert X.
  exact (missing_not_loaded E find i conf code A C D F s G z' V SH b Km).
Qed.

(** ** Examples *)

(** Programs: the modules, which are packages or not, with their statements. *)
Definition program := list (string * (bool * list piece)).
Definition writes_of (l : list piece) : list string := flat_map (fun w => match w with WImport _ (Some a) => [a] | _ => [] end) (flat_map imports l).
Definition entries (w : program) : list (string * entry) := map (fun x => (fst x, ESource (fst (snd x)) (map tree (snd (snd x))) (writes_of (snd (snd x))))) w.
Definition code_in (w : program) (x : string) : option (list piece) := option_map snd (assoc x w).
Definition program_world (w : program) (l : list piece) : env := world (entries w) [("main.py", map tree l)] [].
Lemma entries_assoc w x : assoc x (entries w) = option_map (fun y : bool * list piece => ESource (fst y) (map tree (snd y)) (writes_of (snd y))) (assoc x w).
Proof. induction w as [|[y v] w IH]; [reflexivity|]. cbn. destruct (seqb x y); [reflexivity|exact IH]. Qed.
Lemma entries_text w x : text_of (entries w) x = option_map (fun y : bool * list piece => map tree (snd y)) (assoc x w).
Proof.
  induction w as [|[y v] w IH]; [reflexivity|]. cbn. unfold seqb. rewrite (String.eqb_sym y x). destruct (x =? y)%string; [reflexivity|exact IH].
Qed.
Lemma program_written w l : written (program_world w l) (found_in (entries w)) (code_in w) "main.py" l.
Proof.
  constructor; [reflexivity|]. intros x sp H. unfold found_in in H. rewrite entries_assoc in H. unfold code_in.
  destruct (assoc x w) as [[p b]|] eqn:A; [|discriminate]. cbn in H. injection H as <-. cbn.
  exists x. eexists _, b. repeat split. intros t. rewrite entries_text, A. reflexivity.
Qed.
Lemma entries_steady w l : assoc "@@SIX_MOVES@@" w = None -> steady (program_world w l) (found_in (entries w)).
Proof.
  intros H. apply world_steady; [|now rewrite entries_assoc, H]. apply forallb_forall. intros y Hy. apply in_map_iff in Hy as (v & <- & _). reflexivity.
Qed.
Definition tools_b (s : st) : bool := forallb (fun n => match n_kind n with Package _ _ _ _ (Some _) => false | _ => true end) (g_nodes (s_graph s)).
Lemma tools_bool s : tools_b s = true -> no_tools s.
Proof.
  intros H a x i k f b K. unfold tools_b in H. rewrite forallb_forall in H. unfold kind_of in K.
  destruct (gfind (s_graph s) a) as [n|] eqn:A; [|discriminate]. apply gfind_in in A as [A _]. apply H in A. cbn in K. injection K as K. now rewrite K in A.
Qed.
Definition program_graph (w : program) (l : list piece) : st := snd (the_calls (program_world w l) [AAddScript "main.py"] new).
Lemma program_tested w l s anss : assoc "@@SIX_MOVES@@" w = None -> calls (program_world w l) 60 [AAddScript "main.py"] new = Some (anss, s) -> forallb fine_answer anss = true ->
  kind_of s "main.py" = Some Script -> tools_b s = true -> tidy_b s = true -> apart_b s = true ->
  tested (program_world w l) (found_in (entries w)) (code_in w) (fun _ => False) main_conf "main.py" l s.
Proof.
  intros H6 C F K A B D. constructor.
  - apply world_order.
  - intros m. apply Permutation_refl.
  - now apply entries_steady.
  - intros x i H. cbn in H. destruct (seqb x "__main__") eqn:Ex; [|discriminate]. apply seqb_eq in Ex as ->. reflexivity.
  - intros x i H. cbn in H. destruct (seqb x "__main__") eqn:Ex; [|discriminate]. now injection H as <-.
  - eexists. eapply (calls_session _ _ _ 60 [AAddScript "main.py"]); [apply new_session|reflexivity|exact C|exact F].
  - exact K.
  - apply program_written.
  - now apply tools_bool.
  - now apply tidy_bool.
  - now apply apart_bool.
Qed.
Lemma child_dot p x : child_of p x -> has_char dot x = true.
Proof.
  intros [y A B|k y -> B]; rewrite has_char_app; [|reflexivity]. rewrite has_char_app. cbn. now rewrite !orb_true_r.
Qed.
Lemma no_child x : has_char dot x = false -> forall p, ~ child_of p x.
Proof. intros H p K. apply child_dot in K. congruence. Qed.
Lemma rest_new find code : at_rest find code (Mods [] [] [] []).
Proof. constructor; try reflexivity; intros; contradiction. Qed.

(** [with suppress(ImportError): import gone] *)
Definition with_script : list piece := [PWith [PImport [("gone", None)]]].
Definition with_graph : st := Eval vm_compute in program_graph [] with_script.
Definition anything (z : mods) (x : string) : Prop := True.
Lemma gone_fails find code may z : find "gone" = None -> ~ known "gone" z -> run find code may (Import "gone") z Raise z.
Proof. intros F K. apply rn_top; [exact K|now apply no_child|reflexivity|now apply rn_missing]. Qed.
Theorem C97_refuted : ~ C97_statement.
Proof.
  intros H. refine (H (program_world [] with_script) _ _ anything _ _ _ _ with_graph _ (Mods [] [] [] []) "gone" _ (rest_new _ _) _ _ _).
  - eapply program_tested; vm_compute; reflexivity.
  - eapply ne_edge; [apply ne_start| | |]; [eexists; split; [vm_compute; left; reflexivity|left; reflexivity]|reflexivity|reflexivity].
  - reflexivity.
  - eapply rn_cons; [|apply rn_nil]. eapply rn_with; [apply rn_return| |apply rn_return|right; split; reflexivity].
    eapply rn_stop; [|discriminate]. apply rn_import_fails. apply gone_fails; [reflexivity|intros [[]|[]]].
Qed.

(** Module c imports m before it fails, and m imports c. *)
Definition circle_program : program := [("c", (false, [PImport [("m", None)]; PImport [("gone", None)]])); ("m", (false, [PImport [("c", None)]]))].
Definition circle_script : list piece := [PTry false [PImport [("c", None)]] [[PSimple]] [] []; PImport [("m", None)]].
Definition circle_graph : st := Eval vm_compute in program_graph circle_program circle_script.
Theorem C97_straight_refuted : ~ C97_straight_statement.
Proof.
  intros H. refine (H (program_world circle_program circle_script) _ (code_in circle_program) anything _ _ _ _ circle_graph _ (Mods ["m"] [] ["c"] ["c"]) "gone" _ (rest_new _ _) _ _ _ _ _).
  - eapply program_tested; vm_compute; reflexivity.
  - repeat constructor.
  - intros x c. unfold code_in, circle_program. cbn. destruct (seqb x "c"); [|destruct (seqb x "m"); [|discriminate]]; intros K; injection K as <-; repeat constructor.
  - apply (ne_edge _ _ "c" "gone" (Dep false true false None)); [apply (ne_edge _ _ "m" "c" (Dep false true false None)); [apply (ne_edge _ _ "main.py" "m" (Dep false true false None)); [apply ne_start|..]|..]|..];
      try reflexivity; vm_compute; eexists; (split; [repeat (try (left; reflexivity); right)|left; reflexivity]).
  - reflexivity.
  - eapply rn_cons; [|eapply rn_cons; [|apply rn_nil]].
    + eapply rn_try; [|apply rn_nil]. eapply rn_except; [|left; reflexivity|eapply rn_cons; [apply rn_simple, rn_return|apply rn_nil]].
      eapply rn_stop; [|discriminate]. apply rn_import_fails. apply rn_top; [intros [[]|[]]|now apply no_child|reflexivity|].
      refine (rn_load _ _ _ "c" _ _ _ _ Raise _ _ _ _); [intros [[]|[]]|reflexivity|reflexivity|].
      eapply rn_cons; [eapply rn_import; [|apply rn_import_nil]|].
      * apply rn_top; [intros [[]|[K|[]]]; discriminate K|now apply no_child|reflexivity|].
        refine (rn_load _ _ _ "m" _ _ _ _ Next _ _ _ _); [intros [[]|[K|[]]]; discriminate K|reflexivity|reflexivity|].
        eapply rn_cons; [|apply rn_nil]. eapply rn_import; [|apply rn_import_nil]. apply rn_loading. cbn. auto.
      * eapply rn_stop; [|discriminate]. apply rn_import_fails. apply gone_fails; [reflexivity|]. intros [[K|[]]|[K|[]]]; discriminate K.
    + eapply rn_import; [|apply rn_import_nil]. apply rn_loaded. cbn. auto.
Qed.

(** A package that imports its own module, a class with imports, an import that may
    fail and one in a finally block. *)
Definition app_program : program :=
  [("pkg", (true, [PFrom (Some "sub") [("x", None)] 1])); ("pkg.sub", (false, [PSimple; PDef false [PImport [("gone", None)]]])); ("os", (false, [PSimple]))].
Definition app_script : list piece :=
  [PClass [PImport [("pkg.sub", None)]]; PTry false [PImport [("gone", None)]] [[PSimple]] [] [PImport [("os", None)]]; PIf [PImport [("gone", None)]] []].
Definition app_graph : st := Eval vm_compute in program_graph app_program app_script.
Lemma pkg_child : child_of "pkg" "pkg.sub".
Proof. apply (child_plain "pkg" "sub"); [discriminate|reflexivity]. Qed.
Ltac distinct := let K := fresh in intros K; cbv in K; repeat match goal with H : _ \/ _ |- _ => destruct H | H : False |- _ => destruct H end; discriminate.
Lemma app_pkg : run (found_in (entries app_program)) (code_in app_program) anything (Import "pkg") (Mods [] [] [] []) Next (Mods ["pkg"; "pkg.sub"] [] [] ["pkg"]).
Proof.
  apply rn_top; [distinct|now apply no_child|reflexivity|]. refine (rn_load _ _ _ "pkg" _ _ _ (Mods ["pkg.sub"] ["pkg"] [] ["pkg"]) Next _ _ _ _); [distinct|reflexivity|reflexivity|].
  eapply rn_cons; [|apply rn_nil]. eapply (rn_from _ _ _ _ _ _ _ _ "pkg.sub"); [| |apply rn_return].
  * apply (mentions_relative _ _ (WFrom (Some "sub") [("x", None)] 1) "pkg"); [discriminate|constructor|discriminate].
  * eapply rn_child; [distinct|reflexivity|exact pkg_child|apply rn_loading; cbn; auto|].
    refine (rn_load _ _ _ "pkg.sub" _ _ _ (Mods [] ["pkg.sub"; "pkg"] [] ["pkg"]) Next _ _ _ _); [distinct|reflexivity|reflexivity|].
    eapply rn_cons; [apply rn_simple, rn_return|]. eapply rn_cons; [apply rn_def, rn_return|apply rn_nil].
Qed.
Example C97_nonvacuous : exists z', tested (program_world app_program app_script) (found_in (entries app_program)) (code_in app_program) (fun _ => False) main_conf "main.py" app_script app_graph
  /\ at_rest (found_in (entries app_program)) (code_in app_program) (Mods [] [] [] [])
  /\ Forall straight app_script /\ (forall x c, code_in app_program x = Some c -> Forall straight c)
  /\ run (found_in (entries app_program)) (code_in app_program) anything (Lines "main.py" None app_script) (Mods [] [] [] []) Next z' /\ sound_circles z'
  /\ Forall (needed (s_graph app_graph) "main.py") ["pkg.sub"; "pkg"; "os"] /\ circled z' = ["pkg"]
  /\ kind_of app_graph "gone" = Some MissingModule /\ In ("main.py", "gone") (edge_pairs app_graph).
Proof.
  exists (Mods ["os"; "pkg"; "pkg.sub"] [] [] ["pkg"]). split; [|split; [|split; [|split; [|split; [|split; [|split; [|split; [|split]]]]]]]].
  - eapply program_tested; vm_compute; reflexivity.
  - apply rest_new.
  - repeat constructor.
  - intros x c. unfold code_in, app_program. cbn. destruct (seqb x "pkg"); [|destruct (seqb x "pkg.sub"); [|destruct (seqb x "os"); [|discriminate]]]; intros K; injection K as <-; repeat constructor.
  - eapply rn_cons; [|eapply rn_cons; [|eapply rn_cons; [|apply rn_nil]]].
    + eapply rn_class; [apply rn_return| |apply rn_return]. eapply rn_cons; [|apply rn_nil]. eapply rn_import; [|apply rn_import_nil].
      eapply rn_child; [distinct|reflexivity|exact pkg_child| |].
      2: apply rn_already; instantiate (1 := Mods ["pkg"; "pkg.sub"] [] [] ["pkg"]); cbn; tauto.
      exact app_pkg.
    + eapply rn_try.
      * eapply rn_except; [|left; reflexivity|eapply rn_cons; [apply rn_simple, rn_return|apply rn_nil]].
        eapply rn_stop; [|discriminate]. apply rn_import_fails. apply gone_fails; [reflexivity|distinct].
      * eapply rn_cons; [|apply rn_nil]. eapply rn_import; [|apply rn_import_nil]. apply rn_top; [distinct|now apply no_child|reflexivity|].
        refine (rn_load _ _ _ "os" _ _ _ (Mods ["pkg"; "pkg.sub"] ["os"] [] ["pkg"]) Next _ _ _ _); [distinct|reflexivity|reflexivity|]. eapply rn_cons; [apply rn_simple, rn_return|apply rn_nil].
    + eapply rn_if; [apply rn_return|right; reflexivity|apply rn_nil].
  - intros x _ [].
  - assert (A : needed (s_graph app_graph) "main.py" "pkg.sub").
    { apply (ne_edge _ _ "main.py" _ (Dep false true false None)); [apply ne_start|..]; try reflexivity. vm_compute. eexists. split; [repeat (try (left; reflexivity); right)|left; reflexivity]. }
    repeat constructor; [exact A| |].
    + apply (ne_edge _ _ "pkg.sub" _ (Dep false true false None)); [exact A|..]; try reflexivity. vm_compute. eexists. split; [repeat (try (left; reflexivity); right)|left; reflexivity].
    + apply (ne_edge _ _ "main.py" _ (Dep false true false None)); [apply ne_start|..]; try reflexivity. vm_compute. eexists. split; [repeat (try (left; reflexivity); right)|left; reflexivity].
  - reflexivity.
  - reflexivity.
  - vm_compute. tauto.
Qed.

Lemma tested_explored E find code DS conf f l s : tested E find code DS conf f l s -> explored E find code DS conf s.
Proof. intros [A B C D F G H [I I'] K L M]. now constructor. Qed.
Example C97_import_nonvacuous : exists z', explored (program_world app_program app_script) (found_in (entries app_program)) (code_in app_program) (fun _ => False) main_conf app_graph
  /\ at_rest (found_in (entries app_program)) (code_in app_program) (Mods [] [] [] [])
  /\ (forall x c, code_in app_program x = Some c -> Forall straight c)
  /\ run (found_in (entries app_program)) (code_in app_program) anything (Import "pkg") (Mods [] [] [] []) Next z' /\ sound_circles z'
  /\ modular app_graph "pkg" /\ needed (s_graph app_graph) "pkg" "pkg.sub" /\ circled z' = ["pkg"].
Proof.
  destruct C97_nonvacuous as (z & A & B & _ & C & _). eexists. split; [eapply tested_explored; exact A|]. split; [exact B|]. split; [exact C|].
  split; [exact app_pkg|]. split; [intros x _ []|]. split; [split; discriminate|]. split; [|reflexivity].
  apply (ne_edge _ _ "pkg" _ (Dep false true false None)); [apply ne_start|..]; try reflexivity. vm_compute. eexists. split; [repeat (try (left; reflexivity); right)|left; reflexivity].
Qed.

Print Assumptions C97_modules_partial.
Print Assumptions C97_import_partial.
Print Assumptions C97_loaded_partial.
Print Assumptions C97_partial.
Print Assumptions C97_refuted.
Print Assumptions C97_straight_refuted.
