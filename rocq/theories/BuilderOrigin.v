(** Where the nodes of the graph come from: invariant of the builder. *)
From Verif Require Export BuilderSource BuilderKeep MovesSpec.
Open Scope string_scope.

(** ** The node for a spec *)

(** What [node_for_spec] gives, with the loaders that go on to another spec. *)
Inductive moved (E : env) : spec -> node -> Prop :=
| mo_direct sp n : direct (sp_loader sp) = true -> n_name n = sp_name sp -> real_kind (n_kind n) = true -> n_kind n <> MissingModule -> moved E sp n
| mo_moves sp n : sp_loader sp = LSix -> ends_with ".moves" (sp_name sp) = true -> n_name n = sp_name sp -> real_kind (n_kind n) = true -> n_kind n <> MissingModule -> moved E sp n
| mo_unknown sp : sp_loader sp = LSix -> ends_with ".moves" (sp_name sp) = false ->
    assoc (six_relative (sp_name sp)) SIX_MOVES_TO = None -> moved E sp (plain_node MissingModule (sp_name sp))
| mo_six_gone sp t : sp_loader sp = LSix -> ends_with ".moves" (sp_name sp) = false ->
    assoc (six_relative (sp_name sp)) SIX_MOVES_TO = Some t -> unfound E t -> moved E sp (plain_node MissingModule t)
| mo_six sp t other n : sp_loader sp = LSix -> ends_with ".moves" (sp_name sp) = false ->
    assoc (six_relative (sp_name sp)) SIX_MOVES_TO = Some t -> has_spec E t other -> moved E other n -> moved E sp n
| mo_vendor_gone sp root vendor x : sp_loader sp = LVendor (Some (root, vendor)) -> x = sdrop (String.length root + 1) (sp_name sp) ->
    (exists t f, e_find_spec E t f (vendor ++ "." ++ x) = ROk None) \/ (unfound E (vendor ++ "." ++ x) /\ unfound E x) ->
    moved E sp (plain_node MissingModule (vendor ++ "." ++ x))
| mo_vendor sp root vendor x other n : sp_loader sp = LVendor (Some (root, vendor)) -> x = sdrop (String.length root + 1) (sp_name sp) ->
    has_spec E (vendor ++ "." ++ x) other -> moved E other n -> moved E sp n
| mo_installed sp root vendor x other n : sp_loader sp = LVendor (Some (root, vendor)) -> x = sdrop (String.length root + 1) (sp_name sp) ->
    unfound E (vendor ++ "." ++ x) -> has_spec E x other -> moved E other n -> moved E sp n
| mo_distutils_gone sp : sp_loader sp = LDistutils -> sp_name sp = "distutils" -> unfound E "setuptools._distutils" ->
    moved E sp (plain_node MissingModule (sp_name sp))
| mo_distutils sp other n : sp_loader sp = LDistutils -> has_spec E "setuptools._distutils" other -> moved E other n -> moved E sp n.

Lemma found_none E nm s s' : find_spec E nm s = Some (ROk None, s') -> exists t f, e_find_spec E t f nm = ROk None.
Proof. intros H. injection H as H _. eauto. Qed.
Lemma found_some E nm s sp s' : find_spec E nm s = Some (ROk (Some sp), s') -> has_spec E nm sp.
Proof. intros H. injection H as H _. unfold has_spec. eauto. Qed.
Lemma none_unfound E nm : (exists t f, e_find_spec E t f nm = ROk None) -> unfound E nm.
Proof. intros (t & f & H). exists t, f. intros sp K. congruence. Qed.

Lemma err_bind {A B} (m : M A) (f : A -> M B) s e s' : bind m f s = Some (RErr e, s') ->
  m s = Some (RErr e, s') \/ exists a s1, m s = Some (ROk a, s1) /\ f a s1 = Some (RErr e, s').
Proof. unfold bind. destruct (m s) as [[[a|e1] s1]|]; intros H; [eauto|injection H as -> ->; auto|discriminate]. Qed.
Lemma raised_unfound E nm s e s' : find_spec E nm s = Some (RErr e, s') -> unfound E nm.
Proof. intros H. injection H as H _. exists (s_clock s), (s_fakes s). intros sp K. congruence. Qed.

Lemma direct_nfs E k sp s n l s' : direct (sp_loader sp) = true -> f_nfs (exec E k) sp s = Some (ROk (n, l), s') ->
  n_name n = sp_name sp /\ n_kind n <> MissingModule.
Proof.
  intros Hd H. destruct k as [|k]; [discriminate|]. cbn [exec f_nfs] in H. unfold nfs_body in H.
  assert (W : forall b src mk y t u n l u', wrap_package E sp b src mk y t u = Some (ROk (n, l), u') ->
    n_kind y <> MissingModule -> n_name n = n_name y /\ n_kind n <> MissingModule).
  { intros b src mk y t u n0 l0 u' Hw Hy. unfold wrap_package in Hw. apply ok_bind in Hw as (p & s1 & _ & Hw). destruct p; cbn [negb] in Hw.
    2:{ injection Hw as <- <- <-. now split. }
    apply ok_bind in Hw as (search & s2 & _ & Hw). destruct search; [|discriminate].
    apply ok_bind in Hw as (d & s3 & _ & Hw). injection Hw as <- <- <-. now split. }
  destruct (sp_loader sp) as [| | | |frozen gs gc| |[[root vendor]|]| |] eqn:El; try discriminate Hd; try discriminate H.
  - destruct (sp_search sp); [|discriminate]. injection H as <- <- <-; now split.
  - destruct (sp_search sp); [|discriminate]. injection H as <- <- <-; now split.
  - apply W in H; [exact H|discriminate].
  - apply ok_bind in H as (d & s1 & _ & H). apply W in H; [exact H|discriminate].
  - destruct gs as [source|e].
    2:{ destruct e; try discriminate. apply ok_bind in H as (d & s1 & _ & H). injection H as <- <- <-; now split. }
    apply ok_bind in H as (si & s1 & H1 & H). apply ok_bind in H as (ci & s2 & H2 & H). apply ok_bind in H as (d & s3 & _ & H).
    destruct (match ci with Some x => x | None => ([], [], []) end) as [[bi wr] rd]. apply W in H; [exact H|discriminate].
Qed.

Lemma nfs_moved E : forall k sp s n l s', f_nfs (exec E k) sp s = Some (ROk (n, l), s') -> moved E sp n.
Proof.
  induction k as [|k IH]; intros sp s n l s' H; [discriminate|].
  pose proof (c_kind _ (closes_exec E (S k)) _ _ _ _ _ H) as Hk.
  destruct (direct (sp_loader sp)) eqn:Hd; [destruct (direct_nfs _ _ _ _ _ _ _ Hd H); apply mo_direct; auto|].
  change (nfs_body E (f_nfs (exec E k)) sp s = Some (ROk (n, l), s')) in H.
  assert (Moved : forall m s2 n l s', (do assert (negb (seqb (sp_name sp) (sp_name m))) ;; f_nfs (exec E k) m) s2 = Some (ROk (n, l), s') -> moved E m n).
  { intros m t2 n' l' t' H'. apply ok_bind in H' as (u & t3 & Ha & H'). eapply IH; exact H'. }
  unfold nfs_body in H. destruct (sp_loader sp) as [| | | |frozen gs gc| |[[root vendor]|]| |] eqn:El; try discriminate Hd.
  - unfold six_spec in H. destruct (ends_with ".moves" (sp_name sp)) eqn:Ee.
    { apply ok_bind in H as (d & s1 & _ & H). injection H as <- <- <-. apply mo_moves; auto; discriminate. }
    destruct (assoc (six_relative (sp_name sp)) SIX_MOVES_TO) as [actual|] eqn:Ea; [|injection H as <- <- <-; now apply mo_unknown].
    apply ok_bind in H as (m1 & s1 & H1 & H). destruct m1 as [m1|].
    2:{ injection H as <- <- <-. eapply mo_six_gone; eauto. eapply none_unfound, found_none; exact H1. }
    apply ok_bind in H as (m2 & s2 & H2 & H).
    assert (X : exists u u', find_spec E actual u = Some (ROk m2, u')).
    { destruct (seqb (sp_name m1) (sp_name sp)).
      - apply ok_bind in H2 as (u & s3 & _ & H2). eauto.
      - injection H2 as <- <-. eauto. }
    destruct X as (u & u' & X). destruct m2 as [m2|].
    + eapply mo_six; eauto. eapply found_some; exact X.
    + injection H as <- <- <-. eapply mo_six_gone; eauto. eapply none_unfound, found_none; exact X.
  - unfold vendor_spec in H. set (x := sdrop (String.length root + 1) (sp_name sp)) in H. cbv zeta in H. set (full := vendor ++ "." ++ x) in H.
    apply ok_bind in H as (r & s1 & H1 & H). apply ok_bind in H as (m2 & s2 & H2 & H). unfold attempt in H1.
    destruct (bind _ _ s) as [[y t]|] eqn:Eb in H1; [|discriminate]. injection H1 as -> <-.
    destruct r as [y|e].
    + injection H2 as -> <-. apply ok_bind in Eb as (m & t1 & Hm & Eb).
      assert (X : exists u u', find_spec E full u = Some (ROk m2, u')).
      { destruct m as [m|]; [|injection Eb as <- <-; eauto]. destruct (seqb (sp_name m) (sp_name sp)).
        - apply ok_bind in Eb as (u & s3 & _ & Eb). eauto.
        - injection Eb as <- <-. eauto. }
      destruct X as (u & u' & X). destruct m2 as [m2|].
      * eapply mo_vendor; eauto. eapply found_some; exact X.
      * injection H as <- <- <-. eapply mo_vendor_gone; eauto. left. eapply found_none; exact X.
    + destruct e as [| | | | | | | | | |no| | | |]; try discriminate H2.
      assert (Hu : unfound E full).
      { apply err_bind in Eb as [Eb|(m & t1 & _ & Eb)]; [eapply raised_unfound; exact Eb|].
        destruct m as [m|]; [|discriminate]. destruct (seqb (sp_name m) (sp_name sp)); [|discriminate].
        apply err_bind in Eb as [Eb|(u & t2 & _ & Eb)]; [|eapply raised_unfound; exact Eb].
        exfalso. revert Eb. unfold del_sysmod. intros Eb. apply err_bind in Eb as [Eb|(b' & t2 & _ & Eb)]; [discriminate|].
        destruct b'; discriminate. }
      destruct m2 as [m2|]; [eapply mo_installed; eauto; eapply found_some; exact H2|].
      injection H as <- <- <-; eapply mo_vendor_gone; eauto; right; split; [exact Hu|]; eapply none_unfound, found_none; exact H2.
  - discriminate H.
  - unfold distutils_spec in H. apply ok_bind in H as (u & s1 & Ha & H). apply ok_bind in H as (u2 & s2 & _ & H).
    apply ok_bind in H as (m & s3 & Hm & H). destruct m as [m|]; [eapply mo_distutils; eauto; eapply found_some; exact Hm|].
    assert (Ed : sp_name sp = "distutils").
    { unfold assert in Ha. destruct (seqb (sp_name sp) "distutils") eqn:Es; [now apply seqb_eq in Es|discriminate]. }
    injection H as <- <- <-. rewrite <- Ed. apply mo_distutils_gone; auto. eapply none_unfound, found_none; exact Hm.
Qed.

(** ** The nodes of the graph *)

(** Where a node that the builder made comes from. *)
Inductive came (E : env) (s : st) : node -> Prop :=
| cm_excluded name : came E s (plain_node ExcludedModule name)
| cm_invalid name : starts_with "." name = true -> came E s (plain_node InvalidRelativeImport name)
| cm_alias a name : In (EvImplied name (ImpAlias a)) (s_log s) -> came E s (plain_node (AliasNode a) name)
| cm_virtual a name : In (EvImplied name (ImpVirtual a)) (s_log s) -> came E s (plain_node (VirtualNode a) name)
| cm_other name sp n : has_spec E name sp -> moved E sp n -> n_name n <> name -> came E s (plain_node (AliasNode (n_name n)) name)
| cm_script path : came E s (Node path Script [] [] None (Some path) [] false)
| cm_spec name sp n : has_spec E name sp -> moved E sp n -> n_name n = name \/ kind_of s name = Some (AliasNode (n_name n)) -> came E s n
| cm_unfound name : unfound E name -> came E s (plain_node MissingModule name)
| cm_package name c p : child_of c name -> resolves s c p -> kind_of s p = Some MissingModule -> came E s (plain_node MissingModule name).

Lemma came_grows E s s' n : grows s s' -> came E s n -> came E s' n.
Proof.
  intros G H. assert (GL : forall e, In e (s_log s) -> In e (s_log s')) by (destruct (gw_log _ _ G) as (l & ->); intros e K; apply in_or_app; now right).
  destruct H as [name|name A|a name A|a name A|name sp n A B C|path|name sp n A B [C|C]|name A|name c p A B C].
  - apply cm_excluded.
  - now apply cm_invalid.
  - apply cm_alias. now apply GL.
  - apply cm_virtual. now apply GL.
  - now apply (cm_other E s' name sp).
  - apply cm_script.
  - apply (cm_spec E s' name sp); auto.
  - apply (cm_spec E s' name sp); auto. right. eapply grows_kind; eassumption.
  - now apply cm_unfound.
  - apply (cm_package E s' name c p); [exact A|eapply grows_resolves; eassumption|eapply grows_kind; eassumption].
Qed.

Section traced.
  Variable E : env.

  Definition traced (s : st) : Prop :=
    linv s /\ forall id l x, In (EvAdd id l) (s_log s) -> gfind (s_graph s) id = Some x -> exists y, same_node y x /\ came E s y.

  Lemma traced_more s s' : grows s s' -> linv s' ->
    (forall id l, In (EvAdd id l) (s_log s') -> In (EvAdd id l) (s_log s) \/
       (forall x, gfind (s_graph s') id = Some x -> came E s x)) ->
    traced s -> traced s'.
  Proof.
    intros G L' D (L & K). split; [exact L'|]. intros id l x Ha Hx. destruct (D id l Ha) as [A|A].
    - destruct (node_back s s' id x G (L id l A) Hx) as (y & Y1 & Y2). destruct (K id l y A Y1) as (z & Z1 & Z2).
      exists z. split; [eapply same_node_trans; eassumption|eapply came_grows; eassumption].
    - exists x. split; [apply same_node_refl|]. eapply came_grows; [exact G|now apply A].
  Qed.
  Lemma traced_keeps {A} (m : M A) : (forall s, cwp anyone m s (fun _ _ => True)) -> samev m -> keeps traced m.
  Proof.
    intros H D s r s' Ex Js. destruct (H s (proj1 Js) r s' Ex) as (G & L & _).
    revert Js. apply traced_more; [exact G|exact L|]. intros id l K. left. eapply D; eassumption.
  Qed.
  Lemma traced_same s s' : s_graph s' = s_graph s -> s_log s' = s_log s -> s_seen s' = s_seen s -> s_post s' = s_post s ->
    s_missing s' = s_missing s -> traced s -> traced s'.
  Proof.
    intros A B C D F0 Js. assert (L : linv s) by apply Js. revert Js. apply traced_more.
    - constructor; rewrite ?A, ?B, ?C, ?D, ?F0; first [apply grows_graph_refl|apply incl_refl|now exists []].
    - intros n l; rewrite B; unfold in_graph; rewrite A; now apply L.
    - intros id l K. left. now rewrite B in K.
  Qed.
  Lemma traced_log s e : (forall n l, e <> EvAdd n l) -> traced s -> traced (log s e).
  Proof.
    intros A Js. assert (L : linv s) by apply Js. revert Js. apply traced_more; [apply log_grows| |].
    - intros n l [X|X]; [now elim (A n l)|now apply (L n l)].
    - intros id l [X|X]; [now elim (A id l)|now left].
  Qed.
  Lemma traced_new n l s x s' : add_node n l s = Some (x, s') -> came E s n -> traced s -> traced s'.
  Proof.
    intros Ex Hn Js. assert (C : cwp anyone (add_node n l) s (fun _ _ => True)) by (apply cwp_add_node; [intros o _; exact Logic.I|auto]).
    destruct (C (proj1 Js) _ _ Ex) as (G & L & _). refine (traced_more s s' G L _ Js).
    unfold add_node, bind, lift_graph in Ex. destruct (gadd_node (s_graph s) n) as [g|e] eqn:Eg.
    2:{ injection Ex as <- <-. intros id l' K. now left. }
    injection Ex as <- <-. apply gadd_node_spec in Eg as (E1 & ->). intros id l' [K|K]; [|now left]. injection K as <- <-.
    right. intros y. cbn [s_graph set_graph log]. rewrite gfind_app, E1. unfold seqb. rewrite String.eqb_refl. intros K. now injection K as <-.
  Qed.
  Lemma born_came s n l : born E s n l -> came E s n.
  Proof.
    intros [k name [->|(-> & A)]|a name A|a name A|k name sp u m l0 u' A B C|t path tree l0 _ _|k name sp u m l0 u' A B C].
    - apply cm_excluded.
    - now apply cm_invalid.
    - now apply cm_alias.
    - now apply cm_virtual.
    - apply (cm_other E s name sp); auto. eapply nfs_moved; exact B.
    - apply cm_script.
    - apply (cm_spec E s name sp); auto. eapply nfs_moved; exact B.
  Qed.
  Lemma absent_came s name : absent_why E traced s name -> came E s (plain_node MissingModule name).
  Proof.
    intros [A|(k & im & c & b & u & p & x & A & Ju & Hf & Hk)]; [now apply cm_unfound|].
    destruct (c_find _ (closes_exec E k) im c b u (proj1 Ju) _ _ Hf) as (_ & _ & _ & R).
    apply (cm_package E s name c p); auto. eapply split_child_of; exact A.
  Qed.

  Ltac sv := repeat match goal with
    | |- samev (bind _ _) => apply samev_bind; [|intros ?]
    | |- samev (user_add_node _) => apply samev_lift
    | |- samev (add_edge _ _ _) => apply samev_lift
    | |- samev (add_root _) => apply samev_lift
    | |- samev (process_import_list _ _) => apply samev_schedule
    | |- samev (note _) => apply samev_modify; intros ? ? ? [K|K]; [discriminate|exact K]
    | |- samev (modify _) => apply samev_modify; intros ?; first [now apply samea_log|intros ? ? [K|K]; [discriminate|exact K]]
    | |- samev (match ?x with _ => _ end) => destruct x
    | |- samev (if ?x then _ else _) => destruct x
    | |- samev _ => apply samev_env; unfold get_node; envm_tac; fail
    end.
  Lemma traced_keeper : keeper_strong E traced (fun _ => True) (fun _ => True) True.
  Proof.
    constructor; auto.
    - intros n l s x s' B Js Ex. apply (traced_new n l _ _ _ Ex); [|exact Js]. eapply born_came; exact B.
    - intros k im name s s1 Js Hw Hm J1 x s2 H. apply (traced_new _ _ _ _ _ H); [|exact J1].
      destruct (c_miss _ (closes_exec E k) 0 im name s (proj1 Js) _ _ Hm) as (G & _). eapply came_grows; [exact G|]. now apply absent_came.
    - intros s s' (f & c & ->) Js. revert Js. now apply traced_same.
    - intros a b d. apply traced_keeps; [|apply samev_lift]. intros s. eapply cwp_anyone, (cwp_edge none). auto.
    - apply written_any. intros n l. apply traced_keeps; [intros s; eapply cwp_anyone, (cwp_written none); auto|]. unfold add_written. sv.
    - intros n l. apply traced_keeps; [intros s; eapply cwp_anyone, (cwp_sched none); auto|]. sv.
    - intros n p _. apply traced_keeps; [intros s; eapply cwp_anyone, cwp_push; auto|]. unfold push_package. sv.
    - intros name s r s' Ex Js. unfold pop_lazy in Ex. destruct (assoc name (s_lazy s)) as [i|]; injection Ex as <- <-; [|exact Js].
      apply traced_log; [discriminate|]. revert Js. now apply traced_same.
    - intros k w _ s r s' Ex Js. injection Ex as <- <-. revert Js. now apply traced_same.
    - intros s e He Js. apply traced_log; [intros; destruct e; discriminate|exact Js].
    - intros s _ Js. apply traced_log; [discriminate|exact Js].
    - intros s id pkg stem _. apply traced_log. discriminate.
    - intros s Js. revert Js. now apply traced_same.
    - intros s0 s _ Js. revert Js. now apply traced_same.
    - intros s w rest Hs Js. apply traced_log; [discriminate|]. revert Js. now apply traced_same.
    - intros k w s u s' _ _ Js. apply traced_log; [discriminate|]. revert Js. now apply traced_same.
    - intros w s Js. apply traced_log; [discriminate|]. revert Js. now apply traced_same.
    - intros a id _ _. apply keeps_bind.
      + intros s r s' Ex Js. injection Ex as <- <-. apply traced_log; [discriminate|exact Js].
      + intros _. apply traced_keeps; [|apply samev_lift]. intros s. eapply cwp_anyone, (cwp_root none). auto.
    - intros a d _ _. apply traced_keeps; [intros s; eapply cwp_anyone, (cwp_user_node none); auto|]. apply samev_lift.
    - intros s n name _ Js. apply traced_log; [discriminate|exact Js].
    - intros r a _ Hp. assert (Ea : forall s, do_action E r a s = do_action E no_fuel a s) by (intros s; now destruct a).
      assert (X : keeps traced (do_action E no_fuel a)).
      2:{ intros s x s' Ex. rewrite Ea in Ex. now apply X in Ex. }
      apply traced_keeps; [intros s; eapply cwp_anyone; apply cwp_do_action, closes_no_fuel|].
      clear Ea. destruct a; try discriminate Hp; cbn [do_action]; sv.
  Qed.
  Lemma traced_start s : start s -> traced s.
  Proof. intros (implies & post & missing & ->). split; intros n l; cbn; contradiction. Qed.
  Lemma traced_reach s0 s : start s0 -> reach E s0 s -> traced s.
  Proof.
    intros H0 H. induction H as [|s fuel a ans s' H IH HC]; [now apply traced_start|].
    destruct (keeps_top_or _ _ _ _ _ traced_keeper fuel a s ans s' Logic.I IH HC) as [K|(e & s1 & _ & K & ->)]; [exact K|].
    apply traced_log; [discriminate|exact K].
  Qed.
End traced.
