(** Hooks really run: what a hook brings about is there after the call. *)
From Verif Require Export BuilderPackage EndSpec.

(** A fact about a graph and a name that stays true when the graph grows. *)
Definition lasting_fact (F : string -> graph -> Prop) : Prop :=
  forall n g g', grows_graph g g' -> F n g -> F n g'.

(** Whenever the hook is called for a node and neither it nor one of the calls it
    makes raises, it leaves [F] true for that node. *)
Definition brings_about (E : env) (h : post_hook) (F : string -> graph -> Prop) : Prop :=
  forall k n s x s', run_prog E (exec E k) (h n) s = Some (ROk x, s') -> errs s' = errs s -> F n (s_graph s').

(** Whenever the missing hook has no answer for a name it leaves [F] true for it. *)
Definition declines_only (E : env) (h : missing_hook) (F : string -> graph -> Prop) : Prop :=
  forall k im n s s', run_prog E (exec E k) (h im n) s = Some (ROk None, s') -> F n (s_graph s').

(** [id] can be the node for a spec with a loader that stands for another module
    (six.moves, vendored packages, distutils). *)
Definition redirecting (l : loader) : Prop := match l with LSix | LVendor _ | LDistutils => True | _ => False end.
Definition redirected (E : env) (id : string) : Prop :=
  exists sp, BuilderKeep.found E sp /\ redirecting (sp_loader sp) /\ (id = sp_name sp \/ target sp id).

Lemma ok_bind {A B} (m : M A) (f : A -> M B) s b s' : bind m f s = Some (ROk b, s') ->
  exists a s1, m s = Some (ROk a, s1) /\ f a s1 = Some (ROk b, s').
Proof. unfold bind. intros H. destruct (m s) as [[[a|e] s1]|]; try discriminate. now exists a, s1. Qed.
Lemma ran_grows {A} (m : M A) s r s' P : (forall s, cwp P m s (fun _ _ => True)) -> m s = Some (r, s') -> linv s ->
  grows s s' /\ linv s'.
Proof. intros H Ex L. destruct (H s L r s' Ex) as (G & L' & _). now split. Qed.
Lemma nth_pushed {A} (l l' : list A) j x : nth_error l j = Some x -> nth_error (l' ++ l) (List.length l' + j) = Some x.
Proof. intros H. rewrite nth_error_app2 by lia. now replace (List.length l' + j - List.length l') with j by lia. Qed.

(** ** The loops over the hooks *)

Lemma post_ran E h : forall k i j n s u s', i <= j -> nth_error (s_post s) j = Some h -> linv s ->
  f_post (exec E k) i n s = Some (ROk u, s') ->
  exists k' x s1 s2, grows s s1 /\ grows s1 s2 /\ run_prog E (exec E k') (h n) s1 = Some (ROk x, s2) /\ grows s2 s'.
Proof.
  induction k as [|k IH]; intros i j n s u s' Hij Hj L Ex; [discriminate|].
  change (post_body E (exec E k) i n s = Some (ROk u, s')) in Ex. unfold post_body in Ex.
  apply ok_bind in Ex as (o & s0 & E0 & Ex). injection E0 as <- <-.
  destruct (nth_error (s_post s) i) as [h0|] eqn:Hi.
  2:{ apply nth_error_None in Hi. assert (X : nth_error (s_post s) j <> None) by congruence. apply nth_error_Some in X. lia. }
  apply ok_bind in Ex as (x & s1 & E1 & Ex).
  destruct (ran_grows _ _ _ _ none (fun s => cwp_run_prog E _ (closes_exec E k) (h0 n) s) E1 L) as [G1 L1].
  destruct (Nat.eq_dec i j) as [<-|Hne].
  - rewrite Hj in Hi. injection Hi as <-. exists k, x, s, s1. split; [apply grows_refl|]. split; [exact G1|]. split; [exact E1|].
    eapply ran_grows; [intros s0; apply (c_post _ (closes_exec E k))|exact Ex|exact L1].
  - destruct (gw_post _ _ G1) as [l Hl].
    destruct (IH (S i) (List.length l + j) n s1 u s') as (k' & x' & a & b & A & B); [lia| |exact L1|exact Ex|].
    + rewrite Hl. now apply nth_pushed.
    + exists k', x', a, b. split; [eapply grows_trans; eassumption|]. exact B.
Qed.

Lemma miss_declined E h : forall k i j im n s s', i <= j -> nth_error (s_missing s) j = Some h -> linv s ->
  f_miss (exec E k) i im n s = Some (ROk None, s') ->
  exists k' s1 s2, grows s s1 /\ grows s1 s2 /\ run_prog E (exec E k') (h im n) s1 = Some (ROk None, s2) /\ grows s2 s'.
Proof.
  induction k as [|k IH]; intros i j im n s s' Hij Hj L Ex; [discriminate|].
  change (miss_body E (exec E k) i im n s = Some (ROk None, s')) in Ex. unfold miss_body in Ex.
  apply ok_bind in Ex as (o & s0 & E0 & Ex). injection E0 as <- <-.
  destruct (nth_error (s_missing s) i) as [h0|] eqn:Hi.
  2:{ apply nth_error_None in Hi. assert (X : nth_error (s_missing s) j <> None) by congruence. apply nth_error_Some in X. lia. }
  apply ok_bind in Ex as (x & s1 & E1 & Ex). destruct x; [discriminate|].
  destruct (ran_grows _ _ _ _ none (fun s => cwp_run_prog E _ (closes_exec E k) (h0 im n) s) E1 L) as [G1 L1].
  destruct (Nat.eq_dec i j) as [<-|Hne].
  - rewrite Hj in Hi. injection Hi as <-. exists k, s, s1. split; [apply grows_refl|]. split; [exact G1|]. split; [exact E1|].
    eapply ran_grows; [intros s0; apply (c_miss _ (closes_exec E k))|exact Ex|exact L1].
  - destruct (gw_missing _ _ G1) as [l Hl].
    destruct (IH (S i) (List.length l + j) im n s1 s') as (k' & a & b & A & B); [lia| |exact L1|exact Ex|].
    + rewrite Hl. now apply nth_pushed.
    + exists k', a, b. split; [eapply grows_trans; eassumption|]. exact B.
Qed.

(** ** Post processing hooks *)

Section post.
  Variable E : env.
  Variable h : post_hook.
  Variable F : string -> graph -> Prop.
  Variable s0 : st.
  Hypothesis HB : brings_about E h F.
  Hypothesis HL : lasting_fact F.

  (** If nothing raised since [s0] then the nodes post processed since then have [F]. *)
  Definition acted (s : st) : Prop :=
    linv s /\ In h (s_post s) /\ errs s0 <= errs s /\
    (errs s = errs s0 -> forall n, In (EvDone (DoPost n)) (s_log s) -> In (EvDone (DoPost n)) (s_log s0) \/ F n (s_graph s)).
  Definition about_posts (e : event) : bool := match e with EvDone (DoPost _) => true | _ => false end.

  Lemma acted_more s s' : grows s s' -> linv s' ->
    (errs s' = errs s0 -> forall n, In (EvDone (DoPost n)) (s_log s') -> In (EvDone (DoPost n)) (s_log s) \/ F n (s_graph s')) ->
    acted s -> acted s'.
  Proof.
    intros G L' D (L & Hh & He & K). pose proof (grows_errs _ _ G) as Ge. split; [exact L'|].
    split; [destruct (gw_post _ _ G) as [p ->]; apply in_or_app; now right|]. split; [lia|].
    intros H n Hn. destruct (D H n Hn) as [A|A]; [|now right].
    destruct (K ltac:(lia) n A) as [B|B]; [now left|right]. eapply HL; [exact (gw_graph _ _ G)|exact B].
  Qed.
  Lemma acted_keeper : keeper E acted (fun _ => True) (fun _ => True).
  Proof.
    apply (growing_keeper E acted about_posts).
    - intros s H. apply H.
    - intros s s' G L D. apply acted_more; [exact G|exact L|]. intros _ n Hn. left. now apply D.
    - intros e H. destruct e; try discriminate. left. now eexists.
    - intros k w s u s' (L & Hh & He & _) Ex A. set (s2 := log _ _).
      assert (G : grows s' s2).
      { unfold s2. constructor; cbn; first [apply grows_graph_refl|apply incl_refl|now exists []|now eexists [_]]. }
      assert (L2 : linv s2) by (intros n l [X|X]; [discriminate|now apply (proj1 A n l)]).
      revert A. apply acted_more; [exact G|exact L2|]. intros Ee n [X|X]; [|now left]. injection X as ->. right.
      cbn [do_work] in Ex. apply ok_bind in Ex as (u0 & s1 & E1 & Ex). injection E1 as <- <-.
      apply In_nth_error in Hh as [j Hj].
      destruct (post_ran E h k 0 j n (log s (EvHook n)) u s') as (k' & x & a & b & A & Gb & B & C).
      + lia.
      + exact Hj.
      + intros m l [X|X]; [discriminate|now apply (L m l)].
      + exact Ex.
      + eapply HL; [exact (gw_graph _ _ C)|]. eapply HB; [exact B|].
        apply grows_errs in A, C, Gb, G. unfold errs in A at 1. cbn [s_log log filter is_err] in A. fold (errs s) in A. lia.
    - intros s id pkg stem _ A. assert (G : grows s (log s (EvList id (pkg ++ "." ++ stem)%string))) by apply log_grows.
      revert A. intros A. assert (L : linv s) by apply A. revert A. apply acted_more; [exact G| |].
      + intros m l [X|X]; [discriminate|now apply (L m l)].
      + intros _ n [X|X]; [discriminate|now left].
  Qed.
End post.

(** ** Missing hooks *)

Lemma wrap_present E sp b src mk n l s n' l' s' :
  wrap_package E sp b src mk n l s = Some (ROk (n', l'), s') -> n_kind n <> MissingModule -> n_kind n' <> MissingModule.
Proof.
  unfold wrap_package. intros H Hk. apply ok_bind in H as (p & s1 & H1 & H). destruct p; cbn [negb] in H.
  2:{ injection H as <- <- <-. auto. }
  apply ok_bind in H as (search & s2 & _ & H). destruct search; [|discriminate].
  apply ok_bind in H as (d & s3 & _ & H). injection H as <- <- <-. discriminate.
Qed.
Lemma nfs_missing E : forall k sp s n l s', BuilderKeep.found E sp -> f_nfs (exec E k) sp s = Some (ROk (n, l), s') ->
  n_kind n = MissingModule -> redirected E (n_name n).
Proof.
  induction k as [|k IH]; intros sp s n l s' Hf H Hk; [discriminate|].
  change (nfs_body E (f_nfs (exec E k)) sp s = Some (ROk (n, l), s')) in H.
  assert (Moved : forall nm m s0 s1 s2 n l s', find_spec E nm s0 = Some (ROk (Some m), s1) ->
    (do assert (negb (seqb (sp_name sp) (sp_name m))) ;; f_nfs (exec E k) m) s2 = Some (ROk (n, l), s') ->
    n_kind n = MissingModule -> redirected E (n_name n)).
  { intros nm m t0 t1 t2 n' l' t' Hm H'. apply ok_bind in H' as (u & t3 & Ha & H'). eapply IH; [|exact H'].
    injection Hm as Hm _. unfold BuilderKeep.found. eauto. }
  assert (R : forall id, redirecting (sp_loader sp) -> id = sp_name sp \/ target sp id -> redirected E id) by (intros id A B; now exists sp).
  unfold nfs_body in H. destruct (sp_loader sp) as [| | | |frozen gs gc| |[[root vendor]|]| |] eqn:El.
  - destruct (sp_search sp); [|discriminate]. injection H as <- <- <-. discriminate.
  - destruct (sp_search sp); [|discriminate]. injection H as <- <- <-. discriminate.
  - elim (wrap_present _ _ _ _ _ _ _ _ _ _ _ H); [discriminate|exact Hk].
  - apply ok_bind in H as (d & s1 & _ & H). elim (wrap_present _ _ _ _ _ _ _ _ _ _ _ H); [discriminate|exact Hk].
  - destruct gs as [source|e].
    2:{ destruct e; try discriminate. apply ok_bind in H as (d & s1 & _ & H). injection H as <- <- <-. discriminate. }
    apply ok_bind in H as (si & s1 & _ & H). apply ok_bind in H as (ci & s2 & _ & H). apply ok_bind in H as (d & s3 & _ & H).
    destruct (match ci with Some x => x | None => ([], [], []) end) as [[bi wr] rd].
    elim (wrap_present _ _ _ _ _ _ _ _ _ _ _ H); [discriminate|exact Hk].
  - unfold six_spec in H. destruct (ends_with ".moves" (sp_name sp)).
    { apply ok_bind in H as (d & s1 & _ & H). injection H as <- <- <-. discriminate. }
    destruct (assoc (six_relative (sp_name sp)) SIX_MOVES_TO) as [actual|] eqn:Ea.
    2:{ injection H as <- <- <-. cbn [n_name plain_node]. apply R; [exact Logic.I|now left]. }
    assert (Rt : redirected E actual) by (apply R; [exact Logic.I|right; unfold target; now rewrite El]).
    apply ok_bind in H as (m1 & s1 & H1 & H). destruct m1 as [m1|]; [|injection H as <- <- <-; exact Rt].
    apply ok_bind in H as (m2 & s2 & H2 & H). destruct m2 as [m2|]; [|injection H as <- <- <-; exact Rt].
    destruct (seqb (sp_name m1) (sp_name sp)).
    + apply ok_bind in H2 as (u & s3 & _ & H2). eapply Moved; [exact H2|exact H|exact Hk].
    + injection H2 as <- <-. eapply Moved; [exact H1|exact H|exact Hk].
  - unfold vendor_spec in H. set (full := (vendor ++ "." ++ _)%string) in H.
    assert (Rt : redirected E full) by (apply R; [exact Logic.I|right; unfold target; rewrite El; now left]).
    apply ok_bind in H as (r & s1 & H1 & H). apply ok_bind in H as (m2 & s2 & H2 & H).
    destruct m2 as [m2|]; [|injection H as <- <- <-; exact Rt].
    destruct r as [x|e].
    + injection H2 as -> <-. unfold attempt in H1.
      destruct (bind _ _ s) as [[y t]|] eqn:Eb in H1; [|discriminate]. injection H1 as -> <-.
      apply ok_bind in Eb as (m & t1 & Hm & Eb). destruct m as [m|]; [|discriminate].
      destruct (seqb (sp_name m) (sp_name sp)).
      * apply ok_bind in Eb as (u & s3 & _ & Eb). eapply Moved; [exact Eb|exact H|exact Hk].
      * injection Eb as <- <-. eapply Moved; [exact Hm|exact H|exact Hk].
    + destruct e; try discriminate H2. eapply Moved; [exact H2|exact H|exact Hk].
  - discriminate.
  - unfold distutils_spec in H. apply ok_bind in H as (u & s1 & Ha & H). apply ok_bind in H as (u2 & s2 & _ & H).
    apply ok_bind in H as (m & s3 & Hm & H). destruct m as [m|]; [eapply Moved; [exact Hm|exact H|exact Hk]|].
    injection H as <- <- <-. cbn [n_name plain_node]. apply R; [exact Logic.I|left].
    unfold assert in Ha. destruct (seqb (sp_name sp) "distutils") eqn:Es; [|discriminate]. now apply seqb_eq in Es.
  - discriminate.
Qed.

Section missing.
  Variable E : env.
  Variable h : missing_hook.
  Variable F : string -> graph -> Prop.
  Variable s0 : st.
  Hypothesis HB : declines_only E h F.
  Hypothesis HL : lasting_fact F.

  (** A missing module is there because it was before, because it was handed to
      [add_node] from outside, stands for a redirected one, or was declined. *)
  Definition excused (s : st) (id : string) : Prop :=
    kind_of s0 id = Some MissingModule \/ In (EvGiven id) (s_log s) \/ redirected E id \/ F id (s_graph s).
  Definition asked (s : st) : Prop :=
    linv s /\ In h (s_missing s) /\ forall id, kind_of s id = Some MissingModule -> excused s id.

  Lemma asked_more s s' : grows s s' -> linv s' ->
    (forall id, kind_of s' id = Some MissingModule -> kind_of s id = Some MissingModule \/ excused s' id) -> asked s -> asked s'.
  Proof.
    intros G L' D (L & Hh & K). split; [exact L'|]. split; [destruct (gw_missing _ _ G) as [p ->]; apply in_or_app; now right|].
    intros id Hi. destruct (D id Hi) as [A|A]; [|exact A].
    destruct (K id A) as [B|[B|[B|B]]]; [now left|right; left|right; right; now left|right; right; right].
    - eapply grows_log; eassumption.
    - eapply HL; [exact (gw_graph _ _ G)|exact B].
  Qed.

  Definition samek (s s' : st) : Prop := forall id, kind_of s' id = Some MissingModule -> kind_of s id = Some MissingModule.
  Definition samem {A} (m : M A) : Prop := forall s r s', m s = Some (r, s') -> samek s s'.
  Lemma samem_bind {A B} (m : M A) (f : A -> M B) : samem m -> (forall a, samem (f a)) -> samem (bind m f).
  Proof.
    intros Hm Hf s r s' H. unfold bind in H. destruct (m s) as [[[a|e] s1]|] eqn:Em; [| |discriminate].
    - intros id K. eapply Hm; [exact Em|]. eapply Hf; eassumption.
    - injection H as <- <-. eapply Hm; exact Em.
  Qed.
  Lemma samek_graph s s' : s_graph s' = s_graph s -> samek s s'.
  Proof. intros H id. unfold kind_of. now rewrite H. Qed.
  Lemma samem_env {A} (m : M A) : envm m -> samem m.
  Proof. intros H s r s' Ex. apply H in Ex as (f & c & ->). now apply samek_graph. Qed.
  Lemma samem_modify f : (forall s, s_graph (f s) = s_graph s) -> samem (modify f).
  Proof. intros H s r s' Ex. injection Ex as <- <-. now apply samek_graph. Qed.
  Lemma samem_edge a b d : samem (add_edge a b d).
  Proof.
    intros s r s' Ex. unfold add_edge, lift_graph in Ex. destruct (gadd_edge (s_graph s) a b d) as [g|e] eqn:Eg.
    - injection Ex as <- <-. apply gadd_edge_spec in Eg as (_ & _ & ->). intros id K. exact K.
    - injection Ex as <- <-. now apply samek_graph.
  Qed.
  Lemma samem_root id : samem (add_root id).
  Proof.
    intros s r s' Ex. unfold add_root, lift_graph in Ex. destruct (gadd_root (s_graph s) id) as [g|e] eqn:Eg.
    - injection Ex as <- <-. apply gadd_root_spec in Eg as (_ & ->). intros x K. exact K.
    - injection Ex as <- <-. now apply samek_graph.
  Qed.
  Lemma samem_new n : n_kind n <> MissingModule -> samem (lift_graph (fun g => gadd_node g n)).
  Proof.
    intros Hn s r s' Ex. unfold lift_graph in Ex. destruct (gadd_node (s_graph s) n) as [g|e] eqn:Eg.
    - injection Ex as <- <-. apply gadd_node_spec in Eg as (E1 & ->). intros x. unfold kind_of. cbn [s_graph set_graph].
      rewrite gfind_app. destruct (gfind (s_graph s) x); [auto|]. destruct (seqb (n_name n) x); [|auto]. cbn. congruence.
    - injection Ex as <- <-. now apply samek_graph.
  Qed.
  Lemma schedule_graph n l s : s_graph (schedule n l s) = s_graph s.
  Proof. unfold schedule. cbn. now destruct (memb n (s_seen s)). Qed.
  Ltac sm := repeat match goal with
    | |- samem (bind _ _) => apply samem_bind; [|intros ?]
    | |- samem (note _) => apply samem_modify; reflexivity
    | |- samem (user_add_node _) => apply samem_new
    | |- samem (add_edge _ _ _) => apply samem_edge
    | |- samem (add_root _) => apply samem_root
    | |- samem (process_import_list _ _) => apply samem_modify; intros; apply schedule_graph
    | |- samem (modify _) => apply samem_modify; reflexivity
    | |- samem (match ?x with _ => _ end) => destruct x
    | |- samem (if ?x then _ else _) => destruct x
    | |- samem _ => apply samem_env; unfold get_node; envm_tac; fail
    end.
  Lemma asked_keeps {A} (m : M A) : (forall s, cwp anyone m s (fun _ _ => True)) -> samem m -> keeps asked m.
  Proof.
    intros H D s r s' Ex Js. destruct (H s (proj1 Js) r s' Ex) as (G & L & _).
    revert Js. apply asked_more; [exact G|exact L|]. intros id K. left. eapply D; eassumption.
  Qed.
  Lemma asked_same s s' : s_graph s' = s_graph s -> s_log s' = s_log s -> s_seen s' = s_seen s -> s_post s' = s_post s ->
    s_missing s' = s_missing s -> asked s -> asked s'.
  Proof.
    intros A B C D F0 Js. revert Js. intros Js. assert (L : linv s) by apply Js. revert Js. apply asked_more.
    - constructor; rewrite ?A, ?B, ?C, ?D, ?F0; first [apply grows_graph_refl|apply incl_refl|now exists []].
    - intros n l; rewrite B; unfold in_graph; rewrite A; now apply L.
    - intros id K. left. revert K. now apply samek_graph.
  Qed.
  Lemma asked_log s e : (forall n l, e <> EvAdd n l) -> asked s -> asked (log s e).
  Proof.
    intros A Js. assert (L : linv s) by apply Js. revert Js. apply asked_more; [apply log_grows| |].
    - intros n l [X|X]; [now elim (A n l)|now apply (L n l)].
    - intros id K. now left.
  Qed.
  Lemma asked_new n l s x s' : add_node n l s = Some (x, s') -> (n_kind n = MissingModule -> redirected E (n_name n) \/ F (n_name n) (s_graph s)) ->
    asked s -> asked s'.
  Proof.
    intros Ex Hn Js. assert (C : cwp anyone (add_node n l) s (fun _ _ => True)) by (apply cwp_add_node; [intros o _; exact Logic.I|auto]).
    destruct (C (proj1 Js) _ _ Ex) as (G & L & _). revert Js. apply asked_more; [exact G|exact L|].
    unfold add_node, bind, lift_graph in Ex. destruct (gadd_node (s_graph s) n) as [g|e] eqn:Eg.
    2:{ injection Ex as <- <-. intros id K. now left. }
    injection Ex as <- <-. apply gadd_node_spec in Eg as (E1 & ->). intros id. unfold kind_of. cbn [s_graph set_graph log].
    rewrite gfind_app. destruct (gfind (s_graph s) id) eqn:Ei; [now left|]. destruct (seqb (n_name n) id) eqn:En; [|now left].
    cbn [option_map]. intros K. injection K as K. apply seqb_eq in En as <-. right. destruct (Hn K) as [R|R]; [right; right; now left|].
    right; right; right. eapply HL; [exact (gw_graph _ _ G)|exact R].
  Qed.

  Lemma asked_keeper : keeper E asked (fun _ => True) (fun _ => True).
  Proof.
    constructor; auto.
    - intros s s' (f & c & ->) Js. revert Js. now apply asked_same.
    - intros n l M s1 r s2 Ex. apply (asked_new n l _ _ _ Ex). intros K. left.
      destruct M as [k name Hk|t path tree l _ _|k sp s n l s' Hf Hn]; [cbn in K; now rewrite K in Hk|discriminate|].
      eapply nfs_missing; eassumption.
    - intros k im name s s1 Js Hm J1 x s2 H. apply (asked_new _ _ _ _ _ H); [|exact J1]. intros _. right.
      destruct Js as (L & Hh & _). apply In_nth_error in Hh as [j Hj].
      destruct (miss_declined E h k 0 j im name s s1) as (k' & a & b & A & Gb & B & C); [lia|exact Hj|exact L|exact Hm|].
      eapply HL; [exact (gw_graph _ _ C)|]. eapply HB; exact B.
    - intros a b d. apply asked_keeps; [|apply samem_edge]. intros s. eapply cwp_anyone, (cwp_edge none). auto.
    - apply written_any. intros n l. apply asked_keeps; [intros s; eapply cwp_anyone, (cwp_written none); auto|]. intros s r s' Ex. injection Ex as <- <-.
      intros id. unfold kind_of. cbn [s_graph set_graph]. rewrite gfind_written. destruct (gfind (s_graph s) id) as [y|]; [|auto]. cbn.
      destruct (upd_written_same n l y) as (_ & Q & _). now rewrite Q.
    - intros n l. apply asked_keeps; [intros s; eapply cwp_anyone, (cwp_sched none); auto|]. sm.
    - intros n p _. apply asked_keeps; [intros s; eapply cwp_anyone, cwp_push; auto|]. unfold push_package. sm.
    - intros name s r s' Ex Js. unfold pop_lazy in Ex. destruct (assoc name (s_lazy s)) as [i|]; injection Ex as <- <-; [|exact Js].
      apply asked_log; [discriminate|]. revert Js. now apply asked_same.
    - intros k w _ s r s' Ex Js. injection Ex as <- <-. revert Js. now apply asked_same.
    - intros s e He Js. apply asked_log; [intros; destruct e; discriminate|exact Js].
    - intros s _ Js. apply asked_log; [discriminate|exact Js].
    - intros s id pkg stem _. apply asked_log. discriminate.
    - intros s w rest Hs Js. apply asked_log; [discriminate|]. revert Js. now apply asked_same.
    - intros k w s u s' _ _ Js. apply asked_log; [discriminate|]. revert Js. now apply asked_same.
    - intros w s Js. apply asked_log; [discriminate|]. revert Js. now apply asked_same.
    - intros a id _ _. apply keeps_bind.
      + intros s r s' Ex Js. injection Ex as <- <-. apply asked_log; [discriminate|exact Js].
      + intros _. apply asked_keeps; [|apply samem_root]. intros s. eapply cwp_anyone, (cwp_root none). auto.
    - intros a d _ _. apply asked_keeps; [intros s; eapply cwp_anyone, (cwp_user_node none); auto|]. apply samem_new. discriminate.
    - intros s n name _ Js. apply asked_log; [discriminate|exact Js].
    - intros r a _ Hp. assert (Ea : forall s, do_action E r a s = do_action E no_fuel a s) by (intros s; now destruct a).
      assert (X : keeps asked (do_action E no_fuel a)).
      2:{ intros s x s' Ex. rewrite Ea in Ex. now apply X in Ex. }
      destruct (match a with AAddNode _ => true | _ => false end) eqn:En.
      + destruct a; try discriminate En. intros s x s' Ex Js.
        assert (C : cwp none (do_action E no_fuel (AAddNode n)) s (fun _ _ => True)) by apply cwp_do_action, closes_no_fuel.
        destruct (C (proj1 Js) _ _ Ex) as (G & L & _). revert Js. apply asked_more; [exact G|exact L|].
        cbn [do_action] in Ex. unfold bind, note, modify, user_add_node, lift_graph in Ex. cbn [s_graph log] in Ex.
        destruct (gadd_node (s_graph s) n) as [g|e] eqn:Eg; injection Ex as <- <-; intros id; [|now left].
        apply gadd_node_spec in Eg as (E1 & ->). unfold kind_of. cbn [s_graph set_graph log].
        rewrite gfind_app. destruct (gfind (s_graph s) id) eqn:Ei; [now left|]. destruct (seqb (n_name n) id) eqn:Es; [|now left].
        intros _. apply seqb_eq in Es as <-. right. right. left. now left.
      + apply asked_keeps; [intros s; eapply cwp_anyone; apply cwp_do_action, closes_no_fuel|].
        clear Ea. destruct a; try discriminate Hp; try discriminate En; cbn [do_action]; sm.
  Qed.
End missing.
