(** Calls are nested as deep as names are long (C85). *)
From Verif Require Export DepthSpec.
From Verif Require Import BuilderFuel BuilderEnd BuilderSame PyStrFacts NamesProofs.
Open Scope string_scope.

(** ** Names *)

Definition levels (s : string) : nat := match lstrip dot s with EmptyString => 0 | _ => parts (lstrip dot s) end.
Lemma dots_app a b : dots (a ++ b) = dots a + dots b.
Proof. induction a as [|c a IH]; cbn; [reflexivity|]. rewrite IH. lia. Qed.
Lemma dots_none s : has_char dot s = false -> dots s = 0.
Proof. induction s as [|c s IH]; cbn; [reflexivity|]. destruct (Ascii.eqb c dot); [discriminate|]. exact IH. Qed.
Lemma dots_repeat k : dots (repeat_char dot k) = k.
Proof. induction k as [|k IH]; cbn; congruence. Qed.
Lemma levels_parts s : levels s <= parts s.
Proof.
  unfold levels. destruct (lstrip_split dot s) as (k & E & _). destruct (lstrip dot s) as [|a r] eqn:El; [lia|].
  unfold parts. rewrite E, dots_app. lia.
Qed.
Lemma starts_left c p y : starts_with (ch c) (p ++ String c y) = false -> starts_with (ch c) p = false /\ p <> "".
Proof.
  destruct p as [|a p]; cbn.
  - destruct (ascii_dec c c); [|congruence]. destruct y; discriminate.
  - destruct (ascii_dec c a); [|now split]. destruct p; discriminate.
Qed.
Lemma levels_split name c x : split_package name = ROk (Some c, x) -> levels c < levels name /\ dots name <> 0.
Proof.
  unfold split_package. destruct (seqb name ""); [discriminate|]. destruct (lstrip_split dot name) as (k & En & Hs).
  unfold levels at 2. set (abs := lstrip dot name) in *.
  assert (Ek : String.length name - String.length abs = k) by (rewrite En, length_app_s, length_repeat; lia).
  rewrite Ek. clear Ek. destruct (seqb abs "" || has_sub ".." abs) eqn:Ea; [discriminate|].
  apply orb_false_iff in Ea as [Ea _]. assert (Na : abs <> "") by (intros K; rewrite K in Ea; discriminate). clear Ea.
  assert (La : match abs with EmptyString => 0 | _ => parts abs end = parts abs) by (destruct abs; [congruence|reflexivity]). rewrite La. clear La.
  destruct (rpartition_cases dot abs) as [[Hd ->]|(p & y & Ep & Hy & ->)]; intros H; injection H as H <-.
  - destruct k as [|k]; cbn [Nat.eqb] in H; [discriminate|].
    rewrite app_nil_r_s in H. destruct (seqb _ _); [discriminate|]. injection H as <-. split.
    + change (String dot (repeat_char dot k)) with (repeat_char dot (S k)). unfold levels.
      pose proof (lstrip_repeat dot (S k) "" eq_refl) as K. rewrite app_nil_r_s in K. rewrite K. unfold parts. lia.
    + rewrite En, dots_app, dots_repeat. lia.
  - assert (Hp : starts_with (ch dot) p = false /\ p <> "").
    { rewrite Ep in Hs. now apply starts_left in Hs. }
    destruct Hp as [Hp Np].
    assert (Hc : c = (repeat_char dot k ++ p)%string).
    { destruct k as [|k]; cbn [Nat.eqb] in H; (destruct (seqb _ _); [discriminate|]; now injection H as <-). }
    subst c. split.
    + unfold levels. rewrite (lstrip_repeat dot k p Hp), Ep. unfold parts. rewrite dots_app. destruct p; [congruence|]. cbn. lia.
    + rewrite En, Ep, !dots_app. cbn. lia.
Qed.
Lemma rsplit_dots k : forall s, dots (hd EmptyString (rsplit dot k s)) <= dots s.
Proof.
  induction k as [|k IH]; intros s; cbn; [lia|]. destruct (rpart dot s) as [[x y]|] eqn:E; [|cbn; lia].
  apply rpart_Some in E as [-> _]. specialize (IH x). rewrite dots_app. destruct (rsplit dot k x); cbn in *; lia.
Qed.
Lemma absolute_dots n b i name : absolute_name n b i = inr name -> levels name <= dots n + dots (in_name (ii_module i)) + 2.
Proof.
  unfold absolute_name. intros H. pose proof (levels_parts name) as L. unfold parts in L.
  destruct (Nat.eqb (ii_level i) 0); [injection H as <-; lia|].
  destruct (relative_package n b (ii_level i)) as [pkg|] eqn:Er; [|discriminate].
  assert (P : dots pkg <= dots n).
  { unfold relative_package in Er. destruct (Nat.ltb _ _); [discriminate|]. injection Er as <-. apply rsplit_dots. }
  assert (Q : dots name <= dots pkg + dots (in_name (ii_module i)) + 1); [|lia].
  injection H as <-. destruct (seqb _ _); [lia|]. rewrite dots_app.
  change (dots (String "." (in_name (ii_module i)))) with (S (dots (in_name (ii_module i)))). lia.
Qed.
Lemma most_in x l : In x l -> parts x <= most_parts l.
Proof. unfold most_parts. induction l as [|y l IH]; intros H; [destruct H|]. cbn [map fold_right].
  destruct H as [->|H]; [lia|]. specialize (IH H). lia. Qed.
Lemma most_pos l : 1 <= most_parts l.
Proof. unfold most_parts. induction l; cbn [map fold_right]; lia. Qed.

Lemma len_filter {A} (p : A -> bool) l : List.length (filter p l) <= List.length l.
Proof. induction l as [|x l IH]; cbn; [lia|]. destruct (p x); cbn; lia. Qed.

Section deep.
  Variable E : env.
  Hypothesis HP : plain_finder E.
  Variable D : nat.
  Let K := D + 4.
  Lemma K4 : K = D + 4. Proof. reflexivity. Qed.

  (** ** What is known all the time *)

  Definition specials : list string := ["pkgutil"; "pkg_resources"].
  Definition missing_specials (g : graph) : nat := List.length (filter (fun n => negb (ghas g n)) specials).
  Record Inv (s : st) : Prop := {
    iv_post : s_post s = [];
    iv_missing : s_missing s = [];
    iv_lazy : forall x i, In (x, i) (s_lazy s) -> short D i;
    iv_alias : forall n t, In n (g_nodes (s_graph s)) -> n_kind n = AliasNode t -> parts t <= D;
    iv_stack : forall n p, ~ In (DoPackage n p) (s_stack s)
  }.
  Definition mu (s : st) : nat := K * (2 * List.length (s_lazy s) + missing_specials (s_graph s)).
  Definition Le (s s' : st) : Prop := Inv s' /\ List.length (s_lazy s') <= List.length (s_lazy s) /\ missing_specials (s_graph s') <= missing_specials (s_graph s).
  Lemma Le_refl s : Inv s -> Le s s. Proof. intros H. split; [exact H|lia]. Qed.
  Lemma Le_trans a b c : Le a b -> Le b c -> Le a c. Proof. intros (_ & A & B) (C & F & G). split; [exact C|lia]. Qed.
  Lemma mu_le s s' : Le s s' -> mu s' <= mu s.
  Proof. intros (_ & A & B). unfold mu. apply Nat.mul_le_mono_l. lia. Qed.
  Lemma missing_two g : missing_specials g <= 2.
  Proof. unfold missing_specials, specials. cbn. destruct (ghas g "pkgutil"), (ghas g "pkg_resources"); cbn; lia. Qed.
  Lemma specials_le g g' : gle g g' -> missing_specials g' <= missing_specials g.
  Proof.
    intros H. unfold missing_specials. apply filter_le. intros x. rewrite !negb_true_iff. intros A.
    destruct (ghas g x) eqn:B; [|reflexivity]. now rewrite (ghas_gle _ _ _ H B) in A.
  Qed.

  (** ** Computations that are defined *)

  Definition dm {A} (m : M A) (s : st) : Prop := exists r s', m s = Some (r, s') /\ Le s s'.
  Lemma dm_bind {A B} (m : M A) (f : A -> M B) s : dm m s -> (forall a s', m s = Some (ROk a, s') -> Le s s' -> dm (f a) s') -> dm (bind m f) s.
  Proof.
    intros (r & s1 & H1 & L1) K0. unfold bind, dm. rewrite H1. destruct r as [a|e]; [|now exists (RErr e), s1].
    destruct (K0 a s1 H1 L1) as (r & s2 & -> & L2). exists r, s2. split; [reflexivity|]. eapply Le_trans; eassumption.
  Qed.
  Lemma dm_attempt {A} (m : M A) s : dm m s -> dm (attempt m) s.
  Proof. intros (r & s1 & H1 & L1). unfold attempt, dm. rewrite H1. now exists (ROk r), s1. Qed.
  Lemma dm_step {A} (m : M A) s r s' : m s = Some (r, s') -> Le s s' -> dm m s.
  Proof. intros H L. now exists r, s'. Qed.
  Lemma dm_ret {A} (a : A) s : Inv s -> dm (ret a) s.
  Proof. intros H. eapply dm_step; [reflexivity|now apply Le_refl]. Qed.
  Lemma dm_raise {A} e s : Inv s -> dm (@raise A e) s.
  Proof. intros H. eapply dm_step; [reflexivity|now apply Le_refl]. Qed.
  Lemma env_le s s' : Inv s -> env_only s s' -> Le s s'.
  Proof. intros [] (f & c & ->). split; [now constructor|]. cbn. lia. Qed.
  Lemma dm_env {A} (m : M A) s : total m -> envm m -> Inv s -> dm m s.
  Proof. intros H H' I0. destruct (H s) as (r & s' & H1). exists r, s'. split; [exact H1|]. apply env_le; [exact I0|]. eapply H'; exact H1. Qed.
  Lemma dm_assert b s : Inv s -> dm (assert b) s.
  Proof. apply dm_env; [apply total_assert|apply envm_assert]. Qed.
  Lemma dm_gets {A} (f : st -> A) s : Inv s -> dm (gets f) s.
  Proof. apply dm_env; [apply total_gets|apply envm_get]. Qed.
  Lemma dm_of_result {A} (x : result A) s : Inv s -> dm (of_result x) s.
  Proof. apply dm_env; [apply total_of_result|apply envm_of_result]. Qed.
  Lemma dm_find_spec n s : Inv s -> dm (find_spec E n) s.
  Proof. apply dm_env; [apply total_find_spec|apply envm_find_spec]. Qed.
  Lemma dm_in_sysmod n s : Inv s -> dm (in_sysmod E n) s.
  Proof. apply dm_env; [apply total_in_sysmod|apply envm_in_sysmod]. Qed.
  Lemma dm_askr {A} (f : nat -> result A) s : Inv s -> dm (askr f) s.
  Proof. apply dm_env; [apply total_askr|apply envm_askr]. Qed.
  Lemma dm_iter {A} (f : A -> M unit) l : forall s, Inv s -> (forall x s', In x l -> Le s s' -> dm (f x) s') -> dm (iter f l) s.
  Proof.
    induction l as [|x l IH]; intros s I0 H; cbn [iter]; [now apply dm_ret|]. apply dm_bind.
    - apply H; [now left|now apply Le_refl].
    - intros _ s1 _ L1. apply IH; [apply L1|]. intros y s2 Hy L2. apply H; [now right|]. eapply Le_trans; eassumption.
  Qed.
  Lemma note_le s e : Inv s -> Le s (log s e).
  Proof. intros []. split; [now constructor|]. cbn. lia. Qed.
  Lemma dm_note e s : Inv s -> dm (note e) s.
  Proof. intros H. eapply dm_step; [reflexivity|now apply note_le]. Qed.
  Lemma graph_le s g : Inv s -> gle (s_graph s) g -> (forall n t, In n (g_nodes g) -> n_kind n = AliasNode t -> parts t <= D) -> Le s (set_graph s g).
  Proof. intros [] H H'. split; [now constructor|]. cbn. split; [lia|now apply specials_le]. Qed.
  Lemma dm_get_node id s : Inv s -> dm (get_node id) s. Proof. apply dm_gets. Qed.
  Lemma dm_kind_test p id s : Inv s -> dm (kind_test p id) s.
  Proof. intros I0. unfold kind_test. apply dm_bind; [now apply dm_get_node|]. intros n s' _ L. apply dm_ret, L. Qed.
  Lemma dm_find_module id s : Inv s -> dm (find_module id) s.
  Proof.
    intros I0. unfold find_module. apply dm_bind; [now apply dm_get_node|]. intros [n|] s' _ L; [|apply dm_ret, L].
    apply dm_bind; [apply dm_assert, L|]. intros _ s'' _ L'. apply dm_ret, L'.
  Qed.
  Lemma dm_lift f s : Inv s -> (forall g', f (s_graph s) = ROk g' -> gle (s_graph s) g' /\ forall n t, In n (g_nodes g') -> n_kind n = AliasNode t -> parts t <= D) ->
    dm (lift_graph f) s.
  Proof.
    intros I0 H. unfold lift_graph, dm. destruct (f (s_graph s)) as [g|e]; eexists _, _; (split; [reflexivity|]); [|now apply Le_refl].
    destruct (H g eq_refl). now apply graph_le.
  Qed.
  Lemma dm_add_edge a b d s : Inv s -> dm (add_edge a b d) s.
  Proof.
    intros I0. apply dm_lift; [exact I0|]. intros g' H. split; [eapply gle_edge; exact H|]. unfold gadd_edge in H.
    destruct (ghas _ _ && ghas _ _)%bool in H; [|discriminate]. injection H as <-. apply (iv_alias _ I0).
  Qed.
  Lemma dm_add_root a s : Inv s -> dm (add_root a) s.
  Proof.
    intros I0. apply dm_lift; [exact I0|]. intros g' H. split; [eapply gle_root; exact H|]. unfold gadd_root in H.
    destruct (ghas _ _) in H; [|discriminate]. injection H as <-. apply (iv_alias _ I0).
  Qed.
  Lemma dm_user_add_node n s : Inv s -> (forall t, n_kind n = AliasNode t -> parts t <= D) -> dm (user_add_node n) s.
  Proof.
    intros I0 Hn. apply dm_lift; [exact I0|]. intros g' H. split; [eapply gle_add; exact H|].
    apply gadd_node_spec in H as [_ ->]. cbn. intros m t Hm. apply in_app_iff in Hm as [Hm|[<-|[]]]; [now apply (iv_alias _ I0)|apply Hn].
  Qed.
  Lemma dm_add_node n l s : Inv s -> (forall t, n_kind n = AliasNode t -> parts t <= D) -> dm (add_node n l) s.
  Proof.
    intros I0 Hn. unfold add_node. apply dm_bind; [now apply dm_user_add_node|]. intros _ s' _ L. apply (dm_note (EvAdd (n_name n) l)), L.
  Qed.
  Lemma dm_plain_node k name l s : Inv s -> (forall t, k = AliasNode t -> parts t <= D) -> dm (add_node (plain_node k name) l) s.
  Proof. intros I0 Hk. apply dm_add_node; [exact I0|exact Hk]. Qed.
  Lemma schedule_le id l s : Inv s -> Le s (schedule id l s).
  Proof.
    intros []. split; [|unfold schedule; destruct (memb _ _); cbn; lia].
    assert (Q : forall n p, ~ In (DoPackage n p) (s_stack (schedule id l s))).
    { intros n p Hp. unfold schedule in Hp. cbn [s_stack set_stack] in Hp. apply in_app_iff in Hp as [Hp|Hp].
      - apply in_rev, in_map_iff in Hp as (x & Hx & _). discriminate.
      - destruct (memb _ _) in Hp; cbn in Hp; [now elim (iv_stack0 n p)|]. destruct Hp as [Hp|Hp]; [discriminate|now elim (iv_stack0 n p)]. }
    unfold schedule in *. destruct (memb _ _); now constructor.
  Qed.
  Lemma dm_schedule id l s : Inv s -> dm (process_import_list id l) s.
  Proof. intros I0. eapply dm_step; [reflexivity|now apply schedule_le]. Qed.

  (** ** How much is needed *)

  Definition off (name : string) : nat := if memb name specials then 0 else K.
  Definition fneed (name : string) (s : st) : nat := levels name + 4 + off name + mu s.
  Definition lneed (name : string) (s : st) : nat := 2 + off name + mu s + (if memb (parent_of name) (s_fakes s) then 0 else 1).
  Lemma off_le name : off name <= K. Proof. unfold off. destruct (memb _ _); lia. Qed.
  Lemma off_special name : dots name <> 0 -> off name = K.
  Proof.
    intros H. unfold off. destruct (memb name specials) eqn:Em; [|reflexivity]. apply memb_In in Em.
    destruct Em as [<-|[<-|[]]]; now elim H.
  Qed.
  Lemma specials_drop g g' name : memb name specials = true -> ghas g name = false -> ghas g' name = true -> gle g g' ->
    missing_specials g' < missing_specials g.
  Proof.
    intros Hm A B H. apply memb_In in Hm. unfold missing_specials, specials in *. cbn [filter].
    pose proof (ghas_gle _ _ "pkgutil" H). pose proof (ghas_gle _ _ "pkg_resources" H).
    destruct Hm as [<-|[<-|[]]]; rewrite A, B; cbn [negb].
    - destruct (ghas g "pkg_resources"), (ghas g' "pkg_resources"); cbn; lia || (now specialize (H1 eq_refl)).
    - destruct (ghas g "pkgutil"), (ghas g' "pkgutil"); cbn; lia || (now specialize (H0 eq_refl)).
  Qed.

  (** ** Small steps *)

  Lemma miss_none k im name s : Inv s -> f_miss (exec E (S k)) 0 im name s = Some (ROk None, s).
  Proof. intros I0. cbn. unfold miss_body, bind, gets. rewrite (iv_missing _ I0). reflexivity. Qed.
  Lemma missing_dm k im name s : Inv s -> exists r s', create_missing (exec E (S k)) im name s = Some (r, s') /\ Le s s' /\ s_fakes s' = s_fakes s.
  Proof.
    intros I0. unfold create_missing. unfold bind at 1. rewrite (miss_none k im name s I0).
    destruct (dm_add_node (plain_node MissingModule name) [] s I0 ltac:(intros t Ht; discriminate)) as (r1 & s1 & H1 & L1).
    assert (F1 : s_fakes s1 = s_fakes s).
    { unfold add_node, bind, lift_graph in H1. destruct (gadd_node _ _) in H1; injection H1 as <- <-; reflexivity. }
    unfold bind at 1. rewrite H1. destruct r1 as [u|e]; [|now exists (RErr e), s1].
    exists (ROk name), (schedule name [] s1). split; [reflexivity|]. split.
    - eapply Le_trans; [exact L1|]. apply schedule_le, L1.
    - unfold schedule. rewrite <- F1. now destruct (memb _ _).
  Qed.
  Lemma dm_missing k im name s : Inv s -> dm (create_missing (exec E (S k)) im name) s.
  Proof. intros I0. destruct (missing_dm k im name s I0) as (r & s' & H & L & _). now exists r, s'. Qed.

  Lemma dm_nfs k sp s : direct (sp_loader sp) = true -> Inv s -> dm (f_nfs (exec E (S k)) sp) s.
  Proof.
    intros Hd I0. apply dm_env; [|apply envm_nfs_exec|exact I0]. cbn [exec f_nfs]. unfold nfs_body.
    destruct (sp_loader sp); try discriminate Hd; unfold wrap_package, dist_of, source_imports, code_info; total_tac.
  Qed.

  Lemma pop_dm name s : Inv s -> exists r s', pop_lazy name s = Some (ROk r, s') /\ Le s s' /\ s_graph s' = s_graph s
    /\ forall i, r = Some i -> mu s' + 2 * K <= mu s /\ short D i.
  Proof.
    intros I0. unfold pop_lazy. destruct (assoc name (s_lazy s)) as [i|] eqn:Ea.
    2:{ exists None, s. split; [reflexivity|]. split; [now apply Le_refl|]. split; [reflexivity|discriminate]. }
    eexists _, _. split; [reflexivity|].
    assert (Q : List.length (filter (fun x : string * implied => negb (seqb (fst x) name)) (s_lazy s)) < List.length (s_lazy s)
      /\ In (name, i) (s_lazy s)).
    { clear I0. induction (s_lazy s) as [|[x j] l IH]; [discriminate|]. cbn in Ea. cbn [filter fst].
      destruct (seqb x name) eqn:Ex; [|destruct (seqb name x) eqn:Ey]; cbn [negb].
      - split; [|]. 
        + pose proof (len_filter (fun x : string * implied => negb (seqb (fst x) name)) l). cbn. lia.
        + apply seqb_eq in Ex as ->. rewrite (proj2 (seqb_eq name name) eq_refl) in Ea. injection Ea as ->. now left.
      - apply seqb_eq in Ey as ->. rewrite (proj2 (seqb_eq x x) eq_refl) in Ex. discriminate.
      - destruct (IH Ea) as [A B]. split; [cbn; lia|now right]. }
    destruct Q as [Q1 Q2]. split; [|split; [reflexivity|]].
    - destruct I0. split; [constructor; cbn; auto|cbn; lia]. intros x j Hx. apply filter_In in Hx as [Hx _]. now apply iv_lazy0 in Hx.
    - intros j Hj. injection Hj as <-. split; [|eapply (iv_lazy _ I0), Q2]. unfold mu. cbn [s_lazy s_graph set_lazy log]. 
      rewrite (Nat.mul_comm 2 K), <- Nat.mul_add_distr_l. apply Nat.mul_le_mono_l. lia.
  Qed.

  (** ** Loading *)

  Lemma failed_dm k im name e s : Inv s ->
    (memb (parent_of name) (s_fakes s) = false -> forall s', Le s s' -> memb (parent_of name) (s_fakes s') = true -> dm (f_load (exec E (S k)) im name) s') ->
    dm (load_failed E (exec E (S k)) im name e) s.
  Proof.
    intros I0 HL. assert (G : dm (load_failed E (exec E (S k)) im name EValue) s).
    { unfold load_failed. cbn [is_exception negb]. cbv zeta. destruct (dm_in_sysmod (fst (rpartition dot name)) s I0) as (r1 & s1 & H1 & L1).
      apply dm_bind; [now exists r1, s1|]. clear r1 s1 H1 L1. intros b s1 H1 L1.
      assert (Hb : b = false -> memb (parent_of name) (s_fakes s) = false).
      { unfold in_sysmod in H1. injection H1 as H1 _. intros ->. apply orb_false_iff in H1. apply H1. }
      apply dm_bind; [apply dm_assert, L1|]. intros [] s2 H2 L2. assert (Hf : b = false) by (destruct b; [discriminate|reflexivity]).
      specialize (HL (Hb Hf)). clear H1 H2 Hb Hf.
      apply dm_bind; [apply dm_find_spec, L2|]. intros [sp|] s3 _ L3; [|apply dm_raise, L3].
      apply dm_bind; [apply dm_assert, L3|]. intros _ s4 _ L4.
      apply dm_bind; [apply dm_of_result, L4|]. intros [|] s5 _ L5; [|apply dm_missing, L5].
      destruct (sp_origin sp) as [path|]; [|apply dm_raise, L5].
      apply dm_bind; [apply dm_assert, L5|]. intros _ s6 _ L6.
      assert (L7 : Le s6 (set_fakes s6 (set_add (parent_of name) (s_fakes s6)))).
      { apply env_le; [apply L6|]. unfold env_only. eexists _, _. reflexivity. }
      apply dm_bind; [eapply dm_step; [reflexivity|exact L7]|]. intros [] s7 H7 _. injection H7 as <-.
      apply HL; [repeat (eapply Le_trans; [eassumption|]); now apply Le_refl, L7|].
      cbn. apply memb_In, set_add_In. now left. }
    destruct e; try exact G; [destruct no_module_named; [exact G|now apply dm_missing]|now apply dm_raise].
  Qed.

  Definition finds_at (k : nat) : Prop := forall im name link s, Inv s -> fneed name s <= k -> dm (f_find (exec E k) im name link) s.
  Definition loads_at (k : nat) : Prop := forall im name s, Inv s -> name <> EmptyString -> lneed name s <= k -> dm (f_load (exec E k) im name) s.

  Lemma spec_dm k name sp t f s : finds_at (S k) -> Inv s -> gfind (s_graph s) name = None -> e_find_spec E t f name = ROk (Some sp) ->
    1 + off name + mu s <= S k -> dm (load_spec (exec E (S k)) name sp) s.
  Proof.
    intros HF I0 Hg Hs Hk. destruct (HP _ _ _ _ Hs) as [Hn Hd]. unfold load_spec.
    apply dm_bind; [now apply dm_nfs|]. intros [n imports] s1 H1 L1.
    assert (E1 : s_graph s1 = s_graph s) by (apply env_graph; eapply envm_nfs_exec; exact H1).
    pose proof (nfs_kind E _ _ _ _ _ _ Hd H1) as [N1 N2]. rewrite Hn in N1, N2. rewrite N1.
    rewrite (proj2 (seqb_eq name name) eq_refl). cbn [negb].
    assert (A : forall t0, n_kind n = AliasNode t0 -> parts t0 <= D) by (intros t0 A; rewrite A in N2; destruct N2).
    apply dm_bind; [apply dm_add_node; [apply L1|exact A]|]. intros [] s2 H2 L2.
    assert (Hmu : 5 + mu s2 <= S k).
    { pose proof (mu_le _ _ L1) as M1. unfold off in Hk. destruct (memb name specials) eqn:Em.
      - unfold add_node, bind, lift_graph in H2. destruct (gadd_node (s_graph s1) n) as [g|] eqn:Eg; [|discriminate]. injection H2 as <-.
        assert (X : missing_specials g < missing_specials (s_graph s1)).
        { apply (specials_drop _ _ name Em); [|  |eapply gle_add; exact Eg].
          - unfold ghas. rewrite E1, Hg. reflexivity.
          - apply gadd_node_spec in Eg as [Eg ->]. rewrite N1 in Eg. unfold ghas. rewrite gfind_app, Eg.
            now rewrite N1, (proj2 (seqb_eq name name) eq_refl). }
        assert (Y : mu (log (set_graph s1 g) (EvAdd (n_name n) imports)) + K <= mu s1).
        { unfold mu. cbn [s_lazy s_graph set_graph log]. pose proof (Nat.mul_le_mono_l _ _ K X) as Z. rewrite !Nat.mul_add_distr_l. lia. }
        pose proof K4. lia.
      - pose proof (mu_le _ _ L2). pose proof K4. lia. }
    apply dm_bind.
    - destruct (n_kind n) as [| | |? ? ? ? nstype| | | | | |]; try apply dm_ret, L2.
      destruct nstype as [ns|]; [|apply dm_ret, L2]. destruct (memb ns ["pkgutil"; "pkg_resources"]) eqn:En; [|apply dm_ret, L2].
      apply dm_bind; [|intros m s3 _ L3; apply dm_add_edge, L3]. apply HF; [apply L2|]. unfold fneed, off. fold specials in En. rewrite En.
      apply memb_In in En. destruct En as [<-|[<-|[]]]; cbn; lia.
    - intros _ s3 _ L3. apply dm_bind; [apply dm_schedule, L3|]. intros _ s4 _ L4. apply dm_ret, L4.
  Qed.

  Lemma load_step k : finds_at (S k) -> loads_at (S k) -> loads_at (S (S k)).
  Proof.
    intros HF HL im name s I0 Hn Hk. change (dm (load_body E (exec E (S k)) im name) s). unfold load_body.
    apply dm_bind; [now apply dm_assert|]. intros [] s0 H0 L0.
    assert (s0 = s) as -> by (destruct (starts_with "." name); [discriminate|now injection H0]). clear H0 L0.
    apply dm_bind; [now apply dm_get_node|]. intros n s0 H0 L0. unfold get_node, gets in H0. injection H0 as H0 <-.
    destruct n as [n|]; [now apply dm_ret|]. rename H0 into Hg. clear L0.
    assert (RE : forall s1, Le s s1 -> (memb (parent_of name) (s_fakes s) = true -> memb (parent_of name) (s_fakes s1) = true) ->
      memb (parent_of name) (s_fakes s1) = false -> forall s', Le s1 s' -> memb (parent_of name) (s_fakes s') = true -> dm (f_load (exec E (S k)) im name) s').
    { intros s1 L1 Hf Hf1 s' L' Hf'. apply HL; [apply L'|exact Hn|]. unfold lneed in *. rewrite Hf'.
      pose proof (mu_le _ _ L1). pose proof (mu_le _ _ L'). destruct (memb (parent_of name) (s_fakes s)); [|lia].
      rewrite (Hf eq_refl) in Hf1. discriminate. }
    assert (L0 : dm (spec_or_none E name) s) by (apply dm_env; [apply total_spec_or_none|apply envm_spec_or_none|exact I0]).
    apply dm_bind; [now apply dm_attempt|]. intros r0 s1 H1 L1. unfold attempt in H1. destruct (spec_or_none E name s) as [[r s1']|] eqn:Es; [|discriminate].
    injection H1 as <- <-. assert (F1 : memb (parent_of name) (s_fakes s) = true -> memb (parent_of name) (s_fakes s1') = true).
    { rewrite !memb_In. eapply (fakem_spec_or_none E); [|exact Es]. now apply parent_other. }
    assert (G1 : s_graph s1' = s_graph s) by (apply env_graph; eapply envm_spec_or_none; exact Es).
    destruct r as [[sp|]|e].
    - apply spec_or_none_found in Es as (t & f & Es). eapply spec_dm; [exact HF|apply L1|now rewrite G1|exact Es|].
      pose proof (mu_le _ _ L1). unfold lneed in Hk. lia.
    - destruct (missing_dm k im name s1' (proj1 L1)) as (r2 & s2 & H2 & L2 & F2).
      apply dm_bind; [apply dm_attempt; now exists r2, s2|]. intros r3 s3 H3 _. unfold attempt in H3. rewrite H2 in H3. injection H3 as <- <-.
      destruct r2 as [id|e]; [apply dm_ret, L2|]. apply dm_bind; [apply dm_note, L2|]. intros [] s3 H3 L3. unfold note, modify in H3. injection H3 as <-.
      apply failed_dm; [apply L3|]. apply RE; [repeat (eapply Le_trans; [eassumption|]); now apply Le_refl, L3|]. cbn. now rewrite F2.
    - apply failed_dm; [apply L1|]. now apply RE.
  Qed.

  (** ** Finding *)

  Lemma target_need t s s' : parts t <= D -> mu s' + 2 * K <= mu s -> fneed t s' <= mu s.
  Proof. intros A B. unfold fneed. pose proof (levels_parts t). pose proof (off_le t). pose proof K4. lia. Qed.
  Lemma node_dm k kd name t s : finds_at k -> Inv s -> (forall x, kd = AliasNode x -> parts x <= D) -> (forall s', Le s s' -> fneed t s' <= k) ->
    dm (implied_node (exec E k) kd name t) s.
  Proof.
    intros HF I0 Hk Ht. unfold implied_node. apply dm_bind; [now apply dm_get_node|]. intros n s1 _ L1.
    apply dm_bind; [apply dm_assert, L1|]. intros _ s2 _ L2.
    apply dm_bind; [apply dm_plain_node; [apply L2|exact Hk]|]. intros _ s3 _ L3.
    apply dm_bind; [apply dm_schedule, L3|]. intros _ s4 _ L4.
    apply dm_bind; [apply HF; [apply L4|]; apply Ht; repeat (eapply Le_trans; [eassumption|]); now apply Le_refl, L4|].
    intros o s5 _ L5. apply dm_bind; [apply dm_add_edge, L5|]. intros _ s6 _ L6. apply dm_ret, L6.
  Qed.
  Lemma implied_dm k im name s : finds_at k -> Inv s -> fneed name s <= S k -> dm (implied_references (exec E k) im name) s.
  Proof.
    intros HF I0 Hk. unfold implied_references. apply dm_bind; [now apply dm_get_node|]. intros n s1 _ L1. destruct n; [apply dm_ret, L1|].
    destruct (pop_dm name s1 (proj1 L1)) as (r & s2 & H2 & L2 & _ & M2). apply dm_bind; [now exists (ROk r), s2|].
    intros i s2' H2' _. rewrite H2 in H2'. injection H2' as <- <-. pose proof (mu_le _ _ L1) as M1.
    assert (MK : mu s <= k) by (unfold fneed in Hk; lia).
    destruct r as [i|]; [|apply dm_ret, L2]. destruct (M2 i eq_refl) as [M3 Hs].
    assert (TN : forall t s', In t (targets i) -> Le s2 s' -> fneed t s' <= k).
    { intros t s' Ht L'. pose proof (mu_le _ _ L'). assert (A : fneed t s' <= mu s1); [|lia]. apply target_need; [now apply Hs|lia]. }
    destruct i as [|a|a|refs].
    - apply dm_bind; [apply dm_plain_node; [apply L2|discriminate]|]. intros _ s3 _ L3.
      apply dm_bind; [apply dm_schedule, L3|]. intros _ s4 _ L4. apply dm_ret, L4.
    - apply node_dm; [exact HF|apply L2| |].
      + intros x Hx. injection Hx as <-. apply Hs. now left.
      + intros s' L'. apply TN; [now left|exact L'].
    - apply node_dm; [exact HF|apply L2|discriminate|]. intros s' L'. apply TN; [now left|exact L'].
    - apply dm_bind.
      + apply HF; [apply L2|]. unfold fneed in *. pose proof K4. lia.
      + intros id s3 _ L3. apply dm_bind; [|intros _ s4 _ L4; apply dm_ret, L4]. apply dm_iter; [apply L3|].
        intros x s4 Hx L4. apply dm_bind; [|intros o s5 _ L5; apply dm_add_edge, L5]. apply HF; [apply L4|]. apply TN; [exact Hx|].
        eapply Le_trans; eassumption.
  Qed.
  Lemma find_step k : finds_at k -> loads_at k -> finds_at (S k).
  Proof.
    intros HF HL im name link s I0 Hk. change (dm (find_body (exec E k) im name link) s). unfold find_body.
    assert (Hk3 : 3 <= k) by (unfold fneed in Hk; lia). destruct k as [|k0]; [lia|]. set (k := S k0) in *.
    apply dm_bind; [now apply dm_find_module|]. intros n s1 H1 L1. destruct n; [apply dm_ret, L1|].
    apply dm_bind; [apply dm_of_result, L1|]. intros pk s2 H2 L2.
    assert (Hp : split_package name = ROk pk /\ s2 = s1) by (unfold of_result in H2; injection H2 as -> ->; now split).
    destruct Hp as [Hp ->]. clear H2 L2.
    apply dm_bind.
    - destruct pk as [[c|] x]; cbn [fst]; [|apply dm_ret, L1]. apply levels_split in Hp as [Hc Hd].
      apply dm_bind.
      + apply HF; [apply L1|]. unfold fneed in *. rewrite (off_special name Hd) in Hk. pose proof (off_le c). pose proof (mu_le _ _ L1). lia.
      + intros p s2 _ L2. apply dm_bind; [apply dm_kind_test, L2|]. intros [|] s3 _ L3.
        * apply dm_bind; [apply dm_missing, L3|]. intros id s4 _ L4. apply dm_ret, L4.
        * apply dm_bind; [apply dm_kind_test, L3|]. intros [|] s4 _ L4; [|apply dm_ret, L4].
          apply dm_bind; [apply dm_plain_node; [apply L4|discriminate]|]. intros _ s5 _ L5.
          apply dm_bind; [apply dm_schedule, L5|]. intros _ s6 _ L6. apply dm_ret, L6.
    - intros [parent found] s2 _ L2. apply dm_bind.
      + destruct found as [id|]; [apply dm_ret, L2|]. apply dm_bind.
        * apply implied_dm; [exact HF|apply L2|]. unfold fneed in *. pose proof (mu_le _ _ L1). pose proof (mu_le _ _ L2). lia.
        * intros i s3 _ L3. destruct i; [apply dm_ret, L3|]. apply HL; [apply L3| |].
          -- intros ->. discriminate.
          -- unfold lneed, fneed in *. pose proof (mu_le _ _ L1). pose proof (mu_le _ _ L2). pose proof (mu_le _ _ L3). destruct (memb _ (s_fakes s3)); lia.
      + intros id s3 _ L3. apply dm_bind; [apply dm_kind_test, L3|]. intros m s4 _ L4.
        apply dm_bind; [|intros _ s5 _ L5; apply dm_ret, L5]. destruct parent; [|apply dm_ret, L4].
        destruct (_ || _)%bool; [apply dm_add_edge, L4|apply dm_ret, L4].
  Qed.
  Lemma all_at k : finds_at k /\ loads_at k.
  Proof.
    induction k as [|k [HF HL]].
    - split; [intros im name link s _ H; unfold fneed in H|intros im name s _ _ H; unfold lneed in H]; lia.
    - split; [now apply find_step|]. destruct k as [|k].
      + intros im name s I0 Hn H. unfold lneed in H. lia.
      + now apply load_step.
  Qed.

  (** ** Work *)

  Lemma mu_room L s : List.length (s_lazy s) <= L -> mu s + K + 6 <= room D L.
  Proof.
    intros H. unfold mu, room. pose proof (missing_two (s_graph s)).
    assert (A : K * (2 * List.length (s_lazy s) + missing_specials (s_graph s)) <= K * (2 * L + 2)) by (apply Nat.mul_le_mono_l; lia).
    assert (B : (D + 4) * (2 * L + 3) = K * (2 * L + 2) + K) by (rewrite K4; ring). rewrite B. lia.
  Qed.
  Lemma find_dm L k im name link s : Inv s -> List.length (s_lazy s) <= L -> levels name + room D L <= k + 2 -> dm (f_find (exec E k) im name link) s.
  Proof.
    intros I0 HL Hk. apply all_at; [exact I0|]. unfold fneed. pose proof (mu_room L s HL). pose proof (off_le name). lia.
  Qed.
  Lemma Le_lazy L s s' : Le s s' -> List.length (s_lazy s) <= L -> List.length (s_lazy s') <= L.
  Proof. intros (_ & A & _). lia. Qed.
  Lemma dm_written id l s : Inv s -> dm (add_written id l) s.
  Proof.
    intros I0. eapply dm_step; [reflexivity|]. apply graph_le; [exact I0|apply gle_written|]. cbn. intros n t Hn Hk.
    apply in_map_iff in Hn as (m & <- & Hm). apply (iv_alias _ I0 m t Hm). rewrite <- Hk. unfold upd_written. destruct (seqb _ _); reflexivity.
  Qed.
  Lemma dm_insert o w s : Inv s -> (forall n p, w <> DoPackage n p) -> dm (insert_work o w) s.
  Proof.
    intros I0 Hw. eapply dm_step; [reflexivity|]. destruct I0. split; [|cbn; lia]. constructor; auto. cbn. intros n p Hi.
    rewrite <- (firstn_skipn (List.length (s_stack s) - o) (s_stack s)) in iv_stack0. elim (iv_stack0 n p). apply in_app_iff.
    apply in_app_iff in Hi as [Hi|[Hi|Hi]]; auto. now elim (Hw n p).
  Qed.
  Lemma six_short x t : assoc x SIX_MOVES_TO = Some t -> levels t <= 3.
  Proof.
    assert (A : Forall (fun y => levels (snd y) <= 3) SIX_MOVES_TO) by (repeat constructor).
    induction A as [|[y u] l H _ IH]; cbn; [discriminate|]. destruct (seqb _ _); [|exact IH]. intros K0. injection K0 as <-. exact H.
  Qed.
  Lemma alias_find s id n t : Inv s -> gfind (s_graph s) id = Some n -> n_kind n = AliasNode t -> parts t <= D.
  Proof. intros I0 H. apply (iv_alias _ I0). unfold gfind in H. now apply find_some in H. Qed.

  Lemma name_dm L k n m kd i nm s : Inv s -> List.length (s_lazy s) <= L -> parts m + parts (in_name nm) + room D L <= k -> dm (process_name (exec E k) n m kd i nm) s.
  Proof.
    intros I0 HL Hk. unfold process_name. apply dm_bind; [now apply dm_get_node|]. intros im s1 _ L1.
    apply dm_bind.
    - destruct (memb _ _); [|apply dm_ret, L1]. apply dm_bind; [apply dm_gets, L1|]. intros [t|] s2 _ L2; [|apply dm_ret, L2].
      apply dm_bind; [apply dm_add_edge, L2|]. intros _ s3 _ L3. apply dm_ret, L3.
    - intros [|] s2 _ L2; [apply dm_ret, L2|].
      apply dm_bind.
      { apply (find_dm L); [apply L2|repeat (eapply Le_lazy; [eassumption|]); exact HL|]. pose proof (levels_parts (m ++ "." ++ in_name nm)) as A.
        assert (B : parts (m ++ "." ++ in_name nm) = parts m + parts (in_name nm)).
        { unfold parts. rewrite !dots_app. change (dots ".") with 1. lia. }
        lia. }
      intros sub s3 _ L3. apply dm_bind; [apply dm_kind_test, L3|]. intros miss s4 _ L4.
      apply dm_bind; [apply dm_get_node, L4|]. intros im2 s5 _ L5.
      assert (LK : dm (do add_edge sub m default_dep;; add_edge n sub (from_importinfo i true (in_asname nm))) s5).
      { apply dm_bind; [apply dm_add_edge, L5|]. intros _ s6 _ L6. apply dm_add_edge, L6. }
      destruct miss; [|exact LK]. destruct (is_package kd && _)%bool.
      + destruct (assoc _ _) as [t|] eqn:Ea; [|exact LK]. apply dm_bind; [|intros d s6 _ L6; apply dm_add_edge, L6].
        apply (find_dm L); [apply L5|repeat (eapply Le_lazy; [eassumption|]); exact HL|]. apply six_short in Ea. unfold parts in Hk. lia.
      + destruct (_ && _)%bool; [apply dm_ret, L5|exact LK].
  Qed.
  Lemma work_dm L w s : Inv s -> List.length (s_lazy s) <= L -> (forall n p, w <> DoPackage n p) -> dm (do_work E (exec E (depth D L w)) w) s.
  Proof.
    intros I0 HL Hw. destruct w as [n|n i|n m i|n p]; [| | |now elim (Hw n p)].
    - cbn [do_work depth]. apply dm_bind; [now apply dm_note|]. intros _ s1 _ L1. cbn. unfold post_body.
      apply dm_bind; [apply dm_gets, L1|]. intros h s2 H2 L2. unfold gets in H2. rewrite (iv_post _ (proj1 L1)) in H2. injection H2 as <- <-. apply dm_ret, L1.
    - cbn [do_work depth]. unfold process_import. apply dm_bind; [now apply dm_kind_test|]. intros pkg s1 _ L1.
      destruct (absolute_name n pkg i) as [inv|name] eqn:Ea.
      + apply dm_bind; [apply dm_find_module, L1|]. intros old s2 _ L2. apply dm_bind; [|intros _ s3 _ L3; apply dm_add_edge, L3].
        destruct old; [apply dm_assert, L2|]. apply dm_bind; [apply dm_plain_node; [apply L2|discriminate]|]. intros _ s3 _ L3. apply dm_schedule, L3.
      + apply dm_bind; [apply dm_assert, L1|]. intros _ s2 _ L2. apply dm_bind; [apply dm_gets, L2|]. intros o s3 _ L3.
        apply dm_bind.
        * apply (find_dm L); [apply L3|repeat (eapply Le_lazy; [eassumption|]); exact HL|]. apply absolute_dots in Ea. unfold parts. lia.
        * intros id s4 _ L4. apply dm_bind; [apply dm_add_edge, L4|]. intros _ s5 _ L5. apply dm_insert; [apply L5|discriminate].
    - cbn [do_work]. unfold process_namelist. apply dm_bind; [now apply dm_kind_test|]. intros ok s1 _ L1.
      apply dm_bind; [apply dm_assert, L1|]. intros _ s2 _ L2. apply dm_bind; [apply dm_get_node, L2|]. intros im s3 H3 L3.
      destruct (ii_star i).
      { destruct im as [x|]; [|apply dm_ret, L3]. destruct (_ || _)%bool; [apply dm_written, L3|apply dm_ret, L3]. }
      assert (NM : forall a y s', Le s s' -> (parts a <= Nat.max (parts m) D) -> dm (iter (process_name (exec E (depth D L (DoNames n m i))) n a y i) (ii_names i)) s').
      { intros a y s' L' Ha. apply dm_iter; [apply L'|]. intros nm s'' Hn L''. apply (name_dm L); [apply L''|repeat (eapply Le_lazy; [eassumption|]); exact HL|].
        cbn [depth]. assert (parts (in_name nm) <= most_parts (map in_name (ii_names i))) by (apply most_in, in_map, Hn). lia. }
      assert (LL : Le s s3) by (repeat (eapply Le_trans; [eassumption|]); now apply Le_refl, L3).
      clear L1. destruct (ii_names i) as [|nm0 names] eqn:En; [apply dm_ret, L3|]. rewrite <- En in *. clear En.
      destruct im as [x|]; [|apply dm_ret, L3].
      assert (OT : forall kd, (forall t, kd <> AliasNode t) -> dm (if (is_package kd || is_nspkg kd || is_module kd)%bool then
        do add_written n (map in_name (ii_names i));; iter (process_name (exec E (depth D L (DoNames n m i))) n m kd i) (ii_names i) else ret tt) s3).
      { intros kd _. destruct (_ || _)%bool; [|apply dm_ret, L3]. apply dm_bind; [apply dm_written, L3|]. intros _ s4 _ L4. apply NM; [eapply Le_trans; eassumption|lia]. }
      destruct (n_kind x) as [| | | | | | | |t|] eqn:Ek; try (apply OT; discriminate).
      unfold get_node, gets in H3. injection H3 as H3 <-. apply dm_bind; [apply dm_written, L3|]. intros _ s4 _ L4. apply dm_bind; [apply dm_find_module, L4|].
      intros a s5 _ L5. destruct a as [y|]; [|apply dm_raise, L5]. destruct (_ || _)%bool; [|apply dm_ret, L5].
      apply dm_bind; [apply dm_written, L5|]. intros _ s6 _ L6. apply NM; [repeat (eapply Le_trans; [eassumption|]); now apply Le_refl, L6|].
      pose proof (alias_find _ _ _ _ (proj1 L2) H3 Ek). lia.
  Qed.
End deep.
