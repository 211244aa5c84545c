(** All functions of [Builder] are made of the steps of [BuilderChain]. *)
From Verif Require Export BuilderWp.

Lemma in_graph_add s n l : in_graph (log (set_graph s
    (Graph (g_nodes (s_graph s) ++ [n]) (g_edges (s_graph s)) (g_roots (s_graph s)))) (EvAdd (n_name n) l)) (n_name n).
Proof.
  unfold in_graph. cbn [s_graph log set_graph]. rewrite gfind_app. destruct (gfind (s_graph s) (n_name n)); [congruence|].
  unfold seqb. rewrite String.eqb_refl. congruence.
Qed.
Lemma kind_of_add s n l : gfind (s_graph s) (n_name n) = None -> kind_of (log (set_graph s
    (Graph (g_nodes (s_graph s) ++ [n]) (g_edges (s_graph s)) (g_roots (s_graph s)))) (EvAdd (n_name n) l)) (n_name n)
    = Some (n_kind n).
Proof.
  intros H. unfold kind_of. cbn [s_graph log set_graph]. rewrite gfind_app, H. unfold seqb. rewrite String.eqb_refl. reflexivity.
Qed.
Lemma schedule_graph n l s : s_graph (schedule n l s) = s_graph s.
Proof. unfold schedule. cbn. destruct (memb n (s_seen s)); reflexivity. Qed.
Lemma schedule_lazy n l s : s_lazy (schedule n l s) = s_lazy s.
Proof. unfold schedule. cbn. destruct (memb n (s_seen s)); reflexivity. Qed.
Lemma schedule_log n l s : s_log (schedule n l s) = EvSched n l :: s_log s.
Proof. unfold schedule. cbn. destruct (memb n (s_seen s)); reflexivity. Qed.
Lemma schedule_in_graph n l s x : in_graph s x -> in_graph (schedule n l s) x.
Proof. unfold in_graph. now rewrite schedule_graph. Qed.
Lemma schedule_kind n l s x : kind_of (schedule n l s) x = kind_of s x.
Proof. unfold kind_of. now rewrite schedule_graph. Qed.
Lemma env_only_grows s s' : env_only s s' -> grows s s'.
Proof. intros (f & c & ->). constructor; cbn; first [apply grows_graph_refl|apply incl_refl|now exists []]. Qed.
Lemma assoc_In {A} k (l : list (string * A)) v : assoc k l = Some v -> In (k, v) l.
Proof.
  induction l as [|[k' v'] l IH]; cbn; [discriminate|].
  destruct (seqb k k') eqn:E; intros H.
  - injection H as ->. apply seqb_eq in E as ->. now left.
  - right. auto.
Qed.

Lemma assoc_filter_self {A} k (l : list (string * A)) : assoc k (filter (fun x => negb (seqb (fst x) k)) l) = None.
Proof.
  induction l as [|[k' v] l IH]; [reflexivity|]. cbn. unfold seqb at 1. rewrite String.eqb_sym. fold (seqb k k'). destruct (seqb k k') eqn:E; cbn; [exact IH|].
  rewrite E. exact IH.
Qed.

Section pass.
  Variable mrun : bool.
  Variable E : env.
  Hypothesis Hord : forall l x, In x (e_order E l) -> In x l.
  Notation wp := (wp mrun).
  Notation chain := (chain mrun).
  Notation inv := (inv mrun).

  Definition may_run (s : st) : Prop := mrun = true \/ quiet s.
  Lemma may_run_bal s s' : bal s s' -> may_run s -> may_run s'.
  Proof. intros [B _] [H|H]; [now left|right]. intros w. rewrite B. apply H. Qed.

  Definition found (name id : string) (s : st) : Prop :=
    resolves s name id /\ not_hooked s (in_graph s id).
  Lemma grows_found name id s s' : grows s s' -> found name id s -> found name id s'.
  Proof.
    intros G [H1 H2]. split; [eapply grows_resolves; eassumption|].
    revert H2. apply grows_hooked; [exact G|]. now apply grows_in_graph.
  Qed.

  (** Names that can be loaded. *)
  Definition loadable (s : st) (name : string) : Prop :=
    parent_fine s name /\ (fresh s name \/ in_graph s name).
  (** Names for which a missing module node can be made. *)
  Definition missable (s : st) (name : string) : Prop :=
    loadable s name \/ not_hooked s (exists c, child_of c name /\ kind_of s c = Some MissingModule).
  Record good (r : funs) : Prop := {
    g_find : forall imp name link s, wp mrun (f_find r imp name link) s (found name);
    g_load : forall imp name s, loadable s name -> wp mrun (f_load r imp name) s (found name);
    g_nfs : forall sp, envm (f_nfs r sp);
    g_kind : forall sp, realm (f_nfs r sp);
    g_run : forall s, may_run s -> wp true (f_run r) s (fun _ s' => s_stack s' = []);
    g_prog : forall q p s, q = true \/ q = mrun -> prog_ok mrun q p -> (q = true -> may_run s) ->
      wp q (f_prog r p) s (fun _ _ => True);
    g_post : forall i n s, may_run s -> wp true (f_post r i n) s (fun _ _ => True);
    g_miss : forall i imp n s, wp mrun (f_miss r i imp n) s (fun o s' => o = None \/ s_missing s' <> []);
    g_miss_nil : forall i imp n s x, s_missing s = [] -> f_miss r i imp n s = Some x -> x = (ROk None, s)
  }.

  Lemma wp_up {A} q (m : M A) s Q : q = true \/ q = mrun -> wp mrun m s Q -> wp q m s Q.
  Proof. intros [->| ->] H; [eapply wp_weaken; exact H|exact H]. Qed.

  Lemma good_no_fuel : good no_fuel.
  Proof. constructor; intros; try apply wp_oof; [apply envm_oof|intros s n l s' H; discriminate|discriminate]. Qed.

  Section bodies.
    Variable r : funs.
    Hypothesis R : good r.

    Lemma wp_create_missing imp name s : missable s name -> wp mrun (create_missing r imp name) s (found name).
    Proof.
      intros H. unfold create_missing. apply wp_bind.
      assert (Hnew : forall s1, (gfind (s_graph s1) name = None -> node_reason s1 (plain_node MissingModule name) []) ->
        wp mrun (do add_node (plain_node MissingModule name) [] ;; do process_import_list name [] ;; ret name) s1 (found name)).
      { intros s1 Hr. apply wp_bind, wp_lift_node; [exact Hr|].
        intros Hn. apply wp_bind, wp_sched; [apply (in_graph_add s1 (plain_node MissingModule name))|left; now left|].
        apply wp_ret. split; [now left|right]. apply schedule_in_graph.
        apply (in_graph_add s1 (plain_node MissingModule name)). }
      destruct (s_missing s) as [|h hs] eqn:Em.
      - intros I rr s1 Hf. apply (g_miss_nil _ R) in Hf; [|exact Em]. injection Hf as -> ->.
        split; [apply ch_refl|]. split; [apply bal_refl|]. apply Hnew. intros Hn.
        destruct H as [[H1 [[H2|[H2 _]]|H2]]|H]; [now apply nr_missing; [|right]|congruence|now elim H2|now apply nr_below_missing].
      - eapply wp_conseq; [apply (g_miss _ R)|]. intros ans s1 C B I Hans.
        pose proof (chain_grows _ _ _ _ C) as G.
        assert (Hk : s_missing s1 <> []) by (destruct (gw_missing _ _ G) as [l ->]; rewrite Em; now apply not_nil_app).
        destruct ans as [id|].
        + apply wp_bind, wp_modify; [now constructor|now split|].
          apply wp_ret. split; [right; now left|left; exact Hk].
        + apply Hnew. intros _. apply nr_below_missing. now left.
    Qed.

    Lemma create_missing_err imp name s e s' : gfind (s_graph s) name = None ->
      create_missing r imp name s = Some (RErr e, s') -> s_missing s <> [].
    Proof.
      intros Hn H Hm. unfold create_missing, bind in H.
      destruct (f_miss r 0 imp name s) as [x|] eqn:Ex; [|discriminate].
      apply (g_miss_nil _ R) in Ex; [|exact Hm]. subst x.
      unfold add_node, bind, lift_graph, gadd_node, ghas in H. cbn in H. rewrite Hn in H. cbn in H. discriminate.
    Qed.

    Lemma wp_implied_node k name target s :
      node_reason s (plain_node k name) [] ->
      (forall s o, kind_of s name = Some k -> resolves s target o -> justified s name o default_dep) ->
      wp mrun (implied_node r k name target) s (fun o s' => o = Some name /\ in_graph s' name).
    Proof.
      intros H J. unfold implied_node, get_node. apply wp_bind, wp_get, wp_bind, wp_assert. intros _.
      apply wp_bind, wp_lift_node; [auto|]. intros Hn. apply wp_bind, wp_sched.
      { apply (in_graph_add s (plain_node k name)). }
      { left. now left. }
      apply wp_bind. eapply wp_conseq; [apply (g_find _ R)|]. intros o s1 C B I [F1 F2].
      pose proof (chain_grows _ _ _ _ C) as G.
      apply wp_bind, wp_edge.
      - apply J; [|exact F1]. eapply grows_kind; [exact G|]. rewrite schedule_kind.
        apply (kind_of_add s (plain_node k name)). exact Hn.
      - intros g Ha Hb Hab. apply wp_ret. split; [reflexivity|].
        exact Ha.
    Qed.

    Lemma wp_implied_references imp name s : parent_fine s name ->
      wp mrun (implied_references r imp name) s
        (fun o s' => match o with
                     | Some id => found name id s'
                     | None => s' = s /\ (assoc name (s_lazy s) = None \/ in_graph s name)
                     end).
    Proof.
      intros Hp. unfold implied_references, get_node. apply wp_bind, wp_get.
      destruct (gfind (s_graph s) name) as [n|] eqn:En.
      { apply wp_ret. split; [reflexivity|]. right. unfold in_graph. congruence. }
      destruct (assoc name (s_lazy s)) as [i|] eqn:Ea.
      2:{ apply wp_bind. intros I rr s' H. unfold pop_lazy in H. rewrite Ea in H. injection H as <- <-.
          split; [apply ch_refl|]. split; [apply bal_refl|]. apply wp_ret. auto. }
      set (s1 := log (set_lazy s (filter (fun x => negb (seqb (fst x) name)) (s_lazy s))) (EvImplied name i)).
      assert (Ep : pop_lazy name s = Some (ROk (Some i), s1)) by (unfold pop_lazy; rewrite Ea; reflexivity).
      assert (Hnotnone : i <> ImpNone -> step mrun mrun s s1) by (intros; now constructor).
      destruct i as [|a|a|refs].
      - set (s2 := log (set_graph s1 (Graph (g_nodes (s_graph s) ++ [plain_node ExcludedModule name])
                     (g_edges (s_graph s)) (g_roots (s_graph s)))) (EvAdd name [])).
        eapply (wp_then _ _ _ (do process_import_list name [] ;; ret (Some name)) s s2).
        + unfold bind at 1. rewrite Ep. unfold add_node, bind at 1 2, lift_graph, gadd_node, ghas.
          cbn [s_graph s1 log set_lazy n_name plain_node]. rewrite En. reflexivity.
        + now apply st_exclude.
        + now split.
        + assert (Hin : in_graph s2 name).
          { unfold in_graph, s2. cbn [s_graph log set_graph]. rewrite gfind_app, En. cbn [n_name plain_node]. unfold seqb. rewrite String.eqb_refl. congruence. }
          apply wp_bind, wp_sched; [exact Hin|left; now left|]. apply wp_ret. split; [now left|right].
          now apply schedule_in_graph.
      - eapply (wp_then _ _ _ (implied_node r (AliasNode a) name a) s s1).
        + unfold bind at 1. rewrite Ep. reflexivity.
        + apply Hnotnone. discriminate.
        + now split.
        + eapply wp_conseq; [apply wp_implied_node|].
          * apply nr_alias; [now left| |apply assoc_filter_self]. destruct Hp as [Hp|Hp]; [now left|now right].
          * intros s0 o K1 K2. eapply j_alias; eassumption.
          * intros o s2 _ _ _ [-> Hin]. split; [now left|now right].
      - eapply (wp_then _ _ _ (implied_node r (VirtualNode a) name a) s s1).
        + unfold bind at 1. rewrite Ep. reflexivity.
        + apply Hnotnone. discriminate.
        + now split.
        + eapply wp_conseq; [apply wp_implied_node|].
          * apply nr_virtual; [now left| |apply assoc_filter_self]. destruct Hp as [Hp|Hp]; [now left|now right].
          * intros s0 o K1 K2. eapply j_virtual; eassumption.
          * intros o s2 _ _ _ [-> Hin]. split; [now left|now right].
      - eapply (wp_then _ _ _ (id <- f_find r imp name true ;;
            do iter (fun ref => other <- f_find r (Some id) ref true ;; add_edge id other default_dep) refs ;;
            ret (Some id)) s s1).
        + unfold bind at 1. rewrite Ep. reflexivity.
        + apply Hnotnone. discriminate.
        + now split.
        + assert (L1 : In (EvImplied name (ImpRefs refs)) (s_log s1)) by now left.
          apply wp_bind. eapply wp_conseq; [apply (g_find _ R)|]. intros id s2 C2 B2 I2 F.
          apply wp_bind. eapply wp_conseq.
          * apply (wp_iter mrun mrun _ (fun s => found name id s /\ In (EvImplied name (ImpRefs refs)) (s_log s))
                     (fun _ _ => True) (fun x => In x refs)).
            -- intros ref s3 Hr [F3 L3]. apply wp_bind.
               eapply wp_conseq; [apply (g_find _ R)|]. intros o s4 C4 B4 I4 F4.
               pose proof (chain_grows _ _ _ _ C4) as G4. apply (grows_found _ _ _ _ G4) in F3.
               apply (grows_log _ _ _ G4) in L3.
               apply wp_edge.
               ++ eapply j_implied; [exact L3|exact Hr|apply F3|apply F4].
               ++ intros g Ha Hb Hab. split; [|exact Logic.I]. split; [|exact L3].
                  split; [apply F3|]. right. exact Ha.
            -- auto.
            -- auto.
            -- split; [exact F|]. eapply grows_log; [eapply chain_grows; exact C2|exact L1].
          * intros _ s3 C3 B3 I3 [[F3 _] _]. apply wp_ret. exact F3.
    Qed.

    Lemma wp_load_failed imp name e s : loadable s name -> wp mrun (load_failed E r imp name e) s (found name).
    Proof.
      intros H. unfold load_failed.
      assert (Hc : wp mrun (create_missing r imp name) s (found name)).
      { apply wp_create_missing. now left. }
      destruct (negb (is_exception e)); [apply wp_raise|].
      assert (Hw : wp mrun
        (let parent := fst (rpartition dot name) in
             b <- in_sysmod E parent ;;
             do assert (negb b) ;;
             m <- find_spec E parent ;;
             match m with
             | None => raise EAssert
             | Some sp =>
                 do assert (sp_inspect sp) ;;
                 p <- of_result (sp_ispkg sp) ;;
                 if p : bool then
                   match sp_origin sp with
                   | None => raise EAssert
                   | Some path =>
                       do assert (starts_with "__init__." (snd (rpartition slash path))) ;;
                       do modify (fun s => set_fakes s (set_add parent (s_fakes s))) ;;
                       f_load r imp name
                   end
                 else create_missing r imp name
             end) s (found name)).
      { cbv zeta.
        assert (St : forall s', env_only s s' -> loadable s' name).
        { intros s' Hs. pose proof (env_only_grows _ _ Hs) as G. destruct H as [H1 H2].
          split; [eapply grows_parent_fine; eassumption|]. destruct Hs as (f & c & ->). exact H2. }
        apply wp_bind, wp_env; [apply envm_in_sysmod|]. intros b s1 E1.
        apply wp_bind, wp_assert. intros _.
        apply wp_bind, wp_env; [apply envm_find_spec|]. intros m s2 E2.
        destruct m as [sp|]; [|apply wp_raise].
        apply wp_bind, wp_assert. intros _. apply wp_bind, wp_of_result. intros p _.
        pose proof (env_only_trans _ _ _ E1 E2) as E12.
        destruct p.
        - destruct (sp_origin sp); [|apply wp_raise].
          apply wp_bind, wp_assert. intros _.
          apply wp_bind, wp_env; [apply (envm_set_fakes (fun s => set_add _ (s_fakes s)))|]. intros _ s3 E3.
          apply (g_load _ R). apply St. eapply env_only_trans; eassumption.
        - apply wp_create_missing. left. apply St. exact E12. }
      destruct e as [| | | | | | | | | |[|]| | | |]; try exact Hw. exact Hc.
    Qed.

    Lemma wp_load_spec name sp s : parent_fine s name -> fresh s name ->
      wp mrun (load_spec r name sp) s (found name).
    Proof.
      intros Hp Hl. unfold load_spec. apply wp_bind, wp_env_eq; [apply (g_nfs _ R)|].
      intros [n imports] s1 En0 E1. apply (g_kind _ R) in En0. pose proof (env_only_grows _ _ E1) as G1.
      apply (grows_parent_fine _ _ _ G1) in Hp.
      assert (Hl1 : fresh s1 name).
      { destruct E1 as (f & c & ->). exact Hl. }
      clear Hl E1 G1. destruct (seqb (n_name n) name) eqn:En; cbn [negb].
      - apply seqb_eq in En. subst name.
        apply wp_bind, wp_lift_node; [intros _; now apply nr_spec|]. intros Hn.
        set (s2 := log _ _).
        assert (K2 : kind_of s2 (n_name n) = Some (n_kind n)) by now apply kind_of_add.
        assert (Hi : in_graph s2 (n_name n)) by apply in_graph_add.
        apply wp_bind. eapply wp_conseq with (Q := fun _ _ => True).
        + destruct (n_kind n) as [ |k| |b x mk f ty| | | |a|a| ] eqn:Ek; try (now apply wp_ret).
          destruct ty as [ty|]; [|now apply wp_ret].
          destruct (memb ty _) eqn:Em; [|now apply wp_ret].
          apply wp_bind. eapply wp_conseq; [apply (g_find _ R)|]. intros o s3 C3 B3 I3 [F3 _].
          apply wp_edge; [|auto]. eapply j_nspkg; [eapply grows_kind; [eapply chain_grows; exact C3|exact K2]| |exact F3].
          apply memb_In in Em. cbn in Em. destruct Em as [Em|[Em|[]]]; auto.
        + intros _ s3 C3 B3 I3 _. pose proof (chain_grows _ _ _ _ C3) as G3.
          apply wp_bind, wp_sched; [eapply grows_in_graph; eassumption|left; eapply grows_log; [exact G3|now left]|].
          apply wp_ret. split; [now left|right]. apply schedule_in_graph. eapply grows_in_graph; eassumption.
      - assert (Hne : n_name n <> name).
        { intros Heq. apply (proj2 (seqb_eq _ _)) in Heq. congruence. }
        apply wp_bind, wp_lift_node; [intros _; now apply nr_spec_alias|]. intros Hn.
        set (s2 := log _ _).
        assert (K2 : kind_of s2 name = Some (AliasNode (n_name n))).
        { apply (kind_of_add s1 (plain_node (AliasNode (n_name n)) name)). exact Hn. }
        assert (Hi : in_graph s2 name) by apply (in_graph_add s1 (plain_node (AliasNode (n_name n)) name)).
        apply wp_bind, wp_sched; [exact Hi|left; now left|]. set (s3 := schedule name [] s2).
        assert (K3 : kind_of s3 name = Some (AliasNode (n_name n))) by (unfold s3; now rewrite schedule_kind).
        apply wp_bind, wp_get.
        apply wp_bind. eapply wp_conseq with (Q := fun _ _ => True).
        + destruct (gfind (s_graph s3) (n_name n)) as [x|] eqn:Eo; [now apply wp_ret|].
          apply wp_bind, wp_lift_node; [intros _; eapply nr_aliased; eassumption|]. intros _.
          apply wp_bind, wp_sched; [apply in_graph_add|left; now left|].
          apply wp_bind, wp_of_result. intros [po nm] Hpk. cbn [fst].
          destruct po as [c|]; [|now apply wp_ret].
          apply wp_bind. eapply wp_conseq; [apply (g_find _ R)|]. intros p s4 C4 B4 I4 [F4 _].
          apply wp_edge; [|auto]. eapply j_parent; [eapply split_child_of; exact Hpk|now left|exact F4].
        + intros _ s4 C4 B4 I4 _. pose proof (chain_grows _ _ _ _ C4) as G4.
          apply wp_bind, wp_edge.
          * eapply j_alias; [eapply grows_kind; eassumption|now left].
          * intros g Ha Hb Hab. apply wp_ret. split; [now left|right]. exact Ha.
    Qed.

    Lemma wp_load_body imp name s : loadable s name -> wp mrun (load_body E r imp name) s (found name).
    Proof.
      intros [Hp Hl]. unfold load_body. apply wp_bind, wp_assert. intros _.
      unfold get_node. apply wp_bind, wp_get.
      destruct (gfind (s_graph s) name) as [n|] eqn:En.
      { apply wp_ret. split; [now left|right]. unfold in_graph. congruence. }
      assert (Hl0 : fresh s name).
      { destruct Hl as [Hl|Hl]; [exact Hl|]. now elim Hl. }
      apply wp_bind, wp_env; [apply envm_attempt, envm_spec_or_none|]. intros r0 s1 E1.
      pose proof (env_only_grows _ _ E1) as G1.
      apply (grows_parent_fine _ _ _ G1) in Hp.
      assert (Hl1 : fresh s1 name).
      { destruct E1 as (f & c & ->). exact Hl0. }
      assert (En1 : gfind (s_graph s1) name = None) by (destruct E1 as (f & c & ->); exact En).
      assert (Hload : loadable s1 name).
      { split; [exact Hp|]. now left. }
      destruct r0 as [[sp|]|e].
      - now apply wp_load_spec.
      - apply wp_bind. eapply wp_attempt_eq; [apply wp_create_missing; now left|].
        intros [id|e] s2 Em C2 B2 I2 F2; [now apply wp_ret|].
        pose proof (chain_grows _ _ _ _ C2) as G2.
        apply create_missing_err in Em; [|exact En1].
        apply wp_bind, wp_note; [reflexivity|]. apply wp_load_failed. split.
        + destruct (grows_parent_fine _ _ _ G2 Hp) as [K|K]; [now left|now right].
        + left. right. cbn. split; [|now left]. destruct (gw_missing _ _ G2) as [l ->]. now apply not_nil_app.
      - now apply wp_load_failed.
    Qed.

    Lemma wp_find_body imp name link s : wp mrun (find_body r imp name link) s (found name).
    Proof.
      unfold find_body. apply wp_bind, wp_find_module. intros [n|] Hn _.
      { apply wp_ret. split; [now left|right]. unfold in_graph. congruence. }
      apply wp_bind, wp_of_result. intros [po nm] Hpk. cbn [fst].
      apply wp_bind. eapply wp_conseq with (Q := fun x s1 =>
        match fst x with Some p => exists c, child_of c name /\ resolves s1 c p | None => True end /\
        match snd x with Some id => found name id s1 | None => parent_fine s1 name end).
      - destruct po as [c|].
        2:{ apply wp_ret. cbn. split; [exact Logic.I|]. right. intros c Hc.
            now apply (split_none_no_child _ _ _ Hpk) in Hc. }
        pose proof (split_child_of _ _ _ Hpk) as Hc.
        apply wp_bind. eapply wp_conseq; [apply (g_find _ R)|]. intros p s1 C1 B1 I1 [F1 F2].
        apply wp_bind, wp_kind_test.
        destruct (match kind_of s1 p with Some k => is_missing k | None => false end) eqn:Em.
        + assert (Hm : missable s1 name).
          { right. destruct F2 as [F2|F2]; [now left|].
            destruct (s_missing s1) as [|h hs] eqn:Eh; [right|left; congruence].
            assert (p = c) as ->.
            { destruct F1 as [F1|F1]; [exact F1|]. apply (inv_subst _ _ I1) in F1. congruence. }
            exists c. split; [exact Hc|].
            destruct (kind_of s1 c) as [[]|]; try discriminate. reflexivity. }
          apply wp_bind. eapply wp_conseq; [now apply wp_create_missing|].
          intros id s2 C2 B2 I2 F. apply wp_ret. cbn. split; [|exact F].
          exists c. split; [exact Hc|]. eapply grows_resolves; [eapply chain_grows; exact C2|exact F1].
        + apply wp_bind, wp_kind_test.
          destruct (match kind_of s1 p with Some k => is_excluded k | None => false end) eqn:Ee.
          * apply wp_bind, wp_lift_node.
            { intros _. apply nr_below_excluded. destruct F2 as [F2|F2]; [now left|].
              destruct (s_missing s1) as [|h hs] eqn:Eh; [right|left; congruence].
              assert (p = c) as ->.
              { destruct F1 as [F1|F1]; [exact F1|]. apply (inv_subst _ _ I1) in F1. congruence. }
              exists c. split; [exact Hc|].
              destruct (kind_of s1 c) as [[]|]; try discriminate. reflexivity. }
            intros Hn1. apply wp_bind, wp_sched; [apply (in_graph_add s1 (plain_node ExcludedModule name))|left; now left|].
            apply wp_ret. cbn. split.
            -- exists c. split; [exact Hc|]. destruct F1 as [F1|F1]; [now left|right].
               rewrite schedule_log. right. now right.
            -- split; [now left|right]. apply schedule_in_graph, (in_graph_add s1 (plain_node ExcludedModule name)).
          * apply wp_ret. cbn. split; [now exists c|].
            destruct F2 as [F2|F2]; [now left|].
            destruct (s_missing s1) as [|h hs] eqn:Eh; [right|left; congruence].
            assert (p = c) as ->.
            { destruct F1 as [F1|F1]; [exact F1|]. apply (inv_subst _ _ I1) in F1. congruence. }
            intros c' Hc'. assert (c' = c) as -> by (eapply child_of_unique; eassumption).
            unfold in_graph in F2. unfold kind_of in *. destruct (gfind (s_graph s1) c) as [x|]; [|congruence].
            exists (n_kind x). cbn in *. auto.
      - intros [parent fnd] s1 C1 B1 I1 [H1 H2]. cbn [fst snd] in *.
        apply wp_bind. eapply wp_conseq with (Q := found name).
        + destruct fnd as [id|]; [now apply wp_ret|].
          apply wp_bind. eapply wp_conseq; [now apply wp_implied_references|].
          intros [id|] s2 C2 B2 I2 K; [now apply wp_ret|].
          destruct K as [-> K]. apply (g_load _ R). split; [exact H2|]. destruct K as [K|K]; [left; now left|now right].
        + intros id s2 C2 B2 I2 F. apply wp_bind, wp_kind_test.
          set (b := match kind_of s2 id with Some k => is_missing k | None => false end).
          apply wp_bind. eapply wp_conseq with (Q := fun _ _ => True); [|].
          * destruct parent as [p|]; [|now apply wp_ret].
            destruct (link || negb b); [|now apply wp_ret].
            destruct H1 as (c & Hc & Hr). apply wp_edge; [|auto].
            eapply j_parent; [exact Hc|apply F|]. eapply grows_resolves; [eapply chain_grows; exact C2|exact Hr].
          * intros _ s3 C3 B3 I3 _. apply wp_ret. eapply grows_found; [eapply chain_grows; exact C3|exact F].
    Qed.

    (** ** Import statements *)

    Lemma inner_new s s1 : chain mrun s s1 -> mrun = true \/
      exists new, s_stack s1 = new ++ s_stack s /\ forall m, In (DoPost m) new -> ~ In m (s_seen s).
    Proof.
      intros C. destruct mrun; [now left|right]. now apply inner_stack in C as [_ C].
    Qed.

    Lemma set_graph_grows s g : grows_graph (s_graph s) g -> grows s (set_graph s g).
    Proof. intros H. constructor; cbn; first [exact H|apply incl_refl|now exists []]. Qed.

    Lemma wp_process_import n i s : scheduled s n i -> In n (s_seen s) ->
      wp true (process_import r n i) s (fun _ s' => work_done s' (DoImport n i)).
    Proof.
      intros Hs Hn. apply wp_inv. intros I. unfold process_import.
      assert (Hg : in_graph s n) by (destruct Hs as (l & L & _); apply (inv_sched _ _ I _ _ L)).
      apply wp_bind, wp_kind_test.
      set (b := match kind_of s n with Some k => is_package k || is_nspkg k | None => false end).
      assert (Hb : pkg_node s n b).
      { unfold pkg_node, b, in_graph, kind_of in *. destruct (gfind (s_graph s) n) as [x|]; [|congruence].
        exists (n_kind x). now split. }
      pose proof (absolute_name_spec n b i) as Ha. destruct (absolute_name n b i) as [inv_n|name].
      - destruct Ha as [Ha ->]. apply wp_bind, wp_find_module. intros old Hold _.
        apply wp_bind. eapply wp_conseq with (Q := fun _ s' => kind_of s' (invalid_name i) = Some InvalidRelativeImport).
        + destruct old as [o|].
          * apply wp_assert. intros Ho. unfold kind_of. rewrite Hold. cbn.
            destruct (n_kind o); try discriminate. reflexivity.
          * apply wp_bind, wp_lift_node; [intros _; eapply nr_invalid; eassumption|]. intros _.
            apply wp_sched; [apply (in_graph_add s (plain_node InvalidRelativeImport (invalid_name i)))|left; now left|].
            rewrite schedule_kind. now apply (kind_of_add s (plain_node InvalidRelativeImport (invalid_name i))).
        + intros _ s1 C B I1 Hk. pose proof (chain_grows _ _ _ _ C) as G.
          apply wp_edge.
          * eapply (j_beyond s1 n i b); [eapply grows_scheduled|eapply grows_pkg_node|]; eassumption.
          * intros g A1 A2 A3. left. exists b. split; [|split; [exact Ha|split; [|exact A3]]].
            2:{ eapply grows_kind; [|exact Hk]. apply set_graph_grows, grows_add_edge. }
            eapply grows_pkg_node; [|exact Hb]. eapply grows_trans; [exact G|].
            apply set_graph_grows, grows_add_edge.
      - apply wp_bind, wp_assert. intros _. apply wp_bind, wp_get.
        apply wp_bind, wp_up; [now left|]. eapply wp_conseq; [apply (g_find _ R)|].
        intros id s1 C B I1 [F1 F2]. pose proof (chain_grows _ _ _ _ C) as G.
        assert (T : import_target s1 n i id).
        { exists b, name. split; [eapply grows_pkg_node; eassumption|now split]. }
        apply wp_bind, wp_edge.
        { apply (j_import s1 n i id); [eapply grows_scheduled; eassumption|exact T]. }
        intros g A1 A2 A3.
        assert (Gg : grows s1 (set_graph s1 g)).
        { apply set_graph_grows, grows_add_edge. }
        set (k := (length (s_stack (set_graph s1 g)) - length (s_stack s))%nat).
        assert (T' : import_target (set_graph s1 g) n i id) by (eapply grows_target; eassumption).
        apply wp_modify.
        + apply st_names.
          * reflexivity.
          * symmetry. apply firstn_skipn.
          * eapply grows_scheduled; [exact (grows_trans _ _ _ G Gg)|exact Hs].
          * apply (gw_seen _ _ (grows_trans _ _ _ G Gg)). exact Hn.
          * exact T'.
          * exact A3.
          * destruct (inner_new _ _ C) as [M|(new & Es & Hnew)]; [now left|right].
            cbn [s_stack set_graph] in *. rewrite Es. rewrite app_length, Nat.add_sub, firstn_app, Nat.sub_diag.
            cbn. rewrite app_nil_r, firstn_all. intros K. now apply (Hnew n K).
        + now split.
        + cbn. right. exists id. split; [exact T'|]. split; [exact A3|].
          apply in_app_iff. right. now left.
    Qed.

    Lemma find_In {A} p (l : list A) x : find p l = Some x -> In x l /\ p x = true.
    Proof. apply find_some. Qed.

    Lemma reexported_provides g m nm t :
      option_map snd (find (fun e => existsb (fun d => opt_eqb (d_as d) (Some nm)) (fst e) || seqb (snd e) nm)
        (goutgoing g m)) = Some t -> provides g m nm t.
    Proof.
      destruct (find _ _) as [[ds t']|] eqn:Ef; [|discriminate]. intros H. injection H as <-.
      apply find_In in Ef as [H1 H2]. apply in_flat_map in H1 as ([[a b] ds'] & H1 & H3).
      destruct (seqb a m) eqn:Ea; [|destruct H3]. destruct H3 as [H3|[]]. injection H3 as -> ->.
      apply seqb_eq in Ea as ->. exists ds. split; [exact H1|].
      cbn [fst snd] in *. apply orb_true_iff in H2 as [H2|H2].
      - left. apply existsb_exists in H2 as (d & K1 & K2). exists d. split; [exact K1|]. now apply opt_eqb_eq.
      - right. now apply seqb_eq.
    Qed.

    Lemma grows_name_done s s' n m i nm : grows s s' -> name_done s n m i nm -> name_done s' n m i nm.
    Proof.
      intros G [H|[H|[H|[H|H]]]].
      - left. destruct H as (nd & t & A & B & C & D).
        apply (gr_nodes _ _ (gw_graph _ _ G)) in A as (nd' & A & S). exists nd', t. split; [exact A|].
        split; [now apply S|]. split; [eapply grows_provides|eapply grows_edge]; eassumption.
      - right. left. destruct H as (k & A). exists k. eapply grows_kind; eassumption.
      - right. right. left. destruct H as (t & A & B & C). exists t.
        split; [eapply grows_resolves; eassumption|]. split; eapply grows_edge; eassumption.
      - right. right. right. left. destruct H as (nd & t & A & B & C & D & F).
        apply (gr_nodes _ _ (gw_graph _ _ G)) in A as (nd' & A & S).
        destruct S as (_ & S2 & _ & _ & _ & _ & _ & S8).
        exists nd', t. split; [exact A|]. split; [congruence|]. split; [now apply S8|].
        split; [eapply grows_resolves; eassumption|eapply grows_kind; eassumption].
      - right. right. right. right. destruct H as (b & k & f & ty & x & t & A & B & C & D).
        exists b, k, f, ty, x, t. split; [eapply grows_kind; eassumption|]. split; [exact B|].
        split; [eapply grows_resolves; eassumption|eapply grows_edge; eassumption].
    Qed.

    Definition names_ready (n m : string) (k : kind) (i : iinfo) (s : st) : Prop :=
      scheduled s n i /\ names_source s n i m /\ kind_of s m = Some k /\ ii_star i = false.
    Lemma grows_names_ready n m k i s s' : grows s s' -> names_ready n m k i s -> names_ready n m k i s'.
    Proof.
      intros G (A & B & C & D). split; [eapply grows_scheduled; eassumption|].
      split; [eapply grows_source; eassumption|]. split; [eapply grows_kind; eassumption|exact D].
    Qed.

    Lemma wp_process_name n m k i nm s : names_ready n m k i s -> nameable k = true -> In nm (ii_names i) ->
      wp mrun (process_name r n m k i nm) s (fun _ s' => names_ready n m k i s' /\ name_done s' n m i nm).
    Proof.
      intros Hr Hk Hnm. unfold process_name. apply wp_bind, wp_get.
      apply wp_bind. eapply wp_conseq with (Q := fun known s1 =>
        (known = true -> name_done s1 n m i nm) /\ (known = false -> is_module k = false)).
      - destruct (memb (in_name nm) _) eqn:Ew.
        + apply wp_bind, wp_get. destruct (option_map snd _) as [t|] eqn:Et.
          * apply reexported_provides in Et.
            apply wp_bind, wp_edge.
            -- eapply j_reexport; [apply Hr|apply Hr|exact Hnm|apply Hr| |exact Et].
               destruct Hr as (_ & _ & Hr & _). unfold kind_of in Hr. destruct (gfind (s_graph s) m) as [nd|] eqn:End; [|discriminate].
               injection Hr as Hr. exists nd. split; [exact End|]. rewrite Hr. split; [exact Hk|now apply memb_In].
            -- intros g A1 A2 A3. apply wp_ret. split; [intros _|discriminate]. left.
               destruct (gfind (s_graph s) m) as [nd|] eqn:End; [|discriminate]. apply memb_In in Ew.
               assert (G : grows s (set_graph s g)) by (apply set_graph_grows, grows_add_edge).
               apply (gr_nodes _ _ (gw_graph _ _ G)) in End as (nd' & End & S).
               exists nd', t. split; [exact End|]. split; [now apply S|]. split; [|exact A3].
               eapply grows_provides; [exact G|exact Et].
          * apply wp_ret. split; [|auto]. intros Hm. right. left. destruct k; try discriminate. eexists. apply Hr.
        + apply wp_ret. split; [|auto]. intros Hm. right. left. destruct k; try discriminate. eexists. apply Hr.
      - intros known s1 C1 B1 I1 [Hkn Hmo]. pose proof (chain_grows _ _ _ _ C1) as G1.
        apply (grows_names_ready _ _ _ _ _ _ G1) in Hr.
        destruct known; [apply wp_ret; auto|]. clear Hkn. specialize (Hmo eq_refl).
        assert (Hpk : is_package k || is_nspkg k = true) by (unfold nameable in Hk; rewrite Hmo in Hk; now rewrite orb_false_r in Hk).
        apply wp_bind. eapply wp_conseq; [apply (g_find _ R)|]. intros sub s2 C2 B2 I2 [F2 _].
        pose proof (chain_grows _ _ _ _ C2) as G2. apply (grows_names_ready _ _ _ _ _ _ G2) in Hr.
        apply wp_bind, wp_kind_test. apply wp_bind, wp_get.
        assert (Hlink : wp mrun (do add_edge sub m default_dep ;; add_edge n sub (from_importinfo i true (in_asname nm))) s2
                          (fun _ s' => names_ready n m k i s' /\ name_done s' n m i nm)).
        { apply wp_bind, wp_edge.
          - eapply j_member; [apply Hr|apply Hr|exact Hnm|apply Hr|apply Hr|exact Hpk|exact F2].
          - intros g A1 A2 A3. set (s3 := set_graph s2 g).
            assert (G3 : grows s2 s3) by (apply set_graph_grows, grows_add_edge).
            pose proof (grows_names_ready _ _ _ _ _ _ G3 Hr) as Hr3.
            apply wp_edge.
            + eapply (j_name s3 n i m nm k); [apply Hr3|apply Hr3|exact Hnm|apply Hr3|apply Hr3|exact Hpk|exact F2].
            + intros g' D1 D2 D3. set (s4 := set_graph s3 g').
              assert (G4 : grows s3 s4) by (apply set_graph_grows, grows_add_edge).
              split; [eapply grows_names_ready; eassumption|].
              right. right. left. exists sub. split; [exact F2|]. split; [exact D3|].
              apply (grows_edge s3 s4); [exact G4|exact A3]. }
        destruct (match kind_of s2 sub with Some k => is_missing k | None => false end) eqn:Em; [|exact Hlink].
        destruct (is_package k && match k with Package _ init _ _ _ => seqb init "@@SIX_MOVES@@" | _ => false end) eqn:Esix.
        + destruct (assoc (in_name nm) SIX_MOVES_TO) as [t|] eqn:Et; [|exact Hlink].
          apply assoc_In in Et. apply wp_bind. eapply wp_conseq; [apply (g_find _ R)|].
          intros d s3 C3 B3 I3 [F3 _]. pose proof (chain_grows _ _ _ _ C3) as G3.
          apply (grows_names_ready _ _ _ _ _ _ G3) in Hr.
          apply andb_true_iff in Esix as [_ Esix]. destruct k as [| | |bf init im fl ty| | | | | |]; try discriminate.
          apply seqb_eq in Esix. subst init.
          apply wp_edge.
          * eapply j_six; [apply Hr|apply Hr|exact Hnm|apply Hr|exact Et|exact F3].
          * intros g A1 A2 A3. split.
            -- eapply grows_names_ready; [|exact Hr]. apply set_graph_grows, grows_add_edge.
            -- right. right. right. right. exists bf, im, fl, ty, t, d.
               split; [apply Hr|]. split; [exact Et|]. split; [exact F3|exact A3].
        + destruct (is_package k && memb (in_name nm) _) eqn:Ew; [|exact Hlink].
          apply andb_true_iff in Ew as [Ek Ew]. apply memb_In in Ew.
          apply wp_ret. split; [exact Hr|]. right. right. right. left.
          destruct Hr as (_ & _ & Hr & _). unfold kind_of in Hr.
          destruct (gfind (s_graph s2) m) as [nd|] eqn:End; [|discriminate].
          exists nd, sub. split; [reflexivity|]. injection Hr as ->. split; [exact Ek|]. split; [exact Ew|].
          split; [exact F2|]. destruct (kind_of s2 sub) as [[]|]; try discriminate. reflexivity.
    Qed.

    Definition written_in (n : string) (names : list string) (s : st) : Prop :=
      forall y, gfind (s_graph s) n = Some y -> incl names (n_written y).
    Lemma grows_written_in s s' n names : grows s s' -> in_graph s n -> written_in n names s -> written_in n names s'.
    Proof.
      intros G Hn H y Hy x Hx. unfold in_graph in Hn. destruct (gfind (s_graph s) n) as [y0|] eqn:E0; [|congruence].
      pose proof (H _ E0) as H1. apply (gr_nodes _ _ (gw_graph _ _ G)) in E0 as (y1 & E1 & S).
      assert (y1 = y) as -> by congruence. destruct S as (_&_&_&_&_&_&_&S). now apply S, H1.
    Qed.
    Lemma written_in_add s n names : written_in n names (set_graph s (gadd_written (s_graph s) n names)).
    Proof.
      intros y Hy x Hx. cbn [s_graph set_graph] in Hy. rewrite gfind_written in Hy.
      destruct (gfind (s_graph s) n) as [y0|] eqn:E0; [|discriminate]. injection Hy as <-.
      apply gfind_name in E0. unfold upd_written. rewrite E0. unfold seqb. rewrite String.eqb_refl. cbn.
      apply set_union_In. now right.
    Qed.

    Lemma wp_names n m src k i s :
      names_ready n src k i s -> nameable k = true -> in_graph s n -> written_in n (map in_name (ii_names i)) s ->
      ii_star i = false ->
      (forall s', grows s s' -> forall k' src', kind_of s' m = Some k' ->
        (nameable k' = true /\ src' = m) \/ (k' = AliasNode src' /\ exists k'', kind_of s' src' = Some k'' /\ nameable k'' = true) ->
        src' = src) ->
      (forall s', grows s s' -> alias_there s' m i) ->
      wp mrun (iter (process_name r n src k i) (ii_names i)) s (fun _ s' => names_done s' n m i).
    Proof.
      intros Hr Hk Hg Hw Hst Hu Hal. eapply wp_conseq.
      - apply (wp_iter mrun mrun _ (names_ready n src k i) (fun nm s => name_done s n src i nm) (fun nm => In nm (ii_names i))).
        + intros nm s1 Hnm Hs1. now apply wp_process_name.
        + intros nm s1 s2 G. now apply grows_name_done.
        + auto.
        + exact Hr.
      - intros _ s1 C1 B1 I1 [_ K]. pose proof (chain_grows _ _ _ _ C1) as G1.
        split; [|now apply Hal].
        unfold names_linked. rewrite Hst. intros k' src' Hk' Hsrc nm Hnm.
        rewrite (Hu s1 G1 k' src' Hk' Hsrc). split; [now apply K|].
        intros y Hy. eapply (grows_written_in s s1); [exact G1|exact Hg|exact Hw|exact Hy|].
        apply in_map_iff. now exists nm.
    Qed.

    Lemma wp_process_namelist n m i s : scheduled s n i -> import_target s n i m ->
      wp mrun (process_namelist r n m i) s (fun _ s' => names_done s' n m i).
    Proof.
      intros Hs Ht. apply wp_inv. intros I. unfold process_namelist.
      assert (Hg : in_graph s n) by (destruct Hs as (l & L & _); apply (inv_sched _ _ I _ _ L)).
      apply wp_bind, wp_kind_test, wp_bind, wp_assert. intros _. apply wp_bind, wp_get.
      destruct (ii_star i) eqn:Est.
      - destruct (gfind (s_graph s) m) as [x|] eqn:Ex.
        + destruct (is_package (n_kind x) || is_module (n_kind x)) eqn:Ek.
          * apply wp_written. split; [|intros A; congruence]. unfold names_linked. rewrite Est. intros x' Hx' _ y Hy. cbn [s_graph set_graph] in Hx', Hy.
            pose proof Hy as Hy0.
            rewrite gfind_written in Hx'. rewrite Ex in Hx'. injection Hx' as <-.
            rewrite gfind_written in Hy. destruct (gfind (s_graph s) n) as [y0|] eqn:Ey; [|discriminate].
            injection Hy as <-. apply gfind_name in Ey. apply gfind_name in Ex.
            unfold upd_written. rewrite Ey, Ex. unfold seqb at 2. rewrite String.eqb_refl. cbn.
            destruct (seqb m n) eqn:Emn; cbn; intros z Hz; apply set_union_In; [|now right].
            apply set_union_In in Hz as [Hz|Hz]; now right.
          * apply wp_ret. split; [|intros A; congruence]. unfold names_linked. rewrite Est. intros x' Hx' Hk'. rewrite Ex in Hx'. congruence.
        + apply wp_ret. split; [|intros A; congruence]. unfold names_linked. rewrite Est. intros x' Hx'. congruence.
      - destruct (ii_names i) as [|nm0 nms] eqn:Enm.
        { apply wp_ret. split; [|intros _ A; now elim A]. unfold names_linked. rewrite Est, Enm. intros ? ? ? ? nm []. }
        rewrite <- Enm. clear Enm nm0 nms.
        destruct (gfind (s_graph s) m) as [x|] eqn:Ex.
        2:{ apply wp_ret. split; [|intros _ _ a A; unfold kind_of in A; rewrite Ex in A; discriminate].
            unfold names_linked. rewrite Est. intros k src Hk. unfold kind_of in Hk. rewrite Ex in Hk. discriminate. }
        assert (Hkm : kind_of s m = Some (n_kind x)) by (unfold kind_of; now rewrite Ex).
        assert (Hplain : is_package (n_kind x) || is_nspkg (n_kind x) || is_module (n_kind x) = true ->
          wp mrun (do add_written n (map in_name (ii_names i)) ;; iter (process_name r n m (n_kind x) i) (ii_names i)) s
            (fun _ s' => names_done s' n m i)).
        { intros Hk. apply wp_bind, wp_written. set (s1 := set_graph s _).
          assert (G1 : grows s s1) by (apply set_graph_grows, grows_written).
          apply wp_names; [|exact Hk| | |exact Est| |].
          - apply (grows_names_ready _ _ _ _ _ _ G1). split; [exact Hs|]. split; [|split; [exact Hkm|exact Est]].
            exists m. split; [exact Ht|now left].
          - eapply grows_in_graph; eassumption.
          - apply written_in_add.
          - intros s' G' k' src' Hk' [[_ ->]|[-> _]]; [reflexivity|].
            pose proof (grows_kind _ _ _ _ (grows_trans _ _ _ G1 G') Hkm) as K.
            rewrite Hk' in K. injection K as K. rewrite <- K in Hk. discriminate.
          - intros s' G' _ _ a A. pose proof (grows_kind _ _ _ _ (grows_trans _ _ _ G1 G') Hkm) as K.
            rewrite A in K. injection K as K. rewrite <- K in Hk. discriminate. }
        assert (Hother : is_package (n_kind x) || is_nspkg (n_kind x) || is_module (n_kind x) = false ->
          (forall a, n_kind x <> AliasNode a) ->
          wp mrun (ret tt) s (fun _ s' => names_done s' n m i)).
        { intros Hk Ha. apply wp_ret. split; [|intros _ _ a A; now elim (Ha a); congruence].
          unfold names_linked. rewrite Est. intros k src Hk' Hsrc.
          assert (k = n_kind x) as -> by congruence. destruct Hsrc as [[Hsrc _]|[Hsrc _]]; [|now elim (Ha src)].
          unfold nameable in Hsrc. congruence. }
        destruct (n_kind x) as [ |mk| |bf init im fl ty| | | |v|a| ] eqn:Ek;
          try (apply Hother; [reflexivity|intros; discriminate]);
          try (apply Hplain; reflexivity).
        apply wp_bind, wp_written. set (s1 := set_graph s _).
        assert (G1 : grows s s1) by (apply set_graph_grows, grows_written).
        apply wp_bind, wp_find_module. intros o Ho _. destruct o as [y|]; [|apply wp_raise].
        assert (Hka : kind_of s1 a = Some (n_kind y)) by (unfold kind_of; now rewrite Ho).
        destruct (is_package (n_kind y) || is_nspkg (n_kind y) || is_module (n_kind y)) eqn:Eky.
        + apply wp_bind, wp_written. set (s2 := set_graph s1 _).
          assert (G2 : grows s1 s2) by (apply set_graph_grows, grows_written).
          pose proof (grows_trans _ _ _ G1 G2) as G12.
          apply wp_names; [|exact Eky| | |exact Est| |].
          * split; [exact (grows_scheduled _ _ _ _ G12 Hs)|]. split; [|split; [exact (grows_kind _ _ _ _ G2 Hka)|exact Est]].
            exists m. split; [exact (grows_target _ _ _ _ _ G12 Ht)|right]. exact (grows_kind _ _ _ _ G12 Hkm).
          * exact (grows_in_graph _ _ _ G12 Hg).
          * apply written_in_add.
          * intros s' G' k' src' Hk' Hsrc.
            pose proof (grows_kind _ _ _ _ (grows_trans _ _ _ G12 G') Hkm) as K.
            rewrite Hk' in K. injection K as ->. destruct Hsrc as [[Hsrc _]|[Hsrc _]]; [discriminate|].
            now injection Hsrc as ->.
          * intros s' G' _ _ a' A. pose proof (grows_kind _ _ _ _ (grows_trans _ _ _ G12 G') Hkm) as K.
            rewrite A in K. injection K as ->. apply (grows_in_graph s1); [exact (grows_trans _ _ _ G2 G')|].
            unfold in_graph. congruence.
        + apply wp_ret. split.
          2:{ intros _ _ a' A. rewrite (grows_kind _ _ _ _ G1 Hkm) in A. injection A as <-. unfold in_graph. congruence. }
          unfold names_linked. rewrite Est. intros k src Hk' Hsrc.
          assert (k = AliasNode a) as ->.
          { pose proof (grows_kind _ _ _ _ G1 Hkm) as K. congruence. }
          destruct Hsrc as [[Hsrc _]|[Hsrc (k'' & K1 & K2)]]; [discriminate|]. injection Hsrc as <-.
          unfold nameable in K2. assert (k'' = n_kind y) as -> by congruence. congruence.
    Qed.

    (** ** The API *)

    Lemma may_run_run s s' : s_run s' = s_run s -> may_run s -> may_run s'.
    Proof. intros B [H|H]; [now left|right]. intros w. rewrite B. apply H. Qed.

    Lemma wp_find_true imp name link s : wp true (f_find r imp name link) s (found name).
    Proof. apply wp_up; [now left|apply (g_find _ R)]. Qed.

    Lemma wp_run_true s : may_run s -> wp true (f_run r) s (fun _ s' => s_stack s' = []).
    Proof. apply (g_run _ R). Qed.

    (** Adding a root and processing the stack. *)
    Lemma wp_root_run id s : may_run s ->
      wp true (do note (EvRoot id) ;; do add_root id ;; do f_run r ;; ret id) s (fun x s' => x = id /\ s_stack s' = []).
    Proof.
      intros H. apply wp_bind, wp_note; [reflexivity|].
      apply wp_bind, wp_root; [now left|]. intros _.
      apply wp_bind. eapply wp_conseq; [apply wp_run_true|].
      - exact H.
      - intros u s2 C2 B2 I2 K. apply wp_ret. now split.
    Qed.

    Lemma wp_add_script path s : may_run s ->
      wp true (add_script E r path) s (fun id s' => id = path /\ s_stack s' = []).
    Proof.
      intros H. unfold add_script. apply wp_bind, wp_find_module. intros [n|] _ _; [apply wp_raise|].
      apply wp_bind, wp_env; [apply envm_askr|]. intros t s1 E1.
      destruct (extract_ast_info _ t) as [imports|]; [|apply wp_oof].
      apply wp_bind, wp_lift_node; [intros _; apply nr_script|]. intros _.
      apply wp_bind, wp_sched; [apply (in_graph_add s1 (Node path Script [] [] None (Some path) [] false))|left; now left|].
      apply wp_root_run. eapply may_run_run; [|exact H].
      rewrite (proj1 (schedule_bal _ _ _)). destruct E1 as (f & c & ->). reflexivity.
    Qed.

    Lemma wp_add_module name s : may_run s ->
      wp true (add_module r name) s (fun id s' => resolves s' name id /\ s_stack s' = []).
    Proof.
      intros H. unfold add_module. apply wp_bind, wp_find_module. intros n Hn _.
      apply wp_bind. eapply wp_conseq with (Q := found name).
      - destruct n as [n|]; [|apply wp_find_true]. apply wp_ret. split; [now left|right]. unfold in_graph. congruence.
      - intros id s1 C B I [F _]. eapply wp_conseq; [apply wp_root_run; eapply may_run_bal; eassumption|].
        intros x s2 C2 B2 I2 [-> K]. split; [|exact K]. eapply grows_resolves; [eapply chain_grows; exact C2|exact F].
    Qed.

    Lemma wp_iter_run {A} (f : A -> M unit) l s : (forall x s, may_run s -> wp true (f x) s (fun _ _ => True)) ->
      may_run s -> wp true (iter f l) s (fun _ _ => True).
    Proof.
      intros Hf. revert s. induction l as [|x l IH]; intros s H; cbn [iter]; [now apply wp_ret|].
      apply wp_bind. eapply wp_conseq; [now apply Hf|]. intros _ s1 C B I _. apply IH. eapply may_run_bal; eassumption.
    Qed.

    Lemma wp_add_source src s : may_run s -> wp true (add_source E r src) s (fun _ _ => True).
    Proof.
      intros H. unfold add_source. apply wp_bind, wp_env; [apply envm_askr|]. intros t s1 E1.
      destruct (extract_ast_info _ t) as [infos|]; [|apply wp_oof].
      apply wp_iter_run.
      - intros i s2 H2. apply wp_bind. eapply wp_conseq; [now apply wp_add_module|].
        intros _ s3 C3 B3 I3 _. apply wp_iter_run; [|eapply may_run_bal; eassumption].
        intros nm s4 H4. apply wp_bind. eapply wp_conseq; [now apply wp_add_module|]. intros. now apply wp_ret.
      - destruct E1 as (f & c & ->). eapply may_run_run; [|exact H]. reflexivity.
    Qed.

    Lemma wp_add_distribution d s : may_run s -> wp true (add_distribution E r d) s (fun id _ => id = dist_identifier d).
    Proof.
      intros H. unfold add_distribution. apply wp_bind, wp_get.
      destruct (gfind (s_graph s) (dist_identifier d)) as [n|] eqn:En.
      { apply wp_bind, wp_assert. intros _. now apply wp_ret. }
      apply wp_bind, wp_user_node; [now right|]. intros _.
      apply wp_bind, wp_note; [reflexivity|]. apply wp_bind, wp_root; [now left|]. intros _.
      set (s1 := set_graph _ _).
      set (nd := Node (dist_identifier d) Distribution [] [] (Some d) None [] false) in *.
      assert (J1 : exists nd, gfind (s_graph s1) (dist_identifier d) = Some nd /\ n_kind nd = Distribution /\ n_dist nd = Some d).
      { exists nd. split; [|now split]. unfold s1. cbn [s_graph set_graph log].
        change (gfind (Graph (g_nodes (s_graph s) ++ [nd]) (g_edges (s_graph s)) (g_roots (s_graph s))) (dist_identifier d) = Some nd).
        rewrite gfind_app, En. cbn [n_name nd]. unfold seqb. now rewrite String.eqb_refl. }
      apply wp_bind. eapply wp_conseq.
      - apply (wp_iter mrun true _ (fun s => exists nd, gfind (s_graph s) (dist_identifier d) = Some nd
             /\ n_kind nd = Distribution /\ n_dist nd = Some d) (fun _ _ => True) (fun x => In x (dist_import_names d))).
        + intros name s2 Hn J2. apply wp_bind. eapply wp_conseq; [apply wp_find_true|].
          intros m s3 C3 B3 I3 [F _]. pose proof (chain_grows _ _ _ _ C3) as G3.
          apply (grows_nodup_dist _ _ _ _ G3) in J2. apply wp_edge.
          * eapply j_dist; eassumption.
          * intros g A1 A2 A3. split; [|exact Logic.I]. exact J2.
        + auto.
        + intros x Hx. now apply Hord.
        + exact J1.
      - intros _ s2 C2 B2 I2 _. apply wp_bind. eapply wp_conseq; [apply wp_run_true; eapply may_run_bal; [exact B2|exact H]|].
        intros. now apply wp_ret.
    Qed.

    Lemma wp_import_module n name s : wp mrun (import_module r n name) s
      (fun id s' => resolves s' name id /\ has_edge (s_graph s') n id default_dep).
    Proof.
      unfold import_module. apply wp_bind, wp_note; [reflexivity|].
      apply wp_bind, wp_find_module. intros x Hx _.
      apply wp_bind. eapply wp_conseq with (Q := found name).
      - destruct x as [x|]; [|apply (g_find _ R)]. apply wp_ret. split; [now left|right]. unfold in_graph. congruence.
      - intros id s1 C B I [F _]. apply wp_bind, wp_edge.
        + eapply j_request; [|exact F]. eapply grows_log; [eapply chain_grows; exact C|now left].
        + intros g A1 A2 A3. apply wp_ret. now split.
    Qed.

    Lemma wp_import_directory id pkg path s : wp true (import_directory E r id pkg path) s (fun _ _ => True).
    Proof.
      unfold import_directory. apply wp_bind, wp_env; [apply envm_askr|]. intros stems s1 _.
      assert (Hiter : forall A (f : A -> M unit) l s, (forall x s, wp true (f x) s (fun _ _ => True)) ->
        wp true (iter f l) s (fun _ _ => True)).
      { intros A f l. induction l as [|x l IH]; intros s0 Hf; cbn [iter]; [now apply wp_ret|].
        apply wp_bind. eapply wp_conseq; [apply Hf|]. intros. now apply IH. }
      apply wp_bind. eapply wp_conseq; [apply Hiter|].
      - intros stem s2. destruct (e_isidentifier E stem); [|now apply wp_ret].
        apply wp_bind, wp_note; [reflexivity|].
        apply wp_bind. eapply wp_conseq; [apply wp_find_true|]. intros m s3 C3 B3 I3 [F _].
        pose proof (chain_grows _ _ _ _ C3) as G3.
        assert (L : In (EvList id (pkg ++ "." ++ stem)%string) (s_log s3)) by (eapply grows_log; [exact G3|now left]).
        apply wp_bind, wp_edge; [eapply j_listed; eassumption|]. intros g A1 A2 A3.
        apply wp_modify; [now apply st_package|now split|exact Logic.I].
      - intros _ s2 _ _ _ _. apply wp_bind, wp_env; [apply envm_askr|]. intros dirs s3 _.
        apply Hiter. intros dir s4. destruct (e_isidentifier E dir); [|now apply wp_ret].
        apply wp_bind, wp_note; [reflexivity|].
        apply wp_modify; [apply st_package; [reflexivity|now left]|now split|exact Logic.I].
    Qed.

    Lemma wp_import_package n pkg s : may_run s -> In (EvReq n pkg) (s_log s) \/ In (EvList n pkg) (s_log s) ->
      wp true (import_package E r n pkg) s (fun id s' => resolves s' pkg id /\ has_edge (s_graph s') n id default_dep).
    Proof.
      intros H L. unfold import_package. apply wp_bind, wp_find_module. intros x Hx _.
      apply wp_bind. eapply wp_conseq with (Q := fun id s' => resolves s' pkg id).
      - apply wp_saved. apply wp_bind. eapply wp_conseq with (Q := found pkg).
        + destruct x as [x|]; [|apply wp_find_true]. apply wp_ret. split; [now left|right].
          unfold in_graph. cbn. congruence.
        + intros id s1 C B I [F _]. apply wp_bind. eapply wp_conseq; [apply wp_run_true|].
          * eapply may_run_bal; [exact B|]. exact H.
          * intros _ s2 C2 B2 I2 _. apply wp_ret.
            apply (grows_resolves _ _ _ _ (chain_grows _ _ _ _ C2)) in F. exact F.
      - intros id s1 C B I F. pose proof (chain_grows _ _ _ _ C) as G.
        apply wp_bind, wp_edge.
        + destruct L as [L|L]; [eapply j_request|eapply j_listed]; try exact F; eapply grows_log; eassumption.
        + intros g A1 A2 A3. set (s2 := set_graph s1 g).
          apply wp_bind, wp_kind_test.
          destruct (negb _).
          * apply wp_ret. now split.
          * apply wp_bind, wp_env; [apply envm_find_spec|]. intros sp s3 E3.
            assert (K3 : resolves s3 pkg id /\ has_edge (s_graph s3) n id default_dep).
            { destruct E3 as (f & c & ->). now split. }
            clear E3. destruct sp as [sp|]; [|apply wp_raise].
            apply wp_bind. eapply wp_conseq with (Q := fun _ _ => True).
            -- assert (Hiter : forall A (f : A -> M unit) l s, (forall x s, wp true (f x) s (fun _ _ => True)) ->
                 wp true (iter f l) s (fun _ _ => True)).
               { intros A f l. induction l as [|y l IH]; intros s0 Hf; cbn [iter]; [now apply wp_ret|].
                 apply wp_bind. eapply wp_conseq; [apply Hf|]. intros. now apply IH. }
               apply Hiter. intros path s4. apply wp_import_directory.
            -- intros _ s4 C4 B4 I4 _. pose proof (chain_grows _ _ _ _ C4) as G4. apply wp_ret.
               split; [eapply grows_resolves|eapply grows_edge]; try exact G4; apply K3.
    Qed.

    Lemma wp_do_action q a s : q = true \/ q = mrun -> act_ok mrun q a -> (q = true -> may_run s) ->
      wp q (do_action E r a) s (fun _ _ => True).
    Proof.
      intros Hq Ha Hm. destruct a; cbn [do_action]; cbn [act_ok] in Ha.
      - now apply wp_get.
      - apply wp_bind, wp_modify; [apply st_mem|now split|]. now apply wp_ret.
      - subst q. apply wp_bind. eapply wp_conseq; [apply wp_add_script; auto|]. intros. now apply wp_ret.
      - subst q. apply wp_bind. eapply wp_conseq; [apply wp_add_module; auto|]. intros. now apply wp_ret.
      - subst q. apply wp_bind. eapply wp_conseq; [apply wp_add_source; auto|]. intros. now apply wp_ret.
      - subst q. apply wp_bind. eapply wp_conseq; [apply wp_add_distribution; auto|]. intros. now apply wp_ret.
      - subst q. apply wp_bind. unfold add_distribution_named. apply wp_bind, wp_env; [apply envm_askr|].
        intros [d|] s1 E1; [|apply wp_raise]. eapply wp_conseq; [apply wp_add_distribution|].
        + destruct E1 as (f & c & ->). eapply may_run_run; [|apply Hm]; reflexivity.
        + intros. now apply wp_ret.
      - destruct Ha as [-> Ha]. apply wp_bind. unfold hook_context. apply wp_bind.
        eapply wp_attempt; [apply (g_prog _ R); auto|]. intros x s1 C B I _.
        apply wp_bind. eapply wp_conseq; [apply wp_run_true; eapply may_run_bal; [exact B|auto]|].
        intros _ s2 _ _ _ _. destruct x; [|apply wp_raise]. now apply wp_ret, wp_ret.
      - apply wp_up; [exact Hq|]. apply wp_bind. eapply wp_conseq; [apply wp_import_module|]. intros. now apply wp_ret.
      - subst q. apply wp_bind, wp_note; [reflexivity|]. apply wp_bind.
        eapply wp_conseq; [apply wp_import_package|].
        + eapply may_run_run; [|apply Hm]; reflexivity.
        + left. now left.
        + intros. now apply wp_ret.
      - apply wp_bind, wp_modify; [now apply st_post|now split|]. now apply wp_ret.
      - apply wp_bind, wp_modify; [now apply st_missing|now split|]. now apply wp_ret.
      - apply wp_bind, wp_modify; [apply st_excludes|now split|]. now apply wp_ret.
      - apply wp_bind, wp_modify; [apply st_implies|now split|]. now apply wp_ret.
      - apply wp_bind, wp_note; [reflexivity|]. apply wp_bind, wp_user_node; [left; now left|].
        intros _. now apply wp_ret.
      - apply wp_bind, wp_note; [reflexivity|]. apply wp_bind, wp_edge; [apply j_edge; now left|].
        intros g A1 A2 A3. now apply wp_ret.
      - apply wp_bind, wp_note; [reflexivity|]. apply wp_bind, wp_root; [now left|]. intros _. now apply wp_ret.
      - apply wp_bind, wp_get. destruct (gfind (s_graph s) id) eqn:Eg; [|apply wp_raise].
        apply wp_bind, wp_note; [reflexivity|].
        apply wp_bind, wp_sched; [unfold in_graph; cbn [s_graph log]; congruence|right; now left|]. now apply wp_ret.
      - subst q. apply wp_bind. eapply wp_conseq; [apply wp_run_true; auto|]. intros. now apply wp_ret.
      - apply wp_env; [|auto]. envm_tac.
      - apply wp_env; [|auto]. envm_tac.
      - apply wp_env; [|auto]. envm_tac.
      - apply wp_env; [|auto]. envm_tac.
      - apply wp_env; [|auto]. pose proof (g_nfs _ R) as Hn. envm_tac.
      - apply wp_env; [|auto]. envm_tac.
      - apply wp_env; [|auto]. envm_tac.
    Qed.

    Lemma wp_call q a s : q = true \/ q = mrun -> act_ok mrun q a -> (q = true -> may_run s) ->
      wp q (call E r a) s (fun _ _ => True).
    Proof.
      intros Hq Ha Hm. unfold call. apply wp_bind. eapply wp_attempt; [now apply wp_do_action|].
      intros [x|e] s1 C B I _; [now apply wp_ret|]. apply wp_bind, wp_note; [reflexivity|]. now apply wp_ret.
    Qed.

    Lemma wp_run_prog q p : forall s, q = true \/ q = mrun -> prog_ok mrun q p -> (q = true -> may_run s) ->
      wp q (run_prog E r p) s (fun _ _ => True).
    Proof.
      induction p as [o|e|a k IH]; intros s Hq Hp Hm; cbn [run_prog]; [now apply wp_ret|apply wp_raise|].
      cbn in Hp. destruct Hp as [Ha Hk].
      apply wp_bind. eapply wp_conseq; [now apply wp_call|]. intros x s1 C B I _. apply IH; [exact Hq|apply Hk|].
      intros Hq1. eapply may_run_bal; [exact B|auto].
    Qed.

    Lemma nth_error_nil' {A} i : @nth_error A [] i = None.
    Proof. now destruct i. Qed.

    Lemma wp_post_body i n s : may_run s -> wp true (post_body E r i n) s (fun _ _ => True).
    Proof.
      intros H. apply wp_inv. intros I. unfold post_body. apply wp_bind, wp_get.
      destruct (nth_error (s_post s) i) as [h|] eqn:Eh; [|now apply wp_ret].
      apply nth_error_In in Eh. apply wp_bind. eapply wp_conseq; [apply wp_run_prog|]; auto.
      - apply (proj1 (inv_hooks _ _ I)). exact Eh.
      - intros _ s1 C B I1 _. apply (g_post _ R). eapply may_run_bal; eassumption.
    Qed.

    Lemma wp_miss_body i imp n s : wp mrun (miss_body E r i imp n) s (fun o s' => o = None \/ s_missing s' <> []).
    Proof.
      apply wp_inv. intros I. unfold miss_body. apply wp_bind, wp_get.
      destruct (nth_error (s_missing s) i) as [h|] eqn:Eh; [|apply wp_ret; now left].
      apply nth_error_In in Eh. apply wp_bind. eapply wp_conseq; [apply wp_run_prog|]; auto.
      - apply (proj2 (inv_hooks _ _ I)). exact Eh.
      - intros Hm. now left.
      - intros [id|] s1 C B I1 _; [|apply (g_miss _ R)]. apply wp_ret. right.
        destruct (gw_missing _ _ (chain_grows _ _ _ _ C)) as [l ->]. apply not_nil_app.
        intros Hn. rewrite Hn in Eh. destruct Eh.
    Qed.
    Lemma miss_body_nil i imp n s x : s_missing s = [] -> miss_body E r i imp n s = Some x -> x = (ROk None, s).
    Proof.
      intros H K. unfold miss_body, bind, gets in K. rewrite H, nth_error_nil' in K. now injection K as <-.
    Qed.

    Lemma wp_do_work w s rest l : work_ok s w -> s_run s = w :: rest -> s_log s = EvPop w :: l ->
      mrun = true \/ (forall w, In w rest -> calm_work w = true) ->
      wp true (do_work E r w) s (fun _ s' => work_done s' w).
    Proof.
      intros Hw Hr Hl Hq.
      assert (Hm : calm_work w = true -> may_run s).
      { intros Hc. destruct Hq as [Hq|Hq]; [now left|right]. intros w' Hw'. rewrite Hr in Hw'.
        destruct Hw' as [<-|Hw']; auto. }
      destruct w as [n|n i|n m i|n pkg]; cbn [do_work]; cbn [work_ok] in Hw.
      - apply wp_bind, wp_modify; [eapply st_hook; [reflexivity|exact Hl]|now split|].
        eapply wp_conseq; [apply (g_post _ R); eapply may_run_run; [|apply Hm]; reflexivity|].
        intros _ s1 C B I _. cbn. eapply grows_log; [eapply chain_grows; exact C|now left].
      - apply wp_process_import; apply Hw.
      - apply wp_up; [now left|]. cbn [work_done]. apply wp_process_namelist; apply Hw.
      - apply wp_bind. eapply wp_conseq; [apply wp_import_package; [now apply Hm|now right]|].
        intros id s1 C B I K. apply wp_ret. now exists id.
    Qed.

    Lemma wp_run_body s : may_run s -> wp true (run_body E r) s (fun _ s' => s_stack s' = []).
    Proof.
      intros H I x s' Hx. unfold run_body in Hx. destruct (s_stack s) as [|w rest] eqn:Es.
      { injection Hx as <- <-. split; [apply ch_refl|]. now split. }
      set (s1 := log (set_run (set_stack s rest) (w :: s_run s)) (EvPop w)) in *.
      assert (S1 : step mrun true s s1) by now apply st_pop.
      pose proof (step_inv _ _ _ _ S1 I) as I1.
      assert (W : wp true (do_work E r w) s1 (fun _ s' => work_done s' w)).
      { eapply wp_do_work; [|reflexivity|reflexivity|].
        - apply (grows_work_ok s); [eapply step_grows; exact S1|]. apply (inv_stack _ _ I). rewrite Es. now left.
        - exact H. }
      destruct (do_work E r w s1) as [[[u|e] s2]|] eqn:Ew; [| |discriminate].
      - destruct (W I1 _ _ Ew) as (C2 & [B2 B2'] & D). cbn in B2, B2'.
        set (s3 := log (set_run s2 (tl (s_run s2))) (EvDone w)) in *.
        assert (S3 : step mrun true s2 s3).
        { unfold s3. rewrite B2. now apply st_done with (rest := s_run s). }
        pose proof (chain_inv _ _ _ _ C2 I1) as I2. pose proof (step_inv _ _ _ _ S3 I2) as I3.
        assert (B3 : bal s s3).
        { split; cbn; [now rewrite B2|exact B2']. }
        destruct (g_run _ R s3 (may_run_bal _ _ B3 H) I3 _ _ Hx) as (C4 & B4 & K).
        split; [|split; [eapply bal_trans; eassumption|exact K]].
        eapply chain_trans; [apply chain_one; exact S1|]. eapply chain_trans; [exact C2|].
        eapply chain_trans; [apply chain_one; exact S3|exact C4].
      - injection Hx as <- <-. destruct (W I1 _ _ Ew) as (C2 & [B2 B2'] & D). cbn in B2, B2'.
        split; [|split; [|exact Logic.I]].
        + eapply chain_trans; [apply chain_one; exact S1|]. eapply ch_step; [exact C2|].
          rewrite B2. apply st_fail with (rest := s_run s); [reflexivity|exact B2|].
          intros n ->. cbn [do_work] in Ew. unfold bind, note, modify in Ew.
          assert (S2 : step mrun true s1 (log s1 (EvHook n))) by (eapply st_hook; reflexivity).
          assert (M2 : may_run (log s1 (EvHook n))).
          { eapply may_run_run; [reflexivity|]. destruct H as [H|H]; [now left|right].
            intros w' [<-|Hw']; [reflexivity|now apply H]. }
          destruct (g_post _ R 0 n _ M2 (step_inv _ _ _ _ S2 I1) _ _ Ew) as (C5 & _).
          eapply grows_log; [eapply chain_grows; exact C5|]. now left.
        + split; cbn; [now rewrite B2|exact B2'].
    Qed.
  End bodies.

  Lemma good_exec n : good (exec E n).
  Proof.
    induction n as [|n IH]; cbn [exec]; [apply good_no_fuel|].
    constructor; cbn [f_find f_load f_nfs f_run f_prog f_post f_miss]; intros.
    - now apply wp_find_body.
    - now apply wp_load_body.
    - apply envm_nfs_body, (g_nfs _ IH).
    - apply realm_nfs, (g_kind _ IH).
    - now apply wp_run_body.
    - now apply wp_run_prog.
    - now apply wp_post_body.
    - now apply wp_miss_body.
    - eapply miss_body_nil; eassumption.
  Qed.

  Lemma top_call_chain fuel a s ans s' : inv s -> may_run s -> act_ok mrun true a ->
    top_call E fuel a s = Some (ans, s') -> chain true s s' /\ bal s s'.
  Proof.
    intros I H Ha Ht. unfold top_call in Ht.
    destruct (call E (exec E fuel) a s) as [[[x|e] s1]|] eqn:Ec; try discriminate. injection Ht as <- <-.
    destruct (wp_call _ (good_exec fuel) true a s (or_introl eq_refl) Ha (fun _ => H) I _ _ Ec) as (C & B & _).
    now split.
  Qed.
End pass.
