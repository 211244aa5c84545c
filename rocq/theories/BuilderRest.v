(** Hooks that have nothing to do for some graphs. *)
From Verif Require Export RestSpec BuilderIdle.
From Verif Require Import PyStrFacts.

(** ** Graphs that grow *)
(** Nodes stay, with the same attributes but for more names that are bound. *)
Definition grown (n n' : node) : Prop :=
  n_name n' = n_name n /\ n_kind n' = n_kind n /\ n_dist n' = n_dist n /\ n_file n' = n_file n /\ incl (n_written n) (n_written n').
Definition grow (g g' : graph) : Prop := forall n, In n (g_nodes g) -> exists n', In n' (g_nodes g') /\ grown n n'.
Lemma grow_same g g' : g_nodes g' = g_nodes g -> grow g g'.
Proof. intros H n Hn. exists n. rewrite H. split; [exact Hn|]. repeat split. now apply incl_refl. Qed.
Lemma grow_refl g : grow g g.
Proof. now apply grow_same. Qed.
Lemma grow_trans g h i : grow g h -> grow h i -> grow g i.
Proof.
  intros H K n Hn. destruct (H n Hn) as [n' [Hn' [A [B [C [D F]]]]]]. destruct (K n' Hn') as [m [Hm [A' [B' [C' [D' F']]]]]].
  exists m. split; [exact Hm|]. repeat split; try congruence. eapply incl_tran; eassumption.
Qed.
Lemma grow_add_node n g g' : gadd_node g n = ROk g' -> grow g g'.
Proof.
  unfold gadd_node. destruct (ghas g (n_name n)); [discriminate|]. intros H. injection H as <-.
  intros m Hm. exists m. split; [cbn; apply in_or_app; now left|]. repeat split. now apply incl_refl.
Qed.
Lemma grow_add_edge s t d g g' : gadd_edge g s t d = ROk g' -> grow g g'.
Proof. unfold gadd_edge. destruct (_ && _)%bool; [|discriminate]. intros H. injection H as <-. now apply grow_same. Qed.
Lemma grow_add_root id g g' : gadd_root g id = ROk g' -> grow g g'.
Proof. unfold gadd_root. destruct (ghas g id); [|discriminate]. intros H. injection H as <-. now apply grow_same. Qed.
Lemma grow_add_written g id names : grow g (gadd_written g id names).
Proof.
  intros n Hn. exists (upd_written id names n). split; [cbn; now apply in_map|].
  unfold upd_written. destruct (seqb (n_name n) id); repeat split; try (cbn; intros x Hx; apply set_union_In; now left). now apply incl_refl.
Qed.

Section rest.
  Variable good : graph -> Prop.
  Hypothesis good_grow : forall g g', grow g g' -> good g' -> good g.
  Variable HP : list post_hook -> list missing_hook -> list post_hook -> list missing_hook -> Prop.
  Notation RR := (R HP).
  Definition gr {A} (m : M A) : Prop := forall s x t, m s = Some (x, t) -> grow (s_graph s) (s_graph t).
  Definition rim {A} (m m' : M A) : Prop := gr m /\
    forall s s' x t, RR s s' -> m s = Some (x, t) -> good (s_graph t) -> exists t', m' s' = Some (x, t') /\ RR t t'.

  Lemma rim_of {A} (m m' : M A) : sim HP m m' -> gr m -> rim m m'.
  Proof. intros H K. split; [exact K|]. intros s s' x t HR E _. now apply (H s s'). Qed.
  Lemma gr_same {A} (m : M A) : (forall s x t, m s = Some (x, t) -> s_graph t = s_graph s) -> gr m.
  Proof. intros H s x t E. rewrite (H _ _ _ E). apply grow_refl. Qed.
  Ltac quick l := apply rim_of; [apply l|apply gr_same; let X := fresh "X" in intros ? ? ? X; injection X as _ <-; reflexivity].
  Lemma rim_ret {A} (a : A) : rim (ret a) (ret a).
  Proof. quick @sim_ret. Qed.
  Lemma rim_raise {A} e : rim (@raise A e) (raise e).
  Proof. quick @sim_raise. Qed.
  Lemma rim_of_result {A} (y : result A) : rim (of_result y) (of_result y).
  Proof. quick @sim_of_result. Qed.
  Lemma rim_none {A} (m : M A) : rim out_of_fuel m.
  Proof. split; intros s; intros; discriminate. Qed.
  Lemma rim_assert b : rim (assert b) (assert b).
  Proof. destruct b; [apply rim_ret|apply rim_raise]. Qed.
  Lemma gr_bind {A B} (m : M A) (f : A -> M B) : gr m -> (forall a, gr (f a)) -> gr (bind m f).
  Proof.
    intros H K s x t Hb. unfold bind in Hb. destruct (m s) as [[[a|e] s1]|] eqn:Em; [| |discriminate].
    - eapply grow_trans; [apply (H _ _ _ Em)|apply (K _ _ _ _ Hb)].
    - injection Hb as _ <-. apply (H _ _ _ Em).
  Qed.
  Lemma rim_bind {A B} (m m' : M A) (f f' : A -> M B) : rim m m' -> (forall a, rim (f a) (f' a)) -> rim (bind m f) (bind m' f').
  Proof.
    intros [G H] K. split; [apply gr_bind; [exact G|apply K]|].
    intros s s' x t HR Hb Hg. unfold bind in *. destruct (m s) as [[[a|e] s1]|] eqn:Em; [| |discriminate].
    - destruct (K a) as [Gf Hf]. destruct (H _ _ _ _ HR Em) as [s1' [E1 HR1]]; [eapply good_grow; [apply (Gf _ _ _ Hb)|exact Hg]|].
      rewrite E1. exact (Hf _ _ _ _ HR1 Hb Hg).
    - injection Hb as <- <-. destruct (H _ _ _ _ HR Em Hg) as [s1' [E1 HR1]]. rewrite E1. now exists s1'.
  Qed.
  Lemma rim_attempt {A} (m m' : M A) : rim m m' -> rim (attempt m) (attempt m').
  Proof.
    intros [G H]. split.
    - intros s x t Ha. unfold attempt in Ha. destruct (m s) as [[y s1]|] eqn:Em; [|discriminate]. injection Ha as _ <-. apply (G _ _ _ Em).
    - intros s s' x t HR Ha Hg. unfold attempt in *. destruct (m s) as [[y s1]|] eqn:Em; [|discriminate]. injection Ha as <- <-.
      destruct (H _ _ _ _ HR Em Hg) as [s1' [E1 HR1]]. rewrite E1. now exists s1'.
  Qed.
  Lemma rim_iter {A} (f f' : A -> M unit) l : (forall a, rim (f a) (f' a)) -> rim (iter f l) (iter f' l).
  Proof. intros H. induction l as [|x l IH]; cbn [iter]; [apply rim_ret|]. apply rim_bind; [apply H|]. intros _. exact IH. Qed.
  Lemma rim_gets {A} (f : st -> A) : (forall s p m, f (hooked s p m) = f s) -> rim (gets f) (gets f).
  Proof. intros Hf. apply rim_of; [now apply sim_gets|]. apply gr_same. intros ? ? ? E. now injection E as _ <-. Qed.
  Lemma rim_modify f : (forall s p m, f (hooked s p m) = hooked (f s) p m) -> (forall s, s_post (f s) = s_post s /\ s_missing (f s) = s_missing s) ->
    (forall s, grow (s_graph s) (s_graph (f s))) -> rim (modify f) (modify f).
  Proof. intros Hf Hk Hg. apply rim_of; [now apply sim_modify|]. intros s x t E. injection E as _ <-. apply Hg. Qed.
  Lemma rim_saved {A} (m m' : M A) : rim m m' -> rim (saved_stack m) (saved_stack m').
  Proof.
    intros [G H]. split.
    - intros s x t Hs. unfold saved_stack in *.
      destruct (m (set_saved (set_stack s []) (s_stack s :: s_saved s))) as [[y s1]|] eqn:Em; [|discriminate]. injection Hs as <- <-.
      apply (G _ _ _ Em).
    - intros s s' x t [p [q [-> Hh]]] Hs Hg. unfold saved_stack in *.
      destruct (m (set_saved (set_stack s []) (s_stack s :: s_saved s))) as [[y s1]|] eqn:Em; [|discriminate]. injection Hs as <- <-.
      destruct (H _ (hooked (set_saved (set_stack s []) (s_stack s :: s_saved s)) p q) _ _ (ex_intro _ p (ex_intro _ q (conj eq_refl Hh))) Em Hg) as [s1' [E1 [p1 [q1 [-> Hh1]]]]].
      change (set_saved (set_stack (hooked s p q) []) (s_stack (hooked s p q) :: s_saved (hooked s p q)))
        with (hooked (set_saved (set_stack s []) (s_stack s :: s_saved s)) p q). rewrite E1.
      exists (hooked (set_saved (set_stack s1 (s_stack s1 ++ s_stack s)) (tl (s_saved s1))) p1 q1).
      split; [reflexivity|]. exists p1, q1. split; [reflexivity|exact Hh1].
  Qed.
  Lemma rim_lift f : (forall g g', f g = ROk g' -> grow g g') -> rim (lift_graph f) (lift_graph f).
  Proof.
    intros Hf. apply rim_of; [apply sim_lift|]. intros s x t E. unfold lift_graph in E.
    destruct (f (s_graph s)) as [g|e] eqn:Ef; injection E as _ <-; [now apply Hf|apply grow_refl].
  Qed.
  Lemma rim_ask {A} (f : nat -> A) : rim (ask f) (ask f).
  Proof. quick @sim_ask. Qed.
  Lemma rim_askr {A} (f : nat -> result A) : rim (askr f) (askr f).
  Proof. quick @sim_askr. Qed.
  Lemma rim_find_spec E n : rim (find_spec E n) (find_spec E n).
  Proof. quick @sim_find_spec. Qed.
  Lemma rim_in_sysmod E n : rim (in_sysmod E n) (in_sysmod E n).
  Proof. quick @sim_in_sysmod. Qed.
  Lemma rim_pop_lazy n : rim (pop_lazy n) (pop_lazy n).
  Proof.
    apply rim_of; [apply sim_pop_lazy|]. apply gr_same. intros s x t H. unfold pop_lazy in H.
    destruct (assoc n (s_lazy s)) as [i|]; now injection H as _ <-.
  Qed.

  Hypothesis good_post : forall h, rim (modify (fun s => set_post s (h :: s_post s))) (modify (fun s => set_post s (h :: s_post s))).
  Hypothesis good_missing : forall h, rim (modify (fun s => set_missing s (h :: s_missing s))) (modify (fun s => set_missing s (h :: s_missing s))).

  Record rims (r r' : funs) : Prop := {
    rm_find : forall a b c, rim (f_find r a b c) (f_find r' a b c);
    rm_load : forall a b, rim (f_load r a b) (f_load r' a b);
    rm_nfs : forall a, rim (f_nfs r a) (f_nfs r' a);
    rm_run : rim (f_run r) (f_run r');
    rm_prog : forall p, rim (f_prog r p) (f_prog r' p);
    rm_post : forall n, rim (f_post r 0 n) (f_post r' 0 n);
    rm_miss : forall a b, rim (f_miss r 0 a b) (f_miss r' 0 a b)
  }.

  Lemma rim_schedule id l : rim (process_import_list id l) (process_import_list id l).
  Proof.
    apply rim_modify.
    - intros s p m. unfold schedule. cbn. now destruct (memb id (s_seen s)).
    - intros s. unfold schedule. cbn. now destruct (memb id (s_seen s)).
    - intros s. unfold schedule. cbn. destruct (memb id (s_seen s)); apply grow_refl.
  Qed.

  Ltac rm_step := first
    [ assumption | apply rim_none | apply rim_ret | apply rim_raise | apply rim_of_result | apply rim_assert
    | apply rm_find; assumption | apply rm_load; assumption | apply rm_nfs; assumption | apply rm_run; assumption
    | apply rm_post; assumption | apply rm_miss; assumption
    | apply rim_schedule | apply rim_pop_lazy | apply rim_lift; first [apply grow_add_node|apply grow_add_edge|apply grow_add_root] | apply rim_askr | apply rim_ask | apply rim_find_spec | apply rim_in_sysmod
    | apply rim_bind; [|intros ?] | apply rim_attempt | apply rim_iter; intros ? | apply rim_saved
    | apply rim_gets; reflexivity | apply rim_modify; [reflexivity|intros ?; split; reflexivity|intros ?; first [apply grow_refl|apply grow_add_written]]
    | match goal with |- rim (match ?x with _ => _ end) (match ?x with _ => _ end) => destruct x end ].
  Ltac rm_unfold := unfold add_node, user_add_node, add_edge, add_root, add_written, push_package, note, kind_test, get_node, find_module, insert_work, reexported, del_sysmod in *.
  Ltac rm_all := rm_unfold; repeat rm_step.

  Section bodies.
    Variable E : env.
    Variables r r' : funs.
    Hypothesis H : rims r r'.

    Lemma rm_create_missing a b : rim (create_missing r a b) (create_missing r' a b).
    Proof. unfold create_missing. rm_all. Qed.
    Lemma rm_implied_node k a b : rim (implied_node r k a b) (implied_node r' k a b).
    Proof. unfold implied_node. rm_all. Qed.
    Lemma rm_implied_references a b : rim (implied_references r a b) (implied_references r' a b).
    Proof. unfold implied_references. rm_unfold. repeat first [apply rm_implied_node|rm_step]. Qed.
    Lemma rm_spec_or_none n : rim (spec_or_none E n) (spec_or_none E n).
    Proof. unfold spec_or_none. rm_all. Qed.
    Lemma rm_load_failed a b e : rim (load_failed E r a b e) (load_failed E r' a b e).
    Proof. unfold load_failed. repeat first [apply rm_create_missing|rm_step]. Qed.
    Lemma rm_load_spec a b : rim (load_spec r a b) (load_spec r' a b).
    Proof. unfold load_spec. rm_all. Qed.
    Lemma rm_load_body a b : rim (load_body E r a b) (load_body E r' a b).
    Proof. unfold load_body. rm_unfold. repeat first [apply rm_create_missing|apply rm_load_failed|apply rm_load_spec|apply rm_spec_or_none|rm_step]. Qed.
    Lemma rm_find_body a b c : rim (find_body r a b c) (find_body r' a b c).
    Proof. unfold find_body. rm_unfold. repeat first [apply rm_create_missing|apply rm_implied_references|rm_step]. Qed.
    Lemma rm_nfs_body a : rim (nfs_body E (f_nfs r) a) (nfs_body E (f_nfs r') a).
    Proof. unfold nfs_body, six_spec, vendor_spec, distutils_spec, wrap_package, source_imports, code_info, dist_of. rm_all. Qed.
    Lemma rm_process_import a b : rim (process_import r a b) (process_import r' a b).
    Proof. unfold process_import. rm_all. Qed.
    Lemma rm_process_name n m k i nm : rim (process_name r n m k i nm) (process_name r' n m k i nm).
    Proof. unfold process_name. rm_all. Qed.
    Lemma rm_process_namelist n m i : rim (process_namelist r n m i) (process_namelist r' n m i).
    Proof. unfold process_namelist. rm_unfold. repeat first [apply rm_process_name|rm_step]. Qed.
    Lemma rm_add_script a : rim (add_script E r a) (add_script E r' a).
    Proof. unfold add_script. rm_all. Qed.
    Lemma rm_add_module a : rim (add_module r a) (add_module r' a).
    Proof. unfold add_module. rm_all. Qed.
    Lemma rm_add_source a : rim (add_source E r a) (add_source E r' a).
    Proof. unfold add_source. repeat first [apply rm_add_module|rm_step]. Qed.
    Lemma rm_add_distribution a : rim (add_distribution E r a) (add_distribution E r' a).
    Proof. unfold add_distribution. rm_all. Qed.
    Lemma rm_add_distribution_named a : rim (add_distribution_named E r a) (add_distribution_named E r' a).
    Proof. unfold add_distribution_named. repeat first [apply rm_add_distribution|rm_step]. Qed.
    Lemma rm_import_module a b : rim (import_module r a b) (import_module r' a b).
    Proof. unfold import_module. rm_all. Qed.
    Lemma rm_import_directory a b c : rim (import_directory E r a b c) (import_directory E r' a b c).
    Proof. unfold import_directory. rm_all. Qed.
    Lemma rm_import_package a b : rim (import_package E r a b) (import_package E r' a b).
    Proof. unfold import_package. rm_unfold. repeat first [apply rm_import_directory|rm_step]. Qed.
    Lemma rm_hook_context p : rim (hook_context r p) (hook_context r' p).
    Proof. unfold hook_context. apply rim_bind; [apply rim_attempt; now apply rm_prog|]. intros x. rm_all. Qed.
    Lemma rm_do_action a : rim (do_action E r a) (do_action E r' a).
    Proof.
      destruct a; cbn [do_action]; rm_unfold;
        repeat first [apply rm_add_script|apply rm_add_module|apply rm_add_source|apply rm_add_distribution
        |apply rm_add_distribution_named|apply rm_import_module|apply rm_import_package|apply rm_hook_context
        |apply good_post|apply good_missing|rm_step].
    Qed.
    Lemma rm_call a : rim (call E r a) (call E r' a).
    Proof. unfold call. rm_unfold. repeat first [apply rm_do_action|rm_step]. Qed.
    Lemma rm_run_prog p : rim (run_prog E r p) (run_prog E r' p).
    Proof.
      revert p. fix IH 1. intros [o|e|a k]; cbn [run_prog]; [apply rim_ret|apply rim_raise|].
      apply rim_bind; [apply rm_call|]. intros ans. apply IH.
    Qed.
    Lemma rm_do_work w : rim (do_work E r w) (do_work E r' w).
    Proof.
      destruct w; cbn [do_work]; rm_unfold; repeat first [apply rm_process_import|apply rm_process_namelist|apply rm_import_package|rm_step].
    Qed.
    Lemma rm_run_body : rim (run_body E r) (run_body E r').
    Proof.
      split.
      - intros s x t K. unfold run_body in K. destruct (s_stack s) as [|w rest]; [injection K as _ <-; apply grow_refl|].
        destruct (do_work E r w _) as [[[u|e] s1]|] eqn:Ew; [| |discriminate].
        + destruct (rm_do_work w) as [G _]. destruct (rm_run _ _ H) as [G' _]. eapply grow_trans; [apply (G _ _ _ Ew)|]. apply (G' _ _ _ K).
        + destruct (rm_do_work w) as [G _]. injection K as _ <-. apply (G _ _ _ Ew).
      - intros s s' x t [p [m [-> Hh]]] K Hg. unfold run_body in *. cbn [hooked set_missing set_post s_stack].
        destruct (s_stack s) as [|w rest].
        + injection K as <- <-. eexists. split; [reflexivity|]. now exists p, m.
        + destruct (rm_do_work w) as [G Hw]. destruct (rm_run _ _ H) as [G' Hr].
          destruct (do_work E r w _) as [[[u|e] s1]|] eqn:Ew; [| |discriminate].
          * destruct (Hw _ (hooked (log (set_run (set_stack s rest) (w :: s_run s)) (EvPop w)) p m) _ _ (ex_intro _ p (ex_intro _ m (conj eq_refl Hh))) Ew)
              as [s1' [E1 [p1 [m1 [-> Hh1]]]]]; [eapply good_grow; [apply (G' _ _ _ K)|exact Hg]|].
            match goal with |- context [do_work E r' w ?u] => change u with (hooked (log (set_run (set_stack s rest) (w :: s_run s)) (EvPop w)) p m) end.
            rewrite E1. eapply Hr; [|exact K|exact Hg]. exists p1, m1. split; [reflexivity|exact Hh1].
          * injection K as <- <-. destruct (Hw _ (hooked (log (set_run (set_stack s rest) (w :: s_run s)) (EvPop w)) p m) _ _ (ex_intro _ p (ex_intro _ m (conj eq_refl Hh))) Ew Hg)
              as [s1' [E1 [p1 [m1 [-> Hh1]]]]].
            match goal with |- context [do_work E r' w ?u] => change u with (hooked (log (set_run (set_stack s rest) (w :: s_run s)) (EvPop w)) p m) end.
            rewrite E1. eexists. split; [reflexivity|]. exists p1, m1. split; [reflexivity|exact Hh1].
    Qed.
  End bodies.
End rest.

(** ** Hooks at the end of the lists that rest *)
(** Programs that only look, when this is the graph. *)
Inductive rests (g : graph) (ret : option string -> Prop) : prog -> Prop :=
| rs_ret o : ret o -> rests g ret (PRet o)
| rs_look k : (forall mem, rests g ret (k (AnsGraph g mem))) -> rests g ret (PDo ALook k).
Lemma rests_run E r ret p s : rests (s_graph s) ret p -> exists o, run_prog E r p s = Some (ROk o, s) /\ ret o.
Proof.
  intros H. induction H as [o Ho|k Hk IH].
  - now exists o.
  - destruct (IH (s_mem s)) as [o [Ho Hr]]. exists o. split; [|exact Hr]. cbn [run_prog]. exact Ho.
Qed.

Section resting.
  Variable E : env.
  Variable good : graph -> Prop.
  Hypothesis good_grow : forall g g', grow g g' -> good g' -> good g.
  Definition rest_post (h : post_hook) : Prop := forall g n, good g -> rests g (fun _ => True) (h n).
  Definition rest_missing (h : missing_hook) : Prop := forall g importing name, good g -> rests g (fun o => o = None) (h importing name).
  Variables L L' : list post_hook.
  Variables N N' : list missing_hook.
  Hypothesis IL : Forall rest_post L.
  Hypothesis IL' : Forall rest_post L'.
  Hypothesis IN : Forall rest_missing N.
  Hypothesis IN' : Forall rest_missing N'.
  Let K := List.length L' + List.length N'.
  Notation tls := (tails L L' N N').
  Notation rimt := (rim good tls).
  Notation rimst := (rims good tls).

  Lemma rest_add_post h : rimt (modify (fun s => set_post s (h :: s_post s))) (modify (fun s => set_post s (h :: s_post s))).
  Proof. apply rim_of; [apply tails_post|]. apply gr_same. intros s x t H. now injection H as _ <-. Qed.
  Lemma rest_add_missing h : rimt (modify (fun s => set_missing s (h :: s_missing s))) (modify (fun s => set_missing s (h :: s_missing s))).
  Proof. apply rim_of; [apply tails_missing|]. apply gr_same. intros s x t H. now injection H as _ <-. Qed.
  Lemma rest_prog r r' p : rimst r r' -> rimt (run_prog E r p) (run_prog E r' p).
  Proof. intros H. apply rm_run_prog; auto using rest_add_post, rest_add_missing. Qed.
  Lemma rest_call r r' a : rimst r r' -> rimt (call E r a) (call E r' a).
  Proof. intros H. apply rm_call; auto using rest_add_post, rest_add_missing. Qed.

  Lemma rest_post_done l c : Forall rest_post l -> forall n i nm s y, s_post s = c ++ l -> List.length c <= i -> good (s_graph s) ->
    f_post (exec E n) i nm s = Some y -> y = (ROk tt, s).
  Proof.
    intros Hl. induction n as [|n IH]; intros i nm s y Hs Hi Hg H; [discriminate|]. cbn [exec f_post] in H.
    destruct (nth_error (s_post s) i) as [h|] eqn:Eh.
    - rewrite (post_at _ _ _ _ _ h Eh) in H. rewrite Hs in Eh. pose proof (tail_nth [] [] _ _ _ _ _ Hl Hi Eh) as Hid.
      unfold bind in H. destruct (rests_run E (exec E n) _ _ s (Hid _ nm Hg)) as [o [Ho _]]. rewrite Ho in H.
      apply (IH (S i) nm s y Hs); [lia|exact Hg|exact H].
    - rewrite (post_none _ _ _ _ _ Eh) in H. now injection H as <-.
  Qed.
  Lemma rest_post_runs l c : Forall rest_post l -> forall n i nm s, s_post s = c ++ l -> List.length c <= i -> good (s_graph s) ->
    List.length c + List.length l + 1 <= n + i -> 1 <= n -> f_post (exec E n) i nm s = Some (ROk tt, s).
  Proof.
    intros Hl. induction n as [|n IH]; intros i nm s Hs Hi Hg Hn Hn1; [lia|]. cbn [exec f_post].
    destruct (nth_error (s_post s) i) as [h|] eqn:Eh.
    - rewrite (post_at _ _ _ _ _ h Eh). rewrite Hs in Eh. pose proof (tail_nth [] [] _ _ _ _ _ Hl Hi Eh) as Hid.
      assert (Hlen : i < List.length (c ++ l)) by (apply nth_error_Some; congruence). rewrite app_length in Hlen.
      unfold bind. destruct (rests_run E (exec E n) _ _ s (Hid _ nm Hg)) as [o [Ho _]]. rewrite Ho. apply IH; [exact Hs|lia|exact Hg|lia|lia].
    - now rewrite (post_none _ _ _ _ _ Eh).
  Qed.
  Lemma rest_miss_done l c : Forall rest_missing l -> forall n i im nm s y, s_missing s = c ++ l -> List.length c <= i -> good (s_graph s) ->
    f_miss (exec E n) i im nm s = Some y -> y = (ROk None, s).
  Proof.
    intros Hl. induction n as [|n IH]; intros i im nm s y Hs Hi Hg H; [discriminate|]. cbn [exec f_miss] in H.
    destruct (nth_error (s_missing s) i) as [h|] eqn:Eh.
    - rewrite (miss_at _ _ _ _ _ _ h Eh) in H. rewrite Hs in Eh. pose proof (tail_nth [] [] _ _ _ _ _ Hl Hi Eh) as Hid.
      unfold bind in H. destruct (rests_run E (exec E n) _ _ s (Hid _ im nm Hg)) as [o [Ho Hno]]. rewrite Ho in H. cbn in Hno. subst o.
      apply (IH (S i) im nm s y Hs); [lia|exact Hg|exact H].
    - rewrite (miss_none _ _ _ _ _ _ Eh) in H. now injection H as <-.
  Qed.
  Lemma rest_miss_runs l c : Forall rest_missing l -> forall n i im nm s, s_missing s = c ++ l -> List.length c <= i -> good (s_graph s) ->
    List.length c + List.length l + 1 <= n + i -> 1 <= n -> f_miss (exec E n) i im nm s = Some (ROk None, s).
  Proof.
    intros Hl. induction n as [|n IH]; intros i im nm s Hs Hi Hg Hn Hn1; [lia|]. cbn [exec f_miss].
    destruct (nth_error (s_missing s) i) as [h|] eqn:Eh.
    - rewrite (miss_at _ _ _ _ _ _ h Eh). rewrite Hs in Eh. pose proof (tail_nth [] [] _ _ _ _ _ Hl Hi Eh) as Hid.
      assert (Hlen : i < List.length (c ++ l)) by (apply nth_error_Some; congruence). rewrite app_length in Hlen.
      unfold bind. destruct (rests_run E (exec E n) _ _ s (Hid _ im nm Hg)) as [o [Ho Hno]]. rewrite Ho. cbn in Hno. subst o. apply IH; [exact Hs|lia|exact Hg|lia|lia].
    - now rewrite (miss_none _ _ _ _ _ _ Eh).
  Qed.

  Lemma gr_post_body r i nm : (forall p, gr (run_prog E r p)) -> (forall j, gr (f_post r j nm)) -> gr (post_body E r i nm).
  Proof.
    intros Hp Hf s x t H. destruct (nth_error (s_post s) i) as [h|] eqn:Eh.
    - rewrite (post_at _ _ _ _ _ h Eh) in H. revert H. apply gr_bind; [apply Hp|intros _; apply Hf].
    - rewrite (post_none _ _ _ _ _ Eh) in H. injection H as _ <-. apply grow_refl.
  Qed.
  Lemma gr_miss_body r i im nm : (forall p, gr (run_prog E r p)) -> (forall j, gr (f_miss r j im nm)) -> gr (miss_body E r i im nm).
  Proof.
    intros Hp Hf s x t H. destruct (nth_error (s_missing s) i) as [h|] eqn:Eh.
    - rewrite (miss_at _ _ _ _ _ _ h Eh) in H. revert H. apply gr_bind; [apply Hp|intros [o|]; [|apply Hf]].
      apply gr_same. intros ? ? ? X. now injection X as _ <-.
    - rewrite (miss_none _ _ _ _ _ _ Eh) in H. injection H as _ <-. apply grow_refl.
  Qed.

  Lemma rest_exec n : forall n', n + K <= n' -> rimst (exec E n) (exec E n')
    /\ (forall i nm, rimt (f_post (exec E n) i nm) (f_post (exec E n') i nm))
    /\ (forall i im nm, rimt (f_miss (exec E n) i im nm) (f_miss (exec E n') i im nm)).
  Proof.
    induction n as [|n IH]; intros n' Hn.
    - split; [constructor; intros; apply rim_none|]. split; intros; apply rim_none.
    - destruct n' as [|m]; [lia|]. destruct (IH m ltac:(lia)) as [Hm [Hp Hq]].
      assert (Sp : forall i nm, rimt (f_post (exec E (S n)) i nm) (f_post (exec E (S m)) i nm)).
      { intros i nm. assert (G : gr (f_post (exec E (S n)) i nm)).
        { apply gr_post_body; [intros p; apply (rest_prog _ _ p Hm)|intros j; apply Hp]. }
        split; [exact G|]. intros s s' x t HR H Hg. destruct HR as [p [q [-> [c [d [H1 [H2 [-> ->]]]]]]]].
        destruct (Nat.lt_ge_cases i (List.length c)) as [Hi|Hi].
        - destruct (nth_error c i) as [h|] eqn:Eh; [|apply nth_error_None in Eh; lia].
          cbn [exec f_post] in H |- *. rewrite (post_at _ _ _ _ _ h) in H by (rewrite H1; rewrite nth_error_app1; [exact Eh|exact Hi]).
          rewrite (post_at _ _ _ _ _ h) by (cbn; rewrite nth_error_app1; [exact Eh|exact Hi]).
          match type of H with ?u s = _ => match goal with |- exists t', ?u' _ = _ /\ _ => assert (Z : rimt u u') end end.
          { apply rim_bind; [exact good_grow|now apply rest_prog|intros _; apply Hp]. }
          destruct Z as [_ Z]. eapply Z; [|exact H|exact Hg].
          exists (c ++ L'), (d ++ N'). split; [reflexivity|]. exists c, d. auto.
        - pose proof (good_grow _ _ (G _ _ _ H) Hg) as Hgs.
          pose proof (rest_post_done L c IL (S n) i nm s _ H1 Hi Hgs H) as Hd. injection Hd as -> ->.
          exists (hooked s (c ++ L') (d ++ N')). split.
          + apply (rest_post_runs L' c IL'); [reflexivity|exact Hi|exact Hgs|subst K; lia|lia].
          + exists (c ++ L'), (d ++ N'). split; [reflexivity|]. exists c, d. auto. }
      assert (Sq : forall i im nm, rimt (f_miss (exec E (S n)) i im nm) (f_miss (exec E (S m)) i im nm)).
      { intros i im nm. assert (G : gr (f_miss (exec E (S n)) i im nm)).
        { apply gr_miss_body; [intros p; apply (rest_prog _ _ p Hm)|intros j; apply Hq]. }
        split; [exact G|]. intros s s' x t HR H Hg. destruct HR as [p [q [-> [c [d [H1 [H2 [-> ->]]]]]]]].
        destruct (Nat.lt_ge_cases i (List.length d)) as [Hi|Hi].
        - destruct (nth_error d i) as [h|] eqn:Eh; [|apply nth_error_None in Eh; lia].
          cbn [exec f_miss] in H |- *. rewrite (miss_at _ _ _ _ _ _ h) in H by (rewrite H2; rewrite nth_error_app1; [exact Eh|exact Hi]).
          rewrite (miss_at _ _ _ _ _ _ h) by (cbn; rewrite nth_error_app1; [exact Eh|exact Hi]).
          match type of H with ?u s = _ => match goal with |- exists t', ?u' _ = _ /\ _ => assert (Z : rimt u u') end end.
          { apply rim_bind; [exact good_grow|now apply rest_prog|intros [o|]; [apply rim_ret|apply Hq]]. }
          destruct Z as [_ Z]. eapply Z; [|exact H|exact Hg].
          exists (c ++ L'), (d ++ N'). split; [reflexivity|]. exists c, d. auto.
        - pose proof (good_grow _ _ (G _ _ _ H) Hg) as Hgs.
          pose proof (rest_miss_done N d IN (S n) i im nm s _ H2 Hi Hgs H) as Hd. injection Hd as -> ->.
          exists (hooked s (c ++ L') (d ++ N')). split.
          + apply (rest_miss_runs N' d IN'); [reflexivity|exact Hi|exact Hgs|subst K; lia|lia].
          + exists (c ++ L'), (d ++ N'). split; [reflexivity|]. exists c, d. auto. }
      split; [|now split]. constructor.
      + intros. now apply rm_find_body.
      + intros. now apply rm_load_body.
      + intros. now apply rm_nfs_body.
      + apply rm_run_body; auto using rest_add_post, rest_add_missing.
      + intros p. now apply rest_prog.
      + intros nm. apply Sp.
      + intros im nm. apply Sq.
  Qed.

  Lemma rest_calls n a : rimt (call E (exec E n) a) (call E (exec E (n + K)) a).
  Proof. apply rest_call. apply rest_exec. lia. Qed.
End resting.
