(** The same calls with other lists of hooks. *)
From Verif Require Export IdleSpec BuilderFuel.

(** [s'] is [s] with the hooks [p] and [m]. *)
Definition hooked (s : st) (p : list post_hook) (m : list missing_hook) : st := set_missing (set_post s p) m.

Section sim.
  (** Lists of hooks that go together. *)
  Variable HP : list post_hook -> list missing_hook -> list post_hook -> list missing_hook -> Prop.
  Definition R (s s' : st) : Prop := exists p m, s' = hooked s p m /\ HP (s_post s) (s_missing s) p m.
  Definition sim {A} (m m' : M A) : Prop := forall s s' x t, R s s' -> m s = Some (x, t) -> exists t', m' s' = Some (x, t') /\ R t t'.

  Lemma sim_ret {A} (a : A) : sim (ret a) (ret a).
  Proof. intros s s' x t HR H. injection H as <- <-. now exists s'. Qed.
  Lemma sim_raise {A} e : sim (@raise A e) (raise e).
  Proof. intros s s' x t HR H. injection H as <- <-. now exists s'. Qed.
  Lemma sim_of_result {A} (y : result A) : sim (of_result y) (of_result y).
  Proof. intros s s' x t HR H. injection H as <- <-. now exists s'. Qed.
  Lemma sim_none {A} (m : M A) : sim out_of_fuel m.
  Proof. intros s s' x t HR H. discriminate. Qed.
  Lemma sim_assert b : sim (assert b) (assert b).
  Proof. destruct b; [apply sim_ret|apply sim_raise]. Qed.
  Lemma sim_bind {A B} (m m' : M A) (f f' : A -> M B) : sim m m' -> (forall a, sim (f a) (f' a)) -> sim (bind m f) (bind m' f').
  Proof.
    intros H K s s' x t HR Hb. unfold bind in *. destruct (m s) as [[[a|e] s1]|] eqn:Em; [| |discriminate].
    - destruct (H _ _ _ _ HR Em) as [s1' [E1 HR1]]. rewrite E1. exact (K a _ _ _ _ HR1 Hb).
    - destruct (H _ _ _ _ HR Em) as [s1' [E1 HR1]]. rewrite E1. injection Hb as <- <-. now exists s1'.
  Qed.
  Lemma sim_attempt {A} (m m' : M A) : sim m m' -> sim (attempt m) (attempt m').
  Proof.
    intros H s s' x t HR Ha. unfold attempt in *. destruct (m s) as [[y s1]|] eqn:Em; [|discriminate].
    destruct (H _ _ _ _ HR Em) as [s1' [E1 HR1]]. rewrite E1. injection Ha as <- <-. now exists s1'.
  Qed.
  Lemma sim_iter {A} (f f' : A -> M unit) l : (forall a, sim (f a) (f' a)) -> sim (iter f l) (iter f' l).
  Proof. intros H. induction l as [|x l IH]; cbn [iter]; [apply sim_ret|]. apply sim_bind; [apply H|]. intros _. exact IH. Qed.
  Lemma sim_gets {A} (f : st -> A) : (forall s p m, f (hooked s p m) = f s) -> sim (gets f) (gets f).
  Proof.
    intros Hf s s' x t [p [m [-> Hh]]] H. injection H as <- <-. exists (hooked s p m). split; [|now exists p, m].
    unfold gets. now rewrite Hf.
  Qed.
  Lemma sim_modify f : (forall s p m, f (hooked s p m) = hooked (f s) p m) -> (forall s, s_post (f s) = s_post s /\ s_missing (f s) = s_missing s) -> sim (modify f) (modify f).
  Proof.
    intros Hf Hk s s' x t [p [m [-> Hh]]] H. injection H as <- <-. exists (hooked (f s) p m). split.
    - unfold modify. now rewrite Hf.
    - exists p, m. split; [reflexivity|]. destruct (Hk s) as [-> ->]. exact Hh.
  Qed.
  Lemma sim_saved {A} (m m' : M A) : sim m m' -> sim (saved_stack m) (saved_stack m').
  Proof.
    intros H s s' x t [p [q [-> Hh]]] Hs. unfold saved_stack in *.
    destruct (m (set_saved (set_stack s []) (s_stack s :: s_saved s))) as [[y s1]|] eqn:Em; [|discriminate]. injection Hs as <- <-.
    destruct (H _ (hooked (set_saved (set_stack s []) (s_stack s :: s_saved s)) p q) _ _ (ex_intro _ p (ex_intro _ q (conj eq_refl Hh))) Em) as [s1' [E1 [p1 [q1 [-> Hh1]]]]].
    change (set_saved (set_stack (hooked s p q) []) (s_stack (hooked s p q) :: s_saved (hooked s p q)))
      with (hooked (set_saved (set_stack s []) (s_stack s :: s_saved s)) p q). rewrite E1.
    exists (hooked (set_saved (set_stack s1 (s_stack s1 ++ s_stack s)) (tl (s_saved s1))) p1 q1).
    split; [reflexivity|]. exists p1, q1. split; [reflexivity|exact Hh1].
  Qed.
  Lemma sim_lift f : sim (lift_graph f) (lift_graph f).
  Proof.
    intros s s' x t [p [m [-> Hh]]] H. unfold lift_graph in *. cbn [hooked set_missing set_post s_graph].
    destruct (f (s_graph s)) as [g|e]; injection H as <- <-.
    - exists (hooked (set_graph s g) p m). split; [reflexivity|]. now exists p, m.
    - exists (hooked s p m). split; [reflexivity|]. now exists p, m.
  Qed.
  Lemma sim_ask {A} (f : nat -> A) : sim (ask f) (ask f).
  Proof.
    intros s s' x t [p [m [-> Hh]]] H. injection H as <- <-. exists (hooked (tick s) p m). split; [reflexivity|]. now exists p, m.
  Qed.
  Lemma sim_askr {A} (f : nat -> result A) : sim (askr f) (askr f).
  Proof.
    intros s s' x t [p [m [-> Hh]]] H. injection H as <- <-. exists (hooked (tick s) p m). split; [reflexivity|]. now exists p, m.
  Qed.
  Lemma sim_find_spec E n : sim (find_spec E n) (find_spec E n).
  Proof.
    intros s s' x t [p [m [-> Hh]]] H. injection H as <- <-. exists (hooked (tick s) p m). split; [reflexivity|]. now exists p, m.
  Qed.
  Lemma sim_in_sysmod E n : sim (in_sysmod E n) (in_sysmod E n).
  Proof.
    intros s s' x t [p [m [-> Hh]]] H. injection H as <- <-. exists (hooked (tick s) p m). split; [reflexivity|]. now exists p, m.
  Qed.
  Lemma sim_pop_lazy n : sim (pop_lazy n) (pop_lazy n).
  Proof.
    intros s s' x t [p [m [-> Hh]]] H. unfold pop_lazy in *. cbn [hooked set_missing set_post s_lazy].
    destruct (assoc n (s_lazy s)) as [i|]; injection H as <- <-.
    - eexists. split; [reflexivity|]. exists p, m. split; [reflexivity|exact Hh].
    - eexists. split; [reflexivity|]. exists p, m. split; [reflexivity|exact Hh].
  Qed.

  (** Programs and calls that are allowed. *)
  Variable goodp : prog -> Prop.
  Variable gooda : action -> Prop.
  Hypothesis good_do : forall a k, goodp (PDo a k) -> gooda a /\ forall ans, goodp (k ans).
  Hypothesis good_context : forall p, gooda (AHookContext p) -> goodp p.
  Hypothesis good_post : forall h, gooda (AAddPost h) -> sim (modify (fun s => set_post s (h :: s_post s))) (modify (fun s => set_post s (h :: s_post s))).
  Hypothesis good_missing : forall h, gooda (AAddMissing h) -> sim (modify (fun s => set_missing s (h :: s_missing s))) (modify (fun s => set_missing s (h :: s_missing s))).

  Record sims (r r' : funs) : Prop := {
    sm_find : forall a b c, sim (f_find r a b c) (f_find r' a b c);
    sm_load : forall a b, sim (f_load r a b) (f_load r' a b);
    sm_nfs : forall a, sim (f_nfs r a) (f_nfs r' a);
    sm_run : sim (f_run r) (f_run r');
    sm_prog : forall p, goodp p -> sim (f_prog r p) (f_prog r' p);
    sm_post : forall n, sim (f_post r 0 n) (f_post r' 0 n);
    sm_miss : forall a b, sim (f_miss r 0 a b) (f_miss r' 0 a b)
  }.

  Lemma sim_schedule id l : sim (process_import_list id l) (process_import_list id l).
  Proof.
    apply sim_modify.
    - intros s p m. unfold schedule. cbn. now destruct (memb id (s_seen s)).
    - intros s. unfold schedule. cbn. now destruct (memb id (s_seen s)).
  Qed.

  Ltac sm_step := first
    [ assumption | apply sim_none | apply sim_ret | apply sim_raise | apply sim_of_result | apply sim_assert
    | apply sm_find; assumption | apply sm_load; assumption | apply sm_nfs; assumption | apply sm_run; assumption
    | apply sm_post; assumption | apply sm_miss; assumption
    | apply sim_schedule | apply sim_pop_lazy | apply sim_lift | apply sim_askr | apply sim_ask | apply sim_find_spec | apply sim_in_sysmod
    | apply sim_bind; [|intros ?] | apply sim_attempt | apply sim_iter; intros ? | apply sim_saved
    | apply sim_gets; reflexivity | apply sim_modify; [reflexivity|intros ?; split; reflexivity]
    | match goal with |- sim (match ?x with _ => _ end) (match ?x with _ => _ end) => destruct x end ].
  Ltac sm_unfold := unfold add_node, user_add_node, add_edge, add_root, add_written, push_package, note, kind_test, get_node, find_module, insert_work, reexported, del_sysmod in *.
  Ltac sm_all := sm_unfold; repeat sm_step.

  Section bodies.
    Variable E : env.
    Variables r r' : funs.
    Hypothesis H : sims r r'.

    Lemma sm_create_missing a b : sim (create_missing r a b) (create_missing r' a b).
    Proof. unfold create_missing. sm_all. Qed.
    Lemma sm_implied_node k a b : sim (implied_node r k a b) (implied_node r' k a b).
    Proof. unfold implied_node. sm_all. Qed.
    Lemma sm_implied_references a b : sim (implied_references r a b) (implied_references r' a b).
    Proof. unfold implied_references. sm_unfold. repeat first [apply sm_implied_node|sm_step]. Qed.
    Lemma sm_spec_or_none n : sim (spec_or_none E n) (spec_or_none E n).
    Proof. unfold spec_or_none. sm_all. Qed.
    Lemma sm_load_failed a b e : sim (load_failed E r a b e) (load_failed E r' a b e).
    Proof. unfold load_failed. repeat first [apply sm_create_missing|sm_step]. Qed.
    Lemma sm_load_spec a b : sim (load_spec r a b) (load_spec r' a b).
    Proof. unfold load_spec. sm_all. Qed.
    Lemma sm_load_body a b : sim (load_body E r a b) (load_body E r' a b).
    Proof. unfold load_body. sm_unfold. repeat first [apply sm_create_missing|apply sm_load_failed|apply sm_load_spec|apply sm_spec_or_none|sm_step]. Qed.
    Lemma sm_find_body a b c : sim (find_body r a b c) (find_body r' a b c).
    Proof. unfold find_body. sm_unfold. repeat first [apply sm_create_missing|apply sm_implied_references|sm_step]. Qed.
    Lemma sm_nfs_body a : sim (nfs_body E (f_nfs r) a) (nfs_body E (f_nfs r') a).
    Proof. unfold nfs_body, six_spec, vendor_spec, distutils_spec, wrap_package, source_imports, code_info, dist_of. sm_all. Qed.
    Lemma sm_process_import a b : sim (process_import r a b) (process_import r' a b).
    Proof. unfold process_import. sm_all. Qed.
    Lemma sm_process_name n m k i nm : sim (process_name r n m k i nm) (process_name r' n m k i nm).
    Proof. unfold process_name. sm_all. Qed.
    Lemma sm_process_namelist n m i : sim (process_namelist r n m i) (process_namelist r' n m i).
    Proof. unfold process_namelist. sm_unfold. repeat first [apply sm_process_name|sm_step]. Qed.
    Lemma sm_add_script a : sim (add_script E r a) (add_script E r' a).
    Proof. unfold add_script. sm_all. Qed.
    Lemma sm_add_module a : sim (add_module r a) (add_module r' a).
    Proof. unfold add_module. sm_all. Qed.
    Lemma sm_add_source a : sim (add_source E r a) (add_source E r' a).
    Proof. unfold add_source. repeat first [apply sm_add_module|sm_step]. Qed.
    Lemma sm_add_distribution a : sim (add_distribution E r a) (add_distribution E r' a).
    Proof. unfold add_distribution. sm_all. Qed.
    Lemma sm_add_distribution_named a : sim (add_distribution_named E r a) (add_distribution_named E r' a).
    Proof. unfold add_distribution_named. repeat first [apply sm_add_distribution|sm_step]. Qed.
    Lemma sm_import_module a b : sim (import_module r a b) (import_module r' a b).
    Proof. unfold import_module. sm_all. Qed.
    Lemma sm_import_directory a b c : sim (import_directory E r a b c) (import_directory E r' a b c).
    Proof. unfold import_directory. sm_all. Qed.
    Lemma sm_import_package a b : sim (import_package E r a b) (import_package E r' a b).
    Proof. unfold import_package. sm_unfold. repeat first [apply sm_import_directory|sm_step]. Qed.
    Lemma sm_hook_context p : goodp p -> sim (hook_context r p) (hook_context r' p).
    Proof. intros Hp. unfold hook_context. apply sim_bind; [apply sim_attempt; now apply sm_prog|]. intros x. sm_all. Qed.
    Lemma sm_do_action a : gooda a -> sim (do_action E r a) (do_action E r' a).
    Proof.
      intros Ha. destruct a; cbn [do_action]; sm_unfold;
        repeat first [apply sm_add_script|apply sm_add_module|apply sm_add_source|apply sm_add_distribution
        |apply sm_add_distribution_named|apply sm_import_module|apply sm_import_package|apply sm_hook_context; now apply good_context
        |apply good_post; assumption|apply good_missing; assumption|sm_step].
    Qed.
    Lemma sm_call a : gooda a -> sim (call E r a) (call E r' a).
    Proof. intros Ha. unfold call. sm_unfold. repeat first [now apply sm_do_action|sm_step]. Qed.
    Lemma sm_run_prog p : goodp p -> sim (run_prog E r p) (run_prog E r' p).
    Proof.
      revert p. fix IH 1. intros [o|e|a k] Hp; cbn [run_prog]; [apply sim_ret|apply sim_raise|].
      destruct (good_do _ _ Hp) as [Ha Hk]. apply sim_bind; [now apply sm_call|]. intros ans. apply IH. apply Hk.
    Qed.
    Lemma sm_do_work w : sim (do_work E r w) (do_work E r' w).
    Proof.
      destruct w; cbn [do_work]; sm_unfold; repeat first [apply sm_process_import|apply sm_process_namelist|apply sm_import_package|sm_step].
    Qed.
    Lemma sm_run_body : sim (run_body E r) (run_body E r').
    Proof.
      intros s s' x t [p [m [-> Hh]]] K. unfold run_body in *. cbn [hooked set_missing set_post s_stack].
      destruct (s_stack s) as [|w rest].
      - injection K as <- <-. eexists. split; [reflexivity|]. now exists p, m.
      - destruct (do_work E r w _) as [[[u|e] s1]|] eqn:Ew; [| |discriminate].
        + destruct (sm_do_work w _ (hooked (log (set_run (set_stack s rest) (w :: s_run s)) (EvPop w)) p m) _ _ (ex_intro _ p (ex_intro _ m (conj eq_refl Hh))) Ew)
            as [s1' [E1 [p1 [m1 [-> Hh1]]]]].
          match goal with |- context [do_work E r' w ?u] => change u with (hooked (log (set_run (set_stack s rest) (w :: s_run s)) (EvPop w)) p m) end.
          rewrite E1. eapply (sm_run _ _ H); [|exact K]. exists p1, m1. split; [reflexivity|exact Hh1].
        + destruct (sm_do_work w _ (hooked (log (set_run (set_stack s rest) (w :: s_run s)) (EvPop w)) p m) _ _ (ex_intro _ p (ex_intro _ m (conj eq_refl Hh))) Ew)
            as [s1' [E1 [p1 [m1 [-> Hh1]]]]].
          match goal with |- context [do_work E r' w ?u] => change u with (hooked (log (set_run (set_stack s rest) (w :: s_run s)) (EvPop w)) p m) end.
          rewrite E1. injection K as <- <-. eexists. split; [reflexivity|]. exists p1, m1. split; [reflexivity|exact Hh1].
    Qed.
  End bodies.
End sim.

(** ** Idle programs *)
Lemma idle_run E r ret p s : only_looks ret p -> exists o, run_prog E r p s = Some (ROk o, s) /\ ret o.
Proof.
  intros H. induction H as [o Ho|k Hk IH].
  - now exists o.
  - destruct (IH (AnsGraph (s_graph s) (s_mem s))) as [o [Ho Hr]]. exists o. split; [|exact Hr]. cbn [run_prog]. exact Ho.
Qed.

Inductive alike_k {H : Type} (idle : H -> Prop) : nat -> list H -> list H -> Prop :=
| kk_nil : alike_k idle 0 [] []
| kk_both k h l l' : alike_k idle k l l' -> alike_k idle k (h :: l) (h :: l')
| kk_left k h l l' : idle h -> alike_k idle k l l' -> alike_k idle k (h :: l) l'
| kk_right k h l l' : idle h -> alike_k idle k l l' -> alike_k idle (S k) l (h :: l').
Lemma alike_count {H} (idle : H -> Prop) l l' : alike idle l l' -> exists k, alike_k idle k l l'.
Proof.
  induction 1 as [|h l l' _ [k IH]|h l l' Hi _ [k IH]|h l l' Hi _ [k IH]]; eexists; constructor; eassumption.
Qed.
Lemma alike_sym {H} (idle : H -> Prop) l l' : alike idle l l' -> alike idle l' l.
Proof. induction 1; now constructor. Qed.
Lemma skipn_cons {A} (l : list A) i h r : skipn i l = h :: r -> nth_error l i = Some h /\ skipn (S i) l = r.
Proof.
  revert i. induction l as [|x l IH]; intros [|i] H; cbn in *; try discriminate.
  - now injection H as -> ->.
  - destruct (IH _ H) as [? ?]. now split.
Qed.
Lemma skipn_end {A} (l : list A) i : skipn i l = [] -> nth_error l i = None.
Proof. revert i. induction l as [|x l IH]; intros [|i] H; cbn in *; try discriminate; auto. Qed.

Section steady.
  Variable E : env.
  Variables (P P' : list post_hook) (Q Q' : list missing_hook).
  Hypothesis SP : Forall steady_post P.
  Hypothesis SQ : Forall steady_missing Q.
  Variable K kp kq : nat.
  Hypothesis AP : alike_k idle_post kp P P'.
  Hypothesis AQ : alike_k idle_missing kq Q Q'.
  Hypothesis LP : kp <= K.
  Hypothesis LQ : kq <= K.

  Definition fixed p m p' m' : Prop := p = P /\ m = Q /\ p' = P' /\ m' = Q'.
  Definition steady_action (a : action) : Prop := match a with AAddPost _ | AAddMissing _ => False | AHookContext p => steady p | _ => True end.
  Notation simf := (sim fixed).
  Notation simsf := (sims fixed steady).

  Lemma sd_inv a k : steady (PDo a k) -> steady_action a /\ forall ans, steady (k ans).
  Proof. intros H. inversion H as [| |a0 k0 Ha Hk|p k0 Hp Hk]; subst; [|now split]. split; [now destruct a|exact Hk]. Qed.

  Lemma steady_prog r r' p : simsf r r' -> steady p -> simf (run_prog E r p) (run_prog E r' p).
  Proof.
    intros H Hp. apply (sm_run_prog fixed steady steady_action); [exact sd_inv|intros ? X; exact X|intros ? []|intros ? []|exact H|exact Hp].
  Qed.
  Lemma steady_run r r' : simsf r r' -> simf (run_body E r) (run_body E r').
  Proof. intros H. now apply (sm_run_body fixed steady). Qed.

  Definition need (n k : nat) : nat := match n with 0 => 0 | S n => n * (K + 1) + 1 + k end.
  Lemma need_le n k : k <= K -> need n k <= n * (K + 1).
  Proof. intros H. destruct n; cbn; lia. Qed.

  Lemma R_posts s s' : R fixed s s' -> s_post s = P /\ s_missing s = Q /\ s_post s' = P' /\ s_missing s' = Q'.
  Proof. intros [p [m [-> [H1 [H2 [-> ->]]]]]]. cbn. auto. Qed.

  Lemma post_at r i n s h : nth_error (s_post s) i = Some h -> post_body E r i n s = (do run_prog E r (h n) ;; f_post r (S i) n) s.
  Proof. intros H. unfold post_body, bind at 1, gets. now rewrite H. Qed.
  Lemma post_none r i n s : nth_error (s_post s) i = None -> post_body E r i n s = Some (ROk tt, s).
  Proof. intros H. unfold post_body, bind at 1, gets. now rewrite H. Qed.
  Lemma miss_at r i im n s h : nth_error (s_missing s) i = Some h ->
    miss_body E r i im n s = (a <- run_prog E r (h im n) ;; match a with Some id => ret (Some id) | None => f_miss r (S i) im n end) s.
  Proof. intros H. unfold miss_body, bind at 1, gets. now rewrite H. Qed.
  Lemma miss_none r i im n s : nth_error (s_missing s) i = None -> miss_body E r i im n s = Some (ROk None, s).
  Proof. intros H. unfold miss_body, bind at 1, gets. now rewrite H. Qed.

  Definition posts (n : nat) : Prop := forall k n' i i' nm, alike_k idle_post k (skipn i P) (skipn i' P') -> k <= K -> need n k <= n' ->
    simf (f_post (exec E n) i nm) (f_post (exec E n') i' nm).
  Definition misses (n : nat) : Prop := forall k n' i i' im nm, alike_k idle_missing k (skipn i Q) (skipn i' Q') -> k <= K -> need n k <= n' ->
    simf (f_miss (exec E n) i im nm) (f_miss (exec E n') i' im nm).

  Lemma posts_step n : (forall n', n * (K + 1) <= n' -> simsf (exec E n) (exec E n')) -> posts n -> posts (S n).
  Proof.
    intros Hall IHn k n' i i' nm Ha. remember (skipn i P) as l eqn:El. remember (skipn i' P') as l' eqn:El'.
    revert n' i i' El El'. induction Ha as [|k h l l' Ha IH|k h l l' Hi Ha IH|k h l l' Hi Ha IH]; intros n' i i' El El' Hk Hn; destruct n' as [|m]; try (cbn in Hn; lia); cbn [need] in Hn.
    - intros s s' x t HR H. destruct (R_posts _ _ HR) as [HP [_ [HP' _]]]. cbn [exec f_post] in *.
      rewrite post_none in H by (rewrite HP; now apply skipn_end). injection H as <- <-.
      rewrite post_none by (rewrite HP'; now apply skipn_end). now exists s'.
    - destruct (skipn_cons _ _ _ _ (eq_sym El)) as [Hh Hl]. destruct (skipn_cons _ _ _ _ (eq_sym El')) as [Hh' Hl'].
      intros s s' x t HR H. destruct (R_posts _ _ HR) as [HP [_ [HP' _]]]. cbn [exec f_post] in *.
      rewrite (post_at _ _ _ _ h) in H by now rewrite HP. rewrite (post_at _ _ _ _ h) by now rewrite HP'.
      revert H. apply (sim_bind fixed); [| |exact HR].
      + apply steady_prog; [apply Hall; lia|]. rewrite Forall_forall in SP. apply SP. eapply nth_error_In. exact Hh.
      + intros _. apply (IHn k); [now rewrite Hl, Hl'|exact Hk|]. pose proof (need_le n k Hk). lia.
    - destruct (skipn_cons _ _ _ _ (eq_sym El)) as [Hh Hl].
      intros s s' x t HR H. destruct (R_posts _ _ HR) as [HP [_ [HP' _]]]. cbn [exec f_post] in H.
      rewrite (post_at _ _ _ _ h) in H by now rewrite HP. unfold bind in H. destruct (idle_run E (exec E n) _ _ s (Hi nm)) as [o [Ho _]]. rewrite Ho in H.
      apply (IHn k (S m) (S i) i' nm) with (s := s); [|exact Hk|pose proof (need_le n k Hk); lia|exact HR|exact H]. rewrite Hl, <- El'. exact Ha.
    - destruct (skipn_cons _ _ _ _ (eq_sym El')) as [Hh' Hl'].
      intros s s' x t HR H. destruct (R_posts _ _ HR) as [HP [_ [HP' _]]].
      destruct (IH m i (S i') El (eq_sym Hl') (ltac:(lia)) (ltac:(cbn [need]; lia)) _ _ _ _ HR H) as [t' [Ht HRt]].
      exists t'. split; [|exact HRt]. change (f_post (exec E (S m)) i' nm s') with (post_body E (exec E m) i' nm s'). rewrite (post_at _ _ _ _ h) by now rewrite HP'.
      unfold bind. destruct (idle_run E (exec E m) _ _ s' (Hi nm)) as [o [Ho _]]. rewrite Ho. exact Ht.
  Qed.
  Lemma misses_step n : (forall n', n * (K + 1) <= n' -> simsf (exec E n) (exec E n')) -> misses n -> misses (S n).
  Proof.
    intros Hall IHn k n' i i' im nm Ha. remember (skipn i Q) as l eqn:El. remember (skipn i' Q') as l' eqn:El'.
    revert n' i i' El El'. induction Ha as [|k h l l' Ha IH|k h l l' Hi Ha IH|k h l l' Hi Ha IH]; intros n' i i' El El' Hk Hn; destruct n' as [|m]; try (cbn in Hn; lia); cbn [need] in Hn.
    - intros s s' x t HR H. destruct (R_posts _ _ HR) as [_ [HP [_ HP']]]. cbn [exec f_miss] in *.
      rewrite miss_none in H by (rewrite HP; now apply skipn_end). injection H as <- <-.
      rewrite miss_none by (rewrite HP'; now apply skipn_end). now exists s'.
    - destruct (skipn_cons _ _ _ _ (eq_sym El)) as [Hh Hl]. destruct (skipn_cons _ _ _ _ (eq_sym El')) as [Hh' Hl'].
      intros s s' x t HR H. destruct (R_posts _ _ HR) as [_ [HP [_ HP']]]. cbn [exec f_miss] in *.
      rewrite (miss_at _ _ _ _ _ h) in H by now rewrite HP. rewrite (miss_at _ _ _ _ _ h) by now rewrite HP'.
      revert H. apply (sim_bind fixed); [| |exact HR].
      + apply steady_prog; [apply Hall; lia|]. rewrite Forall_forall in SQ. apply SQ. eapply nth_error_In. exact Hh.
      + intros [id|]; [apply sim_ret|]. apply (IHn k); [now rewrite Hl, Hl'|exact Hk|]. pose proof (need_le n k Hk). lia.
    - destruct (skipn_cons _ _ _ _ (eq_sym El)) as [Hh Hl].
      intros s s' x t HR H. destruct (R_posts _ _ HR) as [_ [HP [_ HP']]]. cbn [exec f_miss] in H.
      rewrite (miss_at _ _ _ _ _ h) in H by now rewrite HP. unfold bind in H. destruct (idle_run E (exec E n) _ _ s (Hi im nm)) as [o [Ho Hno]]. rewrite Ho in H.
      cbn in Hno. subst o.
      apply (IHn k (S m) (S i) i' im nm) with (s := s); [|exact Hk|pose proof (need_le n k Hk); lia|exact HR|exact H]. rewrite Hl, <- El'. exact Ha.
    - destruct (skipn_cons _ _ _ _ (eq_sym El')) as [Hh' Hl'].
      intros s s' x t HR H. destruct (R_posts _ _ HR) as [_ [HP [_ HP']]].
      destruct (IH m i (S i') El (eq_sym Hl') (ltac:(lia)) (ltac:(cbn [need]; lia)) _ _ _ _ HR H) as [t' [Ht HRt]].
      exists t'. split; [|exact HRt]. change (f_miss (exec E (S m)) i' im nm s') with (miss_body E (exec E m) i' im nm s'). rewrite (miss_at _ _ _ _ _ h) by now rewrite HP'.
      unfold bind. destruct (idle_run E (exec E m) _ _ s' (Hi im nm)) as [o [Ho Hno]]. rewrite Ho. cbn in Hno. subst o. exact Ht.
  Qed.

  Lemma sims_exec n : (forall n', n * (K + 1) <= n' -> simsf (exec E n) (exec E n')) /\ posts n /\ misses n.
  Proof.
    induction n as [|n [IH [IHp IHm]]].
    - split; [|split].
      + intros n' _. constructor; intros; apply sim_none.
      + intros k n' i i' nm _ _ _. apply sim_none.
      + intros k n' i i' im nm _ _ _. apply sim_none.
    - pose proof (posts_step n IH IHp) as Sp. pose proof (misses_step n IH IHm) as Sm. split; [|now split].
      intros n' Hn. destruct n' as [|m]; [lia|]. assert (Hm : simsf (exec E n) (exec E m)) by (apply IH; lia).
      constructor.
      + intros. now apply (sm_find_body fixed steady).
      + intros. now apply (sm_load_body fixed steady).
      + intros. now apply (sm_nfs_body fixed steady).
      + now apply steady_run.
      + intros p Hp. now apply steady_prog.
      + intros nm. apply (Sp kp); [exact AP|exact LP|]. pose proof (need_le (S n) kp LP). lia.
      + intros im nm. apply (Sm kq); [exact AQ|exact LQ|]. pose proof (need_le (S n) kq LQ). lia.
  Qed.

  Lemma steady_calls n a : steady_action a -> simf (call E (exec E n) a) (call E (exec E (n * (K + 1))) a).
  Proof.
    intros Ha. apply (sm_call fixed steady steady_action); [intros ? X; exact X|intros ? []|intros ? []| |exact Ha].
    apply sims_exec. lia.
  Qed.
End steady.

(** ** Idle hooks at the end of the lists *)
Section tail.
  Variable E : env.
  Variables L L' : list post_hook.
  Variables N N' : list missing_hook.
  Hypothesis IL : Forall idle_post L.
  Hypothesis IL' : Forall idle_post L'.
  Hypothesis IN : Forall idle_missing N.
  Hypothesis IN' : Forall idle_missing N'.
  Let K := List.length L' + List.length N'.

  Definition tails p m p' m' : Prop := exists c d, p = c ++ L /\ m = d ++ N /\ p' = c ++ L' /\ m' = d ++ N'.
  Notation any := (fun _ : prog => True).
  Notation anya := (fun _ : action => True).
  Notation simt := (sim tails).
  Notation simst := (sims tails any).

  Lemma tails_post h : simt (modify (fun s => set_post s (h :: s_post s))) (modify (fun s => set_post s (h :: s_post s))).
  Proof.
    intros s s' x t [p [m [-> [c [d [H1 [H2 [-> ->]]]]]]]] H. injection H as <- <-. eexists. split; [reflexivity|].
    exists (h :: c ++ L'), (d ++ N'). split; [reflexivity|]. exists (h :: c), d. cbn. rewrite H1. auto.
  Qed.
  Lemma tails_missing h : simt (modify (fun s => set_missing s (h :: s_missing s))) (modify (fun s => set_missing s (h :: s_missing s))).
  Proof.
    intros s s' x t [p [m [-> [c [d [H1 [H2 [-> ->]]]]]]]] H. injection H as <- <-. eexists. split; [reflexivity|].
    exists (c ++ L'), (h :: d ++ N'). split; [reflexivity|]. exists c, (h :: d). cbn. rewrite H2. auto.
  Qed.

  Lemma tail_prog r r' p : simst r r' -> simt (run_prog E r p) (run_prog E r' p).
  Proof.
    intros H. apply (sm_run_prog tails any anya); auto using tails_post, tails_missing.
  Qed.
  Lemma tail_call r r' a : simst r r' -> simt (call E r a) (call E r' a).
  Proof.
    intros H. apply (sm_call tails any anya); auto using tails_post, tails_missing.
  Qed.

  Lemma tail_nth {A} (I : A -> Prop) (c l : list A) i h : Forall I l -> List.length c <= i -> nth_error (c ++ l) i = Some h -> I h.
  Proof.
    intros Hl Hi Hh. rewrite nth_error_app2 in Hh by lia. rewrite Forall_forall in Hl. apply Hl. eapply nth_error_In. exact Hh.
  Qed.
  Lemma post_done l c : Forall idle_post l -> forall n i nm s y, s_post s = c ++ l -> List.length c <= i ->
    f_post (exec E n) i nm s = Some y -> y = (ROk tt, s).
  Proof.
    intros Hl. induction n as [|n IH]; intros i nm s y Hs Hi H; [discriminate|]. cbn [exec f_post] in H.
    destruct (nth_error (s_post s) i) as [h|] eqn:Eh.
    - rewrite (post_at _ _ _ _ _ h Eh) in H. rewrite Hs in Eh. pose proof (tail_nth _ _ _ _ _ Hl Hi Eh) as Hid.
      unfold bind in H. destruct (idle_run E (exec E n) _ _ s (Hid nm)) as [o [Ho _]]. rewrite Ho in H.
      apply (IH (S i) nm s y Hs); [lia|exact H].
    - rewrite (post_none _ _ _ _ _ Eh) in H. now injection H as <-.
  Qed.
  Lemma post_runs l c : Forall idle_post l -> forall n i nm s, s_post s = c ++ l -> List.length c <= i ->
    List.length c + List.length l + 1 <= n + i -> 1 <= n -> f_post (exec E n) i nm s = Some (ROk tt, s).
  Proof.
    intros Hl. induction n as [|n IH]; intros i nm s Hs Hi Hn Hn1; [lia|]. cbn [exec f_post].
    destruct (nth_error (s_post s) i) as [h|] eqn:Eh.
    - rewrite (post_at _ _ _ _ _ h Eh). rewrite Hs in Eh. pose proof (tail_nth _ _ _ _ _ Hl Hi Eh) as Hid.
      assert (Hlen : i < List.length (c ++ l)) by (apply nth_error_Some; congruence). rewrite app_length in Hlen.
      unfold bind. destruct (idle_run E (exec E n) _ _ s (Hid nm)) as [o [Ho _]]. rewrite Ho. apply IH; [exact Hs|lia|lia|lia].
    - now rewrite (post_none _ _ _ _ _ Eh).
  Qed.
  Lemma miss_done l c : Forall idle_missing l -> forall n i im nm s y, s_missing s = c ++ l -> List.length c <= i ->
    f_miss (exec E n) i im nm s = Some y -> y = (ROk None, s).
  Proof.
    intros Hl. induction n as [|n IH]; intros i im nm s y Hs Hi H; [discriminate|]. cbn [exec f_miss] in H.
    destruct (nth_error (s_missing s) i) as [h|] eqn:Eh.
    - rewrite (miss_at _ _ _ _ _ _ h Eh) in H. rewrite Hs in Eh. pose proof (tail_nth _ _ _ _ _ Hl Hi Eh) as Hid.
      unfold bind in H. destruct (idle_run E (exec E n) _ _ s (Hid im nm)) as [o [Ho Hno]]. rewrite Ho in H. cbn in Hno. subst o.
      apply (IH (S i) im nm s y Hs); [lia|exact H].
    - rewrite (miss_none _ _ _ _ _ _ Eh) in H. now injection H as <-.
  Qed.
  Lemma miss_runs l c : Forall idle_missing l -> forall n i im nm s, s_missing s = c ++ l -> List.length c <= i ->
    List.length c + List.length l + 1 <= n + i -> 1 <= n -> f_miss (exec E n) i im nm s = Some (ROk None, s).
  Proof.
    intros Hl. induction n as [|n IH]; intros i im nm s Hs Hi Hn Hn1; [lia|]. cbn [exec f_miss].
    destruct (nth_error (s_missing s) i) as [h|] eqn:Eh.
    - rewrite (miss_at _ _ _ _ _ _ h Eh). rewrite Hs in Eh. pose proof (tail_nth _ _ _ _ _ Hl Hi Eh) as Hid.
      assert (Hlen : i < List.length (c ++ l)) by (apply nth_error_Some; congruence). rewrite app_length in Hlen.
      unfold bind. destruct (idle_run E (exec E n) _ _ s (Hid im nm)) as [o [Ho Hno]]. rewrite Ho. cbn in Hno. subst o. apply IH; [exact Hs|lia|lia|lia].
    - now rewrite (miss_none _ _ _ _ _ _ Eh).
  Qed.

  Lemma tail_exec n : forall n', n + K <= n' -> simst (exec E n) (exec E n')
    /\ (forall i nm, simt (f_post (exec E n) i nm) (f_post (exec E n') i nm))
    /\ (forall i im nm, simt (f_miss (exec E n) i im nm) (f_miss (exec E n') i im nm)).
  Proof.
    induction n as [|n IH]; intros n' Hn.
    - split; [constructor; intros; apply sim_none|]. split; intros; apply sim_none.
    - destruct n' as [|m]; [lia|]. destruct (IH m ltac:(lia)) as [Hm [Hp Hq]].
      assert (Sp : forall i nm, simt (f_post (exec E (S n)) i nm) (f_post (exec E (S m)) i nm)).
      { intros i nm s s' x t HR H. destruct HR as [p [q [-> [c [d [H1 [H2 [-> ->]]]]]]]].
        destruct (Nat.lt_ge_cases i (List.length c)) as [Hi|Hi].
        - destruct (nth_error c i) as [h|] eqn:Eh; [|apply nth_error_None in Eh; lia].
          cbn [exec f_post] in H |- *. rewrite (post_at _ _ _ _ _ h) in H by (rewrite H1; rewrite nth_error_app1; [exact Eh|exact Hi]).
          rewrite (post_at _ _ _ _ _ h) by (cbn; rewrite nth_error_app1; [exact Eh|exact Hi]).
          revert H. apply (sim_bind tails); [now apply tail_prog|intros _; apply Hp|].
          exists (c ++ L'), (d ++ N'). split; [reflexivity|]. exists c, d. auto.
        - pose proof (post_done L c IL (S n) i nm s _ H1 Hi H) as Hd. injection Hd as -> ->.
          exists (hooked s (c ++ L') (d ++ N')). split.
          + apply (post_runs L' c IL'); [reflexivity|exact Hi|subst K; lia|lia].
          + exists (c ++ L'), (d ++ N'). split; [reflexivity|]. exists c, d. auto. }
      assert (Sq : forall i im nm, simt (f_miss (exec E (S n)) i im nm) (f_miss (exec E (S m)) i im nm)).
      { intros i im nm s s' x t HR H. destruct HR as [p [q [-> [c [d [H1 [H2 [-> ->]]]]]]]].
        destruct (Nat.lt_ge_cases i (List.length d)) as [Hi|Hi].
        - destruct (nth_error d i) as [h|] eqn:Eh; [|apply nth_error_None in Eh; lia].
          cbn [exec f_miss] in H |- *. rewrite (miss_at _ _ _ _ _ _ h) in H by (rewrite H2; rewrite nth_error_app1; [exact Eh|exact Hi]).
          rewrite (miss_at _ _ _ _ _ _ h) by (cbn; rewrite nth_error_app1; [exact Eh|exact Hi]).
          revert H. apply (sim_bind tails); [now apply tail_prog|intros [o|]; [apply sim_ret|apply Hq]|].
          exists (c ++ L'), (d ++ N'). split; [reflexivity|]. exists c, d. auto.
        - pose proof (miss_done N d IN (S n) i im nm s _ H2 Hi H) as Hd. injection Hd as -> ->.
          exists (hooked s (c ++ L') (d ++ N')). split.
          + apply (miss_runs N' d IN'); [reflexivity|exact Hi|subst K; lia|lia].
          + exists (c ++ L'), (d ++ N'). split; [reflexivity|]. exists c, d. auto. }
      split; [|now split]. constructor.
      + intros. now apply (sm_find_body tails any).
      + intros. now apply (sm_load_body tails any).
      + intros. now apply (sm_nfs_body tails any).
      + now apply (sm_run_body tails any).
      + intros p _. now apply tail_prog.
      + intros nm. apply Sp.
      + intros im nm. apply Sq.
  Qed.

  Lemma tail_calls n a : simt (call E (exec E n) a) (call E (exec E (n + K)) a).
  Proof. apply tail_call. apply tail_exec. lia. Qed.
End tail.
