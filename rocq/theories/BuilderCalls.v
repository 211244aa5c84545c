(** What the API calls have achieved when they return. *)
From Verif Require Export BuilderKinds.

Definition rooted (s : st) (id : string) : Prop := in_graph s id /\ In id (g_roots (s_graph s)).
Lemma grows_rooted s s' id : grows s s' -> rooted s id -> rooted s' id.
Proof.
  intros G [A B]. split; [eapply grows_in_graph; eassumption|]. now apply (gr_roots _ _ (gw_graph _ _ G)).
Qed.

Lemma cwp_root_in P id s (Q : unit -> st -> Prop) :
  (forall s', grows s s' -> linv s' -> rooted s' id -> Q tt s') -> cwp P (add_root id) s Q.
Proof.
  intros K. apply cwp_linv. intros L0 L r s' E. destruct (cwp_root P id s (fun _ _ => True) (fun _ _ _ => I) L r s' E) as (G & L' & D).
  split; [exact G|]. split; [exact L'|]. destruct r as [[]|]; [|exact I]. destruct D as [D _]. split; [exact D|].
  apply K; [exact G|exact L'|]. unfold add_root, lift_graph in E.
  destruct (gadd_root (s_graph s) id) as [g|e] eqn:Eg; [|discriminate]. injection E as <-.
  apply gadd_root_spec in Eg as (A & ->). split; [exact A|]. cbn. apply set_add_In. now left.
Qed.
Lemma cwp_user_node_in P n s (Q : unit -> st -> Prop) :
  (forall s', grows s s' -> linv s' -> gfind (s_graph s') (n_name n) = Some n -> Q tt s') -> cwp P (user_add_node n) s Q.
Proof.
  intros K. apply cwp_linv. intros L0 L r s' E. destruct (cwp_user_node P n s (fun _ _ => True) (fun _ _ _ => I) L r s' E) as (G & L' & D).
  split; [exact G|]. split; [exact L'|]. destruct r as [[]|]; [|exact I]. destruct D as [D _]. split; [exact D|].
  apply K; [exact G|exact L'|]. unfold user_add_node, lift_graph in E.
  destruct (gadd_node (s_graph s) n) as [g|e] eqn:Eg; [|discriminate]. injection E as <-.
  apply gadd_node_spec in Eg as (A & ->). now apply gfind_new.
Qed.

Section calls.
  Variable E : env.
  Variable r : funs.
  Hypothesis R : closes r.

  Lemma cwp_root_run_in id s :
    cwp none (do note (EvRoot id) ;; do add_root id ;; do f_run r ;; ret id) s (fun x s' => x = id /\ rooted s' id).
  Proof.
    apply cwp_bind, cwp_note; [reflexivity|]. apply cwp_bind, cwp_root_in. intros s1 G1 L1 H1.
    apply cwp_bind. eapply cwp_then; [apply (c_run _ R)|]. intros _ s2 G2 L2 _. apply cwp_ret.
    split; [reflexivity|]. eapply grows_rooted; eassumption.
  Qed.
  Lemma cwp_script path s : cwp none (add_script E r path) s
    (fun x s' => x = path /\ rooted s' path /\ kind_of s' path = Some Script /\ ~ in_graph s path).
  Proof.
    unfold add_script. apply cwp_bind, cwp_find_module. intros [n|] Hn; [apply cwp_raise|].
    apply cwp_bind, cwp_env; [apply envm_askr|]. intros t s1 _ E1 L1.
    destruct (extract_ast_info _ t) as [imports|]; [|apply cwp_oof].
    apply (cwp_new_node_k none (Node path Script [] [] None (Some path) [] false) imports).
    - intros o Ho. destruct o as [? l|w|id c|id a|? ref|? ?]; cbn in Ho; try contradiction.
      + destruct Ho as (_ & _ & Ho). discriminate.
      + destruct Ho as (_ & [Ho|Ho]); discriminate.
    - intros s2 G2 L2 K2. cbn [n_name n_kind] in K2. eapply cwp_then; [apply cwp_root_run_in|].
      intros x s3 G3 L3 [-> H3]. split; [reflexivity|]. split; [exact H3|]. split; [eapply grows_kind; eassumption|].
      unfold in_graph. rewrite <- Hn. auto.
  Qed.
  Lemma cwp_module name s : cwp none (add_module r name) s (fun id s' => resolves s' name id /\ rooted s' id).
  Proof.
    unfold add_module. apply cwp_bind, cwp_find_module. intros n _. apply cwp_bind.
    eapply cwp_conseq with (P := none) (Q := fun id s' => resolves s' name id); [| |auto].
    - destruct n; [apply cwp_ret; now left|]. apply (c_find _ R).
    - intros id s1 G1 L1 _ F. eapply cwp_then; [apply cwp_root_run_in|]. intros x s2 G2 L2 [-> H].
      split; [|exact H]. eapply grows_resolves; eassumption.
  Qed.
  Definition root_for (s : st) (name : string) : Prop := exists id, resolves s name id /\ rooted s id.
  Lemma grows_root_for s s' name : grows s s' -> root_for s name -> root_for s' name.
  Proof.
    intros G (id & A & B). exists id. split; [eapply grows_resolves; eassumption|eapply grows_rooted; eassumption].
  Qed.
  Lemma cwp_source src s : cwp none (add_source E r src) s (fun _ s' =>
    exists t infos, e_parse E (s_clock s) "-source-code-" src = ROk t /\ extract_ast_info (e_names_order E) t = Some infos
      /\ forall i, In i infos -> root_for s' (in_name (ii_module i))
         /\ forall nm, In nm (ii_names i) -> root_for s' (in_name (ii_module i) ++ "." ++ in_name nm)%string).
  Proof.
    unfold add_source. apply cwp_bind, cwp_env; [apply envm_askr|]. intros t s1 Et E1 L1.
    unfold askr in Et. injection Et as Et _.
    destruct (extract_ast_info _ t) as [infos|] eqn:Ei; [|apply cwp_oof].
    eapply cwp_conseq; [apply (cwp_iter none _ (fun i s' => root_for s' (in_name (ii_module i))
         /\ forall nm, In nm (ii_names i) -> root_for s' (in_name (ii_module i) ++ "." ++ in_name nm)%string))| |auto].
    - intros i s2. apply cwp_bind. eapply cwp_then; [apply cwp_module|]. intros id s3 G3 L3 H3.
      eapply cwp_conseq; [apply (cwp_iter none _ (fun nm s' => root_for s' (in_name (ii_module i) ++ "." ++ in_name nm)%string))| |auto].
      + intros nm s4. apply cwp_bind. eapply cwp_then; [apply cwp_module|]. intros id' s5 G5 L5 H5. apply cwp_ret. now exists id'.
      + intros nm s4 s5 G. now apply grows_root_for.
      + intros u s4 G4 L4 _ H4. split; [|exact H4]. eapply grows_root_for; [exact G4|]. now exists id.
    - intros i s2 s3 G [H1 H2]. split; [eapply grows_root_for; eassumption|]. intros nm Hnm. eapply grows_root_for; [exact G|auto].
    - intros u s2 G2 L2 _ H2. exists t, infos. auto.
  Qed.
  Lemma cwp_distribution d s : cwp none (add_distribution E r d) s (fun id s' => id = dist_identifier d /\
    (gfind (s_graph s) id = None -> rooted s' id /\ (exists n, gfind (s_graph s') id = Some n /\ n_kind n = Distribution /\ n_dist n = Some d)
       /\ forall name, In name (e_order E (dist_import_names d)) ->
            exists m, resolves s' name m /\ has_edge (s_graph s') id m default_dep)).
  Proof.
    unfold add_distribution. apply cwp_bind, cwp_get. destruct (gfind (s_graph s) (dist_identifier d)) eqn:Ef.
    { apply cwp_bind, cwp_assert. intros _. apply cwp_ret. split; [reflexivity|]. congruence. }
    apply cwp_bind, cwp_user_node_in. intros s1 G1 L1 H1. cbn [n_name] in H1. apply cwp_bind, cwp_note; [reflexivity|].
    apply cwp_bind, cwp_root_in. intros s2 G2 L2 H2. apply cwp_bind.
    eapply cwp_conseq; [apply (cwp_iter none _ (fun name s' => exists m, resolves s' name m /\
       has_edge (s_graph s') (dist_identifier d) m default_dep))| |auto].
    - intros name s3. apply cwp_bind. eapply cwp_then; [apply (c_find _ R)|]. intros m s4 G4 L4 F4.
      apply cwp_edge. intros s5 G5 L5 He Hr. exists m. split; [now apply Hr|exact He].
    - intros name s3 s4 G (m & A & B). exists m. split; [eapply grows_resolves|eapply grows_edge]; eassumption.
    - intros u s3 G3 L3 _ H3. apply cwp_bind. eapply cwp_then; [apply (c_run _ R)|]. intros _ s4 G4 L4 _. apply cwp_ret.
      split; [reflexivity|]. intros _. split; [|split].
      + eapply grows_rooted; [exact G4|]. eapply grows_rooted; eassumption.
      + pose proof (grows_trans _ _ _ (log_grows s1 (EvRoot (dist_identifier d))) (grows_trans _ _ _ G2 (grows_trans _ _ _ G3 G4))) as G.
        apply (gr_nodes _ _ (gw_graph _ _ G)) in H1 as (n & A & S). exists n. split; [exact A|]. cbn in S.
        destruct S as (_ & S2 & _ & S4 & _). now split.
      + intros name Hn. destruct (H3 name Hn) as (m & A & B). exists m.
        split; [eapply grows_resolves|eapply grows_edge]; eassumption.
  Qed.
  Lemma cwp_module_edge n name s : cwp none (import_module r n name) s (fun id s' =>
    resolves s' name id /\ has_edge (s_graph s') n id default_dep).
  Proof.
    unfold import_module. apply cwp_bind, cwp_note; [reflexivity|]. apply cwp_bind, cwp_find_module. intros x _.
    apply cwp_bind. eapply cwp_conseq with (P := none) (Q := fun id s' => resolves s' name id); [| |auto].
    - destruct x; [apply cwp_ret; now left|]. apply (c_find _ R).
    - intros id s1 G1 L1 _ F. apply cwp_bind, cwp_edge. intros s2 G2 L2 He Hr. apply cwp_ret. split; [now apply Hr|exact He].
  Qed.
End calls.

(** From a computation to the call of the user. *)
Lemma call_post {A} E fuel a s ans s' (m : M A) (f : A -> answer) (Q : A -> st -> Prop) :
  linv s -> do_action E (exec E fuel) a = bind m (fun x => ret (f x)) ->
  cwp none m s Q -> top_call E fuel a s = Some (ans, s') -> ok_answer ans = true ->
  exists x, ans = f x /\ m s = Some (ROk x, s') /\ grows s s' /\ Q x s'.
Proof.
  intros L Ea Hm HC Ho. apply top_call_ok in HC as [HC|(e & s1 & _ & _ & ->)]; [|discriminate].
  rewrite Ea in HC. unfold bind in HC. destruct (m s) as [[[x|e] s1]|] eqn:Em; [|discriminate|discriminate].
  injection HC as <- <-. exists x. destruct (Hm L _ _ Em) as (G & _ & _ & HQ). auto.
Qed.

(** ** Without missing hooks no other node is taken *)

Definition no_subst (s : st) : Prop := s_missing s = [] -> forall x y, ~ In (EvSubst x y) (s_log s).
Lemma step_no_subst mrun q s s' : step mrun q s s' -> no_subst s -> no_subst s'.
Proof.
  intros H K M x y X. pose proof (step_grows _ _ _ _ H) as G.
  assert (M0 : s_missing s = []).
  { destruct (gw_missing _ _ G) as [l0 E0]. rewrite M in E0. symmetry in E0. now apply app_eq_nil in E0. }
  pose proof (K M0 x y) as N.
  step_cases H; [destruct H as (f' & c & ->)|..]; try (apply N; exact X);
    try (destruct X as [X|X]; [discriminate|now apply N]).
  - destruct X as [X|X]; [subst e; discriminate|now apply N].
  - contradiction.
  - destruct X as [X|[X|X]]; [discriminate|discriminate|now apply N].
  - rewrite schedule_log in X. destruct X as [X|X]; [discriminate|now apply N].
Qed.
Lemma reach_no_subst E s0 s : order_ok E -> start s0 -> reach E s0 s -> no_subst s.
Proof.
  intros HE H0 HR. apply (chain_ind_inv true true no_subst s0 s (h_chain _ _ (reach_history E s0 s HE H0 HR))).
  - intros a b. apply step_no_subst.
  - destruct H0 as (implies & post & missing & ->). intros _ x y [].
Qed.
Lemma reach_resolves E s0 s name id : order_ok E -> start s0 -> reach E s0 s -> s_missing s = [] ->
  resolves s name id -> id = name.
Proof. intros HE H0 HR M [K|K]; [exact K|]. now apply (reach_no_subst E s0 s HE H0 HR M) in K. Qed.
