(** Rules for reasoning about the monad: every run is a chain of steps. *)
From Verif Require Export BuilderChain.

Definition bal (s s' : st) : Prop := s_run s' = s_run s /\ s_saved s' = s_saved s.
Lemma bal_refl s : bal s s. Proof. now split. Qed.
Lemma bal_trans a b c : bal a b -> bal b c -> bal a c.
Proof. intros [H1 H2] [K1 K2]. split; congruence. Qed.

Lemma env_only_refl s : env_only s s.
Proof. exists (s_fakes s), (s_clock s). destruct s; reflexivity. Qed.
Lemma env_only_trans a b c : env_only a b -> env_only b c -> env_only a c.
Proof. intros (f & x & ->) (f' & x' & ->). exists f', x'. reflexivity. Qed.

(** Computations that only talk to the environment. *)
Definition envm {A} (m : M A) : Prop := forall s r s', m s = Some (r, s') -> env_only s s'.

Lemma envm_ret {A} (a : A) : envm (ret a).
Proof. intros s r s' H. injection H as <- <-. apply env_only_refl. Qed.
Lemma envm_raise {A} e : envm (@raise A e).
Proof. intros s r s' H. injection H as <- <-. apply env_only_refl. Qed.
Lemma envm_of_result {A} (x : result A) : envm (of_result x).
Proof. intros s r s' H. injection H as <- <-. apply env_only_refl. Qed.
Lemma envm_oof {A} : envm (@out_of_fuel A).
Proof. intros s r s' H. discriminate. Qed.
Lemma envm_get {A} (f : st -> A) : envm (gets f).
Proof. intros s r s' H. injection H as <- <-. apply env_only_refl. Qed.
Lemma envm_bind {A B} (m : M A) (f : A -> M B) : envm m -> (forall a, envm (f a)) -> envm (bind m f).
Proof.
  intros Hm Hf s r s' H. unfold bind in H. destruct (m s) as [[[a|e] s1]|] eqn:E; [| |discriminate].
  - apply Hm in E. apply Hf in H. eapply env_only_trans; eassumption.
  - injection H as <- <-. eapply Hm; eassumption.
Qed.
Lemma envm_attempt {A} (m : M A) : envm m -> envm (attempt m).
Proof.
  intros Hm s r s' H. unfold attempt in H. destruct (m s) as [[a s1]|] eqn:E; [|discriminate].
  injection H as <- <-. eapply Hm; eassumption.
Qed.
Lemma envm_assert b : envm (assert b).
Proof. destruct b; [apply envm_ret|apply envm_raise]. Qed.
Lemma env_only_tick s : env_only s (tick s).
Proof. eexists _, _. reflexivity. Qed.
Lemma envm_ask {A} (f : nat -> A) : envm (ask f).
Proof. intros s r s' H. injection H as <- <-. apply env_only_tick. Qed.
Lemma envm_askr {A} (f : nat -> result A) : envm (askr f).
Proof. intros s r s' H. injection H as <- <-. apply env_only_tick. Qed.
Lemma envm_find_spec E name : envm (find_spec E name).
Proof. intros s r s' H. injection H as <- <-. apply env_only_tick. Qed.
Lemma envm_in_sysmod E name : envm (in_sysmod E name).
Proof. intros s r s' H. injection H as <- <-. apply env_only_tick. Qed.
Lemma envm_set_fakes f : envm (modify (fun s => set_fakes s (f s))).
Proof. intros s r s' H. injection H as <- <-. eexists _, _. reflexivity. Qed.
Lemma envm_del_sysmod E name : envm (del_sysmod E name).
Proof.
  apply envm_bind; [apply envm_in_sysmod|]. intros [|]; [apply envm_set_fakes|apply envm_raise].
Qed.

Ltac envm_tac :=
  repeat first
    [ progress cbv zeta
    | apply envm_ret | apply envm_raise | apply envm_of_result | apply envm_oof | apply envm_get
    | apply envm_assert | apply envm_ask | apply envm_askr | apply envm_find_spec | apply envm_in_sysmod
    | apply envm_del_sysmod | apply envm_set_fakes | apply envm_attempt
    | apply envm_bind; [|intros ?]
    | assumption
    | match goal with
      | H : forall x, envm _ |- _ => apply H
      | |- envm (match ?x with _ => _ end) => destruct x
      | |- envm (if ?x then _ else _) => destruct x
      | |- envm (let '(_, _) := ?x in _) => destruct x
      end ].

Lemma envm_nfs_body E rec_ : (forall sp, envm (rec_ sp)) -> forall sp, envm (nfs_body E rec_ sp).
Proof.
  intros Hr sp. unfold nfs_body, wrap_package, six_spec, vendor_spec, distutils_spec, code_info,
    source_imports, dist_of. envm_tac.
Qed.

Lemma envm_spec_or_none E name : envm (spec_or_none E name).
Proof. unfold spec_or_none. envm_tac. Qed.

Section realm.
  Variable E : env.
  (** [node_for_spec] gives real nodes. *)
  Definition realm (m : M (node * list iinfo)) : Prop :=
    forall s n l s', m s = Some (ROk (n, l), s') -> real_kind (n_kind n) = true.
  Lemma realm_bind {A} (m : M A) f : (forall a, realm (f a)) -> realm (bind m f).
  Proof.
    intros H s n l s' E0. unfold bind in E0. destruct (m s) as [[[a|e] s1]|]; try discriminate. eapply H; exact E0.
  Qed.
  Lemma realm_ret n l : real_kind (n_kind n) = true -> realm (ret (n, l)).
  Proof. intros H s n' l' s' E0. injection E0 as <- <- <-. exact H. Qed.
  Lemma realm_raise e : realm (raise e). Proof. intros s n l s' E0. discriminate. Qed.
  Ltac realm_tac := repeat first
    [ progress cbv zeta
    | apply realm_raise
    | apply realm_ret; reflexivity
    | apply realm_bind; intros ?
    | assumption
    | match goal with
      | H : forall x, realm _ |- _ => apply H
      | |- realm (match ?x with _ => _ end) => destruct x
      | |- realm (if ?x then _ else _) => destruct x
      | |- realm (let '(_, _) := ?x in _) => destruct x
      end ].
  Lemma realm_wrap sp b src mk n l : real_kind (n_kind n) = true -> realm (wrap_package E sp b src mk n l).
  Proof.
    intros H. unfold wrap_package. apply realm_bind. intros p. destruct (negb p); [now apply realm_ret|]. realm_tac.
  Qed.
  Lemma realm_nfs rec_ : (forall sp, realm (rec_ sp)) -> forall sp, realm (nfs_body E rec_ sp).
  Proof.
    intros Hr sp. unfold nfs_body, six_spec, vendor_spec, distutils_spec.
    destruct (sp_loader sp); realm_tac.
  Qed.
End realm.

Section wp.
  Variable mrun : bool.
  Notation chain := (chain mrun).
  Notation step := (step mrun).
  Notation inv := (inv mrun).

  (** Every outcome of [m] from [s] is reached by a chain of steps; [Q] holds
      after success. *)
  Definition wp {A} (q : bool) (m : M A) (s : st) (Q : A -> st -> Prop) : Prop :=
    inv s -> forall r s', m s = Some (r, s') ->
      chain q s s' /\ bal s s' /\ match r with ROk a => Q a s' | RErr _ => True end.

  Lemma wp_inv {A} q (m : M A) s Q : (inv s -> wp q m s Q) -> wp q m s Q.
  Proof. intros H I. exact (H I I). Qed.
  Lemma wp_ret {A} q (a : A) s (Q : A -> st -> Prop) : Q a s -> wp q (ret a) s Q.
  Proof.
    intros H I r s' E. injection E as <- <-. split; [apply ch_refl|]. split; [apply bal_refl|exact H].
  Qed.
  Lemma wp_raise {A} q e s (Q : A -> st -> Prop) : wp q (raise e) s Q.
  Proof. intros I r s' E. injection E as <- <-. split; [apply ch_refl|]. split; [apply bal_refl|exact Logic.I]. Qed.
  Lemma wp_oof {A} q s (Q : A -> st -> Prop) : wp q out_of_fuel s Q.
  Proof. intros I r s' E. discriminate. Qed.
  Lemma wp_of_result {A} q (x : result A) s (Q : A -> st -> Prop) : (forall a, x = ROk a -> Q a s) -> wp q (of_result x) s Q.
  Proof.
    intros H I r s' E. injection E as <- <-. split; [apply ch_refl|]. split; [apply bal_refl|].
    destruct x; [now apply H|exact Logic.I].
  Qed.
  Lemma wp_bind {A B} q (m : M A) (f : A -> M B) s Q :
    wp q m s (fun a s1 => wp q (f a) s1 Q) -> wp q (bind m f) s Q.
  Proof.
    intros H I r s' E. unfold bind in E. destruct (m s) as [[[a|e] s1]|] eqn:Em; [| |discriminate].
    - destruct (H I _ _ Em) as (C & B1 & K). pose proof (chain_inv _ _ _ _ C I) as I1.
      destruct (K I1 _ _ E) as (C2 & B2 & K2). split; [eapply chain_trans; eassumption|].
      split; [eapply bal_trans; eassumption|exact K2].
    - injection E as <- <-. destruct (H I _ _ Em) as (C & B1 & K). now split.
  Qed.
  Lemma wp_conseq {A} q (m : M A) s (Q Q' : A -> st -> Prop) :
    wp q m s Q -> (forall a s', chain q s s' -> bal s s' -> inv s' -> Q a s' -> Q' a s') -> wp q m s Q'.
  Proof.
    intros H K I r s' E. destruct (H I _ _ E) as (C & B & P). split; [exact C|]. split; [exact B|].
    destruct r; [|exact Logic.I]. apply K; auto. eapply chain_inv; eassumption.
  Qed.
  Lemma wp_attempt {A} q (m : M A) s Q (Q' : result A -> st -> Prop) :
    wp q m s Q ->
    (forall r s', chain q s s' -> bal s s' -> inv s' -> match r with ROk a => Q a s' | RErr _ => True end -> Q' r s') ->
    wp q (attempt m) s Q'.
  Proof.
    intros H K I r s' E. unfold attempt in E. destruct (m s) as [[x s1]|] eqn:Em; [|discriminate].
    injection E as <- <-. destruct (H I _ _ Em) as (C & B & P). split; [exact C|]. split; [exact B|].
    apply K; auto. eapply chain_inv; eassumption.
  Qed.
  Lemma wp_attempt_eq {A} q (m : M A) s Q (Q' : result A -> st -> Prop) :
    wp q m s Q ->
    (forall r s', m s = Some (r, s') -> chain q s s' -> bal s s' -> inv s' ->
       match r with ROk a => Q a s' | RErr _ => True end -> Q' r s') ->
    wp q (attempt m) s Q'.
  Proof.
    intros H K I r s' E. unfold attempt in E. destruct (m s) as [[x s1]|] eqn:Em; [|discriminate].
    injection E as <- <-. destruct (H I _ _ Em) as (C & B & P). split; [exact C|]. split; [exact B|].
    apply K; auto. eapply chain_inv; eassumption.
  Qed.
  Lemma wp_then {A} q (m m' : M A) s s1 Q :
    m s = m' s1 -> step q s s1 -> bal s s1 -> wp q m' s1 Q -> wp q m s Q.
  Proof.
    intros Em S B H I r s' E. rewrite Em in E. pose proof (step_inv _ _ _ _ S I) as I1.
    destruct (H I1 _ _ E) as (C & B1 & P). split; [|split; [eapply bal_trans; eassumption|exact P]].
    eapply chain_trans; [apply chain_one; exact S|exact C].
  Qed.
  Lemma wp_get {A} q (f : st -> A) s (Q : A -> st -> Prop) : Q (f s) s -> wp q (gets f) s Q.
  Proof. intros H. apply (wp_ret q (f s) s Q H). Qed.
  Lemma wp_modify q f s (Q : unit -> st -> Prop) :
    step q s (f s) -> bal s (f s) -> Q tt (f s) -> wp q (modify f) s Q.
  Proof.
    intros H B K I r s' E. injection E as <- <-. split; [now apply chain_one|]. now split.
  Qed.
  Lemma wp_assert q b s (Q : unit -> st -> Prop) : (b = true -> Q tt s) -> wp q (assert b) s Q.
  Proof. destruct b; intros H; [apply wp_ret; auto|apply wp_raise]. Qed.
  Lemma wp_weaken {A} q (m : M A) s Q : wp q m s Q -> wp true m s Q.
  Proof.
    intros H I r s' E. destruct (H I _ _ E) as (C & B & P). split; [|now split].
    eapply chain_weaken; eassumption.
  Qed.
  Lemma wp_env {A} q (m : M A) s (Q : A -> st -> Prop) :
    envm m -> (forall a s', env_only s s' -> Q a s') -> wp q m s Q.
  Proof.
    intros H K I r s' E. apply H in E. split; [apply chain_one, st_env, E|].
    split; [destruct E as (f & c & ->); now split|]. destruct r; [now apply K|exact Logic.I].
  Qed.
  Lemma wp_env_eq {A} q (m : M A) s (Q : A -> st -> Prop) :
    envm m -> (forall a s', m s = Some (ROk a, s') -> env_only s s' -> Q a s') -> wp q m s Q.
  Proof.
    intros H K I r s' E. pose proof (H _ _ _ E) as E1. split; [apply chain_one, st_env, E1|].
    split; [destruct E1 as (f & c & ->); now split|]. destruct r; [now apply K|exact Logic.I].
  Qed.
  Lemma wp_note q e s (Q : unit -> st -> Prop) : plain_event e = true -> Q tt (log s e) -> wp q (note e) s Q.
  Proof. intros H K. apply wp_modify; [now constructor|now split|exact K]. Qed.

  (** Lists of actions: [P] holds for what is done, [J] all along. *)
  Lemma wp_iter {A} q (f : A -> M unit) (J : st -> Prop) (P : A -> st -> Prop) (S : A -> Prop) :
    (forall x s, S x -> J s -> wp q (f x) s (fun _ s' => J s' /\ P x s')) ->
    (forall x s s', grows s s' -> P x s -> P x s') ->
    forall l s, (forall x, In x l -> S x) -> J s ->
    wp q (iter f l) s (fun _ s' => J s' /\ forall x, In x l -> P x s').
  Proof.
    intros Hf Hg l. induction l as [|x l IH]; intros s HS HJ; cbn [iter].
    - apply wp_ret. split; [exact HJ|]. intros x [].
    - apply wp_bind. eapply wp_conseq; [apply Hf; [apply HS; now left|exact HJ]|].
      intros _ s1 C B I [HJ1 HP]. eapply wp_conseq; [apply IH; [|exact HJ1]|].
      + intros y Hy. apply HS. now right.
      + intros _ s2 C2 _ _ [HJ2 HP2]. split; [exact HJ2|]. intros y [<-|Hy]; [|auto].
        eapply Hg; [|exact HP]. eapply chain_grows; eassumption.
  Qed.

  Lemma wp_lift_node q n s (Q : unit -> st -> Prop) (l : list iinfo) :
    (gfind (s_graph s) (n_name n) = None -> node_reason s n l) ->
    (gfind (s_graph s) (n_name n) = None ->
     Q tt (log (set_graph s
        (Graph (g_nodes (s_graph s) ++ [n]) (g_edges (s_graph s)) (g_roots (s_graph s)))) (EvAdd (n_name n) l))) ->
    wp q (add_node n l) s Q.
  Proof.
    intros R K I r s' E. unfold add_node, bind, lift_graph, modify in E.
    destruct (gadd_node (s_graph s) n) as [g'|e] eqn:Eg.
    - apply gadd_node_spec in Eg as [Ef ->]. injection E as <- <-.
      split; [apply chain_one; constructor; auto; fail|]. split; [now split|]. exact (K Ef).
    - injection E as <- <-. split; [apply ch_refl|]. split; [apply bal_refl|exact Logic.I].
  Qed.
  Lemma wp_user_node q n s (Q : unit -> st -> Prop) :
    In (EvGiven (n_name n)) (s_log s) \/ n_kind n = Distribution ->
    (gfind (s_graph s) (n_name n) = None ->
     Q tt (set_graph s (Graph (g_nodes (s_graph s) ++ [n]) (g_edges (s_graph s)) (g_roots (s_graph s))))) ->
    wp q (user_add_node n) s Q.
  Proof.
    intros R K I r s' E. unfold user_add_node, lift_graph in E.
    destruct (gadd_node (s_graph s) n) as [g'|e] eqn:Eg.
    - apply gadd_node_spec in Eg as [Ef ->]. injection E as <- <-.
      split; [apply chain_one; now constructor|]. split; [now split|]. exact (K Ef).
    - injection E as <- <-. split; [apply ch_refl|]. split; [apply bal_refl|exact Logic.I].
  Qed.
  Lemma wp_edge q a b d s (Q : unit -> st -> Prop) :
    justified s a b d ->
    (let g := Graph (g_nodes (s_graph s)) (edges_add (g_edges (s_graph s)) a b d) (g_roots (s_graph s)) in
     in_graph s a -> in_graph s b -> has_edge g a b d -> Q tt (set_graph s g)) ->
    wp q (add_edge a b d) s Q.
  Proof.
    intros R K I r s' E. unfold add_edge, lift_graph in E.
    destruct (gadd_edge (s_graph s) a b d) as [g'|e] eqn:Eg.
    - apply gadd_edge_spec in Eg as (Ha & Hb & ->). injection E as <- <-.
      split; [apply chain_one; now constructor|]. split; [now split|]. apply K; auto.
      unfold has_edge. cbn. apply edges_add_self.
    - injection E as <- <-. split; [apply ch_refl|]. split; [apply bal_refl|exact Logic.I].
  Qed.
  Lemma wp_root q id s (Q : unit -> st -> Prop) :
    In (EvRoot id) (s_log s) ->
    (in_graph s id -> Q tt (set_graph s (Graph (g_nodes (s_graph s)) (g_edges (s_graph s)) (set_add id (g_roots (s_graph s)))))) ->
    wp q (add_root id) s Q.
  Proof.
    intros R K I r s' E. unfold add_root, lift_graph in E.
    destruct (gadd_root (s_graph s) id) as [g'|e] eqn:Eg.
    - apply gadd_root_spec in Eg as (Ha & ->). injection E as <- <-.
      split; [apply chain_one; now constructor|]. split; [now split|]. exact (K Ha).
    - injection E as <- <-. split; [apply ch_refl|]. split; [apply bal_refl|exact Logic.I].
  Qed.
  Lemma schedule_bal n l s : bal s (schedule n l s).
  Proof. unfold schedule, bal. cbn. destruct (memb n (s_seen s)); now split. Qed.
  Lemma wp_sched q n l s (Q : unit -> st -> Prop) :
    in_graph s n -> In (EvAdd n l) (s_log s) \/ In (EvProc n l) (s_log s) -> Q tt (schedule n l s) ->
    wp q (process_import_list n l) s Q.
  Proof.
    intros H Ha K. apply wp_modify; [now constructor|apply schedule_bal|exact K].
  Qed.
  Lemma wp_find_module q id s (Q : option node -> st -> Prop) :
    (forall o, gfind (s_graph s) id = o ->
       match o with Some n => is_distribution (n_kind n) = false | None => True end -> Q o s) ->
    wp q (find_module id) s Q.
  Proof.
    intros K. unfold find_module, get_node. apply wp_bind, wp_get.
    destruct (gfind (s_graph s) id) as [n|] eqn:E; [|apply wp_ret; now apply K].
    apply wp_bind, wp_assert. intros H. apply wp_ret. apply K; [reflexivity|].
    now apply negb_true_iff in H.
  Qed.
  Lemma wp_kind_test q p id s (Q : bool -> st -> Prop) :
    Q (match kind_of s id with Some k => p k | None => false end) s -> wp q (kind_test p id) s Q.
  Proof.
    intros K. unfold kind_test, get_node. apply wp_bind, wp_get. apply wp_ret.
    unfold kind_of in K. destruct (gfind (s_graph s) id); exact K.
  Qed.
  Lemma wp_written q id names s (Q : unit -> st -> Prop) :
    Q tt (set_graph s (gadd_written (s_graph s) id names)) -> wp q (add_written id names) s Q.
  Proof. intros K. apply wp_modify; [apply st_written|now split|exact K]. Qed.

  (** Inner computations only push work. *)
  Lemma inner_stack s s' : chain false s s' ->
    incl (s_seen s) (s_seen s') /\
    exists new, s_stack s' = new ++ s_stack s /\ forall m, In (DoPost m) new -> ~ In m (s_seen s).
  Proof.
    intros C. induction C as [|s1 s2 C IH H].
    - split; [apply incl_refl|]. exists []. split; [reflexivity|]. intros m [].
    - destruct IH as [IH1 (new & E & IH2)]. pose proof (gw_seen _ _ (step_grows _ _ _ _ H)) as G.
      split; [eapply incl_tran; eassumption|].
      destruct H as [s' H|m|h H|h H|names|l|e H|name id H|name i H1 H2 H3|name H1 H2 H3|n l H1 H2|n H1 H2
                  |a b d H1 H2 H3|id H1 H2|id names|n l H1|n m i a b H1 H2 H3 H4 H5 H6|n pkg H1 H2|w rest H1 H2 H3
                  |n l H1 H2|w rest H1 H2 H3|w rest H1 H2|H1|a rest H1 H2]; try discriminate;
      [destruct H as (f & c & ->)|..]; try (exists new; cbn; split; [exact E|exact IH2]).
      unfold schedule. cbn. destruct (memb n (s_seen s1)) eqn:Em; cbn.
      + exists (rev (map (DoImport n) l) ++ new). rewrite E, app_assoc. split; [reflexivity|].
        intros m Hm. apply in_app_iff in Hm as [Hm|Hm]; [|now apply IH2].
        apply in_rev in Hm. apply in_map_iff in Hm as [x [Hm _]]. discriminate.
      + exists (rev (map (DoImport n) l) ++ DoPost n :: new). rewrite E, <- app_assoc. split; [reflexivity|].
        intros m Hm. apply in_app_iff in Hm as [Hm|[Hm|Hm]]; [| |now apply IH2].
        * apply in_rev in Hm. apply in_map_iff in Hm as [x [Hm _]]. discriminate.
        * injection Hm as ->. apply memb_false in Em. intros K. apply Em. now apply IH1.
  Qed.

  (** [_saved_stack] *)
  Lemma wp_saved {A} (m : M A) s (Q : A -> st -> Prop) :
    wp true m (set_saved (set_stack s []) (s_stack s :: s_saved s))
      (fun a s1 => Q a (set_saved (set_stack s1 (s_stack s1 ++ s_stack s)) (tl (s_saved s1)))) ->
    wp true (saved_stack m) s Q.
  Proof.
    intros H I r s' E. unfold saved_stack in E.
    set (s0 := set_saved (set_stack s []) (s_stack s :: s_saved s)) in *.
    assert (S0 : step true s s0) by now constructor.
    pose proof (step_inv _ _ _ _ S0 I) as I0.
    destruct (m s0) as [[x s1]|] eqn:Em; [|discriminate]. injection E as <- <-.
    destruct (H I0 _ _ Em) as (C & [B1 B2] & P).
    assert (S1 : step true s1 (set_saved (set_stack s1 (s_stack s1 ++ s_stack s)) (tl (s_saved s1)))).
    { rewrite B2. cbn. apply st_restore; [reflexivity|exact B2]. }
    split; [|split].
    - eapply ch_step; [|exact S1]. eapply chain_trans; [apply chain_one; exact S0|exact C].
    - split; cbn; [exact B1|]. rewrite B2. reflexivity.
    - exact P.
  Qed.
End wp.

Lemma spec_or_none_found E name s sp s' : spec_or_none E name s = Some (ROk (Some sp), s') ->
  exists t f, e_find_spec E t f name = ROk (Some sp).
Proof.
  unfold spec_or_none, bind at 1, attempt at 1, find_spec at 1.
  destruct (e_find_spec E (s_clock s) (s_fakes s) name) as [[x|]|e] eqn:Ef; cbn [ret]; try discriminate.
  - intros H. injection H as -> <-. eauto.
  - destruct e; try discriminate. unfold gets, bind, attempt, find_spec.
    destruct (del_sysmod E name _) as [[[u|e] s1]|]; try discriminate.
    destruct (in_sysmod E name _) as [[[b|e] s2]|] eqn:Ei; try discriminate.
    destruct b; cbn; try discriminate. unfold of_result. intros H. injection H as H _. eauto.
Qed.
