(** Building a graph ends (C27). *)
From Verif Require Export EndSpec BuilderSteps BuilderWp.
From Verif Require Import PyStrFacts NamesProofs AstProofs BytecodeTree.

(** ** With enough fuel the outcome is there *)
Section logic.
  Variable E : env.
  Definition T {A} (m : funs -> M A) (s : st) (Q : result A -> st -> Prop) : Prop :=
    exists k r s', Q r s' /\ forall n, k <= n -> m (exec E n) s = Some (r, s').

  Lemma T_const {A} (m : M A) s r s' (Q : result A -> st -> Prop) :
    m s = Some (r, s') -> Q r s' -> T (fun _ => m) s Q.
  Proof. intros H K. exists 0, r, s'. split; [exact K|]. intros n _. exact H. Qed.
  Lemma T_ret {A} (a : A) s (Q : result A -> st -> Prop) : Q (ROk a) s -> T (fun _ => ret a) s Q.
  Proof. apply T_const. reflexivity. Qed.
  Lemma T_raise {A} e s (Q : result A -> st -> Prop) : Q (RErr e) s -> T (fun _ => raise e) s Q.
  Proof. apply T_const. reflexivity. Qed.
  Lemma T_conseq {A} (m : funs -> M A) s (Q Q' : result A -> st -> Prop) :
    T m s Q -> (forall r s', Q r s' -> Q' r s') -> T m s Q'.
  Proof. intros (k & r & s' & H & K) L. exists k, r, s'. auto. Qed.
  Lemma T_bind {A B} (m : funs -> M A) (f : funs -> A -> M B) s Q1 Q :
    T m s Q1 -> (forall a s1, Q1 (ROk a) s1 -> T (fun r => f r a) s1 Q) ->
    (forall e s1, Q1 (RErr e) s1 -> Q (RErr e) s1) -> T (fun r => bind (m r) (f r)) s Q.
  Proof.
    intros (k & r & s1 & H & K) Hf He. destruct r as [a|e].
    - destruct (Hf a s1 H) as (k2 & r2 & s2 & H2 & K2). exists (max k k2), r2, s2. split; [exact H2|].
      intros n Hn. unfold bind. rewrite K by lia. apply K2. lia.
    - exists k, (RErr e), s1. split; [now apply He|]. intros n Hn. unfold bind. now rewrite K.
  Qed.
  Lemma T_attempt {A} (m : funs -> M A) s (Q : result (result A) -> st -> Prop) :
    T m s (fun r s' => Q (ROk r) s') -> T (fun r => attempt (m r)) s Q.
  Proof.
    intros (k & r & s1 & H & K). exists k, (ROk r), s1. split; [exact H|].
    intros n Hn. unfold attempt. now rewrite K.
  Qed.
  Lemma T_S {A} (m m' : funs -> M A) s Q :
    (forall n, m (exec E (S n)) s = m' (exec E n) s) -> T m' s Q -> T m s Q.
  Proof.
    intros He (k & r & s1 & H & K). exists (S k), r, s1. split; [exact H|].
    intros [|n] Hn; [lia|]. rewrite He. apply K. lia.
  Qed.
  Lemma T_find a b c s Q : T (fun r => find_body r a b c) s Q -> T (fun r => f_find r a b c) s Q.
  Proof. apply T_S. reflexivity. Qed.
  Lemma T_load a b s Q : T (fun r => load_body E r a b) s Q -> T (fun r => f_load r a b) s Q.
  Proof. apply T_S. reflexivity. Qed.
  Lemma T_nfs sp s Q : T (fun r => nfs_body E (f_nfs r) sp) s Q -> T (fun r => f_nfs r sp) s Q.
  Proof. apply T_S. reflexivity. Qed.
  Lemma T_run s Q : T (fun r => run_body E r) s Q -> T (fun r => f_run r) s Q.
  Proof. apply T_S. reflexivity. Qed.
  Lemma T_prog p s Q : T (fun r => run_prog E r p) s Q -> T (fun r => f_prog r p) s Q.
  Proof. apply T_S. reflexivity. Qed.
  Lemma T_post i n s Q : T (fun r => post_body E r i n) s Q -> T (fun r => f_post r i n) s Q.
  Proof. apply T_S. reflexivity. Qed.
  Lemma T_miss i a b s Q : T (fun r => miss_body E r i a b) s Q -> T (fun r => f_miss r i a b) s Q.
  Proof. apply T_S. reflexivity. Qed.
End logic.

(** ** Computations that are done without fuel *)
Definition total {A} (m : M A) : Prop := forall s, exists r s', m s = Some (r, s').

Lemma total_bind {A B} (m : M A) (f : A -> M B) : total m -> (forall a, total (f a)) -> total (bind m f).
Proof.
  intros H K s. unfold bind. destruct (H s) as ([a|e] & s1 & ->); [apply K|]. now eexists _, _.
Qed.
Lemma total_attempt {A} (m : M A) : total m -> total (attempt m).
Proof. intros H s. unfold attempt. destruct (H s) as (r & s1 & ->). now eexists _, _. Qed.
Lemma total_ret {A} (a : A) : total (ret a). Proof. intros s. now eexists _, _. Qed.
Lemma total_raise {A} e : total (@raise A e). Proof. intros s. now eexists _, _. Qed.
Lemma total_of_result {A} (x : result A) : total (of_result x). Proof. intros s. now eexists _, _. Qed.
Lemma total_gets {A} (f : st -> A) : total (gets f). Proof. intros s. now eexists _, _. Qed.
Lemma total_modify f : total (modify f). Proof. intros s. now eexists _, _. Qed.
Lemma total_assert b : total (assert b). Proof. destruct b; [apply total_ret|apply total_raise]. Qed.
Lemma total_ask {A} (f : nat -> A) : total (ask f). Proof. intros s. now eexists _, _. Qed.
Lemma total_askr {A} (f : nat -> result A) : total (askr f). Proof. intros s. now eexists _, _. Qed.
Lemma total_find_spec E name : total (find_spec E name). Proof. intros s. now eexists _, _. Qed.
Lemma total_in_sysmod E name : total (in_sysmod E name). Proof. intros s. now eexists _, _. Qed.
Lemma total_del_sysmod E name : total (del_sysmod E name).
Proof. apply total_bind; [apply total_in_sysmod|]. intros [|]; [apply total_modify|apply total_raise]. Qed.

Lemma ast_total order t : exists l, extract_ast_info order t = Some l.
Proof.
  unfold extract_ast_info. destruct (scan_loop_paths order (ast_size t) [([], t)]) as (out & E & _).
  { unfold qsize; cbn. lia. }
  exists out. exact E.
Qed.

Lemma bytecode_total v c : extract_bytecode_info v c <> None.
Proof. unfold extract_bytecode_info. destruct (all_code_objects_levels c) as (l & -> & _). discriminate. Qed.

Ltac total_tac :=
  repeat first
    [ progress cbv zeta
    | apply total_ret | apply total_raise | apply total_of_result | apply total_gets | apply total_modify
    | apply total_assert | apply total_ask | apply total_askr | apply total_find_spec | apply total_in_sysmod
    | apply total_del_sysmod | apply total_attempt
    | apply total_bind; [|intros ?]
    | match goal with
      | |- total (match extract_ast_info ?o ?t with _ => _ end) =>
          let l := fresh in let H := fresh in destruct (ast_total o t) as [l H]; rewrite H
      | |- total (match extract_bytecode_info ?o ?t with _ => _ end) =>
          let H := fresh in pose proof (bytecode_total o t) as H; destruct (extract_bytecode_info o t); [|congruence]
      | |- total (match ?x with _ => _ end) => destruct x
      end ].

(** ** Graphs keep their nodes, and the nodes their classes *)
Definition gle (g g' : graph) : Prop := forall id x, gfind g id = Some x ->
  exists y, gfind g' id = Some y /\ n_kind y = n_kind x.
Lemma gle_refl g : gle g g.
Proof. intros id x H. now exists x. Qed.
Lemma gle_trans a b c : gle a b -> gle b c -> gle a c.
Proof. intros H K id x A. destruct (H id x A) as (y & B & C). destruct (K id y B) as (z & D & F). exists z. split; congruence. Qed.
Lemma gle_add g n g' : gadd_node g n = ROk g' -> gle g g'.
Proof. intros H id x A. apply gadd_node_spec in H as [_ ->]. rewrite gfind_app, A. now exists x. Qed.
Lemma gle_edge g a b d g' : gadd_edge g a b d = ROk g' -> gle g g'.
Proof. unfold gadd_edge. destruct (_ && _); [|discriminate]. intros H. injection H as <-. intros id x A. now exists x. Qed.
Lemma gle_root g a g' : gadd_root g a = ROk g' -> gle g g'.
Proof. unfold gadd_root. destruct (ghas _ _); [|discriminate]. intros H. injection H as <-. intros id x A. now exists x. Qed.
Lemma gle_written g id names : gle g (gadd_written g id names).
Proof.
  intros x n H. rewrite gfind_written, H. cbn. eexists. split; [reflexivity|]. unfold upd_written. destruct (seqb _ _); reflexivity.
Qed.
Lemma compiled_gle g g' id : gle g g' -> compiled g' id = true -> compiled g id = true.
Proof.
  intros H. unfold compiled. destruct (gfind g id) as [x|] eqn:A; [|reflexivity].
  destruct (H _ _ A) as (y & -> & ->). auto.
Qed.
Lemma ghas_gle g g' id : gle g g' -> ghas g id = true -> ghas g' id = true.
Proof.
  intros H. unfold ghas. destruct (gfind g id) as [x|] eqn:A; [|discriminate]. destruct (H _ _ A) as (y & -> & _). reflexivity.
Qed.

(** The universe contains the packages of its names. *)
Record closed_universe (E : env) (V : list string) : Prop := {
  fu_found : finite_universe E V;
  fu_closed : forall name c n, In name V -> split_package name = ROk (Some c, n) -> In c V
}.

Section ends.
  Variable E : env.
  Variable V : list string.
  Hypothesis FU : closed_universe E V.
  Hypothesis RE : redirects_end E.

  (** ** What gets smaller *)
  Definition absent (g : graph) : nat := List.length (filter (fun n => negb (ghas g n)) V).
  Definition act (g : graph) (w : work) : nat :=
    match w with DoPost n => if compiled g n then 1 else 0 | _ => 0 end.
  Definition acts (g : graph) (l : list work) : nat := list_sum (map (act g) l).
  Definition size (s : st) : nat :=
    3 * absent (s_graph s) + List.length (s_lazy s) + acts (s_graph s) (s_stack s).

  Local Arguments absent : simpl never.
  Local Arguments acts : simpl never.
  Local Arguments Nat.mul : simpl never.

  Lemma filter_le {A} (p q : A -> bool) l : (forall x, p x = true -> q x = true) ->
    List.length (filter p l) <= List.length (filter q l).
  Proof.
    intros H. induction l as [|x l IH]; cbn; [lia|]. destruct (p x) eqn:Ep.
    - rewrite (H x Ep). cbn. lia.
    - destruct (q x); cbn; lia.
  Qed.
  Lemma filter_lt {A} (p q : A -> bool) l y : (forall x, p x = true -> q x = true) -> In y l -> p y = false -> q y = true ->
    List.length (filter p l) < List.length (filter q l).
  Proof.
    intros H Hy Py Qy. induction l as [|x l IH]; [destruct Hy|]. cbn. destruct Hy as [->|Hy].
    - rewrite Py, Qy. cbn. pose proof (filter_le p q l H). lia.
    - specialize (IH Hy). destruct (p x) eqn:Ep; [rewrite (H x Ep); cbn; lia|]. destruct (q x); cbn; lia.
  Qed.
  Lemma absent_le g g' : gle g g' -> absent g' <= absent g.
  Proof.
    intros H. apply filter_le. intros x. rewrite !negb_true_iff. intros A.
    destruct (ghas g x) eqn:B; [|reflexivity]. now rewrite (ghas_gle _ _ _ H B) in A.
  Qed.
  Lemma absent_lt g n g' : gadd_node g n = ROk g' -> In (n_name n) V -> absent g' < absent g.
  Proof.
    intros H Hn. apply (filter_lt _ _ _ (n_name n)); [|exact Hn| |].
    - intros x. rewrite !negb_true_iff. intros A.
      destruct (ghas g x) eqn:B; [|reflexivity]. now rewrite (ghas_gle _ _ _ (gle_add _ _ _ H) B) in A.
    - apply gadd_node_spec in H as [A ->]. unfold ghas. rewrite gfind_app, A. unfold seqb. now rewrite String.eqb_refl.
    - apply gadd_node_spec in H as [A ->]. unfold ghas. now rewrite A.
  Qed.
  Lemma act_le g g' w : gle g g' -> act g' w <= act g w.
  Proof.
    intros H. destruct w; cbn; try lia. destruct (compiled g' n) eqn:A; [|lia]. now rewrite (compiled_gle _ _ _ H A).
  Qed.
  Lemma acts_le g g' l : gle g g' -> acts g' l <= acts g l.
  Proof. intros H. unfold acts, list_sum. induction l as [|w l IH]; cbn [map fold_right]; [lia|]. pose proof (act_le g g' w H). lia. Qed.
  Lemma acts_app g l l' : acts g (l ++ l') = acts g l + acts g l'.
  Proof. unfold acts. now rewrite map_app, list_sum_app. Qed.
  Lemma acts_cons g w l : acts g (w :: l) = act g w + acts g l.
  Proof. reflexivity. Qed.
  Lemma acts_imports g id imports : acts g (rev (map (DoImport id) imports)) = 0.
  Proof. rewrite <- map_rev. unfold acts. rewrite map_map. cbn [act]. induction (rev imports); cbn; auto. Qed.

  (** ** How the state changes *)
  Definition Inv (s : st) : Prop :=
    (forall n, In (DoPost n) (s_stack s) -> In n (s_seen s)) /\ good_hooks V s.

  Record Grow (s s' : st) : Prop := {
    gr_inv : Inv s';
    gr_post : s_post s' = s_post s;
    gr_missing : s_missing s' = s_missing s;
    gr_seen : incl (s_seen s) (s_seen s');
    gr_graph : gle (s_graph s) (s_graph s')
  }.
  Lemma Grow_refl s : Inv s -> Grow s s.
  Proof. intros H. constructor; [exact H|reflexivity|reflexivity|apply incl_refl|apply gle_refl]. Qed.
  Lemma Grow_trans a b c : Grow a b -> Grow b c -> Grow a c.
  Proof.
    intros [] []. constructor; [assumption|congruence|congruence|eapply incl_tran; eassumption|eapply gle_trans; eassumption].
  Qed.
  Definition Weak s s' : Prop := Grow s s' /\ size s' <= size s.
  Lemma Weak_refl s : Inv s -> Weak s s.
  Proof. intros H. split; [now apply Grow_refl|lia]. Qed.
  Lemma Weak_trans a b c : Weak a b -> Weak b c -> Weak a c.
  Proof. intros [H1 H2] [K1 K2]. split; [eapply Grow_trans; eassumption|lia]. Qed.
  Lemma Weak_inv s s' : Weak s s' -> Inv s'.
  Proof. intros [[] _]. assumption. Qed.

  Definition Quiet s s' : Prop := Weak s s' /\ s_stack s' = s_stack s.
  Definition Calm (known : Prop) s s' : Prop := Weak s s' /\
    (size s' < size s \/ exists ns, s_stack s' = map DoPost ns ++ s_stack s /\ (known -> ns = [])).
  Lemma Quiet_refl s : Inv s -> Quiet s s.
  Proof. intros H. split; [now apply Weak_refl|reflexivity]. Qed.
  Lemma Quiet_trans a b c : Quiet a b -> Quiet b c -> Quiet a c.
  Proof. intros [H1 H2] [K1 K2]. split; [eapply Weak_trans; eassumption|congruence]. Qed.
  Lemma Quiet_calm k s s' : Quiet s s' -> Calm k s s'.
  Proof. intros [H1 H2]. split; [exact H1|]. right. exists []. now split. Qed.
  Lemma Calm_refl k s : Inv s -> Calm k s s.
  Proof. intros H. now apply Quiet_calm, Quiet_refl. Qed.
  Lemma Calm_trans k a b c : Calm k a b -> Calm k b c -> Calm k a c.
  Proof.
    intros [H1 H2] [K1 K2]. split; [eapply Weak_trans; eassumption|].
    destruct H2 as [H2|(ns & H2 & H3)]; [left; destruct K1; lia|].
    destruct K2 as [K2|(ms & K2 & K3)]; [left; destruct H1; lia|].
    right. exists (ms ++ ns). split; [rewrite K2, H2, map_app; apply app_assoc|].
    intros k0. now rewrite H3, K3 by exact k0.
  Qed.
  Lemma Calm_weaken (k k' : Prop) s s' : (k' -> k) -> Calm k s s' -> Calm k' s s'.
  Proof. intros H [H1 [H2|(ns & H2 & H3)]]; split; auto. right. exists ns. auto. Qed.
  Lemma Calm_less k s s1 s' : Weak s s1 -> size s1 < size s -> Weak s1 s' -> Calm k s s'.
  Proof. intros H L K. split; [eapply Weak_trans; eassumption|]. left. destruct K. lia. Qed.
  Lemma Calm_inv k s s' : Calm k s s' -> Inv s'.
  Proof. intros [H _]. now apply Weak_inv in H. Qed.
  Lemma Calm_weak k s s' : Calm k s s' -> Weak s s'.
  Proof. now intros [H _]. Qed.

  (** Changes that [size] does not see. *)
  Lemma same_quiet s s' : Inv s -> s_graph s' = s_graph s -> s_lazy s' = s_lazy s -> s_stack s' = s_stack s ->
    s_seen s' = s_seen s -> s_post s' = s_post s -> s_missing s' = s_missing s -> Quiet s s'.
  Proof.
    intros I0 H1 H2 H3 H4 H5 H6. split; [|exact H3]. split.
    - constructor; [|assumption|assumption|rewrite H4; apply incl_refl|rewrite H1; apply gle_refl].
      unfold Inv, good_hooks in *. now rewrite H3, H4, H5, H6.
    - unfold size. now rewrite H1, H2, H3.
  Qed.
  Lemma env_quiet s s' : Inv s -> env_only s s' -> Quiet s s'.
  Proof. intros I0 (f & c & ->). now apply same_quiet. Qed.
  Lemma graph_quiet s g : Inv s -> gle (s_graph s) g -> Quiet s (set_graph s g).
  Proof.
    intros I0 H. split; [|reflexivity]. split.
    - constructor; [exact I0|reflexivity|reflexivity|apply incl_refl|exact H].
    - unfold size. cbn. pose proof (absent_le _ _ H). pose proof (acts_le _ _ (s_stack s) H). lia.
  Qed.
  Lemma log_quiet s e : Inv s -> Quiet s (log s e).
  Proof. intros H. now apply same_quiet. Qed.

  (** ** Single steps *)
  Definition quietm {A} (m : M A) : Prop := forall s, Inv s -> exists r s', m s = Some (r, s') /\ Quiet s s'.
  Lemma quietm_T {A} (m : M A) s (Q : result A -> st -> Prop) : quietm m -> Inv s ->
    (forall r s', m s = Some (r, s') -> Quiet s s' -> Q r s') -> T E (fun _ => m) s Q.
  Proof. intros H I0 K. destruct (H s I0) as (r & s' & H1 & H2). eapply T_const; eauto. Qed.
  Lemma quietm_env {A} (m : M A) : total m -> envm m -> quietm m.
  Proof. intros H K s I0. destruct (H s) as (r & s' & H1). exists r, s'. split; [exact H1|]. apply env_quiet; [exact I0|]. eapply K; exact H1. Qed.
  Lemma quietm_bind {A B} (m : M A) (f : A -> M B) : quietm m -> (forall a, quietm (f a)) -> quietm (bind m f).
  Proof.
    intros H K s I0. unfold bind. destruct (H s I0) as ([a|e] & s1 & -> & Q1).
    - destruct (K a s1) as (r & s2 & -> & Q2); [apply Q1|]. exists r, s2. split; [reflexivity|]. eapply Quiet_trans; eassumption.
    - exists (RErr e), s1. now split.
  Qed.
  Lemma quietm_ret {A} (a : A) : quietm (ret a).
  Proof. apply quietm_env; [apply total_ret|apply envm_ret]. Qed.
  Lemma quietm_raise {A} e : quietm (@raise A e).
  Proof. apply quietm_env; [apply total_raise|apply envm_raise]. Qed.
  Lemma quietm_gets {A} (f : st -> A) : quietm (gets f).
  Proof. apply quietm_env; [apply total_gets|apply envm_get]. Qed.
  Lemma quietm_assert b : quietm (assert b).
  Proof. apply quietm_env; [apply total_assert|apply envm_assert]. Qed.
  Lemma quietm_of_result {A} (x : result A) : quietm (of_result x).
  Proof. apply quietm_env; [apply total_of_result|apply envm_of_result]. Qed.
  Lemma quietm_note e : quietm (note e).
  Proof. intros s I0. eexists _, _. split; [reflexivity|]. now apply log_quiet. Qed.
  Lemma quietm_lift f : (forall g g', f g = ROk g' -> gle g g') -> quietm (lift_graph f).
  Proof.
    intros H s I0. unfold lift_graph. destruct (f (s_graph s)) as [g|e] eqn:A; eexists _, _; (split; [reflexivity|]).
    - apply graph_quiet; [exact I0|eauto].
    - now apply Quiet_refl.
  Qed.
  Lemma quietm_add_edge a b d : quietm (add_edge a b d).
  Proof. apply quietm_lift. intros g g'. apply gle_edge. Qed.
  Lemma quietm_add_root a : quietm (add_root a).
  Proof. apply quietm_lift. intros g g'. apply gle_root. Qed.
  Lemma quietm_user_add_node n : quietm (user_add_node n).
  Proof. apply quietm_lift. intros g g'. apply gle_add. Qed.
  Lemma quietm_add_node n l : quietm (add_node n l).
  Proof. apply quietm_bind; [apply quietm_user_add_node|]. intros _. apply quietm_note. Qed.
  Lemma quietm_add_written a l : quietm (add_written a l).
  Proof. intros s I0. eexists _, _. split; [reflexivity|]. apply graph_quiet; [exact I0|apply gle_written]. Qed.
  Lemma quietm_get_node id : quietm (get_node id). Proof. apply quietm_gets. Qed.
  Lemma quietm_kind_test p id : quietm (kind_test p id).
  Proof. apply quietm_bind; [apply quietm_get_node|]. intros n. apply quietm_ret. Qed.
  Lemma quietm_find_module id : quietm (find_module id).
  Proof.
    apply quietm_bind; [apply quietm_get_node|]. intros [n|]; [|apply quietm_ret].
    apply quietm_bind; [apply quietm_assert|]. intros _. apply quietm_ret.
  Qed.
  Lemma quietm_mem m : quietm (modify (fun s => set_mem s m)).
  Proof. intros s I0. eexists _, _. split; [reflexivity|]. now apply same_quiet. Qed.
  Lemma quietm_fakes f : quietm (modify (fun s => set_fakes s (f s))).
  Proof. apply quietm_env; [apply total_modify|apply envm_set_fakes]. Qed.
  Lemma quietm_find_spec name : quietm (find_spec E name).
  Proof. apply quietm_env; [apply total_find_spec|apply envm_find_spec]. Qed.
  Lemma quietm_askr {A} (f : nat -> result A) : quietm (askr f).
  Proof. apply quietm_env; [apply total_askr|apply envm_askr]. Qed.
  Lemma quietm_ask {A} (f : nat -> A) : quietm (ask f).
  Proof. apply quietm_env; [apply total_ask|apply envm_ask]. Qed.

  (** Work for a node. *)
  Lemma schedule_grow id imports s : Inv s -> Grow s (schedule id imports s)
    /\ size (schedule id imports s) <= size s + (if memb id (s_seen s) then 0 else if compiled (s_graph s) id then 1 else 0).
  Proof.
    intros [J G]. unfold schedule. cbn. destruct (memb id (s_seen s)) eqn:Em; cbn.
    - split.
      + constructor; cbn; [|reflexivity|reflexivity|apply incl_refl|apply gle_refl]. split; [|exact G]. cbn. intros n H.
        apply in_app_iff in H as [H|H]; [|now apply J]. rewrite <- map_rev in H. apply in_map_iff in H as (x & A & _). discriminate.
      + unfold size. cbn. rewrite acts_app, acts_imports. lia.
    - split.
      + constructor; cbn; [|reflexivity|reflexivity| |apply gle_refl].
        * split; [|exact G]. cbn. intros n H. apply set_add_In.
          apply in_app_iff in H as [H|[H|H]]; [|injection H as ->; now left|right; now apply J].
          rewrite <- map_rev in H. apply in_map_iff in H as (x & A & _). discriminate.
        * intros x H. apply set_add_In. now right.
      + unfold size. cbn. rewrite acts_app, acts_imports, acts_cons. cbn [act]. lia.
  Qed.
  Lemma schedule_none id s : exists ns, s_stack (schedule id [] s) = map DoPost ns ++ s_stack s.
  Proof.
    unfold schedule. cbn. destruct (memb id (s_seen s)); cbn; [now exists []|now exists [id]].
  Qed.
  (** ** [node_for_spec] *)
  Lemma T_also {A} (m : funs -> M A) s (Q P : result A -> st -> Prop) :
    T E m s Q -> (forall n r s', m (exec E n) s = Some (r, s') -> P r s') -> T E m s (fun r s' => Q r s' /\ P r s').
  Proof. intros (k & r & s' & H & K) L. exists k, r, s'. split; [|exact K]. split; [exact H|]. eapply (L k). now apply K. Qed.

  Lemma total_T {A} (m : M A) s : total m -> T E (fun _ => m) s (fun _ _ => True).
  Proof. intros H. destruct (H s) as (r & s' & K). eapply T_const; eauto. Qed.
  Lemma T_found name s : T E (fun _ => find_spec E name) s
    (fun r s' => forall sp, r = ROk (Some sp) -> exists t f, e_find_spec E t f name = ROk (Some sp)).
  Proof. eapply T_const; [reflexivity|]. intros sp H. eauto. Qed.

  Lemma T_moved sp moved name s : target sp name -> (exists t f, e_find_spec E t f name = ROk (Some moved)) ->
    (forall y s, redirects E y sp -> T E (fun r => f_nfs r y) s (fun _ _ => True)) ->
    T E (fun r => do assert (negb (seqb (sp_name sp) (sp_name moved))) ;; f_nfs r moved) s (fun _ _ => True).
  Proof.
    intros Ht (t & f & Hf) IH. destruct (seqb (sp_name sp) (sp_name moved)) eqn:Es.
    - exists 0, (RErr EAssert), s. split; [exact I|]. reflexivity.
    - cbn [negb assert]. eapply T_bind; [apply total_T, total_ret| |auto]. intros _ s1 _. apply IH. exists name, t, f. repeat split; auto. intros A. unfold seqb in Es. rewrite A, String.eqb_refl in Es. discriminate.
  Qed.

  Lemma T_nfs_ends : forall sp s, T E (fun r => f_nfs r sp) s (fun _ _ => True).
  Proof.
    intros sp. induction (RE sp) as [sp _ IH]. intros s. apply T_nfs. unfold nfs_body.
    destruct (sp_loader sp) as [| | | |frozen src cd| |[[root vendor]|]| |] eqn:El;
      try (apply total_T; unfold wrap_package, dist_of, source_imports, code_info; total_tac; fail).
    - (* six *)
      unfold six_spec. destruct (ends_with _ _); [apply total_T; unfold dist_of; total_tac|].
      destruct (assoc _ _) as [actual|] eqn:Ea; [|apply total_T; total_tac].
      assert (Ht : target sp actual) by (unfold target; now rewrite El).
      eapply T_bind; [apply T_found| |auto]. intros [moved|] s1 H1; [|apply total_T; total_tac].
      eapply T_bind with (Q1 := fun r _ => forall x, r = ROk (Some x) -> exists t f, e_find_spec E t f actual = ROk (Some x)); [| |auto].
      + destruct (seqb _ _).
        * eapply T_bind; [apply total_T, total_del_sysmod| |]; [intros ? ? _; apply T_found|discriminate].
        * apply T_ret. intros x A. injection A as <-. now apply H1.
      + intros [x|] s2 H2; [|apply total_T; total_tac]. apply (T_moved sp x actual); auto.
    - (* vendor *)
      unfold vendor_spec. cbv zeta. set (rel := sdrop _ _). set (full := (vendor ++ "." ++ rel)%string).
      assert (Ht : target sp full /\ target sp rel) by (unfold target; rewrite El; split; [now left|now right]).
      destruct Ht as [Hfull Hrel].
      eapply T_bind with (Q1 := fun r _ => forall x, r = ROk (ROk (Some x)) -> exists t f, e_find_spec E t f full = ROk (Some x)); [| |auto].
      { apply T_attempt. eapply T_bind; [apply T_found| |discriminate]. intros [moved|] s1 H1; [|apply T_ret; discriminate].
        destruct (seqb _ _).
        - eapply T_bind; [apply total_T, total_del_sysmod| |discriminate]. intros ? ? _.
          eapply T_conseq; [apply T_found|]. intros r s2 H x A. apply H. congruence.
        - apply T_ret. intros x A. injection A as <-. now apply H1. }
      intros r s1 H1.
      eapply T_bind with (Q1 := fun r _ => forall x, r = ROk (Some x) ->
        exists name, target sp name /\ exists t f, e_find_spec E t f name = ROk (Some x)); [| |auto].
      { destruct r as [x|e]; [apply T_ret; intros y A; exists full; split; [exact Hfull|]; apply H1; congruence|].
        destruct e; try (apply T_raise; discriminate).
        eapply T_conseq; [apply T_found|]. intros r s2 H x A. exists rel. split; [exact Hrel|]. now apply H. }
      intros [x|] s2 H2; [|apply total_T; total_tac]. destruct (H2 x eq_refl) as (name & A & B).
      apply (T_moved sp x name); auto.
    - (* distutils *)
      unfold distutils_spec. eapply T_bind; [apply total_T, total_assert| |auto]. intros _ s1 _.
      eapply T_bind; [apply total_T, total_del_sysmod| |auto]. intros _ s2 _.
      eapply T_bind; [apply T_found| |auto]. intros [x|] s3 H; [|apply total_T; total_tac].
      apply (T_moved sp x "setuptools._distutils"); [unfold target; now rewrite El|now apply H|auto].
  Qed.

  (** The place holder with the empty name is not touched. *)
  Definition fakem (x : string) {A} (m : M A) : Prop :=
    forall s r s', m s = Some (r, s') -> In x (s_fakes s) -> In x (s_fakes s').
  Lemma fakem_same x {A} (m : M A) : (forall s r s', m s = Some (r, s') -> s_fakes s' = s_fakes s) -> fakem x m.
  Proof. intros H s r s' K. now rewrite (H _ _ _ K). Qed.
  Lemma fakem_bind x {A B} (m : M A) (f : A -> M B) : fakem x m -> (forall a, fakem x (f a)) -> fakem x (bind m f).
  Proof.
    intros H K s r s' H1 H2. unfold bind in H1. destruct (m s) as [[[a|e] s1]|] eqn:Em; [| |discriminate].
    - eapply K; [exact H1|]. eapply H; eassumption.
    - injection H1 as <- <-. eapply H; eassumption.
  Qed.
  Lemma fakem_attempt x {A} (m : M A) : fakem x m -> fakem x (attempt m).
  Proof.
    intros H s r s' H1 H2. unfold attempt in H1. destruct (m s) as [[a s1]|] eqn:Em; [|discriminate].
    injection H1 as <- <-. eapply H; eassumption.
  Qed.
  Lemma fakem_ret x {A} (a : A) : fakem x (ret a).
  Proof. apply fakem_same. intros s r s' H. now injection H as <- <-. Qed.
  Lemma fakem_raise x {A} e : fakem x (@raise A e).
  Proof. apply fakem_same. intros s r s' H. now injection H as <- <-. Qed.
  Lemma fakem_of_result x {A} (a : result A) : fakem x (of_result a).
  Proof. apply fakem_same. intros s r s' H. now injection H as <- <-. Qed.
  Lemma fakem_oof x {A} : fakem x (@out_of_fuel A).
  Proof. intros s r s' H. discriminate. Qed.
  Lemma fakem_gets x {A} (f : st -> A) : fakem x (gets f).
  Proof. apply fakem_same. intros s r s' H. now injection H as <- <-. Qed.
  Lemma fakem_assert x b : fakem x (assert b).
  Proof. destruct b; [apply fakem_ret|apply fakem_raise]. Qed.
  Lemma fakem_ask x {A} (f : nat -> A) : fakem x (ask f).
  Proof. apply fakem_same. intros s r s' H. now injection H as <- <-. Qed.
  Lemma fakem_askr x {A} (f : nat -> result A) : fakem x (askr f).
  Proof. apply fakem_same. intros s r s' H. now injection H as <- <-. Qed.
  Lemma fakem_find_spec x name : fakem x (find_spec E name).
  Proof. apply fakem_same. intros s r s' H. now injection H as <- <-. Qed.
  Lemma fakem_in_sysmod x name : fakem x (in_sysmod E name).
  Proof. apply fakem_same. intros s r s' H. now injection H as <- <-. Qed.
  Lemma fakem_del_sysmod x name : name <> x -> fakem x (del_sysmod E name).
  Proof.
    intros Hn. apply fakem_bind; [apply fakem_in_sysmod|]. intros [|]; [|apply fakem_raise].
    intros s r s' H K. injection H as <- <-. cbn. apply filter_In. split; [exact K|]. apply negb_true_iff.
    unfold seqb. apply String.eqb_neq. congruence.
  Qed.
  Ltac fakem_tac :=
    repeat first
      [ progress cbv zeta
      | assumption
      | apply fakem_ret | apply fakem_raise | apply fakem_of_result | apply fakem_gets | apply fakem_oof
      | apply fakem_assert | apply fakem_ask | apply fakem_askr | apply fakem_find_spec | apply fakem_in_sysmod
      | apply fakem_attempt
      | apply fakem_bind; [|intros ?]
      | match goal with
        | H : forall x, fakem _ _ |- _ => apply H
        | |- fakem _ (match ?x with _ => _ end) => destruct x
        end ].
  Lemma nonempty_dot a b : (a ++ "." ++ b)%string <> EmptyString.
  Proof. destruct a; discriminate. Qed.
  Lemma six_nonempty k v : assoc k SIX_MOVES_TO = Some v -> v <> EmptyString.
  Proof.
    assert (H : forallb (fun x => negb (seqb (snd x) "")) SIX_MOVES_TO = true) by reflexivity.
    revert H. generalize SIX_MOVES_TO. intros l. induction l as [|[k' v'] l IH]; [discriminate|].
    cbn [forallb assoc]. intros H. apply andb_true_iff in H as [H1 H2]. destruct (seqb k k'); [|now apply IH].
    intros A. injection A as ->. intros ->. discriminate.
  Qed.
  Lemma fakem_nfs n : forall sp, fakem EmptyString (f_nfs (exec E n) sp).
  Proof.
    induction n as [|n IH]; intros sp; [intros s r s' H; discriminate|].
    change (fakem "" (nfs_body E (f_nfs (exec E n)) sp)). unfold nfs_body.
    destruct (sp_loader sp) as [| | | |frozen src cd| |[[root vendor]|]| |];
      try (unfold wrap_package, dist_of, source_imports, code_info; fakem_tac; fail).
    - unfold six_spec. destruct (ends_with _ _); [unfold dist_of; fakem_tac|].
      destruct (assoc _ _) as [actual|] eqn:Ea; [|fakem_tac]. apply six_nonempty in Ea.
      pose proof (fakem_del_sysmod "" actual Ea). fakem_tac.
    - unfold vendor_spec. cbv zeta. pose proof (fakem_del_sysmod "" _ (nonempty_dot vendor (sdrop (String.length root + 1) (sp_name sp)))). fakem_tac.
    - unfold distutils_spec. assert (fakem "" (del_sysmod E "setuptools._distutils")) by (apply fakem_del_sysmod; discriminate). fakem_tac.
  Qed.
  Lemma envm_nfs_exec n sp : envm (f_nfs (exec E n) sp).
  Proof. revert sp. induction n as [|n IH]; intros sp; cbn; [apply envm_oof|]. now apply envm_nfs_body. Qed.
  Lemma T_nfs_quiet sp s : Inv s -> T E (fun r => f_nfs r sp) s (fun _ s' => Quiet s s' /\ env_only s s'
    /\ (In EmptyString (s_fakes s) -> In EmptyString (s_fakes s'))).
  Proof.
    intros I0. eapply T_conseq; [apply T_also; [apply T_nfs_ends|]|].
    - intros n r s' H. exact (conj (envm_nfs_exec n sp s r s' H) (fun K => fakem_nfs n sp s r s' H K)).
    - intros r s' [_ [A B]]. split; [now apply env_quiet|]. now split.
  Qed.
  (** ** Plain actions and missing hooks *)
  Definition keeps_fake (x : string) (s s' : st) : Prop := In x (s_fakes s) -> In x (s_fakes s').
  Record plain_facts (a : action) (s : st) (ans : answer) (s' : st) : Prop := {
    pf_quiet : Quiet s s';
    pf_look : a = ALook -> ans = AnsGraph (s_graph s) (s_mem s);
    pf_rel : forall n, a = AFindSpecRel n EmptyString -> ans = AnsErr EImport;
    pf_fakes : forall x, (forall sp, a = ANodeForSpec sp -> x = EmptyString) -> a <> AUnfake x -> keeps_fake x s s'
  }.

  Lemma T_call a s (Q : result answer -> st -> Prop) :
    T E (fun r => do_action E r a) s (fun r s' => match r with ROk ans => Q (ROk ans) s' | RErr e => Q (ROk (AnsErr e)) (log s' EvErr) end) ->
    T E (fun r => call E r a) s Q.
  Proof.
    intros H. unfold call. eapply T_bind.
    - apply T_attempt. eapply T_conseq; [exact H|]. intros r s' K.
      instantiate (1 := fun r s' => match r with ROk x => match x with ROk ans => Q (ROk ans) s' | RErr e => Q (ROk (AnsErr e)) (log s' EvErr) end
                                   | RErr _ => False end). exact K.
    - intros [ans|e] s1 K.
      + now apply T_ret.
      + eapply T_const; [reflexivity|exact K].
    - intros e s1 [].
  Qed.
  Lemma quietm_call_like {A} (m : M A) s : quietm m -> Inv s -> (forall x, fakem x m) ->
    exists r s', m s = Some (r, s') /\ Quiet s s' /\ forall x, keeps_fake x s s'.
  Proof.
    intros H I0 K. destruct (H s I0) as (r & s' & A1 & A2). exists r, s'. split; [exact A1|]. split; [exact A2|].
    intros x. exact (K x _ _ _ A1).
  Qed.
  Lemma fakem_lift x f : fakem x (lift_graph f).
  Proof. apply fakem_same. intros s r s'. unfold lift_graph. destruct (f _); intros H; now injection H as <- <-. Qed.
  Lemma fakem_note x e : fakem x (note e).
  Proof. apply fakem_same. intros s r s' H. now injection H as <- <-. Qed.
  Lemma fakem_add_node x n l : fakem x (add_node n l).
  Proof. apply fakem_bind; [apply fakem_lift|]. intros _. apply fakem_note. Qed.

  Lemma T_simple (m : M answer) a s : Inv s -> quietm m -> (forall x, fakem x m) ->
    (forall r, do_action E r a = m) -> (a <> ALook) -> (forall n, a <> AFindSpecRel n EmptyString) ->
    T E (fun r => call E r a) s (fun r s' => exists ans, r = ROk ans /\ plain_facts a s ans s').
  Proof.
    intros I0 Hq Hf Ha H1 H2. apply T_call. destruct (quietm_call_like m s Hq I0 Hf) as (r & s' & A1 & A2 & A3).
    exists 0, r, s'. split; [|intros n _; rewrite Ha; exact A1].
    destruct r as [ans|e]; eexists; (split; [reflexivity|]).
    - constructor; [exact A2|congruence|intros n B; now apply H2 in B|intros x _ _; apply A3].
    - constructor; [|congruence|intros n B; now apply H2 in B|intros x _ _; apply A3].
      eapply Quiet_trans; [exact A2|]. apply log_quiet. apply A2.
  Qed.

  Lemma T_plain a s : plain_action a = true -> Inv s ->
    T E (fun r => call E r a) s (fun r s' => exists ans, r = ROk ans /\ plain_facts a s ans s').
  Proof.
    intros Hp I0. destruct a; try discriminate Hp; clear Hp.
    - (* look *) apply T_call. eapply T_const; [reflexivity|]. eexists. split; [reflexivity|].
      constructor; [now apply Quiet_refl|reflexivity|discriminate|intros x _ _ H; exact H].
    - eapply T_simple; [exact I0| | |intros r; cbn [do_action]; reflexivity|discriminate|discriminate].
      + apply quietm_bind; [apply quietm_mem|intros; apply quietm_ret].
      + intros x. apply fakem_bind; [apply fakem_same; intros ? ? ? H; now injection H as <- <-|intros; apply fakem_ret].
    - eapply T_simple; [exact I0| | |intros r; cbn [do_action]; reflexivity|discriminate|discriminate].
      + apply quietm_bind; [apply quietm_note|intros]. apply quietm_bind; [apply quietm_user_add_node|intros; apply quietm_ret].
      + intros x. apply fakem_bind; [apply fakem_note|intros]. apply fakem_bind; [apply fakem_lift|intros; apply fakem_ret].
    - eapply T_simple; [exact I0| | |intros r; cbn [do_action]; reflexivity|discriminate|discriminate].
      + apply quietm_bind; [apply quietm_note|intros]. apply quietm_bind; [apply quietm_add_edge|intros; apply quietm_ret].
      + intros x. apply fakem_bind; [apply fakem_note|intros]. apply fakem_bind; [apply fakem_lift|intros; apply fakem_ret].
    - eapply T_simple; [exact I0| | |intros r; cbn [do_action]; reflexivity|discriminate|discriminate].
      + apply quietm_bind; [apply quietm_note|intros]. apply quietm_bind; [apply quietm_add_root|intros; apply quietm_ret].
      + intros x. apply fakem_bind; [apply fakem_note|intros]. apply fakem_bind; [apply fakem_lift|intros; apply fakem_ret].
    - eapply T_simple; [exact I0| | |intros r; cbn [do_action]; reflexivity|discriminate|discriminate].
      + apply quietm_bind; [apply quietm_find_spec|intros; apply quietm_ret].
      + intros x. fakem_tac.
    - (* relative *)
      destruct (seqb package "") eqn:Es.
      + apply T_call. exists 0, (RErr EImport), s. cbn [do_action]. rewrite Es. split; [|reflexivity].
        eexists. split; [reflexivity|]. constructor; [now apply log_quiet|discriminate|reflexivity|intros x _ _ H; exact H].
      + eapply T_simple; [exact I0| | |intros r; cbn [do_action]; rewrite Es; reflexivity|discriminate|].
        * apply quietm_bind; [apply quietm_find_spec|intros; apply quietm_ret].
        * intros x. fakem_tac.
        * intros n A. injection A as _ ->. discriminate.
    - eapply T_simple; [exact I0| | |intros r; cbn [do_action]; reflexivity|discriminate|discriminate].
      + apply quietm_bind; [apply (quietm_fakes (fun s => set_add name (s_fakes s)))|intros; apply quietm_ret].
      + intros x. apply fakem_bind; [|intros; apply fakem_ret]. intros s1 r s2 H K. injection H as <- <-. cbn. apply set_add_In. now right.
    - (* unfake *)
      apply T_call. assert (Hq : quietm (do del_sysmod E name ;; ret AnsUnit)).
      { apply quietm_env; [|envm_tac]. apply total_bind; [apply total_del_sysmod|intros; apply total_ret]. }
      destruct (Hq s I0) as (r & s' & A1 & A2). exists 0, r, s'. split; [|intros n _; exact A1].
      assert (A3 : forall x, name <> x -> keeps_fake x s s').
      { intros x Hx. refine (fakem_bind x _ _ _ _ s r s' A1); [now apply fakem_del_sysmod|intros; apply fakem_ret]. }
      destruct r as [ans|e]; eexists; (split; [reflexivity|]).
      + constructor; [exact A2|discriminate|discriminate|]. intros x _ B. apply A3. congruence.
      + constructor; [|discriminate|discriminate|]; [eapply Quiet_trans; [exact A2|]; apply log_quiet; apply A2|].
        intros x _ B. apply A3. congruence.
    - (* node_for_spec *)
      apply T_call. cbn [do_action]. eapply T_bind; [apply (T_nfs_quiet s0 s I0)| |].
      + intros x s1 (A1 & A2 & A3). apply T_ret. eexists. split; [reflexivity|].
        constructor; [exact A1|discriminate|discriminate|]. intros y B _. rewrite (B s0 eq_refl). exact A3.
      + intros e s1 (A1 & A2 & A3). eexists. split; [reflexivity|].
        constructor; [|discriminate|discriminate|].
        * eapply Quiet_trans; [exact A1|]. apply log_quiet. apply A1.
        * intros y B _. rewrite (B s0 eq_refl). exact A3.
    - eapply T_simple; [exact I0| | |intros r; cbn [do_action]; reflexivity|discriminate|discriminate].
      + apply quietm_bind; [apply quietm_ask|intros; apply quietm_ret].
      + intros x. fakem_tac.
    - eapply T_simple; [exact I0| | |intros r; cbn [do_action]; reflexivity|discriminate|discriminate].
      + apply quietm_env; [total_tac|envm_tac].
      + intros x. fakem_tac.
    Unshelve. exact E.
  Qed.

  Definition parent_of (name : string) : string := fst (rpartition dot name).

  Lemma T_missing_prog x p : missing_ok x p -> forall s, Inv s ->
    T E (fun r => run_prog E r p) s (fun _ s' => Quiet s s' /\ keeps_fake x s s').
  Proof.
    induction 1 as [o|e|a k Hp Hu Hn Hk IH|name pkg k Hk IH|y k Hy Hk IH|sp k Hx Hk IH]; intros s I0; cbn [run_prog].
    - apply T_ret. split; [now apply Quiet_refl|]. intros A. exact A.
    - apply T_raise. split; [now apply Quiet_refl|]. intros A. exact A.
    - eapply T_bind; [apply (T_plain a s Hp I0)| |intros e s1 (ans & A & _); discriminate].
      intros ans s1 (ans' & A & F). destruct F as [F1 F2 F3 F4].
      eapply T_conseq; [apply IH; apply F1|]. intros r s2 [B1 B2]. split; [eapply Quiet_trans; eassumption|].
      intros C. apply B2, F4; [|auto|exact C]. intros sp D. now apply Hn in D.
    - eapply T_bind; [apply (T_plain (AFindSpecRel name pkg) s eq_refl I0)| |intros e s1 (ans & A & _); discriminate].
      intros ans s1 (ans' & A & F). injection A as <-. destruct F as [F1 F2 F3 F4].
      eapply T_conseq; [apply IH; [|apply F1]|].
      + intros ->. now apply (F3 name).
      + intros r s2 [B1 B2]. split; [eapply Quiet_trans; eassumption|].
        intros C. apply B2, F4; [discriminate|discriminate|exact C].
    - eapply T_bind; [apply (T_plain (AUnfake y) s eq_refl I0)| |intros e s1 (ans & A & _); discriminate].
      intros ans s1 (ans' & A & F). destruct F as [F1 F2 F3 F4].
      eapply T_conseq; [apply IH; apply F1|]. intros r s2 [B1 B2]. split; [eapply Quiet_trans; eassumption|].
      intros C. apply B2, F4; [discriminate|congruence|exact C].
    - eapply T_bind; [apply (T_plain (ANodeForSpec sp) s eq_refl I0)| |intros e s1 (ans & A & _); discriminate].
      intros ans s1 (ans' & A & F). destruct F as [F1 F2 F3 F4].
      eapply T_conseq; [apply IH; apply F1|]. intros r s2 [B1 B2]. split; [eapply Quiet_trans; eassumption|].
      intros C. apply B2, F4; [auto|discriminate|exact C].
  Qed.

  Lemma T_miss_hooks importing name : forall d i s, Inv s -> List.length (s_missing s) - i <= d ->
    T E (fun r => f_miss r i importing name) s (fun _ s' => Quiet s s' /\ keeps_fake (parent_of name) s s').
  Proof.
    induction d as [|d IH]; intros i s I0 Hd; apply T_miss; unfold miss_body.
    - eapply T_bind with (Q1 := fun r s' => r = ROk None /\ s' = s).
      + eapply T_const; [reflexivity|]. split; [|reflexivity]. f_equal. apply nth_error_None. lia.
      + intros o s1 [A ->]. injection A as ->. apply T_ret. split; [now apply Quiet_refl|]. intros A. exact A.
      + now intros e s1 [A _].
    - eapply T_bind with (Q1 := fun r s' => r = ROk (nth_error (s_missing s) i) /\ s' = s).
      + eapply T_const; [reflexivity|]. now split.
      + intros o s1 [A ->]. injection A as ->. destruct (nth_error (s_missing s) i) as [h|] eqn:Eh.
        * assert (Hh : missing_ok (parent_of name) (h importing name)) by (apply I0; eapply nth_error_In; exact Eh).
          assert (Hi : i < List.length (s_missing s)) by (apply nth_error_Some; congruence).
          eapply T_bind; [apply (T_missing_prog _ _ Hh s I0)| |auto].
          intros [id|] s2 [B1 B2]; [now apply T_ret|].
          eapply T_conseq; [apply (IH (S i) s2); [apply B1|]|].
          -- destruct B1 as [[[_ _ B1 _ _] _] _]. rewrite B1. lia.
          -- intros r s3 [C1 C2]. split; [eapply Quiet_trans; eassumption|]. intros C. now apply C2, B2.
        * apply T_ret. split; [now apply Quiet_refl|]. intros A. exact A.
      + now intros e s1 [A _].
  Qed.

  (** ** Nodes that are made from a name *)
  Definition dull (k : kind) : Prop := match k with Module _ | Package _ _ _ _ _ => False | _ => True end.
  Lemma dull_compiled k : dull k -> match k with Module MExtension | Package _ _ MExtension _ _ => true | _ => false end = false.
  Proof. destruct k; cbn; tauto. Qed.

  (** [add_node] and then [_process_import_list]. *)
  Definition after_add (s : st) (n : node) (l : list iinfo) : st :=
    log (set_graph s (Graph (g_nodes (s_graph s) ++ [n]) (g_edges (s_graph s)) (g_roots (s_graph s)))) (EvAdd (n_name n) l).
  Lemma T_add {B} n l (f : funs -> unit -> M B) s (Q : result B -> st -> Prop) : Inv s ->
    (forall e, Q (RErr e) s) ->
    (gfind (s_graph s) (n_name n) = None -> Quiet s (after_add s n l) ->
       (In (n_name n) V -> size (after_add s n l) + 3 <= size s) ->
       gfind (s_graph (after_add s n l)) (n_name n) = Some n ->
       T E (fun r => f r tt) (after_add s n l) Q) ->
    T E (fun r => bind (add_node n l) (f r)) s Q.
  Proof.
    intros I0 He Hk. destruct (gadd_node (s_graph s) n) as [g|e] eqn:Eg.
    - destruct (gadd_node_spec _ _ _ Eg) as [A ->].
      eapply T_bind with (Q1 := fun r s' => r = ROk tt /\ s' = after_add s n l); [| |now intros ? ? [? _]].
      + eapply T_const; [|split; reflexivity]. unfold add_node, bind, lift_graph. rewrite Eg. reflexivity.
      + intros [] s1 [_ ->]. apply Hk; [exact A| | |].
        * eapply Quiet_trans; [apply graph_quiet; [exact I0|eapply gle_add; exact Eg]|].
          apply log_quiet. apply graph_quiet; [exact I0|eapply gle_add; exact Eg].
        * intros Hn. unfold size, after_add. cbn [s_graph s_lazy s_stack log set_graph].
          pose proof (absent_lt _ _ _ Eg Hn). pose proof (acts_le _ _ (s_stack s) (gle_add _ _ _ Eg)). lia.
        * unfold after_add. cbn [s_graph log set_graph]. rewrite gfind_app, A. unfold seqb. now rewrite String.eqb_refl.
    - eapply T_bind with (Q1 := fun r s' => r = RErr e /\ s' = s); [| |].
      + eapply T_const; [|split; reflexivity]. unfold add_node, bind, lift_graph. rewrite Eg. reflexivity.
      + intros ? ? [? _]. discriminate.
      + intros e' s1 [_ ->]. apply He.
  Qed.
  Lemma T_sched {B} id l (f : funs -> unit -> M B) s (Q : result B -> st -> Prop) :
    T E (fun r => f r tt) (schedule id l s) Q -> T E (fun r => bind (process_import_list id l) (f r)) s Q.
  Proof.
    intros H. eapply T_bind with (Q1 := fun r s' => r = ROk tt /\ s' = schedule id l s); [| |now intros ? ? [? _]].
    - eapply T_const; [reflexivity|]. now split.
    - intros [] s1 [_ ->]. exact H.
  Qed.
  Lemma T_add_dull {B} k name (f : funs -> unit -> M B) s (Q : result B -> st -> Prop) : Inv s -> dull k ->
    (forall e, Q (RErr e) s) ->
    (forall s', Calm (In name V) s s' -> s_fakes s' = s_fakes s ->
      T E (fun r => f r tt) s' Q) ->
    T E (fun r => bind (add_node (plain_node k name) []) (fun _ => bind (process_import_list name []) (f r))) s Q.
  Proof.
    intros I0 Hk He Hf. apply (T_add (plain_node k name) []); [exact I0|exact He|].
    intros A Hq Hs Hg. apply T_sched. set (s1 := after_add s (plain_node k name) []) in *.
    assert (I1 : Inv s1) by apply Hq.
    destruct (schedule_grow name [] s1 I1) as [G1 G2].
    assert (Hc : compiled (s_graph s1) name = false).
    { unfold compiled. cbn [n_name plain_node] in Hg. rewrite Hg. cbn [n_kind plain_node]. now apply dull_compiled. }
    rewrite Hc in G2. assert (G3 : size (schedule name [] s1) <= size s1) by (destruct (memb _ _); lia).
    apply Hf.
    - split; [eapply Weak_trans; [apply Hq|split; [exact G1|exact G3]]|].
      destruct (in_dec string_dec name V) as [Hv|Hv].
      + left. specialize (Hs Hv). lia.
      + right. destruct (schedule_none name s1) as (ns & B1). exists ns. rewrite B1. split; [reflexivity|tauto].
    - unfold schedule. cbn. destruct (memb name (s_seen s)); reflexivity.
  Qed.

  (** [_create_missing_module] *)
  Lemma T_create_missing importing name s : Inv s ->
    T E (fun r => create_missing r importing name) s (fun _ s' => Calm (In name V) s s' /\ keeps_fake (parent_of name) s s').
  Proof.
    intros I0. unfold create_missing.
    eapply T_bind; [apply (T_miss_hooks importing name _ 0 s I0 (Nat.le_refl _))| |].
    - intros [id|] s1 [A1 A2].
      + eapply T_const; [reflexivity|]. split; [|exact A2]. apply Quiet_calm. eapply Quiet_trans; [exact A1|]. apply log_quiet, A1.
      + apply (T_add_dull MissingModule name (fun r _ => ret name)); [apply A1|exact I| |].
        * intros e. split; [now apply Quiet_calm|exact A2].
        * intros s2 C1 C2. apply T_ret. split; [|].
          -- eapply Calm_trans; [apply Quiet_calm; exact A1|exact C1].
          -- unfold keeps_fake in *. now rewrite C2.
    - intros e s1 [A1 A2]. split; [now apply Quiet_calm|exact A2].
  Qed.
  (** ** [_load_module] *)
  Lemma parent_other name : name <> EmptyString -> name <> parent_of name.
  Proof.
    intros Hn. unfold parent_of. destruct (rpartition_cases dot name) as [[_ ->]|(x & y & Hx & _ & ->)]; cbn [fst]; [exact Hn|].
    intros A. rewrite <- A in Hx. apply (f_equal String.length) in Hx. rewrite length_app_s in Hx. cbn in Hx. lia.
  Qed.
  Lemma total_spec_or_none name : total (spec_or_none E name).
  Proof. unfold spec_or_none. total_tac. Qed.
  Lemma fakem_spec_or_none x name : name <> x -> fakem x (spec_or_none E name).
  Proof.
    intros Hx. unfold spec_or_none. apply fakem_bind; [apply fakem_attempt, fakem_find_spec|].
    intros [o|e]; [apply fakem_ret|]. destruct e; try apply fakem_ret; try apply fakem_raise.
    intros s r s' H K. unfold bind at 1, gets at 1 in H. cbn beta iota in H. revert s r s' H K.
    enough (G : forall fakes, In x fakes -> fakem x (do del_sysmod E name ;;
      r1 <- attempt (find_spec E name) ;; b <- in_sysmod E name ;; do assert (negb b) ;;
      do modify (fun s => set_fakes s fakes) ;; of_result r1)) by (intros s r s' H K; exact (G _ K s r s' H K)).
    intros fakes Hf. pose proof (fakem_del_sysmod x name Hx). fakem_tac.
    intros s r s' A _. injection A as <- <-. exact Hf.
  Qed.
  Lemma T_spec name s : Inv s -> T E (fun _ => attempt (spec_or_none E name)) s (fun r s' => Quiet s s' /\ env_only s s'
    /\ (name <> parent_of name -> keeps_fake (parent_of name) s s')
    /\ exists r0, r = ROk r0 /\ forall sp, r0 = ROk (Some sp) -> In name V).
  Proof.
    intros I0. destruct (total_spec_or_none name s) as (r & s' & H). apply T_attempt. eapply T_const; [exact H|].
    assert (He : env_only s s') by (eapply envm_spec_or_none; exact H).
    split; [now apply env_quiet|]. split; [exact He|]. split.
    - intros Hn. exact (fakem_spec_or_none _ name Hn s r s' H).
    - exists r. split; [reflexivity|]. intros sp ->. apply spec_or_none_found in H as (t & f & H). eapply fu_found; eassumption.
  Qed.
  Lemma env_graph s s' : env_only s s' -> s_graph s' = s_graph s.
  Proof. now intros (f & c & ->). Qed.

  (** A bound on the size under which [_find_or_load_module] is known to end. *)
  Definition finds (b : nat) : Prop := forall s, Inv s -> size s < b ->
    forall importing name link, T E (fun r => f_find r importing name link) s (fun _ s' => Calm (In name V) s s').

  Lemma Weak_quiet a b c : Weak a b -> Quiet b c -> Weak a c.
  Proof. intros H [K _]. eapply Weak_trans; eassumption. Qed.
  Definition Less (k : nat) (s s' : st) : Prop := Grow s s' /\ size s' + k <= size s.
  Lemma Less_weak k s s1 s2 : Less k s s1 -> Weak s1 s2 -> Less k s s2.
  Proof. intros [H1 H2] [K1 K2]. split; [eapply Grow_trans; eassumption|lia]. Qed.
  Lemma Less_quiet k s s1 s2 : Less k s s1 -> Quiet s1 s2 -> Less k s s2.
  Proof. intros H [K _]. eapply Less_weak; eassumption. Qed.
  Lemma Less_calm k p s s' : Less (S k) s s' -> Calm p s s'.
  Proof. intros [H1 H2]. split; [split; [exact H1|lia]|left; lia]. Qed.
  Lemma Less_inv k s s' : Less k s s' -> Inv s'.
  Proof. intros [[] _]. assumption. Qed.
  Lemma Less_le k k' s s' : k' <= k -> Less k s s' -> Less k' s s'.
  Proof. intros H [H1 H2]. split; [exact H1|lia]. Qed.
  Lemma Weak_less s s' : Weak s s' -> Less 0 s s'.
  Proof. intros [H1 H2]. split; [exact H1|lia]. Qed.
  Lemma Less_weak0 s s' k : Less k s s' -> Weak s s'.
  Proof. intros [H1 H2]. split; [exact H1|lia]. Qed.

  (** In a state that has become smaller anything found elsewhere keeps it small. *)
  Lemma T_find_less b k s s1 importing name link : finds b -> size s <= b -> Less (S k) s s1 ->
    T E (fun r => f_find r importing name link) s1 (fun _ s' => Less (S k) s s').
  Proof.
    intros F Hb L. eapply T_conseq; [apply F; [now apply Less_inv in L|destruct L; lia]|].
    intros r s2 C. eapply Less_weak; [exact L|]. now apply Calm_weak in C.
  Qed.
  Lemma T_quiet_less {A} (m : M A) k s s1 : quietm m -> Less k s s1 -> T E (fun _ => m) s1 (fun _ s' => Less k s s').
  Proof. intros H L. eapply quietm_T; [exact H|now apply Less_inv in L|]. intros r s2 _ Hq. eapply Less_quiet; eassumption. Qed.
  Lemma T_bind_less {A B} (m : funs -> M A) (f : funs -> A -> M B) k s s1 :
    T E m s1 (fun _ s' => Less k s s') -> (forall a s2, Less k s s2 -> T E (fun r => f r a) s2 (fun _ s' => Less k s s')) ->
    T E (fun r => bind (m r) (f r)) s1 (fun _ s' => Less k s s').
  Proof. intros H K. eapply T_bind; [exact H|intros a s2; apply K|auto]. Qed.
  Lemma T_less_le {A} (m : funs -> M A) k k' s s1 : k' <= k ->
    T E m s1 (fun _ s' => Less k s s') -> T E m s1 (fun _ s' => Less k' s s').
  Proof. intros H K. eapply T_conseq; [exact K|]. intros r s'. now apply Less_le. Qed.
  Lemma T_sched_less {B} id l (f : funs -> unit -> M B) k s s1 (Q : result B -> st -> Prop) : Less (S k) s s1 ->
    (forall s2, Less k s s2 -> T E (fun r => f r tt) s2 Q) ->
    T E (fun r => bind (process_import_list id l) (f r)) s1 Q.
  Proof.
    intros L K. apply T_sched, K. destruct (schedule_grow id l s1 (Less_inv _ _ _ L)) as [G1 G2]. destruct L as [L1 L2].
    split; [eapply Grow_trans; eassumption|]. destruct (memb _ _); [lia|]. destruct (compiled _ _); lia.
  Qed.

  Lemma T_iter_less {A} (f : funs -> A -> M unit) k s l :
    (forall x s1, In x l -> Less k s s1 -> T E (fun r => f r x) s1 (fun _ s' => Less k s s')) ->
    forall s1, Less k s s1 -> T E (fun r => iter (f r) l) s1 (fun _ s' => Less k s s').
  Proof.
    induction l as [|x l IH]; intros H s1 L; cbn [iter]; [now apply T_ret|].
    apply (T_bind_less (fun r => f r x) (fun r _ => iter (f r) l)); [apply H; [now left|exact L]|].
    intros _ s2 L2. apply IH; [|exact L2]. intros y s3 Hy. apply H. now right.
  Qed.

  Lemma T_load_spec b name sp s : finds b -> size s <= b -> Inv s -> In name V -> gfind (s_graph s) name = None ->
    T E (fun r => load_spec r name sp) s (fun _ s' => Calm True s s').
  Proof.
    intros F Hb I0 Hv Hn. unfold load_spec. eapply T_bind; [apply (T_nfs_quiet sp s I0)| |].
    2:{ intros e s1 [A _]. now apply Quiet_calm. }
    intros [n imports] s1 (A1 & A2 & _). pose proof (env_graph _ _ A2) as Hg.
    assert (I1 : Inv s1) by apply A1. destruct (negb (seqb (n_name n) name)) eqn:En.
    - (* an alias *)
      apply (T_add (plain_node (AliasNode (n_name n)) name) []); [exact I1|intros e; now apply Quiet_calm|].
      intros B1 B2 B3 B4. cbn [n_name plain_node] in B3. specialize (B3 Hv). apply T_sched.
      set (s2 := after_add s1 (plain_node (AliasNode (n_name n)) name) []) in *.
      assert (I2 : Inv s2) by apply B2. destruct (schedule_grow name [] s2 I2) as [G1 G2].
      assert (Hc : compiled (s_graph s2) name = false).
      { unfold compiled. cbn [n_name plain_node] in B4. now rewrite B4. }
      rewrite Hc in G2.
      assert (L3 : Less 3 s (schedule name [] s2)).
      { split; [eapply Grow_trans; [apply A1|]; eapply Grow_trans; [apply B2|exact G1]|].
        destruct A1 as [[_ A1] _]. destruct (memb _ _); lia. }
      generalize dependent (schedule name [] s2). intros s3 _ _ L3. clear s2 B1 B2 B3 B4 I2 Hc.
      eapply T_conseq with (Q := fun _ s' => Less 2 s s'); [|intros r s'; apply Less_calm].
      eapply T_bind with (Q1 := fun _ s' => Less 3 s s'); [apply T_quiet_less; [apply quietm_get_node|exact L3]| |intros e s4; apply Less_le; lia].
      intros old s4 L4.
      apply (T_bind_less (fun r => match old with Some _ => _ | None => _ end)).
      + destruct old as [x|]; [apply T_ret; revert L4; apply Less_le; lia|].
        eapply T_bind with (Q1 := fun _ s' => Less 3 s s'); [apply T_quiet_less; [apply quietm_add_node|exact L4]| |intros e s5; apply Less_le; lia].
        intros _ s5 L5. apply (T_sched_less _ _ _ 2 s s5 _ L5). intros s6 L6.
        apply (T_bind_less (fun _ => of_result (split_package (n_name n)))); [apply T_quiet_less; [apply quietm_of_result|exact L6]|].
        intros pk s7 L7. destruct (fst pk) as [c|]; [|now apply T_ret].
        apply (T_bind_less (fun r => f_find r None c true)); [apply (T_find_less b); assumption|].
        intros parent s8 L8. apply T_quiet_less; [apply quietm_add_edge|exact L8].
      + intros _ s5 L5. apply (T_bind_less (fun _ => add_edge _ _ _)); [apply T_quiet_less; [apply quietm_add_edge|exact L5]|].
        intros _ s6 L6. now apply T_ret.
    - apply negb_false_iff, seqb_eq in En.
      apply (T_add n imports); [exact I1|intros e; now apply Quiet_calm|].
      intros B1 B2 B3 B4. rewrite En in B3. specialize (B3 Hv).
      assert (L2 : Less 3 s (after_add s1 n imports)).
      { split; [eapply Grow_trans; [apply A1|apply B2]|]. destruct A1 as [[_ A1] _]. lia. }
      eapply T_bind with (Q1 := fun _ s' => Less 3 s s').
      + destruct (n_kind n) as [| | |fr i0 k0 f0 [nst|]| | | | | |]; try (now apply T_ret).
        destruct (memb _ _); [|now apply T_ret].
        apply (T_bind_less (fun r => f_find r None nst true)); [apply (T_find_less b); assumption|].
        intros pkg s4 L4. apply T_quiet_less; [apply quietm_add_edge|exact L4].
      + intros _ s3 L3. apply (T_sched_less _ _ _ 2 s s3 _ L3). intros s4 L4. apply T_ret. revert L4. apply Less_calm.
      + intros e s3. apply Less_calm.
  Qed.
  (** [again]: what is known about the second attempt (line 640). *)
  Definition again (b : nat) (importing : option string) (name : string) (s : st) : Prop :=
    In (parent_of name) (s_fakes s) \/
    forall s1, Inv s1 -> size s1 <= b -> In (parent_of name) (s_fakes s1) ->
      T E (fun r => f_load r importing name) s1 (fun _ s' => Calm (In name V) s1 s').

  Lemma T_load_failed b importing name e s0 s : size s0 <= b -> Calm (In name V) s0 s -> again b importing name s ->
    T E (fun r => load_failed E r importing name e) s (fun _ s' => Calm (In name V) s0 s').
  Proof.
    intros Hb C Ha. unfold load_failed. destruct (negb (is_exception e)); [now apply T_raise|].
    assert (I0 : Inv s) by (now apply Calm_inv in C).
    assert (Hm : forall s1, Calm (In name V) s0 s1 ->
      T E (fun r => create_missing r importing name) s1 (fun _ s' => Calm (In name V) s0 s')).
    { intros s1 C1. eapply T_conseq; [apply T_create_missing; now apply Calm_inv in C1|].
      intros r s2 [C2 _]. eapply Calm_trans; eassumption. }
    assert (G : T E (fun r =>
        b <- in_sysmod E (parent_of name) ;; do assert (negb b) ;; m <- find_spec E (parent_of name) ;;
        match m with
        | None => raise EAssert
        | Some sp =>
            do assert (sp_inspect sp) ;; p <- of_result (sp_ispkg sp) ;;
            if p : bool then
              match sp_origin sp with
              | None => raise EAssert
              | Some path =>
                  do assert (starts_with "__init__." (snd (rpartition slash path))) ;;
                  do modify (fun s => set_fakes s (set_add (parent_of name) (s_fakes s))) ;;
                  f_load r importing name
              end
            else create_missing r importing name
        end) s (fun _ s' => Calm (In name V) s0 s')).
    { eapply T_bind with (Q1 := fun r s' => Calm (In name V) s0 s' /\ (In (parent_of name) (s_fakes s) -> r = ROk true)).
      { eapply T_const; [reflexivity|]. split.
        - eapply Calm_trans; [exact C|]. apply Quiet_calm, env_quiet; [exact I0|apply env_only_tick].
        - intros A. apply memb_In in A. now rewrite A. }
      2:{ now intros e0 s1 [A _]. }
      intros x s1 [C1 Hx].
      destruct Ha as [Ha|Ha].
      { specialize (Hx Ha). injection Hx as ->. eapply T_bind with (Q1 := fun r s' => r = RErr EAssert /\ s' = s1).
        - eapply T_const; [reflexivity|]. now split.
        - intros a s2 [? _]. discriminate.
        - now intros e0 s2 [_ ->]. }
      assert (St : forall A (m : M A) s1, quietm m -> Calm (In name V) s0 s1 -> T E (fun _ => m) s1 (fun _ s' => Calm (In name V) s0 s')).
      { intros A m s2 Hq C2. eapply quietm_T; [exact Hq|now apply Calm_inv in C2|]. intros r s3 _ H3.
        eapply Calm_trans; [exact C2|now apply Quiet_calm]. }
      eapply T_bind; [apply St; [apply quietm_assert|exact C1]| |auto]. intros ? s2 C2.
      eapply T_bind; [apply St; [apply quietm_find_spec|exact C2]| |auto]. intros [sp|] s3 C3; [|now apply T_raise].
      eapply T_bind; [apply St; [apply quietm_assert|exact C3]| |auto]. intros ? s4 C4.
      eapply T_bind; [apply St; [apply quietm_of_result|exact C4]| |auto]. intros [|] s5 C5; [|now apply Hm].
      destruct (sp_origin sp) as [path|]; [|now apply T_raise].
      eapply T_bind; [apply St; [apply quietm_assert|exact C5]| |auto]. intros ? s6 C6.
      eapply T_bind with (Q1 := fun r s' => Calm (In name V) s0 s' /\ In (parent_of name) (s_fakes s')).
      { eapply T_const; [reflexivity|]. split.
        - eapply Calm_trans; [exact C6|]. apply Quiet_calm. apply same_quiet; auto. now apply Calm_inv in C6.
        - cbn. apply set_add_In. now left. }
      2:{ now intros e0 s7 [A _]. }
      intros ? s7 [C7 H7]. eapply T_conseq; [apply Ha; [now apply Calm_inv in C7| |exact H7]|].
      - apply Calm_weak in C7 as [_ C7]. lia.
      - intros r s8 C8. eapply Calm_trans; eassumption. }
    destruct e as [| | | | | | | | | |[|]| | | |]; first [exact G|now apply Hm].
  Qed.

  Lemma T_load_body b importing name s : finds b -> size s <= b -> Inv s -> name <> EmptyString -> again b importing name s ->
    T E (fun r => load_body E r importing name) s (fun _ s' => Calm (In name V) s s').
  Proof.
    intros F Hb I0 Hne Ha. unfold load_body.
    eapply T_bind with (Q1 := fun r s' => s' = s); [destruct (negb _); (eapply T_const; [reflexivity|]); reflexivity| |intros e s1 ->; now apply Calm_refl].
    intros ? s1 ->.
    eapply T_bind with (Q1 := fun r s' => s' = s /\ r = ROk (gfind (s_graph s) name)); [eapply T_const; [reflexivity|]; now split| |now intros e s1 [_ ?]].
    intros o s1 [-> Ho]. injection Ho as ->. destruct (gfind (s_graph s) name) as [x|] eqn:Eg; [apply T_ret; now apply Calm_refl|].
    eapply T_bind; [apply (T_spec name s I0)| |now intros e s1 (A & _); apply Quiet_calm].
    intros r0 s1 (A1 & A2 & A3 & A4). specialize (A3 (parent_other name Hne)).
    assert (I1 : Inv s1) by apply A1. assert (C1 : Calm (In name V) s s1) by now apply Quiet_calm.
    assert (Ha1 : again b importing name s1) by (destruct Ha as [Ha|Ha]; [left; now apply A3|now right]).
    destruct A4 as (r1 & A4 & A5). injection A4 as <-.
    destruct r0 as [[sp|]|e].
    - eapply T_conseq; [apply (T_load_spec b name sp s1 F)|].
      + destruct A1 as [[_ A1] _]. lia.
      + exact I1.
      + now apply (A5 sp).
      + now rewrite (env_graph _ _ A2).
      + intros r s2 C2. eapply Calm_trans; [exact C1|]. eapply Calm_weaken; [|exact C2]. auto.
    - eapply T_bind with (Q1 := fun r s' => exists x, r = ROk x /\ Calm (In name V) s1 s' /\ keeps_fake (parent_of name) s1 s').
      + apply T_attempt. eapply T_conseq; [apply (T_create_missing importing name s1 I1)|]. intros r s2 A. exists r. now split.
      + intros [id|e] s2 (x & B0 & B1 & B2).
        * apply T_ret. eapply Calm_trans; eassumption.
        * eapply T_bind with (Q1 := fun r s' => s' = log s2 EvErr); [eapply T_const; reflexivity| |].
          -- intros ? s3 ->. apply (T_load_failed b); [exact Hb| |].
             ++ eapply Calm_trans; [exact C1|]. eapply Calm_trans; [exact B1|]. apply Quiet_calm, log_quiet. now apply Calm_inv in B1.
             ++ destruct Ha1 as [Ha1|Ha1]; [left; cbn; now apply B2|now right].
          -- intros e0 s3 ->. eapply Calm_trans; [exact C1|]. eapply Calm_trans; [exact B1|]. apply Quiet_calm, log_quiet. now apply Calm_inv in B1.
      + now intros e s2 (x & B0 & _).
    - now apply (T_load_failed b).
  Qed.
  Lemma T_load_ends b importing name s : finds b -> size s <= b -> Inv s -> name <> EmptyString ->
    T E (fun r => f_load r importing name) s (fun _ s' => Calm (In name V) s s').
  Proof.
    intros F Hb I0 Hne. apply T_load. apply (T_load_body b); auto. right. intros s1 I1 Hb1 Hf.
    apply T_load. apply (T_load_body b); auto. now left.
  Qed.

  (** ** [_implied_references] *)
  Lemma T_implied b importing name s : finds b -> size s <= b -> Inv s ->
    T E (fun r => implied_references r importing name) s (fun _ s' => Calm (In name V) s s').
  Proof.
    intros F Hb I0. unfold implied_references.
    eapply T_bind with (Q1 := fun r s' => s' = s); [eapply T_const; reflexivity| |intros e s1 ->; now apply Calm_refl].
    intros [x|] s1 ->; [apply T_ret; now apply Calm_refl|].
    destruct (assoc name (s_lazy s)) as [i|] eqn:Ea.
    2:{ eapply T_bind with (Q1 := fun r s' => r = ROk None /\ s' = s); [eapply T_const; [unfold pop_lazy; rewrite Ea; reflexivity|now split]| |].
        - intros o s1 [A ->]. injection A as ->. apply T_ret. now apply Calm_refl.
        - now intros e s1 [A _]. }
    eapply T_bind with (Q1 := fun r s' => r = ROk (Some i) /\ Less 1 s s').
    { eapply T_const; [unfold pop_lazy; rewrite Ea; reflexivity|]. split; [reflexivity|]. split.
      - constructor; [exact I0|reflexivity|reflexivity|apply incl_refl|apply gle_refl].
      - unfold size. cbn [s_graph s_lazy s_stack log set_lazy].
        assert (H : List.length (filter (fun x => negb (seqb (fst x) name)) (s_lazy s)) < List.length (s_lazy s)); [|lia].
        clear - Ea. induction (s_lazy s) as [|[k v] l IH]; [discriminate|]. cbn in Ea |- *.
        unfold seqb in *. rewrite (String.eqb_sym k name). destruct (String.eqb name k).
        + cbn. pose proof (filter_le (fun x => negb (String.eqb (fst x) name)) (fun _ => true) l (fun _ _ => eq_refl)) as H.
          assert (K : filter (fun _ : string * implied => true) l = l) by (clear; induction l; cbn; congruence). rewrite K in H. lia.
        + cbn. specialize (IH Ea). lia. }
    2:{ now intros e s1 [A _]. }
    intros o s1 [A L1]. injection A as ->. assert (I1 : Inv s1) by (now apply Less_inv in L1).
    eapply T_conseq with (Q := fun _ s' => Less 1 s s'); [|intros r s'; apply Less_calm].
    assert (Hn : forall k target, dull k -> T E (fun r => implied_node r k name target) s1 (fun _ s' => Less 1 s s')).
    { intros k target Hk. unfold implied_node.
      apply (T_bind_less (fun _ => get_node name)); [apply T_quiet_less; [apply quietm_get_node|exact L1]|]. intros n s2 L2.
      apply (T_bind_less (fun _ => assert _)); [apply T_quiet_less; [apply quietm_assert|exact L2]|]. intros ? s3 L3.
      apply T_add_dull; [now apply Less_inv in L3|exact Hk|intros e; exact L3|].
      intros s4 C4 _. assert (L4 : Less 1 s s4) by (eapply Less_weak; [exact L3|now apply Calm_weak in C4]).
      apply (T_bind_less (fun r => f_find r (Some name) target true)); [apply (T_find_less b); assumption|].
      intros other s5 L5. apply (T_bind_less (fun _ => add_edge _ _ _)); [apply T_quiet_less; [apply quietm_add_edge|exact L5]|].
      intros ? s6 L6. now apply T_ret. }
    destruct i as [|a|a|refs].
    - apply (T_add_dull ExcludedModule name (fun r _ => ret (Some name))); [exact I1|exact I|intros e; exact L1|].
      intros s2 C2 _. apply T_ret. eapply Less_weak; [exact L1|now apply Calm_weak in C2].
    - now apply Hn.
    - now apply Hn.
    - apply (T_bind_less (fun r => f_find r importing name true)); [apply (T_find_less b); assumption|]. intros id s2 L2.
      apply (T_bind_less (fun r => iter _ refs)).
      + apply (T_iter_less (fun r ref => other <- f_find r (Some id) ref true ;; add_edge id other default_dep)); [|exact L2].
        intros ref s3 _ L3. apply (T_bind_less (fun r => f_find r (Some id) ref true)); [apply (T_find_less b); assumption|].
        intros other s4 L4. apply T_quiet_less; [apply quietm_add_edge|exact L4].
      + intros ? s3 L3. now apply T_ret.
  Qed.

  (** ** [_find_or_load_module] *)
  Lemma split_shorter name c n : split_package name = ROk (Some c, n) -> String.length c < String.length name.
  Proof.
    unfold split_package. destruct (seqb name "") eqn:E0; [discriminate|]. set (a := lstrip dot name).
    assert (Ha : exists k, name = (repeat_char dot k ++ a)%string).
    { unfold a. clear. induction name as [|x name IH]; [now exists 0|]. cbn. destruct (Ascii.eqb x dot) eqn:E0.
      - apply Ascii.eqb_eq in E0 as ->. destruct IH as (k & IH). exists (S k). cbn. congruence.
      - now exists 0. }
    destruct Ha as (k & Hk). assert (Hl : String.length name - String.length a = k).
    { rewrite Hk at 1. rewrite length_app_s, length_repeat. lia. }
    rewrite Hl. destruct (seqb a "") eqn:E1; [discriminate|]. cbn [orb]. destruct (has_sub ".." a); [discriminate|].
    destruct (rpartition dot a) as [p nm] eqn:Er.
    assert (Hp : String.length p < String.length a).
    { destruct (rpartition_cases dot a) as [[_ B]|(x & y & B1 & _ & B2)].
      - rewrite B in Er. injection Er as <- <-. destruct a; [discriminate|cbn; lia].
      - rewrite B2 in Er. injection Er as <- <-. rewrite B1, length_app_s. cbn. lia. }
    intros H. destruct (seqb _ "") in H; [discriminate|]. injection H as <- _. rewrite Hk at 1. rewrite length_app_s, length_repeat.
    destruct (Nat.eqb k 0) eqn:E2; [apply Nat.eqb_eq in E2; lia|]. rewrite length_app_s, length_repeat. lia.
  Qed.
  Lemma split_nonempty name x : split_package name = ROk x -> name <> EmptyString.
  Proof. intros H ->. discriminate. Qed.

  Lemma T_find_at b : finds b -> forall name importing link s, Inv s -> size s <= b ->
    T E (fun r => f_find r importing name link) s (fun _ s' => Calm (In name V) s s').
  Proof.
    intros F name. remember (String.length name) as d eqn:Hd. revert name Hd.
    induction d as [d IH] using lt_wf_ind. intros name Hd importing link s I0 Hb. apply T_find. unfold find_body.
    set (K := In name V).
    assert (St : forall A (m : M A) s1, quietm m -> Calm K s s1 -> T E (fun _ => m) s1 (fun _ s' => Calm K s s')).
    { intros A m s2 Hq C2. eapply quietm_T; [exact Hq|now apply Calm_inv in C2|]. intros r s3 _ H3.
      eapply Calm_trans; [exact C2|now apply Quiet_calm]. }
    assert (Sb : forall s1, Calm K s s1 -> size s1 <= b) by (intros s1 [[_ C] _]; lia).
    eapply T_bind; [apply St; [apply quietm_find_module|now apply Calm_refl]| |auto].
    intros [x|] s1 C1; [now apply T_ret|].
    eapply T_bind with (Q1 := fun r s' => r = split_package name /\ s' = s1); [eapply T_const; [reflexivity|now split]| |now intros e s2 [_ ->]].
    intros pk s2 [Hpk ->]. symmetry in Hpk. pose proof (split_nonempty _ _ Hpk) as Hne.
    assert (Hm : forall s1, Calm K s s1 -> T E (fun r => create_missing r importing name) s1 (fun _ s' => Calm K s s')).
    { intros s3 C3. eapply T_conseq; [apply T_create_missing; now apply Calm_inv in C3|].
      intros r s4 [C4 _]. eapply Calm_trans; eassumption. }
    eapply T_bind with (Q1 := fun _ s' => Calm K s s'); [| |auto].
    - destruct pk as [[c|] nm]; cbn [fst]; [|now apply T_ret].
      eapply T_bind with (Q1 := fun _ s' => Calm K s s'); [| |auto].
      { eapply T_conseq; [eapply (IH (String.length c)); [|reflexivity|now apply Calm_inv in C1|now apply Sb]|].
        - rewrite Hd. eapply split_shorter; exact Hpk.
        - intros r s3 C3. eapply Calm_trans; [exact C1|]. eapply Calm_weaken; [|exact C3].
          intros Hv. eapply fu_closed; eassumption. }
      intros parent s3 C3. eapply T_bind; [apply St; [apply quietm_kind_test|exact C3]| |auto]. intros [|] s4 C4.
      + eapply T_bind; [now apply Hm| |auto]. intros id s5 C5. now apply T_ret.
      + eapply T_bind; [apply St; [apply quietm_kind_test|exact C4]| |auto]. intros [|] s5 C5; [|now apply T_ret].
        apply (T_add_dull ExcludedModule name (fun r _ => ret (Some parent, Some name))); [now apply Calm_inv in C5|exact I|intros e; exact C5|].
        intros s6 C6 _. apply T_ret. eapply Calm_trans; eassumption.
    - intros [parent found] s3 C3. eapply T_bind with (Q1 := fun _ s' => Calm K s s'); [| |auto].
      + destruct found as [id|]; [now apply T_ret|].
        eapply T_bind with (Q1 := fun _ s' => Calm K s s'); [| |auto].
        { eapply T_conseq; [apply (T_implied b importing name s3 F); [now apply Sb|now apply Calm_inv in C3]|].
          intros r s4 C4. eapply Calm_trans; eassumption. }
        intros [id|] s4 C4; [now apply T_ret|].
        eapply T_conseq; [apply (T_load_ends b); [exact F|now apply Sb|now apply Calm_inv in C4|exact Hne]|].
        intros r s5 C5. eapply Calm_trans; eassumption.
      + intros id s4 C4. eapply T_bind; [apply St; [apply quietm_kind_test|exact C4]| |auto]. intros m s5 C5.
        eapply T_bind with (Q1 := fun _ s' => Calm K s s'); [| |auto].
        * destruct parent as [p|]; [|now apply T_ret]. destruct (_ || _); [|now apply T_ret].
          apply St; [apply quietm_add_edge|exact C5].
        * intros ? s6 C6. now apply T_ret.
  Qed.
  Lemma finds_all b : finds b.
  Proof.
    induction b as [|b IH]; [intros s _ H; lia|]. intros s I0 H importing name link. apply (T_find_at b IH); [exact I0|lia].
  Qed.
  Lemma T_find_ends importing name link s : Inv s ->
    T E (fun r => f_find r importing name link) s (fun _ s' => Calm (In name V) s s').
  Proof. intros I0. apply (finds_all (S (size s))); [exact I0|lia]. Qed.
  (** ** The calls of the API, if [_run_stack] ends *)
  Definition runs_under (b : nat) : Prop := forall s, Inv s -> size s < b ->
    T E (fun r => f_run r) s (fun r s' => Weak s s' /\ forall a, r = ROk a -> s_stack s' = []).

  Lemma T_step {A B} (R : st -> Prop) (m : funs -> M A) (f : funs -> A -> M B) s :
    T E m s (fun _ s' => R s') -> (forall a s1, R s1 -> T E (fun r => f r a) s1 (fun _ s' => R s')) ->
    T E (fun r => bind (m r) (f r)) s (fun _ s' => R s').
  Proof. intros H K. eapply T_bind; [exact H|intros a s1; apply K|auto]. Qed.
  Lemma T_iter {A} (R : st -> Prop) (f : funs -> A -> M unit) l :
    (forall x s, In x l -> R s -> T E (fun r => f r x) s (fun _ s' => R s')) ->
    forall s, R s -> T E (fun r => iter (f r) l) s (fun _ s' => R s').
  Proof.
    induction l as [|x l IH]; intros H s Hs; cbn [iter]; [now apply T_ret|].
    apply (T_step R (fun r => f r x) (fun r _ => iter (f r) l)); [apply H; [now left|exact Hs]|].
    intros ? s1 H1. apply IH; [|exact H1]. intros y s2 Hy. apply H. now right.
  Qed.

  (** [_saved_stack] *)
  Definition inner (s : st) : st := set_saved (set_stack s []) (s_stack s :: s_saved s).
  Definition outer (s s' : st) : st := set_saved (set_stack s' (s_stack s' ++ s_stack s)) (tl (s_saved s')).
  Lemma T_saved {A} (m : funs -> M A) s (Q Q1 : result A -> st -> Prop) :
    T E m (inner s) Q1 -> (forall r s', Q1 r s' -> Q r (outer s s')) -> T E (fun r => saved_stack (m r)) s Q.
  Proof.
    intros (k & r & s' & H & K) L. exists k, r, (outer s s'). split; [now apply L|]. intros n Hn.
    unfold saved_stack. fold (inner s). now rewrite K.
  Qed.
  Lemma inner_inv s : Inv s -> Inv (inner s).
  Proof. intros [H K]. split; [intros n []|exact K]. Qed.
  Lemma inner_size s : size (inner s) + acts (s_graph s) (s_stack s) = size s.
  Proof. unfold size, inner. cbn. unfold acts at 1. cbn. lia. Qed.
  Lemma outer_weak s s' : Inv s -> Weak (inner s) s' -> Weak s (outer s s') /\ size (outer s s') + size (inner s) <= size s + size s'.
  Proof.
    intros I0 [[G1 G2 G3 G4 G5] G6]. pose proof (inner_size s) as Hi.
    assert (Ho : size (outer s s') <= size s' + acts (s_graph s) (s_stack s)).
    { unfold size, outer. cbn. rewrite acts_app. pose proof (acts_le _ _ (s_stack s) G5). cbn in H. lia. }
    split; [|lia]. split; [|lia]. constructor; [|exact G2|exact G3|exact G4|exact G5].
    split; [|exact (proj2 G1)]. cbn. intros n H. apply in_app_iff in H as [H|H]; [now apply G1|]. apply G4. now apply I0.
  Qed.

  Lemma push_weak s n pkg : Inv s -> Weak s (log (set_stack s (DoPackage n pkg :: s_stack s)) (EvPush n pkg)).
  Proof.
    intros [H K]. split.
    - constructor; [|reflexivity|reflexivity|apply incl_refl|apply gle_refl]. split; [|exact K]. cbn.
      intros x [A|A]; [discriminate|now apply H].
    - unfold size. cbn. rewrite acts_cons. cbn [act]. lia.
  Qed.

  Section calls.
    Variable b : nat.
    Hypothesis RU : runs_under b.
    Variable s0 : st.
    Definition W (s : st) : Prop := Weak s0 s /\ size s < b.
    Lemma W_weak s s' : W s -> Weak s s' -> W s'.
    Proof. intros [H1 H2] H3. split; [eapply Weak_trans; eassumption|destruct H3; lia]. Qed.
    Lemma W_inv s : W s -> Inv s.
    Proof. intros [H _]. now apply Weak_inv in H. Qed.
    Lemma T_W {A} (m : funs -> M A) s : W s -> T E m s (fun _ s' => Weak s s') -> T E m s (fun _ s' => W s').
    Proof. intros H K. eapply T_conseq; [exact K|]. intros r s'. now apply W_weak. Qed.
    Lemma W_quiet {A} (m : M A) s : quietm m -> W s -> T E (fun _ => m) s (fun _ s' => W s').
    Proof. intros H K. eapply quietm_T; [exact H|now apply W_inv|]. intros r s' _ [Hq _]. eapply W_weak; eassumption. Qed.
    Lemma W_find s a n l : W s -> T E (fun r => f_find r a n l) s (fun _ s' => W s').
    Proof. intros H. apply T_W; [exact H|]. eapply T_conseq; [apply T_find_ends; now apply W_inv|]. intros r s' C. now apply Calm_weak in C. Qed.
    Lemma W_run s : W s -> T E (fun r => f_run r) s (fun _ s' => W s').
    Proof. intros H. apply T_W; [exact H|]. eapply T_conseq; [apply RU; [now apply W_inv|apply H]|]. now intros r s' [C _]. Qed.

    Lemma W_add_module name s : W s -> T E (fun r => add_module r name) s (fun _ s' => W s').
    Proof.
      intros H. unfold add_module. apply T_step; [now apply W_quiet; [apply quietm_find_module|]|]. intros o s1 H1.
      apply (T_step W (fun r => match o with Some _ => ret name | None => f_find r None name true end)).
      { destruct o; [now apply T_ret|now apply W_find]. }
      intros id s2 H2. apply T_step; [now apply W_quiet; [apply quietm_note|]|]. intros ? s3 H3.
      apply T_step; [now apply W_quiet; [apply quietm_add_root|]|]. intros ? s4 H4.
      apply (T_step W (fun r => f_run r)); [now apply W_run|]. intros ? s5 H5. now apply T_ret.
    Qed.
    Lemma W_import_module n name s : W s -> T E (fun r => import_module r n name) s (fun _ s' => W s').
    Proof.
      intros H. unfold import_module. apply T_step; [now apply W_quiet; [apply quietm_note|]|]. intros ? s1 H1.
      apply T_step; [now apply W_quiet; [apply quietm_find_module|]|]. intros o s2 H2.
      apply (T_step W (fun r => match o with Some _ => ret name | None => f_find r (Some n) name true end)).
      { destruct o; [now apply T_ret|now apply W_find]. }
      intros id s3 H3. apply T_step; [now apply W_quiet; [apply quietm_add_edge|]|]. intros ? s4 H4. now apply T_ret.
    Qed.
    Lemma W_add_script path s : W s -> T E (fun r => add_script E r path) s (fun _ s' => W s').
    Proof.
      intros H. unfold add_script. apply T_step; [now apply W_quiet; [apply quietm_find_module|]|].
      intros [o|] s1 H1; [now apply T_raise|]. apply T_step; [now apply W_quiet; [apply quietm_askr|]|]. intros t s2 H2.
      destruct (ast_total (e_names_order E) t) as [imports ->].
      apply T_add; [now apply W_inv|auto|]. intros B1 B2 B3 B4. apply T_sched.
      set (n := Node _ _ _ _ _ _ _ _) in *. set (s3 := after_add s2 n imports) in *.
      assert (H3 : W s3) by (eapply W_weak; [exact H2|apply B2]).
      assert (H4 : W (schedule path imports s3)).
      { eapply W_weak; [exact H3|]. destruct (schedule_grow path imports s3 (W_inv _ H3)) as [G1 G2]. split; [exact G1|].
        cbn [n_name n] in B4. unfold compiled in G2. rewrite B4 in G2. cbn in G2. destruct (memb _ _); lia. }
      apply T_step; [now apply W_quiet; [apply quietm_note|]|]. intros ? s5 H5.
      apply T_step; [now apply W_quiet; [apply quietm_add_root|]|]. intros ? s6 H6.
      apply (T_step W (fun r => f_run r)); [now apply W_run|]. intros ? s7 H7. now apply T_ret.
    Qed.
    Lemma W_add_source text s : W s -> T E (fun r => add_source E r text) s (fun _ s' => W s').
    Proof.
      intros H. unfold add_source. apply T_step; [now apply W_quiet; [apply quietm_askr|]|]. intros t s1 H1.
      destruct (ast_total (e_names_order E) t) as [infos ->].
      apply (T_iter W (fun r i => do add_module r (in_name (ii_module i)) ;;
        iter (fun nm => do add_module r (in_name (ii_module i) ++ "." ++ in_name nm)%string ;; ret tt) (ii_names i))); [|exact H1].
      intros i s2 _ H2. apply (T_step W (fun r => add_module r (in_name (ii_module i)))); [now apply W_add_module|]. intros ? s3 H3.
      apply (T_iter W (fun r nm => do add_module r (in_name (ii_module i) ++ "." ++ in_name nm)%string ;; ret tt)); [|exact H3].
      intros nm s4 _ H4. apply (T_step W (fun r => add_module r _)); [now apply W_add_module|]. intros ? s5 H5. now apply T_ret.
    Qed.
    Lemma W_add_dist d s : W s -> T E (fun r => add_distribution E r d) s (fun _ s' => W s').
    Proof.
      intros H. unfold add_distribution. cbv zeta. apply T_step; [now apply W_quiet; [apply quietm_get_node|]|].
      intros [n|] s1 H1.
      - apply T_step; [now apply W_quiet; [apply quietm_assert|]|]. intros ? s2 H2. now apply T_ret.
      - apply T_step; [now apply W_quiet; [apply quietm_user_add_node|]|]. intros ? s2 H2.
        apply T_step; [now apply W_quiet; [apply quietm_note|]|]. intros ? s3 H3.
        apply T_step; [now apply W_quiet; [apply quietm_add_root|]|]. intros ? s4 H4.
        apply (T_step W (fun r => iter _ _)).
        + apply (T_iter W (fun r name => m <- f_find r None name true ;; add_edge (dist_identifier d) m default_dep)); [|exact H4].
          intros name s5 _ H5. apply (T_step W (fun r => f_find r None name true)); [now apply W_find|]. intros m s6 H6.
          now apply W_quiet; [apply quietm_add_edge|].
        + intros ? s5 H5. apply (T_step W (fun r => f_run r)); [now apply W_run|]. intros ? s6 H6. now apply T_ret.
    Qed.
    Lemma W_add_dist_named name s : W s -> T E (fun r => add_distribution_named E r name) s (fun _ s' => W s').
    Proof.
      intros H. unfold add_distribution_named. apply T_step; [now apply W_quiet; [apply quietm_askr|]|].
      intros [d|] s1 H1; [now apply W_add_dist|now apply T_raise].
    Qed.
    Lemma W_push n pkg s : W s -> T E (fun _ => push_package n pkg) s (fun _ s' => W s').
    Proof. intros H. eapply T_const; [reflexivity|]. eapply W_weak; [exact H|]. apply push_weak. now apply W_inv. Qed.
    Lemma W_import_directory id pkg path s : W s -> T E (fun r => import_directory E r id pkg path) s (fun _ s' => W s').
    Proof.
      intros H. unfold import_directory. apply T_step; [now apply W_quiet; [apply quietm_askr|]|]. intros stems s1 H1.
      apply (T_step W (fun r => iter _ stems)).
      - apply (T_iter W (fun r stem => if e_isidentifier E stem then
           let name := (pkg ++ "." ++ stem)%string in
           do note (EvList id name) ;; m <- f_find r (Some id) name true ;; do add_edge id m default_dep ;; push_package id name
           else ret tt)); [|exact H1].
        intros stem s2 _ H2. destruct (e_isidentifier E stem); [|now apply T_ret]. cbv zeta.
        apply T_step; [now apply W_quiet; [apply quietm_note|]|]. intros ? s3 H3.
        apply (T_step W (fun r => f_find r (Some id) _ true)); [now apply W_find|]. intros m s4 H4.
        apply T_step; [now apply W_quiet; [apply quietm_add_edge|]|]. intros ? s5 H5. now apply W_push.
      - intros ? s2 H2. apply T_step; [now apply W_quiet; [apply quietm_askr|]|]. intros dirs s3 H3.
        apply (T_iter W (fun r dir => if e_isidentifier E dir then
           let name := (pkg ++ "." ++ dir)%string in do note (EvList id name) ;; push_package id name else ret tt)); [|exact H3].
        intros dir s4 _ H4. destruct (e_isidentifier E dir); [|now apply T_ret]. cbv zeta.
        apply T_step; [now apply W_quiet; [apply quietm_note|]|]. intros ? s5 H5. now apply W_push.
    Qed.
    Lemma W_import_package n pkg s : W s -> T E (fun r => import_package E r n pkg) s (fun _ s' => W s').
    Proof.
      intros H. unfold import_package. apply T_step; [now apply W_quiet; [apply quietm_find_module|]|]. intros o s1 H1.
      apply (T_step W (fun r => saved_stack _)).
      - eapply (T_saved (fun r => id <- match o with Some _ => ret pkg | None => f_find r None pkg true end ;; do f_run r ;; ret id))
          with (Q1 := fun _ s' => Weak (inner s1) s').
        + assert (I1 : Inv (inner s1)) by (apply inner_inv, (W_inv s1 H1)).
          assert (Hb : size (inner s1) < b) by (pose proof (inner_size s1); destruct H1; lia).
          apply (T_step (Weak (inner s1)) (fun r => match o with Some _ => _ | None => _ end)).
          { destruct o; [apply T_ret; now apply Weak_refl|]. eapply T_conseq; [now apply T_find_ends|]. intros r s' C. now apply Calm_weak in C. }
          intros id s2 H2. apply (T_step (Weak (inner s1)) (fun r => f_run r)).
          { eapply T_conseq; [apply RU; [now apply Weak_inv in H2|destruct H2; lia]|]. intros r s' [C _]. eapply Weak_trans; eassumption. }
          intros ? s3 H3. now apply T_ret.
        + intros r s2 H2. eapply W_weak; [exact H1|]. apply outer_weak; [now apply W_inv|exact H2].
      - intros id s2 H2. apply T_step; [now apply W_quiet; [apply quietm_add_edge|]|]. intros ? s3 H3.
        apply T_step; [now apply W_quiet; [apply quietm_kind_test|]|]. intros p s4 H4. destruct (negb p); [now apply T_ret|].
        apply T_step; [now apply W_quiet; [apply quietm_find_spec|]|]. intros [sp|] s5 H5; [|now apply T_raise].
        apply (T_step W (fun r => iter (import_directory E r id pkg) _)).
        + apply (T_iter W (fun r => import_directory E r id pkg)); [|exact H5]. intros path s6 _ H6. now apply W_import_directory.
        + intros ? s6 H6. now apply T_ret.
    Qed.
    Lemma W_lift {A} (m : funs -> M A) (g : A -> answer) s : W s -> T E m s (fun _ s' => W s') ->
      T E (fun r => x <- m r ;; ret (g x)) s (fun _ s' => W s').
    Proof. intros H K. apply T_step; [exact K|]. intros a s1 H1. now apply T_ret. Qed.

    Lemma W_call id a s : steady id a -> W s -> In id (s_seen s) ->
      T E (fun r => call E r a) s (fun r s' => W s' /\ exists ans, r = ROk ans).
    Proof.
      intros Ha H Hid. destruct (plain_action a) eqn:Hp.
      { eapply T_conseq; [apply (T_plain a s Hp (W_inv _ H))|]. intros r s' (ans & -> & F).
        split; [|now exists ans]. eapply W_weak; [exact H|apply F]. }
      apply T_call. eapply T_conseq with (Q := fun _ s' => W s').
      2:{ intros [ans|e] s' H'; (split; [|eexists; reflexivity]); [exact H'|]. eapply W_weak; [exact H'|]. apply log_quiet. now apply W_inv. }
      destruct a; try discriminate Hp; try destruct Ha; cbn [do_action].
      - apply W_lift; [exact H|now apply W_add_script].
      - apply W_lift; [exact H|now apply W_add_module].
      - apply (W_lift _ (fun _ => AnsUnit)); [exact H|now apply W_add_source].
      - apply W_lift; [exact H|now apply W_add_dist].
      - apply W_lift; [exact H|now apply W_add_dist_named].
      - apply W_lift; [exact H|now apply W_import_module].
      - apply T_step; [now apply W_quiet; [apply quietm_note|]|]. intros ? s1 H1. apply W_lift; [exact H1|now apply W_import_package].
      - eapply T_bind with (Q1 := fun r s' => s' = s); [eapply T_const; reflexivity| |now intros e s1 ->].
        intros [n|] s1 ->; [|now apply T_raise].
        eapply T_bind with (Q1 := fun r s' => s' = log s (EvProc id0 imports)); [eapply T_const; reflexivity| |].
        + intros ? s1 ->. apply T_sched, T_ret. eapply W_weak; [exact H|].
          eapply Weak_trans; [apply log_quiet; now apply W_inv|].
          destruct (schedule_grow id0 imports (log s (EvProc id0 imports))) as [G1 G2]; [apply log_quiet; now apply W_inv|].
          split; [exact G1|]. cbn [s_seen log] in G2. apply memb_In in Hid. rewrite Hid in G2. lia.
        + intros e s1 ->. eapply W_weak; [exact H|]. apply log_quiet. now apply W_inv.
      - apply (W_lift _ (fun _ => AnsUnit)); [exact H|now apply W_run].
    Qed.
  End calls.
  Lemma W_self b s : Inv s -> size s < b -> W b s s.
  Proof. intros H K. split; [now apply Weak_refl|exact K]. Qed.
  Lemma T_busy b id p : runs_under b -> busy id p -> forall s, Inv s -> size s < b -> In id (s_seen s) ->
    T E (fun r => run_prog E r p) s (fun _ s' => Weak s s').
  Proof.
    intros RU. induction 1 as [o|e|a k Ha Hk IH]; intros s I0 Hb Hid; cbn [run_prog];
      [apply T_ret; now apply Weak_refl|apply T_raise; now apply Weak_refl|].
    eapply T_bind; [apply (W_call b RU s id a s Ha (W_self b s I0 Hb) Hid)| |now intros e s1 [[A _] _]].
    intros ans s1 [[A1 A2] _]. eapply T_conseq; [apply IH; [now apply Weak_inv in A1|exact A2|]|].
    - destruct A1 as [[_ _ _ A1 _] _]. now apply A1.
    - intros r s2 B. eapply Weak_trans; eassumption.
  Qed.

  (** ** Work *)
  (** Stacks on which [_run_stack] ends in states of size at most [m]; if it
      fails then what is left is again such a stack. *)
  Inductive Rest (m : nat) (C : work -> Prop) (l : list work) : Prop :=
  | Rest_intro : (forall s, Inv s -> size s <= m -> s_stack s = l ->
      exists k r s', (Weak s s' /\ (forall a, r = ROk a -> s_stack s' = []) /\
                      (forall e, r = RErr e -> size s' < m \/ (Rest m C (s_stack s') /\ Forall C (s_stack s')))) /\
        forall n, k <= n -> f_run (exec E n) s = Some (r, s')) -> Rest m C l.
  Definition Okay (m : nat) (C : work -> Prop) (s : st) : Prop :=
    size s < m \/ (Rest m C (s_stack s) /\ Forall C (s_stack s)).

  Lemma Rest_nil m C : Rest m C [].
  Proof.
    constructor. intros s I0 _ Hs. exists 1, (ROk tt), s. split; [split; [now apply Weak_refl|]|].
    - split; [now intros _ _|discriminate].
    - intros [|n] Hn; [lia|]. cbn. unfold run_body. now rewrite Hs.
  Qed.

  Section level.
    Variable m : nat.
    Hypothesis RU : runs_under m.

    Lemma run_okay C s : Inv s -> size s <= m -> Okay m C s ->
      T E (fun r => f_run r) s (fun r s' => Weak s s' /\ (forall a, r = ROk a -> s_stack s' = []) /\ Okay m C s').
    Proof.
      intros I0 Hm [H|[[H] _]].
      - eapply T_conseq; [apply RU; assumption|]. intros r s' [A B]. split; [exact A|]. split; [exact B|]. left. destruct A. lia.
      - destruct (H s I0 Hm eq_refl) as (k & r & s' & (A1 & A2 & A3) & K). exists k, r, s'. split; [|exact K].
        split; [exact A1|]. split; [exact A2|]. destruct r as [a|e]; [|now apply (A3 e)].
        right. rewrite (A2 a eq_refl). split; [apply Rest_nil|constructor].
    Qed.

    Definition popped (s : st) (w : work) (rest : list work) : st := log (set_run (set_stack s rest) (w :: s_run s)) (EvPop w).
    Lemma Rest_cons C w rest :
      (forall s, Inv s -> s_stack s = rest -> size s + act (s_graph s) w <= m ->
         (forall n, w = DoPost n -> In n (s_seen s)) ->
         T E (fun r => do_work E r w) s (fun _ s' => Weak s s' /\ Okay m C s')) -> Rest m C (w :: rest).
    Proof.
      intros HD. constructor. intros s I0 Hm Hs.
      assert (I1 : Inv (popped s w rest)).
      { split; [|exact (proj2 I0)]. intros n H. apply I0. rewrite Hs. now right. }
      assert (Hsize : size (popped s w rest) + act (s_graph s) w = size s).
      { unfold size, popped. cbn. rewrite Hs, acts_cons. lia. }
      assert (W1 : Weak s (popped s w rest)).
      { split; [|lia]. constructor; [exact I1|reflexivity|reflexivity|apply incl_refl|apply gle_refl]. }
      destruct (HD (popped s w rest) I1 eq_refl) as (k & r & s1 & [A1 A2] & K).
      { cbn. cbn in Hsize. lia. }
      { intros n ->. apply I0. rewrite Hs. now left. }
      destruct r as [u|e].
      - set (s2 := log (set_run s1 (tl (s_run s1))) (EvDone w)).
        assert (Q2 : Quiet s1 s2) by (apply same_quiet; try reflexivity; now apply Weak_inv in A1).
        assert (W2 : Weak s s2) by (eapply Weak_trans; [exact W1|]; eapply Weak_trans; [exact A1|apply Q2]).
        destruct (run_okay C s2) as (k2 & r2 & s3 & (B1 & B2 & B3) & K2).
        { apply Q2. } { destruct W2. lia. } { destruct Q2 as [[_ Q2] Q3]. unfold Okay in *. rewrite Q3. destruct A2; [left; lia|now right]. }
        exists (S (max k k2)), r2, s3. split.
        + split; [eapply Weak_trans; eassumption|]. split; [exact B2|]. intros e _. exact B3.
        + intros [|n] Hn; [lia|]. change (f_run (exec E (S n))) with (run_body E (exec E n)). unfold run_body. rewrite Hs.
          fold (popped s w rest). rewrite K by lia. apply K2. lia.
      - set (s2 := log (set_run s1 (tl (s_run s1))) (EvFail w)).
        assert (Q2 : Quiet s1 s2) by (apply same_quiet; try reflexivity; now apply Weak_inv in A1).
        exists (S k), (RErr e), s2. split.
        + split; [eapply Weak_trans; [exact W1|]; eapply Weak_trans; [exact A1|apply Q2]|]. split; [discriminate|].
          intros e' _. destruct Q2 as [[_ Q2] Q3]. unfold Okay in *. rewrite Q3. destruct A2; [left; lia|now right].
        + intros [|n] Hn; [lia|]. change (f_run (exec E (S n))) with (run_body E (exec E n)). unfold run_body. rewrite Hs.
          fold (popped s w rest). rewrite K by lia. reflexivity.
    Qed.

    (** *** Post processing hooks *)
    Section hooks.
      Variable C : work -> Prop.
      Lemma Okay_quiet s s' : Okay m C s -> Quiet s s' -> Okay m C s'.
      Proof. intros H [[_ Q2] Q3]. unfold Okay in *. rewrite Q3. destruct H; [left; lia|now right]. Qed.
      Lemma Okay_known (k : Prop) s s' : size s <= m -> k -> Okay m C s -> Calm k s s' -> Okay m C s'.
      Proof.
        intros Hm Hk H [[_ H1] H2]. destruct H2 as [H2|(ns & H2 & H3)]; [left; lia|].
        rewrite (H3 Hk) in H2. unfold Okay in *. rewrite H2. destruct H; [left; lia|now right].
      Qed.
      Definition OW (s0 s : st) : Prop := Weak s0 s /\ size s0 <= m /\ Okay m C s.
      Lemma OW_inv s0 s : OW s0 s -> Inv s.
      Proof. intros [H _]. now apply Weak_inv in H. Qed.
      Lemma OW_size s0 s : OW s0 s -> size s <= m.
      Proof. intros ([_ H] & H1 & _). lia. Qed.
      Lemma OW_quiet {A} (x : M A) s0 s : quietm x -> OW s0 s -> T E (fun _ => x) s (fun _ s' => OW s0 s').
      Proof.
        intros H K. eapply quietm_T; [exact H|now apply OW_inv in K|]. intros r s' _ Q. destruct K as (K1 & K2 & K3).
        split; [eapply Weak_trans; [exact K1|apply Q]|]. split; [exact K2|]. eapply Okay_quiet; eassumption.
      Qed.
      Lemma OW_find s0 s a name l : In name V -> OW s0 s -> T E (fun r => f_find r a name l) s (fun _ s' => OW s0 s').
      Proof.
        intros Hv K. eapply T_conseq; [apply T_find_ends; now apply OW_inv in K|]. intros r s' H.
        pose proof (OW_size _ _ K) as Hs. destruct K as (K1 & K2 & K3). split; [eapply Weak_trans; [exact K1|now apply Calm_weak in H]|].
        split; [exact K2|]. now apply (Okay_known (In name V) s s').
      Qed.
      Lemma OW_run s0 s : OW s0 s -> T E (fun r => f_run r) s (fun _ s' => OW s0 s').
      Proof.
        intros K. pose proof (OW_size _ _ K) as Hs. pose proof (OW_inv _ _ K) as I0. destruct K as (K1 & K2 & K3).
        eapply T_conseq; [apply (run_okay C); assumption|]. intros r s' (B1 & _ & B2).
        split; [eapply Weak_trans; eassumption|]. now split.
      Qed.
      Lemma OW_add_module s0 s name : In name V -> OW s0 s -> T E (fun r => add_module r name) s (fun _ s' => OW s0 s').
      Proof.
        intros Hv H. unfold add_module. apply (T_step (OW s0)); [now apply OW_quiet; [apply quietm_find_module|]|]. intros o s1 H1.
        apply (T_step (OW s0) (fun r => match o with Some _ => ret name | None => f_find r None name true end)).
        { destruct o; [now apply T_ret|now apply OW_find]. }
        intros id s2 H2. apply (T_step (OW s0)); [now apply OW_quiet; [apply quietm_note|]|]. intros ? s3 H3.
        apply (T_step (OW s0)); [now apply OW_quiet; [apply quietm_add_root|]|]. intros ? s4 H4.
        apply (T_step (OW s0) (fun r => f_run r)); [now apply OW_run|]. intros ? s5 H5. now apply T_ret.
      Qed.
      Lemma OW_import_module s0 s n name : In name V -> OW s0 s -> T E (fun r => import_module r n name) s (fun _ s' => OW s0 s').
      Proof.
        intros Hv H. unfold import_module. apply (T_step (OW s0)); [now apply OW_quiet; [apply quietm_note|]|]. intros ? s1 H1.
        apply (T_step (OW s0)); [now apply OW_quiet; [apply quietm_find_module|]|]. intros o s2 H2.
        apply (T_step (OW s0) (fun r => match o with Some _ => ret name | None => f_find r (Some n) name true end)).
        { destruct o; [now apply T_ret|now apply OW_find]. }
        intros id s3 H3. apply (T_step (OW s0)); [now apply OW_quiet; [apply quietm_add_edge|]|]. intros ? s4 H4. now apply T_ret.
      Qed.
      Lemma OW_call s0 s a : OW s0 s -> T E (fun r => do_action E r a) s (fun _ s' => OW s0 s') ->
        T E (fun r => call E r a) s (fun r s' => OW s0 s' /\ exists ans, r = ROk ans).
      Proof.
        intros H K. apply T_call. eapply T_conseq; [exact K|].
        intros [ans|e] s' H'; (split; [|eexists; reflexivity]); [exact H'|].
        pose proof (OW_inv _ _ H') as I'. destruct H' as (K1 & K2 & K3).
        split; [eapply Weak_trans; [exact K1|now apply log_quiet]|]. split; [exact K2|]. eapply Okay_quiet; [exact K3|now apply log_quiet].
      Qed.
      Lemma T_post_prog id p : post_ok V id p -> forall s, Inv s -> size s <= m -> Okay m C s -> In id (s_seen s) ->
        (size s < m \/ compiled (s_graph s) id = false) ->
        T E (fun r => run_prog E r p) s (fun _ s' => Weak s s' /\ Okay m C s').
      Proof.
        induction 1 as [o|e|a k Hp Hk IH|k Hn IH Hb|name k Hv Hk IH|n name k Hv Hk IH]; intros s I0 Hm Ho Hid Hc; cbn [run_prog].
        - apply T_ret. split; [now apply Weak_refl|exact Ho].
        - apply T_raise. split; [now apply Weak_refl|exact Ho].
        - eapply T_bind; [apply (T_plain a s Hp I0)| |intros e s1 (ans & A & _); discriminate].
          intros ans s1 (ans' & _ & [F _ _ _]). eapply T_conseq; [apply IH|].
          + apply F. + destruct F as [[_ F] _]. lia. + eapply Okay_quiet; eassumption.
          + destruct F as [[[_ _ _ F _] _] _]. now apply F.
          + destruct F as [[[_ _ _ _ F] F2] _]. destruct Hc as [Hc|Hc]; [left; lia|right].
            destruct (compiled (s_graph s1) id) eqn:Ec; [|reflexivity]. now rewrite (compiled_gle _ _ _ F Ec) in Hc.
          + intros r s2 [B1 B2]. split; [eapply Weak_trans; [apply F|exact B1]|exact B2].
        - eapply T_bind; [apply (T_plain ALook s eq_refl I0)| |intros e s1 (ans & A & _); discriminate].
          intros ans s1 (ans' & A & [F F1 _ _]). injection A as <-. rewrite (F1 eq_refl).
          assert (I1 : Inv s1) by apply F. assert (Hid1 : In id (s_seen s1)) by (destruct F as [[[_ _ _ F _] _] _]; now apply F).
          destruct (compiled (s_graph s) id) eqn:Ec.
          + destruct Hc as [Hc|Hc]; [|discriminate].
            eapply T_conseq; [apply (T_busy m id _ RU (Hb _ _ Ec) s1 I1); [destruct F as [[_ F] _]; lia|exact Hid1]|].
            intros r s2 B. split; [eapply Weak_trans; [apply F|exact B]|]. left. destruct F as [[_ F] _]. destruct B as [_ B]. lia.
          + eapply T_conseq; [apply (IH _ _ Ec s1 I1)|].
            * destruct F as [[_ F] _]. lia. * eapply Okay_quiet; eassumption. * exact Hid1.
            * right. destruct F as [[[_ _ _ _ F] _] _]. destruct (compiled (s_graph s1) id) eqn:Ec'; [|reflexivity].
              now rewrite (compiled_gle _ _ _ F Ec') in Ec.
            * intros r s2 [B1 B2]. split; [eapply Weak_trans; [apply F|exact B1]|exact B2].
        - assert (H0 : OW s s) by (split; [now apply Weak_refl|]; now split).
          eapply T_bind; [apply (OW_call s s (AAddModule name) H0)| |now intros e s1 [_ [ans A]]].
          { cbn [do_action]. apply (T_step (OW s) (fun r => add_module r name)); [now apply OW_add_module|]. intros ? s1 H1. now apply T_ret. }
          intros ans s1 [H1 _]. pose proof (OW_size _ _ H1) as Hs1. destruct H1 as (F & _ & Ho1).
          eapply T_conseq; [apply IH|].
          + now apply Weak_inv in F. + exact Hs1. + exact Ho1.
          + destruct F as [[_ _ _ F _] _]. now apply F.
          + destruct F as [[_ _ _ _ F] F2]. destruct Hc as [Hc|Hc]; [left; lia|right].
            destruct (compiled (s_graph s1) id) eqn:Ec; [|reflexivity]. now rewrite (compiled_gle _ _ _ F Ec) in Hc.
          + intros r s2 [B1 B2]. split; [eapply Weak_trans; [apply F|exact B1]|exact B2].
        - assert (H0 : OW s s) by (split; [now apply Weak_refl|]; now split).
          eapply T_bind; [apply (OW_call s s (AImportModule n name) H0)| |now intros e s1 [_ [ans A]]].
          { cbn [do_action]. apply (T_step (OW s) (fun r => import_module r n name)); [now apply OW_import_module|]. intros ? s1 H1. now apply T_ret. }
          intros ans s1 [H1 _]. pose proof (OW_size _ _ H1) as Hs1. destruct H1 as (F & _ & Ho1).
          eapply T_conseq; [apply IH|].
          + now apply Weak_inv in F. + exact Hs1. + exact Ho1.
          + destruct F as [[_ _ _ F _] _]. now apply F.
          + destruct F as [[_ _ _ _ F] F2]. destruct Hc as [Hc|Hc]; [left; lia|right].
            destruct (compiled (s_graph s1) id) eqn:Ec; [|reflexivity]. now rewrite (compiled_gle _ _ _ F Ec) in Hc.
          + intros r s2 [B1 B2]. split; [eapply Weak_trans; [apply F|exact B1]|exact B2].
      Qed.
      Lemma T_post_hooks id : forall d i s, List.length (s_post s) - i <= d -> Inv s -> size s <= m -> Okay m C s -> In id (s_seen s) ->
        (size s < m \/ compiled (s_graph s) id = false) ->
        T E (fun r => f_post r i id) s (fun _ s' => Weak s s' /\ Okay m C s').
      Proof.
        induction d as [|d IH]; intros i s Hd I0 Hm Ho Hid Hc; apply T_post; unfold post_body.
        - eapply T_bind with (Q1 := fun r s' => r = ROk None /\ s' = s).
          + eapply T_const; [reflexivity|]. split; [|reflexivity]. f_equal. apply nth_error_None. lia.
          + intros o s1 [A ->]. injection A as ->. apply T_ret. split; [now apply Weak_refl|exact Ho].
          + now intros e s1 [A _].
        - eapply T_bind with (Q1 := fun r s' => r = ROk (nth_error (s_post s) i) /\ s' = s).
          + eapply T_const; [reflexivity|]. now split.
          + intros o s1 [A ->]. injection A as ->. destruct (nth_error (s_post s) i) as [h|] eqn:Eh.
            * assert (Hh : post_ok V id (h id)) by (apply I0; eapply nth_error_In; exact Eh).
              assert (Hi : i < List.length (s_post s)) by (apply nth_error_Some; congruence).
              eapply T_bind; [apply (T_post_prog id _ Hh s I0 Hm Ho Hid Hc)| |auto].
              intros ? s2 [B1 B2]. eapply T_conseq; [apply (IH (S i) s2)|].
              -- destruct B1 as [[_ B1 _ _ _] _]. rewrite B1. lia.
              -- now apply Weak_inv in B1.
              -- destruct B1. lia.
              -- exact B2.
              -- destruct B1 as [[_ _ _ B1 _] _]. now apply B1.
              -- destruct B1 as [[_ _ _ _ F] F2]. destruct Hc as [Hc|Hc]; [left; lia|right].
                 destruct (compiled (s_graph s2) id) eqn:Ec; [|reflexivity]. now rewrite (compiled_gle _ _ _ F Ec) in Hc.
              -- intros r s3 [C1 C2]. split; [eapply Weak_trans; eassumption|exact C2].
            * apply T_ret. split; [now apply Weak_refl|exact Ho].
          + now intros e s1 [A _].
      Qed.
      Lemma Rest_post n rest : Rest m C rest -> Forall C rest -> Rest m C (DoPost n :: rest).
      Proof.
        intros HR HF. apply Rest_cons. intros s I0 Hs Hm Hseen. cbn [do_work].
        assert (Hc : size s < m \/ compiled (s_graph s) n = false).
        { cbn [act] in Hm. destruct (compiled (s_graph s) n); [left; lia|now right]. }
        assert (Hq : Quiet s (log s (EvHook n))) by now apply log_quiet.
        eapply T_bind with (Q1 := fun r s' => s' = log s (EvHook n)); [eapply T_const; reflexivity| |].
        - intros ? s1 ->. eapply T_conseq; [apply (T_post_hooks n _ 0 (log s (EvHook n)) (Nat.le_refl _))|].
          + apply Hq. + destruct Hq as [[_ Hq] _]. lia.
          + right. cbn. rewrite Hs. now split.
          + now apply Hseen. + exact Hc.
          + intros r s2 [B1 B2]. split; [eapply Weak_trans; [apply Hq|exact B1]|exact B2].
        - intros e s1 ->. split; [apply Hq|]. right. cbn. rewrite Hs. now split.
      Qed.
      Lemma Rest_posts ns rest : (forall n, C (DoPost n)) -> Rest m C rest -> Forall C rest -> Rest m C (map DoPost ns ++ rest).
      Proof.
        intros Hc HR HF. induction ns as [|n ns IH]; [exact HR|]. cbn [map app]. apply Rest_post; [exact IH|].
        apply Forall_app. split; [|exact HF]. apply Forall_map, Forall_forall. auto.
      Qed.
    End hooks.

    (** *** Imports and names *)
    Definition any (_ : work) : Prop := True.
    Lemma any_all l : Forall any l. Proof. apply Forall_forall. intros; exact I. Qed.
    Definition is_post (w : work) : Prop := exists n, w = DoPost n.
    Definition fine (w : work) : Prop := forall rest, Rest m any rest -> Rest m any (w :: rest).
    Lemma fine_list l rest : Forall fine l -> Rest m any rest -> Rest m any (l ++ rest).
    Proof. induction 1 as [|w l Hw Hl IH]; intros HR; [exact HR|]. cbn. apply Hw. now apply IH. Qed.
    Lemma fine_post w : is_post w -> fine w.
    Proof. intros [n ->] rest HR. apply Rest_post; [exact HR|apply any_all]. Qed.

    (** More work on top of the stack, unless the state got smaller. *)
    Definition Adds (P : work -> Prop) (s s' : st) : Prop := Weak s s' /\
      (size s' < size s \/ exists l, s_stack s' = l ++ s_stack s /\ Forall P l).
    Lemma Adds_refl P s : Inv s -> Adds P s s.
    Proof. intros H. split; [now apply Weak_refl|]. right. exists []. now split. Qed.
    Lemma Adds_trans P a b c : Adds P a b -> Adds P b c -> Adds P a c.
    Proof.
      intros [H1 H2] [K1 K2]. split; [eapply Weak_trans; eassumption|].
      destruct H2 as [H2|(l & H2 & H3)]; [left; destruct K1; lia|].
      destruct K2 as [K2|(l' & K2 & K3)]; [left; destruct H1; lia|].
      right. exists (l' ++ l). split; [rewrite K2, H2; apply app_assoc|]. apply Forall_app. now split.
    Qed.
    Lemma Adds_inv P s s' : Adds P s s' -> Inv s'.
    Proof. intros [H _]. now apply Weak_inv in H. Qed.
    Lemma Adds_quiet P s s' : Quiet s s' -> Adds P s s'.
    Proof. intros [H K]. split; [exact H|]. right. exists []. now split. Qed.
    Lemma Adds_calm (P : work -> Prop) k s s' : (forall w, is_post w -> P w) -> Calm k s s' -> Adds P s s'.
    Proof.
      intros HP [H1 H2]. split; [exact H1|]. destruct H2 as [H2|(ns & H2 & _)]; [now left|]. right. exists (map DoPost ns).
      split; [exact H2|]. apply Forall_map, Forall_forall. intros n _. apply HP. now exists n.
    Qed.
    Lemma Adds_okay (P : work -> Prop) s s' : (forall w, P w -> fine w) -> size s <= m -> Rest m any (s_stack s) -> Adds P s s' -> Weak s s' /\ Okay m any s'.
    Proof.
      intros HP Hm HR [H1 H2]. split; [exact H1|]. destruct H2 as [H2|(l & H2 & H3)]; [left; lia|]. right. split; [|apply any_all].
      rewrite H2. apply fine_list; [|exact HR]. eapply Forall_impl; [|exact H3]. exact HP.
    Qed.
    Lemma Adds_step {A} P (x : M A) s0 s : quietm x -> Adds P s0 s -> T E (fun _ => x) s (fun _ s' => Adds P s0 s').
    Proof.
      intros H K. eapply quietm_T; [exact H|now apply Adds_inv in K|]. intros r s' _ Q. eapply Adds_trans; [exact K|now apply Adds_quiet].
    Qed.
    Lemma Adds_find (P : work -> Prop) s0 s a name l : (forall w, is_post w -> P w) -> Adds P s0 s ->
      T E (fun r => f_find r a name l) s (fun _ s' => Adds P s0 s').
    Proof.
      intros HP K. eapply T_conseq; [apply T_find_ends; now apply Adds_inv in K|]. intros r s' H.
      eapply Adds_trans; [exact K|]. exact (Adds_calm P _ _ _ HP H).
    Qed.

    Lemma T_process_name s0 n x k i nm s : Adds is_post s0 s ->
      T E (fun r => process_name r n x k i nm) s (fun _ s' => Adds is_post s0 s').
    Proof.
      set (R := Adds is_post s0). intros H. unfold process_name. cbv zeta.
      apply (T_step R); [now apply Adds_step; [apply quietm_get_node|]|]. intros imported s1 H1.
      apply (T_step R).
      { destruct (memb _ _); [|now apply T_ret].
        apply (T_step R); [now apply Adds_step; [apply quietm_gets|]|]. intros [t|] s2 H2; [|now apply T_ret].
        apply (T_step R); [now apply Adds_step; [apply quietm_add_edge|]|]. intros ? s3 H3. now apply T_ret. }
      intros [|] s2 H2; [now apply T_ret|].
      apply (T_step R (fun r => f_find r (Some n) (x ++ "." ++ in_name nm)%string false)); [now apply Adds_find; auto|]. intros sub s3 H3.
      apply (T_step R); [now apply Adds_step; [apply quietm_kind_test|]|]. intros miss s4 H4.
      apply (T_step R); [now apply Adds_step; [apply quietm_get_node|]|]. intros imported2 s5 H5.
      assert (Hl : T E (fun _ => do add_edge sub x default_dep ;; add_edge n sub (from_importinfo i true (in_asname nm))) s5 (fun _ s' => R s')).
      { apply (T_step R); [now apply Adds_step; [apply quietm_add_edge|]|]. intros ? s6 H6. now apply Adds_step; [apply quietm_add_edge|]. }
      destruct miss; [|exact Hl].
      destruct (_ && _).
      - destruct (assoc _ _) as [t|]; [|exact Hl].
        apply (T_step R (fun r => f_find r (Some n) t true)); [now apply Adds_find|]. intros d s6 H6.
        now apply Adds_step; [apply quietm_add_edge|].
      - destruct (_ && _); [now apply T_ret|exact Hl].
    Qed.
    Lemma T_process_namelist n x i s : Inv s -> T E (fun r => process_namelist r n x i) s (fun _ s' => Adds is_post s s').
    Proof.
      intros I0. set (R := Adds is_post s). assert (H : R s) by now apply Adds_refl. unfold process_namelist.
      apply (T_step R); [now apply Adds_step; [apply quietm_kind_test|]|]. intros ok s1 H1.
      apply (T_step R); [now apply Adds_step; [apply quietm_assert|]|]. intros ? s2 H2.
      apply (T_step R); [now apply Adds_step; [apply quietm_get_node|]|]. intros imported s3 H3.
      destruct (ii_star i).
      { destruct imported as [y|]; [|now apply T_ret]. destruct (_ || _); [|now apply T_ret]. now apply Adds_step; [apply quietm_add_written|]. }
      cbv zeta. set (names := map in_name (ii_names i)).
      assert (Hi : forall m' k s4, R s4 -> T E (fun r => iter (process_name r n m' k i) (ii_names i)) s4 (fun _ s' => R s')).
      { intros m' k s4 H4. apply (T_iter R (fun r => process_name r n m' k i)); [|exact H4]. intros nm s5 _ H5. now apply T_process_name. }
      destruct (ii_names i) as [|nm0 nms] eqn:En; [now apply T_ret|]. destruct imported as [y|]; [|now apply T_ret].
      assert (Ho : T E (fun r => if is_package (n_kind y) || is_nspkg (n_kind y) || is_module (n_kind y) then
                do add_written n names ;; iter (process_name r n x (n_kind y) i) (nm0 :: nms) else ret tt) s3 (fun _ s' => R s')).
      { destruct (_ || _); [|now apply T_ret].
        apply (T_step R); [now apply Adds_step; [apply quietm_add_written|]|]. intros ? s4 H4. now apply Hi. }
      destruct (n_kind y) as [| | | | | | | |actual|]; try exact Ho.
      apply (T_step R); [now apply Adds_step; [apply quietm_add_written|]|]. intros ? s4 H4.
      apply (T_step R); [now apply Adds_step; [apply quietm_find_module|]|]. intros [z|] s5 H5; [|now apply T_raise].
      destruct (is_package (n_kind z) || is_nspkg (n_kind z) || is_module (n_kind z)); [|now apply T_ret].
      apply (T_step R); [now apply Adds_step; [apply quietm_add_written|]|]. intros ? s6 H6. now apply Hi.
    Qed.
    Lemma fine_names n x i : fine (DoNames n x i).
    Proof.
      intros rest HR. apply Rest_cons. intros s I0 Hs Hm _. cbn [do_work]. eapply T_conseq; [now apply T_process_namelist|].
      intros r s' H. apply (Adds_okay is_post); [apply fine_post|cbn in Hm; lia|now rewrite Hs|exact H].
    Qed.

    Definition light (w : work) : Prop := is_post w \/ exists n x i, w = DoNames n x i.
    Lemma insert_adds s0 s n x i : Adds is_post s0 s ->
      Adds light s0 (set_stack s (firstn (List.length (s_stack s) - List.length (s_stack s0)) (s_stack s)
        ++ DoNames n x i :: skipn (List.length (s_stack s) - List.length (s_stack s0)) (s_stack s))).
    Proof.
      intros [H1 H2]. set (k := _ - _).
      assert (Hw : Weak s (set_stack s (firstn k (s_stack s) ++ DoNames n x i :: skipn k (s_stack s)))).
      { split.
        - constructor; [|reflexivity|reflexivity|apply incl_refl|apply gle_refl]. destruct (Weak_inv _ _ H1) as [J K]. split; [|exact K].
          cbn. intros y Hy. apply J. rewrite <- (firstn_skipn k (s_stack s)). apply in_app_iff. apply in_app_iff in Hy as [Hy|[Hy|Hy]]; [now left|discriminate|now right].
        - unfold size. cbn. rewrite <- (firstn_skipn k (s_stack s)) at 3. rewrite !acts_app, acts_cons. cbn [act]. lia. }
      split; [eapply Weak_trans; eassumption|]. destruct H2 as [H2|(l & H2 & H3)]; [left; destruct Hw; lia|right].
      assert (Hk : k = List.length l) by (unfold k; rewrite H2, app_length; lia).
      exists (l ++ [DoNames n x i]). cbn. rewrite Hk, H2, firstn_app, skipn_app, firstn_all, skipn_all, Nat.sub_diag. cbn.
      rewrite app_nil_r, <- app_assoc. split; [reflexivity|]. apply Forall_app. split.
      - eapply Forall_impl; [|exact H3]. intros w Hw'. now left.
      - constructor; [|constructor]. right. eauto.
    Qed.
    Lemma Adds_light s s' : Adds is_post s s' -> Adds light s s'.
    Proof.
      intros [H1 H2]. split; [exact H1|]. destruct H2 as [H2|(l & H2 & H3)]; [now left|]. right. exists l. split; [exact H2|].
      eapply Forall_impl; [|exact H3]. intros w Hw. now left.
    Qed.
    Lemma fine_import n i : fine (DoImport n i).
    Proof.
      intros rest HR. apply Rest_cons. intros s I0 Hs Hm _. cbn [do_work].
      eapply T_conseq with (Q := fun _ s' => Adds light s s').
      2:{ intros r s' H. apply (Adds_okay light); [|cbn in Hm; lia|now rewrite Hs|exact H].
          intros w [Hw|(n' & x & i' & ->)]; [now apply fine_post|apply fine_names]. }
      set (R := Adds is_post s). assert (H : R s) by now apply Adds_refl. unfold process_import.
      eapply T_bind; [apply (Adds_step is_post (kind_test _ n) s s (quietm_kind_test _ n) H)| |intros e s1; apply Adds_light]. intros pkg s1 H1.
      destruct (absolute_name n pkg i) as [invalid|name].
      - eapply T_conseq with (Q := fun _ s' => R s'); [|intros r s'; apply Adds_light].
        apply (T_step R); [now apply Adds_step; [apply quietm_find_module|]|]. intros old s2 H2. apply (T_step R).
        + destruct old as [o|]; [now apply Adds_step; [apply quietm_assert|]|].
          assert (Ha : T E (fun _ => do add_node (plain_node InvalidRelativeImport invalid) [] ;; do process_import_list invalid [] ;; ret tt) s2 (fun _ s' => R s')).
          { apply (T_add_dull InvalidRelativeImport invalid (fun _ _ => ret tt)); [now apply Adds_inv in H2|exact I|intros e; exact H2|].
            intros s3 C3 _. apply T_ret. eapply Adds_trans; [exact H2|]. eapply Adds_calm; [|exact C3]. auto. }
          destruct Ha as (k & r & s' & A1 & A2). exists k, r, s'. split; [exact A1|]. intros j Hj. rewrite <- (A2 j Hj).
          unfold bind. destruct (add_node _ _ s2) as [[[[]|e] s3]|]; reflexivity.
        + intros ? s3 H3. now apply Adds_step; [apply quietm_add_edge|].
      - eapply T_bind; [apply (Adds_step is_post (assert _) s s1 (quietm_assert _) H1)| |intros e s2; apply Adds_light]. intros ? s2 H2.
        eapply T_bind with (Q1 := fun r s' => r = ROk (List.length (s_stack s2)) /\ s' = s2); [eapply T_const; [reflexivity|now split]| |now intros e s3 [? _]].
        intros offset s3 [Ho ->]. injection Ho as ->.
        eapply T_bind; [apply T_find_ends; now apply Adds_inv in H2| |].
        2:{ intros e s3 C. apply Adds_light. eapply Adds_trans; [exact H2|]. eapply Adds_calm; [|exact C]. auto. }
        intros id s3 C3. assert (H3 : Adds is_post s2 s3) by (eapply Adds_calm; [|exact C3]; auto).
        eapply T_bind; [apply (Adds_step is_post (add_edge _ _ _) s2 s3 (quietm_add_edge _ _ _) H3)| |].
        2:{ intros e s4 H4. apply Adds_light. exact (Adds_trans _ _ _ _ H2 H4). }
        intros ? s4 H4. eapply T_const; [reflexivity|].
        eapply Adds_trans; [apply Adds_light; exact H2|]. now apply insert_adds.
    Qed.
  End level.

  (** *** Whole packages *)
  Definition deeper (pkg : string) (w : work) : Prop := is_post w \/
    (In pkg V /\ exists n p, w = DoPackage n p /\ String.length pkg < String.length p).

  Lemma Adds_push (P : work -> Prop) s0 s n pkg : P (DoPackage n pkg) -> Adds P s0 s -> T E (fun _ => push_package n pkg) s (fun _ s' => Adds P s0 s').
  Proof.
    intros HP H. eapply T_const; [reflexivity|]. eapply Adds_trans; [exact H|]. split; [apply push_weak; now apply Adds_inv in H|].
    right. exists [DoPackage n pkg]. split; [reflexivity|]. now constructor.
  Qed.
  Lemma longer pkg x : String.length pkg < String.length (pkg ++ "." ++ x).
  Proof. rewrite length_app_s. cbn. lia. Qed.
  Lemma T_import_directory id pkg path s0 s : In pkg V -> Adds (deeper pkg) s0 s ->
    T E (fun r => import_directory E r id pkg path) s (fun _ s' => Adds (deeper pkg) s0 s').
  Proof.
    intros Hv. set (R := Adds (deeper pkg) s0). intros H. unfold import_directory.
    assert (Hd : forall x, deeper pkg (DoPackage id (pkg ++ "." ++ x)%string)).
    { intros x. right. split; [exact Hv|]. exists id, (pkg ++ "." ++ x)%string. split; [reflexivity|apply longer]. }
    apply (T_step R); [now apply Adds_step; [apply quietm_askr|]|]. intros stems s1 H1.
    apply (T_step R (fun r => iter _ stems)).
    - apply (T_iter R (fun r stem => if e_isidentifier E stem then
         let name := (pkg ++ "." ++ stem)%string in
         do note (EvList id name) ;; m <- f_find r (Some id) name true ;; do add_edge id m default_dep ;; push_package id name
         else ret tt)); [|exact H1].
      intros stem s2 _ H2. destruct (e_isidentifier E stem); [|now apply T_ret]. cbv zeta.
      apply (T_step R); [now apply Adds_step; [apply quietm_note|]|]. intros ? s3 H3.
      apply (T_step R (fun r => f_find r (Some id) (pkg ++ "." ++ stem)%string true)).
      { apply Adds_find; [|exact H3]. intros w Hw. now left. }
      intros m s4 H4.
      apply (T_step R); [now apply Adds_step; [apply quietm_add_edge|]|]. intros ? s5 H5. apply Adds_push; [apply Hd|exact H5].
    - intros ? s2 H2. apply (T_step R); [now apply Adds_step; [apply quietm_askr|]|]. intros dirs s3 H3.
      apply (T_iter R (fun r dir => if e_isidentifier E dir then
         let name := (pkg ++ "." ++ dir)%string in do note (EvList id name) ;; push_package id name else ret tt)); [|exact H3].
      intros dir s4 _ H4. destruct (e_isidentifier E dir); [|now apply T_ret]. cbv zeta.
      apply (T_step R); [now apply Adds_step; [apply quietm_note|]|]. intros ? s5 H5. apply Adds_push; [apply Hd|exact H5].
  Qed.

  Lemma T_import_package n pkg s : Inv s -> runs_under (size s) ->
    T E (fun r => import_package E r n pkg) s (fun _ s' => Adds (deeper pkg) s s').
  Proof.
    intros I0 RU0. set (R := Adds (deeper pkg) s). assert (H : R s) by now apply Adds_refl. unfold import_package.
    eapply T_bind with (Q1 := fun _ s1 => Quiet s s1).
    { eapply quietm_T; [apply quietm_find_module|exact I0|]. auto. }
    2:{ intros e s1 Q. now apply Adds_quiet. }
    intros o s1 Q1. assert (I1 : Inv s1) by apply Q1.
    apply (T_step R (fun r => saved_stack _)).
    - set (m := size (inner s1)).
      assert (RU : runs_under m).
      { intros s' I' Hs'. apply RU0; [exact I'|]. pose proof (inner_size s1). destruct Q1 as [[_ Q1] _]. unfold m in Hs'. lia. }
      set (K := fun s' => Weak (inner s1) s' /\ Okay m is_post s').
      eapply (T_saved (fun r => id <- match o with Some _ => ret pkg | None => f_find r None pkg true end ;; do f_run r ;; ret id))
        with (Q1 := fun _ s' => K s').
      + assert (J1 : Inv (inner s1)) by now apply inner_inv.
        apply (T_step K (fun r => match o with Some _ => _ | None => _ end)).
        { destruct o.
          - apply T_ret. split; [now apply Weak_refl|]. right. split; [apply Rest_nil|constructor].
          - eapply T_conseq; [now apply T_find_ends|]. intros r s' C. split; [now apply Calm_weak in C|].
            destruct C as [_ [C|(ns & C & _)]]; [now left|]. right. rewrite C. cbn [s_stack inner set_saved set_stack].
            split; [|rewrite app_nil_r; apply Forall_map, Forall_forall; intros x _; now exists x].
            apply Rest_posts; [exact RU|intros x; now exists x|apply Rest_nil|constructor]. }
        intros id s2 [H2 H3]. apply (T_step K (fun r => f_run r)).
        { eapply T_conseq; [apply (run_okay m RU is_post); [now apply Weak_inv in H2|destruct H2; unfold m; lia|exact H3]|].
          intros r s' (C1 & _ & C2). split; [eapply Weak_trans; eassumption|exact C2]. }
        intros ? s3 H4. now apply T_ret.
      + intros r s2 [H2 H3]. destruct (outer_weak s1 s2 I1 H2) as [O1 O2]. eapply Adds_trans; [apply Adds_quiet; exact Q1|].
        split; [exact O1|]. destruct H3 as [H3|[_ H3]]; [left; unfold m in H3; lia|]. right. exists (s_stack s2).
        split; [reflexivity|]. eapply Forall_impl; [|exact H3]. intros w Hw. now left.
    - intros id s2 H2. apply (T_step R); [now apply Adds_step; [apply quietm_add_edge|]|]. intros ? s3 H3.
      apply (T_step R); [now apply Adds_step; [apply quietm_kind_test|]|]. intros p s4 H4. destruct (negb p); [now apply T_ret|].
      eapply T_bind with (Q1 := fun r s' => R s' /\ forall sp, r = ROk (Some sp) -> In pkg V).
      { eapply T_const; [reflexivity|]. split.
        - eapply Adds_trans; [exact H4|]. apply Adds_quiet. apply env_quiet; [now apply Adds_inv in H4|apply env_only_tick].
        - intros sp Hsp. eapply fu_found; [exact FU|exact Hsp]. }
      2:{ now intros e s5 [? _]. }
      intros [sp|] s5 [H5 Hv]; [|now apply T_raise]. specialize (Hv sp eq_refl).
      apply (T_step R (fun r => iter (import_directory E r id pkg) _)).
      + apply (T_iter R (fun r => import_directory E r id pkg)); [|exact H5]. intros path s6 _ H6. now apply T_import_directory.
      + intros ? s6 H6. now apply T_ret.
  Qed.

  (** The longest name. *)
  Definition longest : nat := fold_right (fun x k => Nat.max (String.length x) k) 0 V.
  Lemma longest_le x : In x V -> String.length x <= longest.
  Proof.
    unfold longest. generalize V. intros l. induction l as [|y l IH]; [intros []|]. cbn. intros [->|H]; [lia|]. specialize (IH H). lia.
  Qed.
  Lemma fine_package m : runs_under m -> forall d n pkg, S longest - String.length pkg <= d -> fine m (DoPackage n pkg).
  Proof.
    intros RU. induction d as [|d IH]; intros n pkg Hd rest HR; apply Rest_cons; try exact RU; intros s I0 Hs Hm _; cbn [do_work];
      (assert (RU' : runs_under (size s)) by (intros s' I' Hs'; apply RU; [exact I'|cbn in Hm; lia]));
      (eapply T_conseq with (Q := fun _ s' => Adds (deeper pkg) s s');
       [apply (T_step (Adds (deeper pkg) s) (fun r => import_package E r n pkg) (fun _ _ => ret tt));
         [now apply T_import_package|intros ? s1 H1; now apply T_ret]|]);
      intros r s' H; (apply (Adds_okay m (deeper pkg)); [|cbn in Hm; lia|now rewrite Hs|exact H]);
      (intros w [Hw|(Hv & n' & p & -> & Hl)]; [now apply fine_post|]); apply longest_le in Hv.
    - lia.
    - apply IH. lia.
  Qed.
  Lemma fine_all m w : runs_under m -> fine m w.
  Proof.
    intros RU. destruct w as [n|n i|n x i|n pkg]; [apply fine_post; [exact RU|now exists n]|now apply fine_import|now apply fine_names|].
    eapply fine_package; [exact RU|apply le_n].
  Qed.

  (** ** The stack of work *)
  Theorem runs b : runs_under b.
  Proof.
    induction b as [|m IH]; intros s I0 Hb; [lia|].
    assert (HR : Rest m any (s_stack s)).
    { rewrite <- (app_nil_r (s_stack s)). apply fine_list; [|apply Rest_nil]. apply Forall_forall. intros w _. now apply fine_all. }
    eapply T_conseq; [apply (run_okay m IH any); [exact I0|lia|right; split; [exact HR|apply any_all]]|].
    intros r s' (A & B & _). now split.
  Qed.

  (** ** Calls by the user *)
  Definition Fine {A} (m : funs -> M A) : Prop := forall s, Inv s -> T E m s (fun _ s' => Inv s').
  Lemma Fine_W {A} (m : funs -> M A) : (forall b s0 s, W b s0 s -> T E m s (fun _ s' => W b s0 s')) -> Fine m.
  Proof.
    intros H s I0. eapply T_conseq; [apply (H (S (size s)) s s); apply W_self; [exact I0|lia]|]. intros r s' Hw. now apply W_inv in Hw.
  Qed.
  Lemma Fine_call a : (Fine (fun r => do_action E r a)) -> Fine (fun r => call E r a).
  Proof.
    intros H s I0. apply T_call. eapply T_conseq; [now apply H|]. intros [ans|e] s' K; [exact K|]. now apply log_quiet.
  Qed.
  Lemma Fine_run : Fine (fun r => f_run r).
  Proof.
    intros s I0. eapply T_conseq; [apply (runs (S (size s))); [exact I0|lia]|]. intros r s' [H _]. now apply Weak_inv in H.
  Qed.
  Lemma Fine_conf a : match a with AAddPost h => post_hook_ok V h | AAddMissing h => missing_hook_ok h | AExcludes _ | AImplies _ => True | _ => False end ->
    Fine (fun r => do_action E r a).
  Proof.
    intros Ha s [J [G1 G2]]. destruct a; try destruct Ha; cbn [do_action]; (eapply T_const; [reflexivity|]);
      (split; [exact J|]); split; cbn; try assumption; intros h' [<-|H]; auto.
  Qed.
  Theorem good_call_ends a : good_call V a -> Fine (fun r => call E r a)
  with good_prog_ends p : good_prog V p -> Fine (fun r => run_prog E r p).
  Proof.
    - intros [p Hp|h Hh|h Hh|a' H1 H2 H3].
      + apply Fine_call. intros s I0. cbn [do_action]. unfold hook_context. apply (T_step Inv (fun r => bind (attempt (f_prog r p)) _) (fun _ _ => ret AnsUnit)).
        * apply (T_step Inv (fun r => attempt (f_prog r p))).
          { apply T_attempt, T_prog. now apply good_prog_ends. }
          intros x s1 I1. apply (T_step Inv (fun r => f_run r)); [now apply Fine_run|]. intros ? s2 I2. destruct x; [now apply T_ret|now apply T_raise].
        * intros ? s1 I1. now apply T_ret.
      + apply Fine_call. now apply Fine_conf.
      + apply Fine_call. now apply Fine_conf.
      + destruct (plain_action a') eqn:Hp.
        { intros s I0. eapply T_conseq; [apply (T_plain a' s Hp I0)|]. intros r s' (ans & -> & F). apply F. }
        apply Fine_call. destruct a'; try discriminate Hp; try (exfalso; eapply H1; reflexivity); try (exfalso; eapply H2; reflexivity);
          try (exfalso; eapply H3; reflexivity); try (now apply Fine_conf).
        * apply Fine_W. intros b s0 s H. cbn [do_action]. apply W_lift; [exact H|]. apply W_add_script; first [exact H|apply runs].
        * apply Fine_W. intros b s0 s H. cbn [do_action]. apply W_lift; [exact H|]. apply W_add_module; first [exact H|apply runs].
        * apply Fine_W. intros b s0 s H. cbn [do_action]. apply (W_lift _ _ _ (fun _ => AnsUnit)); [exact H|]. apply W_add_source; first [exact H|apply runs].
        * apply Fine_W. intros b s0 s H. cbn [do_action]. apply W_lift; [exact H|]. apply W_add_dist; first [exact H|apply runs].
        * apply Fine_W. intros b s0 s H. cbn [do_action]. apply W_lift; [exact H|]. apply W_add_dist_named; first [exact H|apply runs].
        * apply Fine_W. intros b s0 s H. cbn [do_action]. apply W_lift; [exact H|]. apply W_import_module; first [exact H|apply runs].
        * apply Fine_W. intros b s0 s H. cbn [do_action]. apply (T_step (W b s0)); [now apply W_quiet; [apply quietm_note|]|]. intros ? s1 K.
          apply W_lift; [exact K|]. apply W_import_package; first [exact K|apply runs].
        * intros s I0. cbn [do_action]. eapply T_bind with (Q1 := fun r s' => s' = s); [eapply T_const; reflexivity| |now intros e s1 ->].
          intros [n|] s1 ->; [|now apply T_raise].
          eapply T_bind with (Q1 := fun r s' => s' = log s (EvProc id imports)); [eapply T_const; reflexivity| |].
          { intros ? s1 ->. apply T_sched, T_ret. apply (schedule_grow id imports (log s (EvProc id imports))). now apply log_quiet. }
          { intros e s1 ->. now apply log_quiet. }
        * intros s I0. cbn [do_action]. apply (T_step Inv (fun r => f_run r) (fun _ _ => ret AnsUnit)); [now apply Fine_run|]. intros ? s1 I1. now apply T_ret.
    - intros [o|e|a k Ha Hk]; intros s I0; cbn [run_prog]; [now apply T_ret|now apply T_raise|].
      apply (T_step Inv (fun r => call E r a) (fun r ans => run_prog E r (k ans))); [now apply good_call_ends|].
      intros ans s1 I1. apply good_prog_ends; [apply Hk|exact I1].
  Qed.

  Theorem top_call_ends a s : good_call V a -> Inv s ->
    exists fuel ans s', top_call E fuel a s = Some (ans, s') /\ Inv s'.
  Proof.
    intros Ha I0. destruct (good_call_ends a Ha s I0) as (k & r & s' & H & K). exists k.
    specialize (K k (le_n k)). unfold top_call. rewrite K. destruct r as [ans|e]; [eauto|]. exfalso.
    revert K. unfold call, bind, attempt, note, modify. destruct (do_action E (exec E k) a s) as [[[]]|]; discriminate.
  Qed.
End ends.
