(** More fuel does not change a result. *)
From Verif Require Export Builder.

Definition le_m {A} (m m' : M A) : Prop := forall s y, m s = Some y -> m' s = Some y.

Lemma le_refl {A} (m : M A) : le_m m m.
Proof. intros s y H. exact H. Qed.
Lemma le_bind {A B} (m m' : M A) (f f' : A -> M B) : le_m m m' -> (forall a, le_m (f a) (f' a)) -> le_m (bind m f) (bind m' f').
Proof.
  intros H K s y E. unfold bind in *. destruct (m s) as [[[a|e] s1]|] eqn:Em; [| |discriminate];
    rewrite (H _ _ Em); [now apply K|exact E].
Qed.
Lemma le_attempt {A} (m m' : M A) : le_m m m' -> le_m (attempt m) (attempt m').
Proof.
  intros H s y E. unfold attempt in *. destruct (m s) as [[r s1]|] eqn:Em; [|discriminate]. now rewrite (H _ _ Em).
Qed.
Lemma le_iter {A} (f f' : A -> M unit) l : (forall a, le_m (f a) (f' a)) -> le_m (iter f l) (iter f' l).
Proof. intros H. induction l as [|x l IH]; cbn; [apply le_refl|]. apply le_bind; [apply H|]. intros _. exact IH. Qed.
Lemma le_saved {A} (m m' : M A) : le_m m m' -> le_m (saved_stack m) (saved_stack m').
Proof.
  intros H s y E. unfold saved_stack in *.
  destruct (m (set_saved (set_stack s []) (s_stack s :: s_saved s))) as [[r s1]|] eqn:Em; [|discriminate].
  now rewrite (H _ _ Em).
Qed.

Record le_funs (r r' : funs) : Prop := {
  le_find : forall a b c, le_m (f_find r a b c) (f_find r' a b c);
  le_load : forall a b, le_m (f_load r a b) (f_load r' a b);
  le_nfs : forall a, le_m (f_nfs r a) (f_nfs r' a);
  le_run : le_m (f_run r) (f_run r');
  le_prog : forall p, le_m (f_prog r p) (f_prog r' p);
  le_post : forall i n, le_m (f_post r i n) (f_post r' i n);
  le_miss : forall i a b, le_m (f_miss r i a b) (f_miss r' i a b)
}.

Ltac le_step := first
  [ assumption | apply le_refl
  | apply le_find; assumption | apply le_load; assumption | apply le_nfs; assumption | apply le_run; assumption
  | apply le_prog; assumption | apply le_post; assumption | apply le_miss; assumption
  | apply le_bind; [|intros ?] | apply le_attempt | apply le_iter; intros ? | apply le_saved
  | match goal with |- le_m (match ?x with _ => _ end) (match ?x with _ => _ end) => destruct x end ].
Ltac le_all := repeat le_step.

Section bodies.
  Variable E : env.
  Variables r r' : funs.
  Hypothesis H : le_funs r r'.

  Lemma le_create_missing a b : le_m (create_missing r a b) (create_missing r' a b).
  Proof. unfold create_missing. le_all. Qed.
  Lemma le_implied_node k a b : le_m (implied_node r k a b) (implied_node r' k a b).
  Proof. unfold implied_node. le_all. Qed.
  Lemma le_implied_references a b : le_m (implied_references r a b) (implied_references r' a b).
  Proof. unfold implied_references. repeat first [apply le_implied_node|le_step]. Qed.
  Lemma le_load_failed a b e : le_m (load_failed E r a b e) (load_failed E r' a b e).
  Proof. unfold load_failed. repeat first [apply le_create_missing|le_step]. Qed.
  Lemma le_load_spec a b : le_m (load_spec r a b) (load_spec r' a b).
  Proof. unfold load_spec. le_all. Qed.
  Lemma le_load_body a b : le_m (load_body E r a b) (load_body E r' a b).
  Proof. unfold load_body. repeat first [apply le_create_missing|apply le_load_failed|apply le_load_spec|le_step]. Qed.
  Lemma le_find_body a b c : le_m (find_body r a b c) (find_body r' a b c).
  Proof. unfold find_body. repeat first [apply le_create_missing|apply le_implied_references|le_step]. Qed.
  Lemma le_nfs_body a : le_m (nfs_body E (f_nfs r) a) (nfs_body E (f_nfs r') a).
  Proof. unfold nfs_body, six_spec, vendor_spec, distutils_spec. le_all. Qed.
  Lemma le_process_import a b : le_m (process_import r a b) (process_import r' a b).
  Proof. unfold process_import. le_all. Qed.
  Lemma le_process_name n m k i nm : le_m (process_name r n m k i nm) (process_name r' n m k i nm).
  Proof. unfold process_name. le_all. Qed.
  Lemma le_process_namelist n m i : le_m (process_namelist r n m i) (process_namelist r' n m i).
  Proof. unfold process_namelist. repeat first [apply le_process_name|le_step]. Qed.
  Lemma le_add_script a : le_m (add_script E r a) (add_script E r' a).
  Proof. unfold add_script. le_all. Qed.
  Lemma le_add_module a : le_m (add_module r a) (add_module r' a).
  Proof. unfold add_module. le_all. Qed.
  Lemma le_add_source a : le_m (add_source E r a) (add_source E r' a).
  Proof. unfold add_source. repeat first [apply le_add_module|le_step]. Qed.
  Lemma le_add_distribution a : le_m (add_distribution E r a) (add_distribution E r' a).
  Proof. unfold add_distribution. le_all. Qed.
  Lemma le_add_distribution_named a : le_m (add_distribution_named E r a) (add_distribution_named E r' a).
  Proof. unfold add_distribution_named. repeat first [apply le_add_distribution|le_step]. Qed.
  Lemma le_import_module a b : le_m (import_module r a b) (import_module r' a b).
  Proof. unfold import_module. le_all. Qed.
  Lemma le_import_directory a b c : le_m (import_directory E r a b c) (import_directory E r' a b c).
  Proof. unfold import_directory. le_all. Qed.
  Lemma le_import_package a b : le_m (import_package E r a b) (import_package E r' a b).
  Proof. unfold import_package. repeat first [apply le_import_directory|le_step]. Qed.
  Lemma le_hook_context p : le_m (hook_context r p) (hook_context r' p).
  Proof. unfold hook_context. le_all. Qed.
  Lemma le_do_action a : le_m (do_action E r a) (do_action E r' a).
  Proof.
    destruct a; cbn [do_action]; repeat first [apply le_add_script|apply le_add_module|apply le_add_source|apply le_add_distribution
      |apply le_add_distribution_named|apply le_import_module|apply le_import_package|apply le_hook_context|le_step].
  Qed.
  Lemma le_call a : le_m (call E r a) (call E r' a).
  Proof. unfold call. repeat first [apply le_do_action|le_step]. Qed.
  Lemma le_run_prog p : le_m (run_prog E r p) (run_prog E r' p).
  Proof.
    revert p. fix IH 1. intros [o|e|a k]; cbn [run_prog]; [apply le_refl|apply le_refl|].
    apply le_bind; [apply le_call|]. intros ans. apply IH.
  Qed.
  Lemma le_post_body i n : le_m (post_body E r i n) (post_body E r' i n).
  Proof. unfold post_body. repeat first [apply le_run_prog|le_step]. Qed.
  Lemma le_miss_body i a b : le_m (miss_body E r i a b) (miss_body E r' i a b).
  Proof. unfold miss_body. repeat first [apply le_run_prog|le_step]. Qed.
  Lemma le_do_work w : le_m (do_work E r w) (do_work E r' w).
  Proof.
    destruct w; cbn [do_work]; repeat first [apply le_process_import|apply le_process_namelist|apply le_import_package|le_step].
  Qed.
  Lemma le_run_body : le_m (run_body E r) (run_body E r').
  Proof.
    intros s y K. unfold run_body in *. destruct (s_stack s) as [|w rest]; [exact K|].
    destruct (do_work E r w _) as [[[u|e] s1]|] eqn:Ew; [| |discriminate]; rewrite (le_do_work _ _ _ Ew).
    - eapply le_run; eassumption.
    - exact K.
  Qed.
End bodies.

Lemma le_no_fuel r : le_funs no_fuel r.
Proof. constructor; repeat intro; discriminate. Qed.
Lemma exec_le E : forall n m, n <= m -> le_funs (exec E n) (exec E m).
Proof.
  induction n as [|n IH]; intros m Hm; [apply le_no_fuel|]. destruct m as [|m]; [lia|].
  assert (H : le_funs (exec E n) (exec E m)) by (apply IH; lia). cbn [exec]. constructor; cbn.
  - intros. now apply le_find_body.
  - intros. now apply le_load_body.
  - intros. now apply le_nfs_body.
  - now apply le_run_body.
  - intros. now apply le_run_prog.
  - intros. now apply le_post_body.
  - intros. now apply le_miss_body.
Qed.
Lemma top_call_more E n m a s y : n <= m -> top_call E n a s = Some y -> top_call E m a s = Some y.
Proof.
  intros Hm H. unfold top_call in *. destruct (call E (exec E n) a s) as [[r s1]|] eqn:Ec; [|discriminate].
  now rewrite (le_call E _ _ (exec_le E n m Hm) a _ _ Ec).
Qed.
(** The outcome of a call does not depend on the fuel. *)
Lemma top_call_same E n m a s x y : top_call E n a s = Some x -> top_call E m a s = Some y -> x = y.
Proof.
  intros H K. destruct (Nat.le_ge_cases n m) as [L|L].
  - rewrite (top_call_more E n m a s x L H) in K. congruence.
  - rewrite (top_call_more E m n a s y L K) in H. congruence.
Qed.
