(** [import_package]: the modules found in the directories of a package. *)
From Verif Require Export BuilderKeep BuilderCalls.

(** [import_package(n, pkg)] was done: the package is linked to [n]; if it is a
    package then every module in the listing of each of its directories is linked
    to it, and [import_package] of every module and directory was requested. *)
Definition sub (pkg name : string) : string := (pkg ++ "." ++ name)%string.
Definition module_linked (s : st) (id name : string) : Prop :=
  In (EvPush id name) (s_log s) /\ exists m, resolves s name m /\ has_edge (s_graph s) id m default_dep.
Definition directory_done (E : env) (s : st) (id pkg path : string) : Prop :=
  (exists t stems, e_glob_py E t path = ROk stems
     /\ forall stem, In stem stems -> e_isidentifier E stem = true -> module_linked s id (sub pkg stem)) /\
  (exists t dirs, e_subdirs E t path = ROk dirs
     /\ forall dir, In dir dirs -> e_isidentifier E dir = true -> In (EvPush id (sub pkg dir)) (s_log s)).
Definition package_done (E : env) (s : st) (n pkg : string) : Prop :=
  exists id, resolves s pkg id /\ has_edge (s_graph s) n id default_dep /\
    ((exists k, kind_of s id = Some k /\ is_package k = false) \/
     exists t fakes sp, e_find_spec E t fakes pkg = ROk (Some sp) /\
       forall path, In path (match sp_search sp with Some l => l | None => [] end) -> directory_done E s id pkg path).

Lemma grows_linked s s' id name : grows s s' -> module_linked s id name -> module_linked s' id name.
Proof.
  intros G [A (m & B & C)]. split; [eapply grows_log; eassumption|]. exists m.
  split; [eapply grows_resolves|eapply grows_edge]; eassumption.
Qed.
Lemma grows_directory E s s' id pkg path : grows s s' -> directory_done E s id pkg path -> directory_done E s' id pkg path.
Proof.
  intros G [(t & stems & A & B) (t2 & dirs & C & D)]. split.
  - exists t, stems. split; [exact A|]. intros stem H I. eapply grows_linked; [exact G|]. now apply B.
  - exists t2, dirs. split; [exact C|]. intros d H I. eapply grows_log; [exact G|]. now apply D.
Qed.
Lemma grows_package E s s' n pkg : grows s s' -> package_done E s n pkg -> package_done E s' n pkg.
Proof.
  intros G (id & A & B & C). exists id. split; [eapply grows_resolves; eassumption|]. split; [eapply grows_edge; eassumption|].
  destruct C as [(k & C1 & C2)|(t & f & sp & C1 & C2)].
  - left. exists k. split; [eapply grows_kind; eassumption|exact C2].
  - right. exists t, f, sp. split; [exact C1|]. intros path H. eapply grows_directory; [exact G|]. now apply C2.
Qed.

(** ** One call *)

Definition anyone : obl -> Prop := fun _ => True.
Lemma cwp_anyone {A} P (m : M A) s Q : cwp P m s Q -> cwp anyone m s Q.
Proof. intros H. eapply cwp_conseq; [exact H|auto|]. intros o _. exact Logic.I. Qed.
Lemma clo_anyone s s' : clo anyone s s'.
Proof. right. intros o _. right. now right. Qed.

Lemma cwp_list id name s (Q : unit -> st -> Prop) :
  (forall s', grows s s' -> linv s' -> Q tt s') -> cwp anyone (note (EvList id name)) s Q.
Proof.
  intros H L r s' Ex. injection Ex as <- <-. assert (L1 : linv (log s (EvList id name))).
  { intros y l [Hy|Hy]; [discriminate|exact (L y l Hy)]. }
  split; [apply log_grows|]. split; [exact L1|]. split; [apply clo_anyone|]. apply H; [apply log_grows|exact L1].
Qed.
Lemma cwp_saved_any {A} (m : M A) s (Q : A -> st -> Prop) :
  (forall a s1 s2, s_graph s2 = s_graph s1 -> s_log s2 = s_log s1 -> Q a s1 -> Q a s2) ->
  (forall s, cwp anyone m s Q) -> cwp anyone (saved_stack m) s Q.
Proof.
  intros HQ H L x s' Ex. unfold saved_stack in Ex.
  set (s0 := set_saved (set_stack s []) (s_stack s :: s_saved s)) in *.
  destruct (m s0) as [[y s1]|] eqn:Em; [|discriminate]. injection Ex as <- <-.
  destruct (H s0 L _ _ Em) as (G1 & L1 & D). set (s2 := set_saved _ _).
  assert (G : grows s s2).
  { apply (grows_trans _ s0); [|apply (grows_trans _ s1); [exact G1|]];
      constructor; cbn; first [apply grows_graph_refl|apply incl_refl|now exists []]. }
  split; [exact G|]. split; [exact L1|]. destruct y; [|exact Logic.I]. split; [apply clo_anyone|].
  apply (HQ a s1); [reflexivity|reflexivity|apply D].
Qed.

Lemma cwp_edge_in P a b d s (Q : unit -> st -> Prop) :
  (forall s', grows s s' -> linv s' -> has_edge (s_graph s') a b d -> in_graph s' b -> Q tt s') -> cwp P (add_edge a b d) s Q.
Proof.
  intros K. apply cwp_linv. intros L0 L r s' E.
  destruct (cwp_edge P a b d s (fun _ s' => has_edge (s_graph s') a b d) (fun _ _ _ H _ => H) L r s' E) as (G & L' & D).
  split; [exact G|]. split; [exact L'|]. destruct r as [[]|]; [|exact Logic.I]. destruct D as [D H]. split; [exact D|].
  apply K; [exact G|exact L'|exact H|]. unfold add_edge, lift_graph in E.
  destruct (gadd_edge (s_graph s) a b d) as [g|e] eqn:Eg; [|discriminate]. injection E as <-.
  apply gadd_edge_spec in Eg as (_ & B & _). eapply grows_in_graph; [exact G|exact B].
Qed.

Section one.
  Variable E : env.
  Variable r : funs.
  Hypothesis R : closes r.

  Lemma cwp_directory id pkg path s :
    cwp anyone (import_directory E r id pkg path) s (fun _ s' => directory_done E s' id pkg path).
  Proof.
    unfold import_directory. intros L x s' Ex. revert L x s' Ex.
    assert (X : forall stems t, e_glob_py E t path = ROk stems -> forall s, cwp anyone
      (do iter (fun stem =>
         if e_isidentifier E stem then
           let name := (pkg ++ "." ++ stem)%string in
           do note (EvList id name) ;;
           m <- f_find r (Some id) name true ;;
           do add_edge id m default_dep ;;
           push_package id name
         else ret tt) stems ;;
       dirs <- askr (fun t => e_subdirs E t path) ;;
       iter (fun dir =>
         if e_isidentifier E dir then
           let name := (pkg ++ "." ++ dir)%string in
           do note (EvList id name) ;; push_package id name
         else ret tt) dirs) s (fun _ s' => directory_done E s' id pkg path)).
    { intros stems t Hg s0. apply cwp_bind.
      eapply cwp_conseq; [apply (cwp_iter anyone _ (fun stem s' => e_isidentifier E stem = true -> module_linked s' id (sub pkg stem)))| |auto].
      - intros stem s1. destruct (e_isidentifier E stem) eqn:Hi; [|apply cwp_ret; discriminate].
        apply cwp_bind, cwp_list. intros s2 G2 L2. apply cwp_bind. eapply cwp_then; [apply (c_find _ R)|].
        intros m s3 G3 L3 F. apply cwp_bind, cwp_edge. intros s4 G4 L4 H4 F4.
        eapply cwp_anyone, cwp_push. intros s5 G5 L5 H5 _. split; [exact H5|]. exists m.
        split; [eapply grows_resolves; [exact G5|]; now apply F4|eapply grows_edge; eassumption].
      - intros stem s1 s2 G H I. eapply grows_linked; [exact G|]. now apply H.
      - intros u0 s1 G1 L1 _ H1. intros L x s' Ex. unfold bind, askr in Ex.
        destruct (e_subdirs E (s_clock s1) path) as [dirs|e] eqn:Ed.
        2:{ injection Ex as <- <-. split; [apply env_only_grows, env_only_tick|]. split; [exact L|exact Logic.I]. }
        assert (Gt : grows s1 (tick s1)) by apply env_only_grows, env_only_tick.
        revert Ex. generalize (tick s1) Gt (L : linv (tick s1)). intros s2 G2 L2 Ex.
        assert (Y : cwp anyone (iter (fun dir =>
           if e_isidentifier E dir then
             let name := (pkg ++ "." ++ dir)%string in do note (EvList id name) ;; push_package id name
           else ret tt) dirs) s2 (fun _ s' => directory_done E s' id pkg path)).
        { eapply cwp_conseq; [apply (cwp_iter anyone _ (fun dir s' => e_isidentifier E dir = true -> In (EvPush id (sub pkg dir)) (s_log s')))| |auto].
          - intros dir s3. destruct (e_isidentifier E dir); [|apply cwp_ret; discriminate].
            apply cwp_bind, cwp_list. intros s4 G4 L4. eapply cwp_anyone, cwp_push. intros s5 G5 L5 H5 _. exact H5.
          - intros dir s3 s4 G H I. eapply grows_log; [exact G|]. now apply H.
          - intros u s3 G3 L3 _ H3. split.
            + exists t, stems. split; [exact Hg|]. intros stem Hs Hi. eapply grows_linked; [eapply grows_trans; [exact G2|exact G3]|]. now apply H1.
            + exists (s_clock s1), dirs. split; [exact Ed|]. exact H3. }
        destruct (Y L2 x s' Ex) as (A & B & C). split; [eapply grows_trans; eassumption|]. split; [exact B|].
        destruct x; [|exact Logic.I]. split; [apply clo_anyone|apply C]. }
    intros L x s' Ex. unfold bind at 1, askr at 1 in Ex.
    destruct (e_glob_py E (s_clock s) path) as [stems|e] eqn:Eg.
    2:{ injection Ex as <- <-. split; [apply env_only_grows, env_only_tick|]. split; [exact L|exact Logic.I]. }
    destruct (X stems _ Eg (tick s) L x s' Ex) as (A & B & C).
    split; [eapply grows_trans; [apply env_only_grows, env_only_tick|exact A]|]. split; [exact B|].
    destruct x; [|exact Logic.I]. split; [apply clo_anyone|apply C].
  Qed.

  Lemma cwp_package n pkg s : cwp anyone (import_package E r n pkg) s
    (fun id s' => resolves s' pkg id /\ package_done E s' n pkg).
  Proof.
    unfold import_package. apply cwp_bind, cwp_find_module. intros x _. apply cwp_bind.
    eapply cwp_conseq; [apply (cwp_saved_any _ _ (fun id s' => resolves s' pkg id))| |auto].
    - intros a s1 s2 Hg Hl. unfold resolves. now rewrite Hl.
    - intros s1. apply cwp_bind. eapply cwp_conseq with (P := anyone) (Q := fun id s' => resolves s' pkg id); [| |auto].
      + destruct x; [apply cwp_ret; now left|]. eapply cwp_anyone, (c_find _ R).
      + intros id s2 G2 L2 _ F. apply cwp_bind. eapply cwp_then; [apply (c_run _ R)|]. intros u s3 G3 L3 _.
        apply cwp_ret. eapply grows_resolves; eassumption.
    - intros id s1 G1 L1 _ F1. apply cwp_bind, cwp_edge_in. intros s2 G2 L2 H2 I2. apply cwp_bind, cwp_kind_test.
      pose proof (grows_resolves _ _ _ _ G2 F1) as F2. destruct (in_graph_kind _ _ I2) as [k Hk]. rewrite Hk.
      destruct (is_package k) eqn:Pk; cbn [negb].
      2:{ apply cwp_ret. split; [exact F2|]. exists id. split; [exact F2|]. split; [exact H2|]. left. now exists k. }
      intros L x0 s' Ex. unfold bind at 1, find_spec in Ex.
      destruct (e_find_spec E (s_clock s2) (s_fakes s2) pkg) as [[sp|]|e] eqn:Es.
      2,3: injection Ex as <- <-; (split; [apply env_only_grows, env_only_tick|]); (split; [exact L|exact Logic.I]).
      assert (Gt : grows s2 (tick s2)) by apply env_only_grows, env_only_tick.
      assert (Y : cwp anyone (do iter (import_directory E r id pkg) (match sp_search sp with Some l => l | None => [] end) ;; ret id)
        (tick s2) (fun id s' => resolves s' pkg id /\ package_done E s' n pkg)).
      { apply cwp_bind. eapply cwp_conseq; [apply (cwp_iter anyone _ (fun path s' => directory_done E s' id pkg path))| |auto].
        - intros path s3. apply cwp_directory.
        - intros path s3 s4. apply grows_directory.
        - intros u s3 G3 L3 _ H3. assert (G23 : grows s2 s3) by (eapply grows_trans; eassumption).
          apply cwp_ret. split; [eapply grows_resolves; eassumption|]. exists id.
          split; [eapply grows_resolves; eassumption|]. split; [eapply grows_edge; eassumption|]. right. eauto. }
      destruct (Y L x0 s' Ex) as (A & B & C). split; [eapply grows_trans; eassumption|]. split; [exact B|].
      destruct x0; [|exact Logic.I]. split; [apply clo_anyone|apply C].
  Qed.
End one.

(** ** All calls *)

Definition packages_done (E : env) (s : st) : Prop :=
  linv s /\ (forall n pkg, In (EvDone (DoPackage n pkg)) (s_log s) -> package_done E s n pkg)
  /\ forall id name, In (EvList id name) (s_log s) -> exists pkg stem, name = sub pkg stem /\ listed E pkg stem.

(** Steps that do not end an [import_package] and do not list a name. *)
Lemma packages_grow E s s' : grows s s' -> linv s' ->
  (forall n pkg, In (EvDone (DoPackage n pkg)) (s_log s') -> In (EvDone (DoPackage n pkg)) (s_log s)) ->
  (forall n pkg, In (EvList n pkg) (s_log s') -> In (EvList n pkg) (s_log s)) ->
  packages_done E s -> packages_done E s'.
Proof.
  intros G L H1 H2 (A & B & C). split; [exact L|]. split; [|intros id name X; apply C with (id := id); now apply H2].
  intros n pkg X. eapply grows_package; [exact G|]. apply B. now apply H1.
Qed.

(** Predicates that are stable when the graph and the log grow, apart from
    some events about ended work and listed names. *)
Section growing.
  Variable E : env.
  Variable J : st -> Prop.
  Variable special : event -> bool.
  Hypothesis J_linv : forall s, J s -> linv s.
  Hypothesis J_grows : forall s s', grows s s' -> linv s' ->
    (forall e, special e = true -> In e (s_log s') -> In e (s_log s)) -> J s -> J s'.
  Hypothesis only : forall e, special e = true -> (exists w, e = EvDone w) \/ exists n x, e = EvList n x.
  Hypothesis J_done : forall k w s u s', J s -> do_work E (exec E k) w s = Some (ROk u, s') -> J s' ->
    J (log (set_run s' (tl (s_run s'))) (EvDone w)).
  Hypothesis J_list : forall s id pkg stem, listed E pkg stem -> J s -> J (log s (EvList id (pkg ++ "." ++ stem)%string)).

  Definition dull (s s' : st) : Prop := forall e, special e = true -> In e (s_log s') -> In e (s_log s).
  Lemma dull_refl s s' : s_log s' = s_log s -> dull s s'.
  Proof. intros H e _ He. now rewrite H in He. Qed.
  Lemma dull_one s s' x : s_log s' = x :: s_log s -> special x = false -> dull s s'.
  Proof. intros H Hx e He Hi. rewrite H in Hi. destruct Hi as [<-|Hi]; [congruence|exact Hi]. Qed.
  Lemma special_not e : (forall w, e <> EvDone w) -> (forall n x, e <> EvList n x) -> special e = false.
  Proof.
    intros A B. destruct (special e) eqn:S1; [|reflexivity]. destruct (only e S1) as [(w & ->)|(n & x & ->)]; [now elim (A w)|now elim (B n x)].
  Qed.
  Lemma dull_trans a b c : dull a b -> dull b c -> dull a c.
  Proof. intros H K e He Hi. apply H; [exact He|]. now apply K. Qed.
  Definition dullm {A} (m : M A) : Prop := forall s r s', m s = Some (r, s') -> dull s s'.
  Lemma dullm_bind {A B} (m : M A) (f : A -> M B) : dullm m -> (forall a, dullm (f a)) -> dullm (bind m f).
  Proof.
    intros Hm Hf s r s' H. unfold bind in H. destruct (m s) as [[[a|e] s1]|] eqn:Em; [| |discriminate].
    - eapply dull_trans; [eapply Hm; exact Em|eapply Hf; exact H].
    - injection H as <- <-. eapply Hm; exact Em.
  Qed.
  Lemma dullm_env {A} (m : M A) : envm m -> dullm m.
  Proof. intros H s r s' Ex. apply H in Ex as (f & c & ->). now apply dull_refl. Qed.
  Lemma dullm_note e : special e = false -> dullm (note e).
  Proof. intros H s r s' Ex. injection Ex as <- <-. eapply dull_one; [reflexivity|exact H]. Qed.
  Lemma dullm_lift f : dullm (lift_graph f).
  Proof. intros s r s' Ex. unfold lift_graph in Ex. destruct (f (s_graph s)); injection Ex as <- <-; now apply dull_refl. Qed.
  Lemma dullm_modify f : (forall s, s_log (f s) = s_log s \/ exists x, s_log (f s) = x :: s_log s /\ special x = false) -> dullm (modify f).
  Proof.
    intros H s r s' Ex. injection Ex as <- <-. destruct (H s) as [K|(x & K & X)]; [now apply dull_refl|eapply dull_one; eassumption].
  Qed.
  Ltac dm := repeat match goal with
    | |- dullm (bind _ _) => apply dullm_bind; [|intros ?]
    | |- dullm (note _) => apply dullm_note, special_not; discriminate
    | |- dullm (user_add_node _) => apply dullm_lift
    | |- dullm (add_edge _ _ _) => apply dullm_lift
    | |- dullm (add_root _) => apply dullm_lift
    | |- dullm (process_import_list _ _) => apply dullm_modify; intros s; right; eexists; split; [apply schedule_log|apply special_not; discriminate]
    | |- dullm (modify _) => apply dullm_modify; intros s; first [left; reflexivity|right; eexists; split; [reflexivity|apply special_not; discriminate]]
    | |- dullm (match ?x with _ => _ end) => destruct x
    | |- dullm (if ?x then _ else _) => destruct x
    | |- dullm _ => apply dullm_env; unfold get_node; envm_tac; fail
    end.
  Lemma keeps_cwp {A} (m : M A) : (forall s, cwp none m s (fun _ _ => True)) -> (forall s r s', m s = Some (r, s') -> dull s s') ->
    keeps J m.
  Proof.
    intros H D s r s' Ex Js. destruct (H s (J_linv s Js) r s' Ex) as (G & L & _). eapply J_grows; [exact G|exact L|eapply D; exact Ex|exact Js].
  Qed.
  Lemma keeps_any {A} (m : M A) : (forall s, cwp anyone m s (fun _ _ => True)) -> (forall s r s', m s = Some (r, s') -> dull s s') ->
    keeps J m.
  Proof.
    intros H D s r s' Ex Js. destruct (H s (J_linv s Js) r s' Ex) as (G & L & _). eapply J_grows; [exact G|exact L|eapply D; exact Ex|exact Js].
  Qed.
  Lemma keeps_lift f : (forall s, cwp none (lift_graph f) s (fun _ _ => True)) -> keeps J (lift_graph f).
  Proof.
    intros H. apply keeps_cwp; [exact H|]. intros s r s' Ex. unfold lift_graph in Ex.
    destruct (f (s_graph s)); injection Ex as <- <-; now apply dull_refl.
  Qed.
  Lemma J_same s s' : s_graph s' = s_graph s -> s_log s' = s_log s -> s_seen s' = s_seen s -> s_post s' = s_post s ->
    s_missing s' = s_missing s -> J s -> J s'.
  Proof.
    intros A B C D F Js. apply (J_grows s); [|intros n l; rewrite B; unfold in_graph; rewrite A; now apply J_linv|now apply dull_refl|exact Js].
    constructor; rewrite ?A, ?B, ?C, ?D, ?F; first [apply grows_graph_refl|apply incl_refl|now exists []].
  Qed.
  Lemma J_log s e : special e = false -> (forall n l, e <> EvAdd n l) -> J s -> J (log s e).
  Proof.
    intros H A Js. apply (J_grows s); [apply log_grows| |eapply dull_one; [reflexivity|exact H]|exact Js].
    intros n l [X|X]; [now elim (A n l)|now apply (J_linv s Js n l)].
  Qed.

  Lemma keeps_new_node n l : keeps J (add_node n l).
  Proof.
    apply keeps_any.
    - intros s. apply cwp_add_node; [intros o _; exact Logic.I|auto].
    - intros s r s' Ex. unfold add_node, bind, lift_graph in Ex. destruct (gadd_node (s_graph s) n); [|injection Ex as <- <-; now apply dull_refl].
      injection Ex as <- <-. eapply dull_one; [reflexivity|]. apply special_not; discriminate.
  Qed.
  Lemma growing_keeper : keeper E J (fun _ => True) (fun _ => True).
  Proof.
    constructor; auto.
    - intros s s' (f & c & ->) Js. revert Js. now apply J_same.
    - intros n l _. apply keeps_new_node.
    - intros k im name s s1 _ _ J1 x s2 H. revert H J1. apply keeps_new_node.
    - intros a b d. apply keeps_lift. intros s. apply cwp_edge. auto.
    - apply written_any. intros n l. apply keeps_cwp; [intros s; apply cwp_written; auto|]. intros s r s' Ex. injection Ex as <- <-. now apply dull_refl.
    - intros n l. apply keeps_cwp; [intros s; apply cwp_sched; auto|]. intros s r s' Ex. injection Ex as <- <-.
      eapply dull_one; [apply schedule_log|]. apply special_not; discriminate.
    - intros n p _. apply keeps_cwp; [intros s; apply cwp_push; auto|]. intros s r s' Ex. injection Ex as <- <-.
      eapply dull_one; [reflexivity|]. apply special_not; discriminate.
    - intros name s r s' Ex Js. unfold pop_lazy in Ex. destruct (assoc name (s_lazy s)) as [i|]; injection Ex as <- <-; [|exact Js].
      apply J_log; [apply special_not; discriminate|discriminate|]. revert Js. now apply J_same.
    - intros k w _ s r s' Ex Js. injection Ex as <- <-. revert Js. now apply J_same.
    - intros s e He Js. apply J_log; [|intros; destruct e; discriminate|exact Js]. apply special_not; intros; destruct e; discriminate.
    - intros s _ Js. apply J_log; [|discriminate|exact Js]. apply special_not; discriminate.
    - intros s id pkg stem [Hl _] Js. auto.
    - intros s Js. revert Js. now apply J_same.
    - intros s0 s _ Js. revert Js. now apply J_same.
    - intros s w rest Hs Js. apply J_log; [apply special_not; discriminate|discriminate|]. revert Js. now apply J_same.
    - intros w s Js. apply J_log; [apply special_not; discriminate|discriminate|]. revert Js. now apply J_same.
    - intros a id _ _. apply keeps_bind.
      + intros s r s' Ex Js. injection Ex as <- <-. apply J_log; [apply special_not; discriminate|discriminate|exact Js].
      + intros _. apply keeps_lift. intros s. apply cwp_root. auto.
    - intros a d _ _. apply keeps_lift. intros s. apply cwp_user_node. auto.
    - intros s n name _ Js. apply J_log; [apply special_not; discriminate|discriminate|exact Js].
    - intros r a _ Hp. assert (Ea : forall s, do_action E r a s = do_action E no_fuel a s) by (intros s; now destruct a).
      assert (X : keeps J (do_action E no_fuel a)).
      2:{ intros s x s' Ex. rewrite Ea in Ex. now apply X in Ex. }
      apply keeps_cwp; [intros s; apply cwp_do_action, closes_no_fuel|].
      change (dullm (do_action E no_fuel a)). clear Ea. destruct a; try discriminate Hp; cbn [do_action]; dm.
  Qed.
End growing.

Definition about_packages (e : event) : bool :=
  match e with EvDone (DoPackage _ _) | EvList _ _ => true | _ => false end.
Lemma packages_keeper E : keeper E (packages_done E) (fun _ => True) (fun _ => True).
Proof.
  apply (growing_keeper E (packages_done E) about_packages).
  - intros s H. apply H.
  - intros s s' G L D. apply packages_grow; [exact G|exact L|intros n pkg; now apply D|intros n x; now apply D].
  - intros e H. destruct e; try discriminate; [left; now eexists|right; now eexists _, _].
  - intros k w s u s' (L & _) Ex (L' & A & B). set (s2 := log _ _).
    assert (G : grows s' s2).
    { unfold s2. constructor; cbn; first [apply grows_graph_refl|apply incl_refl|now exists []|now eexists [_]]. }
    split; [intros n l [X|X]; [discriminate|now apply (L' n l)]|]. split.
    + intros n pkg [X|X]; [|eapply grows_package; [exact G|now apply A]]. injection X as ->.
      cbn [do_work] in Ex. unfold bind in Ex.
      destruct (import_package E (exec E k) n pkg s) as [[[id|e] s3]|] eqn:Ei; try discriminate. injection Ex as <- <-.
      destruct (cwp_package E _ (closes_exec E k) n pkg s L _ _ Ei) as (_ & _ & _ & _ & P). eapply grows_package; [exact G|exact P].
    + intros id name [X|X]; [discriminate|now apply (B id)].
  - intros s id pkg stem Hl (L & A & B). split; [intros n l [X|X]; [discriminate|now apply (L n l)]|]. split.
    + intros n p [X|X]; [discriminate|]. eapply grows_package; [apply log_grows|]. now apply A.
    + intros i nm [X|X]; [injection X as _ <-; now exists pkg, stem|now apply (B i)].
Qed.
Lemma reach_packages E s0 s : start s0 -> reach E s0 s -> packages_done E s.
Proof.
  intros H0 H. induction H as [|s fuel a ans s' H IH Hc].
  - destruct H0 as (i & p & m & ->). split; [intros n l []|]. split; [intros n pkg []|intros id name []].
  - eapply (keeps_top _ _ _ _ (packages_keeper E)); [exact Logic.I|exact IH|exact Hc].
Qed.
