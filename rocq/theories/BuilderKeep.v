(** A predicate on states that all primitive steps keep is kept by the builder. *)
From Verif Require Export BuilderPass.

Definition keeps (J : st -> Prop) {A} (m : M A) : Prop := forall s r s', m s = Some (r, s') -> J s -> J s'.

(** [stem] was found in a directory of the package [pkg]. *)
Definition listed (E : env) (pkg stem : string) : Prop :=
  e_isidentifier E stem = true /\
  exists t fakes sp path l, e_find_spec E t fakes pkg = ROk (Some sp)
    /\ In path (match sp_search sp with Some l => l | None => [] end)
    /\ ((exists t', e_glob_py E t' path = ROk l) \/ (exists t', e_subdirs E t' path = ROk l)) /\ In stem l.

(** Actions that call none of the functions of the builder, apart from putting
    work on the stack. *)
Definition prim (a : action) : bool :=
  match a with
  | AAddScript _ | AAddModule _ | AAddSource _ | AAddDist _ | AAddDistNamed _ | AHookContext _
  | AImportModule _ _ | AImportPackage _ _ | ARunStack | ANodeForSpec _ => false
  | _ => true
  end.
Definition makes_roots (a : action) : bool :=
  match a with AAddScript _ | AAddModule _ | AAddSource _ | AAddDist _ | AAddDistNamed _ => true | _ => false end.
Definition mild (e : event) : bool := match e with EvSubst _ _ | EvHook _ => true | _ => false end.

Definition found (E : env) (sp : spec) : Prop := exists t f name, e_find_spec E t f name = ROk (Some sp).
(** Classes of nodes that stand for something the builder has no code of. *)
Definition placeholder (k : kind) : bool :=
  match k with ExcludedModule | InvalidRelativeImport | VirtualNode _ | AliasNode _ => true | _ => false end.
(** Nodes that the builder makes (apart from missing modules), with the import
    statements found for them: place holders, scripts, and by [node_for_spec]. *)
Inductive made (E : env) : node -> list iinfo -> Prop :=
| made_plain k name : placeholder k = true -> made E (plain_node k name) []
| made_script t path tree l : e_script E t path = ROk tree -> extract_ast_info (e_names_order E) tree = Some l ->
    made E (Node path Script [] [] None (Some path) [] false) l
| made_spec k sp s n l s' : found E sp -> f_nfs (exec E k) sp s = Some (ROk (n, l), s') -> made E n l.

(** The same in more detail: where the node comes from. *)
Inductive born (E : env) (s : st) : node -> list iinfo -> Prop :=
| born_plain k name : k = ExcludedModule \/ (k = InvalidRelativeImport /\ starts_with "." name = true) -> born E s (plain_node k name) []
| born_alias a name : In (EvImplied name (ImpAlias a)) (s_log s) -> born E s (plain_node (AliasNode a) name) []
| born_virtual a name : In (EvImplied name (ImpVirtual a)) (s_log s) -> born E s (plain_node (VirtualNode a) name) []
| born_other k name sp u n l u' : has_spec E name sp -> f_nfs (exec E k) sp u = Some (ROk (n, l), u') -> n_name n <> name ->
    born E s (plain_node (AliasNode (n_name n)) name) []
| born_script t path tree l : e_script E t path = ROk tree -> extract_ast_info (e_names_order E) tree = Some l ->
    born E s (Node path Script [] [] None (Some path) [] false) l
| born_spec k name sp u n l u' : has_spec E name sp -> f_nfs (exec E k) sp u = Some (ROk (n, l), u') ->
    n_name n = name \/ kind_of s name = Some (AliasNode (n_name n)) -> born E s n l.
Lemma born_made E s n l : born E s n l -> made E n l.
Proof.
  intros [k name [-> | [-> _]]|a name _|a name _|k name sp u m l0 u' _ _ _|t path tree l0 A B|k name sp u m l0 u' (t & f & A) B _];
    try (now apply made_plain).
  - eapply made_script; eassumption.
  - eapply made_spec; [exists t, f, name; exact A|exact B].
Qed.
(** Why there is no node for a module: Python did not find it at some time, or its
    package is a missing module. *)
Definition orphan (E : env) (J : st -> Prop) (s : st) (name : string) : Prop := exists k im c b u p x,
  split_package name = ROk (Some c, x) /\ J u /\ f_find (exec E k) im c b u = Some (ROk p, s) /\ kind_of s p = Some MissingModule.
Definition absent_why (E : env) (J : st -> Prop) (s : st) (name : string) : Prop := unfound E name \/ orphan E J s name.
Lemma spec_or_none_unfound E name s r s' : spec_or_none E name s = Some (r, s') -> (forall sp, r <> ROk (Some sp)) -> unfound E name.
Proof.
  unfold spec_or_none, bind at 1, attempt at 1, find_spec at 1. intros H Hr. exists (s_clock s), (s_fakes s). intros sp K.
  rewrite K in H. injection H as <- _. now elim (Hr sp).
Qed.

(** The names that the builder adds to the written names of a node for the names
    of statement [i], imported from [m]. *)
Definition names_for (s : st) (m : string) (i : iinfo) (l : list string) : Prop :=
  if ii_star i then exists x, gfind (s_graph s) m = Some x /\ l = n_written x /\ is_package (n_kind x) || is_module (n_kind x) = true
  else l = map in_name (ii_names i).

Lemma absolute_dots n b i x : absolute_name n b i = inl x -> starts_with "." x = true.
Proof.
  unfold absolute_name. destruct (ii_level i) as [|k]; [discriminate|]. cbn [Nat.eqb].
  destruct (relative_package n b (S k)); [discriminate|]. intros H. injection H as <-. now destruct (_ ++ _)%string.
Qed.

(** [okl]: modules of packages may be listed (import_package), and calls may raise. *)
Record keeper_with (E : env) (J : st -> Prop) (okp : prog -> Prop) (oka : action -> Prop) (okl : Prop) : Prop := {
  kp_env : forall s s', env_only s s' -> J s -> J s';
  kp_node : forall n l, made E n l -> keeps J (add_node n l);
  kp_absent : forall k im name s s1, J s -> f_miss (exec E k) 0 im name s = Some (ROk None, s1) -> J s1 ->
    forall x s2, add_node (plain_node MissingModule name) [] s1 = Some (x, s2) -> J s2;
  kp_edge : forall a b d, keeps J (add_edge a b d);
  kp_written : forall n m i l s, In (EvPop (DoNames n m i)) (s_log s) -> names_for s m i l -> J s ->
    J (set_graph s (gadd_written (s_graph s) n l));
  kp_sched : forall n l, keeps J (process_import_list n l);
  kp_push : forall n p, okl -> keeps J (push_package n p);
  kp_pop : forall name, keeps J (pop_lazy name);
  kp_insert : forall k w, (forall n p, w <> DoPackage n p) -> keeps J (insert_work k w);
  kp_event : forall s e, mild e = true -> J s -> J (log s e);
  kp_err : forall s, okl \/ (exists a k, okp (PDo a k)) \/ (exists k im name e s0, J s0 /\ gfind (s_graph s0) name = None
      /\ create_missing (exec E k) im name s0 = Some (RErr e, s)) -> J s -> J (log s EvErr);
  kp_list : forall s id pkg stem, listed E pkg stem /\ okl -> J s -> J (log s (EvList id (pkg ++ "." ++ stem)%string));
  kp_save : forall s, J s -> J (set_saved (set_stack s []) (s_stack s :: s_saved s));
  kp_restore : forall s0 s, J s0 -> J s -> J (set_saved (set_stack s (s_stack s ++ s_stack s0)) (tl (s_saved s)));
  kp_start : forall s w rest, s_stack s = w :: rest -> J s ->
    J (log (set_run (set_stack s rest) (w :: s_run s)) (EvPop w));
  kp_done : forall k w s u s', J s -> do_work E (exec E k) w s = Some (ROk u, s') -> J s' ->
    J (log (set_run s' (tl (s_run s'))) (EvDone w));
  kp_fail : forall w s, J s -> J (log (set_run s (tl (s_run s))) (EvFail w));
  kp_post : forall s h n, J s -> In h (s_post s) ->
    okp (h n) \/ forall k x s', run_prog E (exec E k) (h n) s = Some (x, s') -> J s';
  kp_miss : forall s h i n, J s -> In h (s_missing s) ->
    okp (h i n) \/ forall k x s', run_prog E (exec E k) (h i n) s = Some (x, s') -> J s';
  kp_do : forall a k, okp (PDo a k) -> oka a /\ forall ans, okp (k ans);
  kp_context : forall p, oka (AHookContext p) -> okp p;
  kp_root : forall a id, oka a -> makes_roots a = true -> keeps J (do note (EvRoot id) ;; add_root id);
  kp_dist : forall a d, oka a -> makes_roots a = true ->
    keeps J (user_add_node (Node (dist_identifier d) Distribution [] [] (Some d) None [] false));
  kp_req : forall s n name, oka (AImportModule n name) \/ oka (AImportPackage n name) -> J s -> J (log s (EvReq n name));
  kp_prim : forall r a, oka a -> prim a = true -> keeps J (do_action E r a);
  kp_work : forall s n pkg rest, s_stack s = DoPackage n pkg :: rest -> J s -> okl;
  kp_ask : forall n pkg, oka (AImportPackage n pkg) -> okl
}.
(** The same with the reasons for nodes. *)
Record keeper_strong (E : env) (J : st -> Prop) (okp : prog -> Prop) (oka : action -> Prop) (okl : Prop) : Prop := {
  ks_node : forall n l s x s', born E s n l -> J s -> add_node n l s = Some (x, s') -> J s';
  ks_absent : forall k im name s s1, J s -> absent_why E J s name -> f_miss (exec E k) 0 im name s = Some (ROk None, s1) -> J s1 ->
    forall x s2, add_node (plain_node MissingModule name) [] s1 = Some (x, s2) -> J s2;
  ks_env : forall s s', env_only s s' -> J s -> J s';
  ks_edge : forall a b d, keeps J (add_edge a b d);
  ks_written : forall n m i l s, In (EvPop (DoNames n m i)) (s_log s) -> names_for s m i l -> J s ->
    J (set_graph s (gadd_written (s_graph s) n l));
  ks_sched : forall n l, keeps J (process_import_list n l);
  ks_push : forall n p, okl -> keeps J (push_package n p);
  ks_pop : forall name, keeps J (pop_lazy name);
  ks_insert : forall k w, (forall n p, w <> DoPackage n p) -> keeps J (insert_work k w);
  ks_event : forall s e, mild e = true -> J s -> J (log s e);
  ks_err : forall s, okl \/ (exists a k, okp (PDo a k)) \/ (exists k im name e s0, J s0 /\ gfind (s_graph s0) name = None
      /\ create_missing (exec E k) im name s0 = Some (RErr e, s)) -> J s -> J (log s EvErr);
  ks_list : forall s id pkg stem, listed E pkg stem /\ okl -> J s -> J (log s (EvList id (pkg ++ "." ++ stem)%string));
  ks_save : forall s, J s -> J (set_saved (set_stack s []) (s_stack s :: s_saved s));
  ks_restore : forall s0 s, J s0 -> J s -> J (set_saved (set_stack s (s_stack s ++ s_stack s0)) (tl (s_saved s)));
  ks_start : forall s w rest, s_stack s = w :: rest -> J s ->
    J (log (set_run (set_stack s rest) (w :: s_run s)) (EvPop w));
  ks_done : forall k w s u s', J s -> do_work E (exec E k) w s = Some (ROk u, s') -> J s' ->
    J (log (set_run s' (tl (s_run s'))) (EvDone w));
  ks_fail : forall w s, J s -> J (log (set_run s (tl (s_run s))) (EvFail w));
  ks_post : forall s h n, J s -> In h (s_post s) ->
    okp (h n) \/ forall k x s', run_prog E (exec E k) (h n) s = Some (x, s') -> J s';
  ks_miss : forall s h i n, J s -> In h (s_missing s) ->
    okp (h i n) \/ forall k x s', run_prog E (exec E k) (h i n) s = Some (x, s') -> J s';
  ks_do : forall a k, okp (PDo a k) -> oka a /\ forall ans, okp (k ans);
  ks_context : forall p, oka (AHookContext p) -> okp p;
  ks_root : forall a id, oka a -> makes_roots a = true -> keeps J (do note (EvRoot id) ;; add_root id);
  ks_dist : forall a d, oka a -> makes_roots a = true ->
    keeps J (user_add_node (Node (dist_identifier d) Distribution [] [] (Some d) None [] false));
  ks_req : forall s n name, oka (AImportModule n name) \/ oka (AImportPackage n name) -> J s -> J (log s (EvReq n name));
  ks_prim : forall r a, oka a -> prim a = true -> keeps J (do_action E r a);
  ks_work : forall s n pkg rest, s_stack s = DoPackage n pkg :: rest -> J s -> okl;
  ks_ask : forall n pkg, oka (AImportPackage n pkg) -> okl
}.
Lemma strong_of E J okp oka okl : keeper_with E J okp oka okl -> keeper_strong E J okp oka okl.
Proof.
  intros [K1 K2 K3]. constructor; auto.
  - intros n l s x s' B Js H. exact (K2 n l (born_made _ _ _ _ B) s x s' H Js).
  - intros k im name s s1 Js _. now apply K3.
Qed.
Lemma written_any J : (forall n l, keeps J (add_written n l)) ->
  forall n m i l s, In (EvPop (DoNames n m i)) (s_log s) -> names_for s m i l -> J s -> J (set_graph s (gadd_written (s_graph s) n l)).
Proof. intros H n m i l s _ _. now apply (H n l s (ROk tt)). Qed.
Definition keeper E J okp oka : Prop := keeper_with E J okp oka True.

Section keep.
  Variable E : env.
  Variable J : st -> Prop.
  Variable okp : prog -> Prop.
  Variable oka : action -> Prop.
  Variable okl : Prop.
  Hypothesis K : keeper_strong E J okp oka okl.

  Lemma keeps_ret {A} (a : A) : keeps J (ret a).
  Proof. intros s r s' H. now injection H as <- <-. Qed.
  Lemma keeps_raise {A} e : keeps J (@raise A e).
  Proof. intros s r s' H. now injection H as <- <-. Qed.
  Lemma keeps_oof {A} : keeps J (@out_of_fuel A).
  Proof. intros s r s' H. discriminate. Qed.
  Lemma keeps_bind {A B} (m : M A) (f : A -> M B) : keeps J m -> (forall a, keeps J (f a)) -> keeps J (bind m f).
  Proof.
    intros Hm Hf s r s' H Js. unfold bind in H. destruct (m s) as [[[a|e] s1]|] eqn:Em; [| |discriminate].
    - eapply Hf; [exact H|]. eapply Hm; eassumption.
    - injection H as <- <-. eapply Hm; eassumption.
  Qed.
  Lemma keeps_attempt {A} (m : M A) : keeps J m -> keeps J (attempt m).
  Proof.
    intros Hm s r s' H Js. unfold attempt in H. destruct (m s) as [[x s1]|] eqn:Em; [|discriminate].
    injection H as <- <-. eapply Hm; eassumption.
  Qed.
  Lemma keeps_env {A} (m : M A) : envm m -> keeps J m.
  Proof. intros He s r s' H Js. eapply (ks_env _ _ _ _ _ K); [eapply He; exact H|exact Js]. Qed.
  Lemma keeps_note e : mild e = true -> keeps J (note e).
  Proof. intros He s r s' H Js. injection H as <- <-. now apply (ks_event _ _ _ _ _ K). Qed.
  Lemma keeps_iter {A} (f : A -> M unit) l : (forall a, In a l -> keeps J (f a)) -> keeps J (iter f l).
  Proof.
    induction l as [|x l IH]; intros H; [apply keeps_ret|]. cbn [iter]. apply keeps_bind; [apply H; now left|].
    intros _. apply IH. intros a Ha. apply H. now right.
  Qed.
  Lemma keeps_saved {A} (m : M A) : keeps J m -> keeps J (saved_stack m).
  Proof.
    intros Hm s r s' H Js. unfold saved_stack in H.
    destruct (m (set_saved (set_stack s []) (s_stack s :: s_saved s))) as [[x s1]|] eqn:Em; [|discriminate].
    injection H as <- <-. apply (ks_restore _ _ _ _ _ K); [exact Js|]. eapply Hm; [exact Em|]. now apply (ks_save _ _ _ _ _ K).
  Qed.
  Lemma keeps_find_module id : keeps J (find_module id).
  Proof.
    apply keeps_env. unfold find_module, get_node. envm_tac.
  Qed.
  Lemma keeps_get_node id : keeps J (get_node id).
  Proof. apply keeps_env. unfold get_node. envm_tac. Qed.
  Lemma keeps_kind_test p id : keeps J (kind_test p id).
  Proof. apply keeps_env. unfold kind_test, get_node. envm_tac. Qed.
  Lemma keeps_assert b : keeps J (assert b).
  Proof. apply keeps_env, envm_assert. Qed.
  Lemma keeps_of_result {A} (x : result A) : keeps J (of_result x).
  Proof. apply keeps_env, envm_of_result. Qed.

  Lemma keeps_born n l : (forall s, born E s n l) -> keeps J (add_node n l).
  Proof. intros B s x s' H Js. eapply (ks_node _ _ _ _ _ K); [apply B|exact Js|exact H]. Qed.

  Record kept (r : funs) : Prop := {
    k_find : forall i n b, keeps J (f_find r i n b);
    k_load : forall i n, keeps J (f_load r i n);
    k_nfs : forall sp, envm (f_nfs r sp);
    k_exec : exists k, r = exec E k;
    k_absent : forall im name s x s', absent_why E J s name -> create_missing r im name s = Some (x, s') -> J s -> J s';
    k_err : forall im name e s s1, J s -> gfind (s_graph s) name = None -> create_missing r im name s = Some (RErr e, s1) ->
      J s1 -> J (log s1 EvErr);
    k_run : keeps J (f_run r);
    k_prog : forall p, okp p -> keeps J (f_prog r p);
    k_post : forall i n, keeps J (f_post r i n);
    k_miss : forall i im n, keeps J (f_miss r i im n)
  }.

  Section one.
    Variable r : funs.
    Hypothesis R : kept r.

    Ltac keep :=
      repeat (cbv beta zeta; first
        [ match goal with
          | |- keeps _ (bind _ _) => apply keeps_bind; [|intros ?]
          | |- keeps _ (ret _) => apply keeps_ret
          | |- keeps _ (raise _) => apply keeps_raise
          | |- keeps _ out_of_fuel => apply keeps_oof
          | |- keeps _ (assert _) => apply keeps_assert
          | |- keeps _ (of_result _) => apply keeps_of_result
          | |- keeps _ (find_module _) => apply keeps_find_module
          | |- keeps _ (get_node _) => apply keeps_get_node
          | |- keeps _ (kind_test _ _) => apply keeps_kind_test
          | |- keeps _ (add_node _ _) => apply keeps_born; intros ?; apply born_plain; auto; fail
          | |- keeps _ (add_edge _ _ _) => apply (ks_edge _ _ _ _ _ K)
          | |- keeps _ (process_import_list _ _) => apply (ks_sched _ _ _ _ _ K)
          | |- keeps _ (push_package _ _) => apply (ks_push _ _ _ _ _ K); assumption
          | |- keeps _ (pop_lazy _) => apply (ks_pop _ _ _ _ _ K)
          | |- keeps _ (insert_work _ _) => apply (ks_insert _ _ _ _ _ K); discriminate
          | |- keeps _ (f_find _ _ _ _) => apply (k_find _ R)
          | |- keeps _ (f_load _ _ _) => apply (k_load _ R)
          | |- keeps _ (f_nfs _ _) => apply keeps_env, (k_nfs _ R)
          | |- keeps _ (f_run _) => apply (k_run _ R)
          | |- keeps _ (f_post _ _ _) => apply (k_post _ R)
          | |- keeps _ (f_miss _ _ _ _) => apply (k_miss _ R)
          | |- keeps _ (note _) => apply keeps_note; reflexivity
          | |- keeps _ (askr _) => apply keeps_env, envm_askr
          | |- keeps _ (ask _) => apply keeps_env, envm_ask
          | |- keeps _ (gets _) => apply keeps_env, envm_get
          | |- keeps _ (find_spec _ _) => apply keeps_env, envm_find_spec
          | |- keeps _ (in_sysmod _ _) => apply keeps_env, envm_in_sysmod
          | |- keeps _ (del_sysmod _ _) => apply keeps_env, envm_del_sysmod
          | |- keeps _ (spec_or_none _ _) => apply keeps_env, envm_spec_or_none
          | |- keeps _ (saved_stack _) => apply keeps_saved
          | |- keeps _ (attempt _) => apply keeps_attempt
          | |- keeps _ (iter _ _) => apply keeps_iter; intros ? ?
          | |- keeps _ (match ?x with _ => _ end) => destruct x
          | |- keeps _ (if ?x then _ else _) => destruct x
          | |- keeps _ (let '(_, _) := ?x in _) => destruct x
          end ]).

    Lemma keeps_create_missing i n : unfound E n -> keeps J (create_missing r i n).
    Proof. intros Hu s x s' H Js. eapply (k_absent _ R); [left; exact Hu|exact H|exact Js]. Qed.
    (** A node is added, then the rest. *)
    Lemma keeps_new {A} n l (f : M A) s x s' : born E s n l -> (forall s1, J s1 -> gfind (s_graph s1) (n_name n) = Some n ->
        (forall y, kind_of s y <> None -> kind_of s1 y = kind_of s y) -> f s1 = Some (x, s') -> J s') ->
      (do add_node n l ;; f) s = Some (x, s') -> J s -> J s'.
    Proof.
      intros B Hf H Js. unfold bind at 1 in H. destruct (add_node n l s) as [[[u|e] s1]|] eqn:Ea; [| |discriminate].
      - apply (Hf s1); auto.
        + eapply (ks_node _ _ _ _ _ K); eassumption.
        + unfold add_node, bind, lift_graph in Ea. destruct (gadd_node (s_graph s) n) as [g|e] eqn:Eg; [|discriminate].
          injection Ea as <- <-. apply gadd_node_spec in Eg as (E1 & ->). cbn [s_graph set_graph log]. rewrite gfind_app, E1. now rewrite (proj2 (seqb_eq _ _) eq_refl).
        + unfold add_node, bind, lift_graph in Ea. destruct (gadd_node (s_graph s) n) as [g|e] eqn:Eg; [|discriminate].
          injection Ea as <- <-. apply gadd_node_spec in Eg as (E1 & ->). intros y Hy. unfold kind_of in *. cbn [s_graph set_graph log]. rewrite gfind_app.
          now destruct (gfind (s_graph s) y).
      - injection H as <- <-. eapply (ks_node _ _ _ _ _ K); eassumption.
    Qed.
    Lemma keeps_implied_node k n t s x s' : born E s (plain_node k n) [] -> implied_node r k n t s = Some (x, s') -> J s -> J s'.
    Proof.
      intros B H Js. unfold implied_node in H. unfold bind at 1, get_node, gets in H. unfold bind at 1, assert in H.
      destruct (gfind (s_graph s) n) as [y|]; [now injection H as <- <-|]. cbn [ret] in H. unfold ret at 1 in H.
      revert H Js. apply keeps_new; [exact B|]. intros s1 J1 _ _. revert J1.
      assert (X : keeps J (do process_import_list n [] ;; other <- f_find r (Some n) t true ;; do add_edge n other default_dep ;; ret (Some n))) by keep.
      intros J1 H. exact (X _ _ _ H J1).
    Qed.
    Lemma keeps_implied i n : keeps J (implied_references r i n).
    Proof.
      unfold implied_references. apply keeps_bind; [keep|]. intros [y|]; [keep|]. intros s x s' H Js. unfold bind at 1 in H.
      destruct (pop_lazy n s) as [[z s1]|] eqn:Ep; [|discriminate].
      assert (J1 : J s1) by (eapply (ks_pop _ _ _ _ _ K); eassumption).
      assert (L : forall a, z = ROk (Some a) -> In (EvImplied n a) (s_log s1)).
      { intros a ->. unfold pop_lazy in Ep. destruct (assoc n (s_lazy s)); [|discriminate]. injection Ep as -> <-. now left. }
      destruct z as [[[|a|a|refs]|]|e]; [| | | |now injection H as <- <-|now injection H as <- <-].
      - assert (X : keeps J (do add_node (plain_node ExcludedModule n) [] ;; do process_import_list n [] ;; ret (Some n))) by keep.
        exact (X _ _ _ H J1).
      - revert H J1. apply keeps_implied_node. apply born_alias. now apply L.
      - revert H J1. apply keeps_implied_node. apply born_virtual. now apply L.
      - revert H J1. match goal with |- ?m s1 = _ -> _ => assert (X : keeps J m) by keep end. apply X.
    Qed.
    Lemma keeps_load_failed i n e : unfound E n -> keeps J (load_failed E r i n e).
    Proof.
      intros Hu. unfold load_failed. keep; try (now apply keeps_create_missing).
      all: apply keeps_env, (envm_set_fakes (fun s => set_add _ (s_fakes s))).
    Qed.
    Lemma keeps_load_spec n sp : has_spec E n sp -> keeps J (load_spec r n sp).
    Proof.
      intros Hy s x s' H Js. unfold load_spec in H. unfold bind at 1 in H.
      destruct (f_nfs r sp s) as [[[[y l]|e] s1]|] eqn:En; [| |discriminate].
      2:{ injection H as <- <-. eapply (ks_env _ _ _ _ _ K); [eapply (k_nfs _ R); exact En|exact Js]. }
      assert (J1 : J s1) by (eapply (ks_env _ _ _ _ _ K); [eapply (k_nfs _ R); exact En|exact Js]).
      destruct (k_exec _ R) as (k & Hk). rewrite Hk in En. destruct (seqb (n_name y) n) eqn:Ey; cbn [negb] in H.
      - apply seqb_eq in Ey. revert H J1. apply keeps_new; [eapply born_spec; [exact Hy|exact En|now left]|]. intros s2 J2 _ _ H.
        revert H J2. match goal with |- ?m s2 = _ -> _ => assert (X : keeps J m) by keep end. apply X.
      - assert (Ny : n_name y <> n) by (intros K1; apply seqb_eq in K1; congruence).
        revert H J1. apply keeps_new; [eapply born_other; eassumption|]. intros s2 J2 G2 _ H.
        unfold bind at 1, process_import_list at 1, modify at 1 in H.
        assert (J3 : J (schedule n [] s2)) by (eapply (ks_sched _ _ _ _ _ K n []); [reflexivity|exact J2]).
        assert (G3 : gfind (s_graph (schedule n [] s2)) n = Some (plain_node (AliasNode (n_name y)) n)).
        { unfold schedule. cbn. destruct (memb n (s_seen s2)); exact G2. }
        set (s3 := schedule n [] s2) in *. clearbody s3. unfold bind at 1, get_node at 1, gets at 1 in H.
        assert (Last : forall s4, J s4 -> forall z, (do add_edge n (n_name y) default_dep ;; ret n) s4 = Some (z, s') -> J s').
        { intros s4 J4 z Hz. revert Hz J4. match goal with |- ?m s4 = _ -> _ => assert (X : keeps J m) by keep end. apply X. }
        destruct (gfind (s_graph s3) (n_name y)) as [old|].
        + unfold bind at 1, ret at 1 in H. eapply Last; eassumption.
        + unfold bind at 1 in H.
          match type of H with match ?m s3 with _ => _ end = _ =>
            assert (X : forall z s4, m s3 = Some (z, s4) -> J s4);
            [intros z s4 Hz|destruct (m s3) as [[[u|e] s4]|] eqn:Em; [| |discriminate]] end.
          * revert Hz J3. apply keeps_new.
            -- eapply born_spec; [exact Hy|exact En|]. right. unfold kind_of. now rewrite G3.
            -- intros s5 J5 _ _ Hz. revert Hz J5. match goal with |- ?m s5 = _ -> _ => assert (X : keeps J m) by keep end. apply X.
          * eapply Last; [eapply X; reflexivity|exact H].
          * injection H as <- <-. eapply X; reflexivity.
    Qed.
    Lemma keeps_load i n : keeps J (load_body E r i n).
    Proof.
      unfold load_body. apply keeps_bind; [keep|]. intros _. intros s x s' H Js. unfold bind at 1, get_node, gets in H.
      destruct (gfind (s_graph s) n) as [nd|] eqn:Eg; [now injection H as <- <-|]. unfold bind at 1, attempt at 1 in H.
      destruct (spec_or_none E n s) as [[r0 s1]|] eqn:Es; [|discriminate].
      assert (J1 : J s1) by (eapply (keeps_env _ (envm_spec_or_none E n)); eassumption).
      destruct r0 as [[sp|]|e].
      - revert H J1. apply keeps_load_spec. apply spec_or_none_found in Es as (t & f & Es). now exists t, f.
      - assert (Hu : unfound E n) by (eapply spec_or_none_unfound; [exact Es|discriminate]).
        assert (Eg1 : gfind (s_graph s1) n = None) by (apply (envm_spec_or_none E n) in Es as (f & c & ->); exact Eg).
        unfold bind at 1, attempt at 1 in H. destruct (create_missing r i n s1) as [[r1 s2]|] eqn:Ec; [|discriminate].
        assert (J2 : J s2) by (eapply keeps_create_missing; eassumption). destruct r1 as [id|e]; [now injection H as <- <-|].
        unfold bind, note, modify in H. eapply keeps_load_failed; [exact Hu|exact H|]. exact (k_err _ R i n e s1 s2 J1 Eg1 Ec J2).
      - revert H J1. apply keeps_load_failed. eapply spec_or_none_unfound; [exact Es|discriminate].
    Qed.
    Lemma keeps_find i n b : keeps J (find_body r i n b).
    Proof.
      unfold find_body. apply keeps_bind; [keep|]. intros [y|]; [keep|]. intros s x s' H Js. unfold bind at 1, of_result in H.
      destruct (split_package n) as [[po tl]|e] eqn:Ep; [|now injection H as <- <-]. cbn [fst] in H.
      revert H Js. apply keeps_bind.
      - destruct po as [c|]; [|keep]. clear s x s'. intros s x s' H Js. unfold bind at 1 in H.
        destruct (f_find r i c true s) as [[[p|e] s1]|] eqn:Ef; [| |discriminate].
        2:{ injection H as <- <-. eapply (k_find _ R); eassumption. }
        assert (J1 : J s1) by (eapply (k_find _ R); eassumption).
        unfold bind at 1, kind_test at 1, bind at 1, get_node at 1, gets at 1, ret at 1 in H.
        destruct (match gfind (s_graph s1) p with Some z => is_missing (n_kind z) | None => false end) eqn:Em.
        + unfold bind at 1 in H. destruct (create_missing r i n s1) as [[z s2]|] eqn:Ec; [|discriminate].
          assert (J2 : J s2).
          { eapply (k_absent _ R); [right|exact Ec|exact J1]. destruct (k_exec _ R) as (k & Hk). rewrite Hk in Ef.
            exists k, i, c, true, s, p, tl. split; [exact Ep|]. split; [exact Js|]. split; [exact Ef|]. unfold kind_of.
            destruct (gfind (s_graph s1) p) as [z'|]; [|discriminate]. cbn. destruct (n_kind z'); try discriminate Em; reflexivity. }
          destruct z; now injection H as <- <-.
        + revert H J1. match goal with |- ?m s1 = _ -> _ => assert (X : keeps J m) by keep end. apply X.
      - intros [parent found']. keep. apply keeps_implied.
    Qed.
    Lemma keeps_process_import n i : keeps J (process_import r n i).
    Proof.
      unfold process_import. apply keeps_bind; [keep|]. intros pkg. destruct (absolute_name n pkg i) as [x|x] eqn:Ea; [|keep].
      apply absolute_dots in Ea. keep.
    Qed.
    Lemma keeps_process_name n m k i nm : keeps J (process_name r n m k i nm).
    Proof. unfold process_name, reexported. keep. Qed.
    Lemma keeps_written n m i l s : In (EvPop (DoNames n m i)) (s_log s) -> names_for s m i l -> J s ->
      forall x s', add_written n l s = Some (x, s') -> J s' /\ In (EvPop (DoNames n m i)) (s_log s').
    Proof. intros A B Js x s' H. injection H as <- <-. split; [|exact A]. eapply (ks_written _ _ _ _ _ K); eassumption. Qed.
    Lemma keeps_process_namelist n m i s x s' : In (EvPop (DoNames n m i)) (s_log s) ->
      process_namelist r n m i s = Some (x, s') -> J s -> J s'.
    Proof.
      intros Hp H Js. unfold process_namelist in H. unfold bind at 1, kind_test at 1 in H. unfold bind at 1, get_node at 1, gets at 1 in H. cbn [ret] in H.
      unfold ret at 1 in H. unfold bind at 1, assert at 1 in H. destruct (match gfind (s_graph s) n with Some _ => _ | None => _ end); [|now injection H as <- <-].
      unfold ret at 1 in H. unfold bind at 1, get_node at 1, gets at 1 in H. destruct (ii_star i) eqn:Est.
      - destruct (gfind (s_graph s) m) as [y|] eqn:Ey; [|now injection H as <- <-].
        destruct (is_package (n_kind y) || is_module (n_kind y)) eqn:Ek; [|now injection H as <- <-].
        eapply (keeps_written n m i); [exact Hp| |exact Js|exact H]. unfold names_for. rewrite Est. eauto.
      - assert (W : forall s1 {A} (f : M A) y s2, In (EvPop (DoNames n m i)) (s_log s1) -> J s1 ->
          (do add_written n (map in_name (ii_names i)) ;; f) s1 = Some (y, s2) ->
          (forall s3, In (EvPop (DoNames n m i)) (s_log s3) -> J s3 -> f s3 = Some (y, s2) -> J s2) -> J s2).
        { intros s1 A f y s2 Hp1 J1 H1 Hf. unfold bind at 1 in H1. destruct (add_written n _ s1) as [[[u|e] s3]|] eqn:Ea; [| |discriminate];
            (destruct (keeps_written n m i _ s1 Hp1 ltac:(unfold names_for; now rewrite Est) J1 _ _ Ea) as [J3 H3]).
          - now apply (Hf s3).
          - now injection H1 as <- <-. }
        assert (P : forall k src s1 y s2, J s1 -> iter (process_name r n src k i) (ii_names i) s1 = Some (y, s2) -> J s2).
        { intros k src s1 y s2 J1 H1. revert H1 J1. apply keeps_iter. intros nm _. apply keeps_process_name. }
        destruct (ii_names i) as [|nm0 nms] eqn:Enm; [now injection H as <- <-|]. rewrite <- Enm in *. clear Enm nm0 nms.
        destruct (gfind (s_graph s) m) as [y|] eqn:Ey; [|now injection H as <- <-].
        destruct (n_kind y) as [ |mk| |bf init im fl ty| | | |v|a| ] eqn:Ek; try (now injection H as <- <-);
          try (eapply W; [exact Hp|exact Js|exact H|]; intros s3 _ J3 H3; eapply P; eassumption).
        eapply W; [exact Hp|exact Js|exact H|]. intros s3 Hp3 J3 H3. unfold bind at 1 in H3.
        destruct (find_module a s3) as [[z s4]|] eqn:Ef; [|discriminate].
        assert (X : s4 = s3).
        { unfold find_module, bind, get_node, gets, assert in Ef. destruct (gfind (s_graph s3) a) as [b|]; [|now injection Ef].
          destruct (negb (is_distribution (n_kind b))); now injection Ef. }
        subst s4. destruct z as [[b|]|e]; [|now injection H3 as <- <-|now injection H3 as <- <-].
        destruct (_ || is_module (n_kind b)); [|now injection H3 as <- <-].
        eapply W; [exact Hp3|exact J3|exact H3|]. intros s5 _ J5 H5. eapply P; eassumption.
    Qed.

    Lemma keeps_root_then {A} a id (f : M A) : oka a -> makes_roots a = true -> keeps J f ->
      keeps J (do note (EvRoot id) ;; do add_root id ;; f).
    Proof.
      intros Ha Hm Hf s x s' H Js. pose proof (ks_root _ _ _ _ _ K a id Ha Hm) as X. unfold bind at 1 in H. unfold note, modify in H.
      unfold bind at 1 in H. specialize (X s). unfold bind, note, modify in X.
      destruct (add_root id (log s (EvRoot id))) as [[[u|e] s1]|]; [| |discriminate].
      - eapply Hf; [exact H|]. eapply X; [reflexivity|exact Js].
      - injection H as <- <-. eapply X; [reflexivity|exact Js].
    Qed.
    Lemma keeps_askr {A B} (f : nat -> result A) (g : A -> M B) :
      (forall t a, f t = ROk a -> keeps J (g a)) -> keeps J (bind (askr f) g).
    Proof.
      intros Hg s x s' H Js. unfold bind, askr in H. assert (Jt : J (tick s)) by (eapply (ks_env _ _ _ _ _ K); [apply env_only_tick|exact Js]).
      destruct (f (s_clock s)) as [a|e] eqn:Ef; [eapply Hg; eassumption|]. now injection H as <- <-.
    Qed.
    Lemma keeps_add_script a p : oka a -> makes_roots a = true -> keeps J (add_script E r p).
    Proof.
      intros Ha Hm. unfold add_script. apply keeps_bind; [keep|]. intros [n|]; [keep|].
      apply keeps_askr. intros clock t Ht. destruct (extract_ast_info _ t) as [l|] eqn:El; [|keep].
      apply keeps_bind; [apply keeps_born; intros s; eapply born_script; eassumption|]. intros _. apply keeps_bind; [keep|]. intros _. apply (keeps_root_then a); auto. keep.
    Qed.
    Lemma keeps_add_module a n : oka a -> makes_roots a = true -> keeps J (add_module r n).
    Proof.
      intros Ha Hm. unfold add_module. apply keeps_bind; [keep|]. intros x. apply keeps_bind; [keep|]. intros id.
      apply (keeps_root_then a); auto. keep.
    Qed.
    Lemma keeps_add_source a src : oka a -> makes_roots a = true -> keeps J (add_source E r src).
    Proof. intros Ha Hm. unfold add_source. keep; now apply (keeps_add_module a). Qed.
    Lemma keeps_add_dist a d : oka a -> makes_roots a = true -> keeps J (add_distribution E r d).
    Proof.
      intros Ha Hm. unfold add_distribution. apply keeps_bind; [keep|]. intros [n|]; [keep|].
      apply keeps_bind; [now apply (ks_dist _ _ _ _ _ K a)|]. intros _. apply (keeps_root_then a); auto. keep.
    Qed.
    Lemma keeps_add_named a n : oka a -> makes_roots a = true -> keeps J (add_distribution_named E r n).
    Proof. intros Ha Hm. unfold add_distribution_named. keep. now apply (keeps_add_dist a). Qed.
    Lemma keeps_import_module n name : oka (AImportModule n name) -> keeps J (import_module r n name).
    Proof.
      intros Ha. unfold import_module. apply keeps_bind.
      - intros s x s' H Js. injection H as <- <-. apply (ks_req _ _ _ _ _ K); auto.
      - intros _. keep.
    Qed.

    Lemma keeps_directory id pkg path t fakes sp : okl -> e_find_spec E t fakes pkg = ROk (Some sp) ->
      In path (match sp_search sp with Some l => l | None => [] end) -> keeps J (import_directory E r id pkg path).
    Proof.
      intros Hl Hs Hp. unfold import_directory.
      assert (X : forall {A} (m : M A) stem l, e_isidentifier E stem = true ->
         ((exists t', e_glob_py E t' path = ROk l) \/ (exists t', e_subdirs E t' path = ROk l)) -> In stem l ->
         keeps J m -> keeps J (do note (EvList id (pkg ++ "." ++ stem)%string) ;; m)).
      { intros A m stem l Hi Hg Hin Hm s x s' H Js. unfold bind, note, modify in H. eapply Hm; [exact H|].
        apply (ks_list _ _ _ _ _ K); [|exact Js]. split; [|exact Hl]. split; [exact Hi|]. exists t, fakes, sp, path, l. auto. }
      apply keeps_askr. intros t1 stems H1. apply keeps_bind.
      - apply keeps_iter. intros stem Hin. destruct (e_isidentifier E stem) eqn:Hi; [|keep]. cbv zeta.
        eapply X; [exact Hi|left; exists t1; exact H1|exact Hin|]. keep.
      - intros _. apply keeps_askr. intros t2 dirs H2. apply keeps_iter. intros dir Hin.
        destruct (e_isidentifier E dir) eqn:Hi; [|keep]. cbv zeta.
        eapply X; [exact Hi|right; exists t2; exact H2|exact Hin|]. keep.
    Qed.
    Lemma keeps_import_package n pkg : okl -> keeps J (import_package E r n pkg).
    Proof.
      intros Hl. unfold import_package. apply keeps_bind; [keep|]. intros o. apply keeps_bind; [keep|]. intros id.
      apply keeps_bind; [keep|]. intros _. apply keeps_bind; [keep|]. intros b. destruct (negb b); [keep|].
      intros s x s' H Js. unfold bind at 1 in H. unfold find_spec in H.
      assert (Jt : J (tick s)) by (eapply (ks_env _ _ _ _ _ K); [apply env_only_tick|exact Js]).
      destruct (e_find_spec E (s_clock s) (s_fakes s) pkg) as [[sp|]|e] eqn:Es.
      - revert H Jt. apply keeps_bind; [|intros _; keep]. apply keeps_iter. intros path Hp. eapply keeps_directory; eassumption.
      - injection H as <- <-. exact Jt.
      - injection H as <- <-. exact Jt.
    Qed.

    Lemma keeps_hook_context p : okp p -> keeps J (hook_context r p).
    Proof. intros Hp. unfold hook_context. apply keeps_bind; [apply keeps_attempt; now apply (k_prog _ R)|]. intros a. keep. Qed.
    Lemma keeps_action a : oka a -> keeps J (do_action E r a).
    Proof.
      intros Ha. destruct (prim a) eqn:Hp; [now apply (ks_prim _ _ _ _ _ K)|].
      destruct a; try discriminate Hp; cbn [do_action]; keep.
      - eapply keeps_add_script; [exact Ha|reflexivity].
      - eapply keeps_add_module; [exact Ha|reflexivity].
      - eapply keeps_add_source; [exact Ha|reflexivity].
      - eapply keeps_add_dist; [exact Ha|reflexivity].
      - eapply keeps_add_named; [exact Ha|reflexivity].
      - apply keeps_hook_context. now apply (ks_context _ _ _ _ _ K).
      - now apply keeps_import_module.
      - intros s x s' H Js. injection H as <- <-. apply (ks_req _ _ _ _ _ K); auto.
      - apply keeps_import_package. now apply (ks_ask _ _ _ _ _ K) in Ha.
    Qed.
    Lemma keeps_call a s ans s' : oka a -> call E r a s = Some (ROk ans, s') -> J s ->
      J s' \/ exists e s1, ans = AnsErr e /\ J s1 /\ s' = log s1 EvErr.
    Proof.
      intros Ha H Js. unfold call, bind at 1, attempt in H. destruct (do_action E r a s) as [[x s1]|] eqn:Ed; [|discriminate].
      assert (J1 : J s1) by (eapply keeps_action; eassumption). destruct x as [ans'|e].
      - injection H as <- <-. now left.
      - injection H as <- <-. right. now exists e, s1.
    Qed.
    Lemma keeps_prog p : okp p -> keeps J (run_prog E r p).
    Proof.
      induction p as [o|e|a k IH]; intros Hp; cbn [run_prog]; [keep|keep|].
      destruct (ks_do _ _ _ _ _ K a k Hp) as [Ha Hk]. intros s x s' H Js. unfold bind in H.
      destruct (call E r a s) as [[[ans|e] s1]|] eqn:Ec; [| |discriminate].
      - eapply IH; [apply Hk|exact H|]. destruct (keeps_call a s ans s1 Ha Ec Js) as [J1|(e & s2 & _ & J2 & ->)]; [exact J1|].
        apply (ks_err _ _ _ _ _ K); [|exact J2]. right. left. eauto.
      - exfalso. unfold call, bind, attempt in Ec. destruct (do_action E r a s) as [[[y|y] s2]|]; discriminate.
    Qed.
    Lemma keeps_work w s x s' : (forall n p, w = DoPackage n p -> okl) -> In (EvPop w) (s_log s) ->
      do_work E r w s = Some (x, s') -> J s -> J s'.
    Proof.
      intros Hl Hp. destruct w as [n|n i|n m i|n pkg]; cbn [do_work].
      - revert s x s' Hp. assert (X : keeps J (do note (EvHook n) ;; f_post r 0 n)) by keep. intros s x s' _. apply X.
      - apply keeps_process_import.
      - now apply keeps_process_namelist.
      - assert (X : keeps J (do import_package E r n pkg ;; ret tt)) by (keep; apply keeps_import_package; now eapply Hl). apply X.
    Qed.
  End one.

  Lemma keeps_post k i n : kept (exec E k) -> keeps J (post_body E (exec E k) i n).
  Proof.
    intros R. unfold post_body. intros s x s' H Js. unfold bind at 1, gets in H. destruct (nth_error (s_post s) i) as [h|] eqn:Eh.
    - unfold bind in H. destruct (run_prog E (exec E k) (h n) s) as [[y s1]|] eqn:Er; [|discriminate].
      assert (J1 : J s1).
      { destruct (ks_post _ _ _ _ _ K s h n Js (nth_error_In _ _ Eh)) as [Hp|Hp]; [|eapply Hp; exact Er].
        eapply (keeps_prog _ R); eassumption. }
      destruct y; [eapply (k_post _ R); eassumption|]. now injection H as <- <-.
    - now injection H as <- <-.
  Qed.
  Lemma keeps_miss k i im n : kept (exec E k) -> keeps J (miss_body E (exec E k) i im n).
  Proof.
    intros R. unfold miss_body. intros s x s' H Js. unfold bind at 1, gets in H. destruct (nth_error (s_missing s) i) as [h|] eqn:Eh.
    - unfold bind in H. destruct (run_prog E (exec E k) (h im n) s) as [[y s1]|] eqn:Er; [|discriminate].
      assert (J1 : J s1).
      { destruct (ks_miss _ _ _ _ _ K s h im n Js (nth_error_In _ _ Eh)) as [Hp|Hp]; [|eapply Hp; exact Er].
        eapply (keeps_prog _ R); eassumption. }
      destruct y as [[id|]|]; [now injection H as <- <-|eapply (k_miss _ R); eassumption|]. now injection H as <- <-.
    - now injection H as <- <-.
  Qed.

  Lemma kept_no_fuel : kept no_fuel.
  Proof. constructor; intros; try apply keeps_oof; [apply envm_oof|now exists 0|discriminate|discriminate]. Qed.
  Lemma keeps_absent k im name : (forall i, keeps J (f_miss (exec E k) i im name)) ->
    forall s x s', absent_why E J s name -> create_missing (exec E k) im name s = Some (x, s') -> J s -> J s'.
  Proof.
    intros Hm s x s' Hw H Js. unfold create_missing, bind at 1 in H.
    destruct (f_miss (exec E k) 0 im name s) as [[[[id|]|e] s1]|] eqn:Em; [| | |discriminate].
    - assert (J1 : J s1) by (eapply Hm; eassumption). unfold bind, note, modify, ret in H. injection H as <- <-.
      now apply (ks_event _ _ _ _ _ K).
    - assert (J1 : J s1) by (eapply Hm; eassumption). unfold bind at 1 in H.
      destruct (add_node (plain_node MissingModule name) [] s1) as [[y s2]|] eqn:Ea; [|discriminate].
      assert (J2 : J s2) by exact (ks_absent _ _ _ _ _ K k im name s s1 Js Hw Em J1 _ _ Ea). destruct y as [u|e].
      + revert H J2. apply keeps_bind; [apply (ks_sched _ _ _ _ _ K)|]. intros _. apply keeps_ret.
      + now injection H as <- <-.
    - injection H as <- <-. eapply Hm; eassumption.
  Qed.

  Theorem kept_exec n : kept (exec E n).
  Proof.
    induction n as [|n IH]; [apply kept_no_fuel|].
    assert (Hm : forall i im x, keeps J (f_miss (exec E (S n)) i im x)) by (intros i im x; now apply keeps_miss).
    assert (He : forall im name e s s1, J s -> gfind (s_graph s) name = None -> create_missing (exec E (S n)) im name s = Some (RErr e, s1) ->
      J s1 -> J (log s1 EvErr)).
    { intros im name e s s1 Js Hg Hc J1. apply (ks_err _ _ _ _ _ K); [|exact J1]. right. right. exists (S n), im, name, e, s. auto. }
    constructor; [..|exact Hm]; try exact He; try (intros im name; now apply keeps_absent); cbn [exec f_find f_load f_nfs f_run f_prog f_post].
    - intros i x b. now apply keeps_find.
    - intros i x. now apply keeps_load.
    - apply envm_nfs_body. apply (k_nfs _ IH).
    - now exists (S n).
    - intros s x s' H Js. unfold run_body in H. destruct (s_stack s) as [|w rest] eqn:Es; [now injection H as <- <-|].
      pose proof (ks_start _ _ _ _ _ K s w rest Es Js) as J1.
      assert (Hl : forall n p, w = DoPackage n p -> okl) by (intros a b ->; eapply (ks_work _ _ _ _ _ K); eassumption).
      destruct (do_work E (exec E n) w _) as [[[u|e] s1]|] eqn:Ew; [| |discriminate].
      + assert (J2 : J s1) by (eapply (keeps_work _ IH w); [exact Hl| |exact Ew|exact J1]; now left). eapply (k_run _ IH); [exact H|].
        eapply (ks_done _ _ _ _ _ K n w); [exact J1|exact Ew|exact J2].
      + injection H as <- <-. apply (ks_fail _ _ _ _ _ K). eapply (keeps_work _ IH w); [exact Hl| |exact Ew|exact J1]. now left.
    - intros p Hp. now apply keeps_prog.
    - intros i x. now apply keeps_post.
  Qed.

  Theorem keeps_top_or fuel a s ans s' : oka a -> J s -> top_call E fuel a s = Some (ans, s') ->
    J s' \/ exists e s1, ans = AnsErr e /\ J s1 /\ s' = log s1 EvErr.
  Proof.
    intros Ha Js H. unfold top_call in H. destruct (call E (exec E fuel) a s) as [[[x|e] s1]|] eqn:Ec; try discriminate.
    injection H as <- <-. eapply (keeps_call _ (kept_exec fuel)); eassumption.
  Qed.
End keep.
Theorem keeps_top E J okp oka : keeper E J okp oka -> forall fuel a s ans s', oka a -> J s ->
  top_call E fuel a s = Some (ans, s') -> J s'.
Proof.
  intros K fuel a s ans s' Ha Js H. destruct (keeps_top_or _ _ _ _ _ (strong_of _ _ _ _ _ K) fuel a s ans s' Ha Js H) as [J1|(e & s1 & _ & J1 & ->)]; [exact J1|].
  apply (kp_err _ _ _ _ _ K); [|exact J1]. left. exact Logic.I.
Qed.
