(** Theorems about the roots of the graph: C30. *)
From Verif Require Import AstSpec AstProofs BuilderKeep BuilderPackage BuilderCalls BuiltinHooks World PropsHooks.
Open Scope string_scope.

(** ** What the user asked for *)

(** [name] is imported by the source text with this syntax tree, or is a name in
    the list of a [from] import. *)
Definition text_name (t : ast) (name : string) : Prop :=
  exists p stmt w, below p t stmt /\ In w (whats stmt) /\
    match w with
    | WImport m _ => name = m
    | WFrom m names _ => let m := match m with Some m => m | None => "" end in
        name = m \/ exists x asname, In (x, asname) names /\ x <> "*" /\ name = m ++ "." ++ x
    end.

(** The call asks for a root; a name can have been resolved to another node by a
    missing hook. *)
Inductive requested (E : env) (s : st) : action -> string -> Prop :=
| rq_script p : requested E s (AAddScript p) p
| rq_module name id : resolves s name id -> requested E s (AAddModule name) id
| rq_source src t tree name id : e_parse E t "-source-code-" src = ROk tree -> text_name tree name ->
    resolves s name id -> requested E s (AAddSource src) id
| rq_dist d : requested E s (AAddDist d) (dist_identifier d)
| rq_named name t d : e_dist_named E t name = ROk (Some d) -> requested E s (AAddDistNamed name) (dist_identifier d)
| rq_root id : requested E s (AAddRoot id) id
| rq_context p id : requested_in E s p id -> requested E s (AHookContext p) id
with requested_in (E : env) (s : st) : prog -> string -> Prop :=
| rq_here a k id : requested E s a id -> requested_in E s (PDo a k) id
| rq_later a k ans id : requested_in E s (k ans) id -> requested_in E s (PDo a k) id.

(** A history of calls by the user. *)
Inductive history_of (E : env) (s0 : st) : list action -> st -> Prop :=
| hist_nil : history_of E s0 [] s0
| hist_call l s fuel a ans s' : history_of E s0 l s -> top_call E fuel a s = Some (ans, s') -> history_of E s0 (l ++ [a]) s'.

(** The full statement, with the hooks every graph has. *)
Definition C30_statement : Prop := forall P win32 ospath sysconfigdata E l s,
  (forall l y, In y (pa_order P l) <-> In y l) -> order_ok E -> set_order (e_names_order E) ->
  Forall (fun a => makes_roots a = true) l ->
  history_of E (builtin_start P win32 ospath sysconfigdata) l s ->
  forall id, In id (g_roots (s_graph s)) -> exists a, In a l /\ requested E s a id.

Definition mypyc_roots : st := Eval vm_compute in snd (the_calls mypyc_world [AAddModule "b"] hooked).
Theorem C30_refuted : ~ C30_statement.
Proof.
  intros H. destruct (H flat_paths false "posixpath" "_sysconfigdata" mypyc_world [AAddModule "b"] mypyc_roots
    (fun l y => iff_refl _) (fun l x => iff_refl _)) with (id := "ab12__mypyc") as (a & [<-|[]] & K).
  - intros l. apply Permutation.Permutation_refl.
  - now constructor.
  - apply (hist_call mypyc_world _ [] hooked 60 (AAddModule "b") (AnsId "b")); [apply hist_nil|]. vm_compute. reflexivity.
  - vm_compute. auto.
  - inversion K as [|name id0 K0| | | | |]; subst. destruct K0 as [K0|K0]; [discriminate|].
    vm_compute in K0. repeat destruct K0 as [K0|K0]; try discriminate. exact K0.
Qed.

(** ** No root that was not asked for *)

(** The distribution is not compiled by mypyc. *)
Definition not_compiled (d : dist) : Prop := forall x p, In x (dist_import_names d) -> x <> p ++ "__mypyc".
Definition harmless (mp : bool) (n : node) : Prop := mp = true -> forall d, n_dist n = Some d -> not_compiled d \/ n_kind n = Distribution.

(** Hooks and programs that do not make roots ([b] false), or may ([b] true). *)
Definition asks_root (a : action) : bool := match a with AAddRoot _ => true | _ => makes_roots a end.
Definition plain_action (a : action) : bool :=
  match a with AAddPost _ | AAddMissing _ | AAddNode _ | AHookContext _ => false | _ => negb (asks_root a) end.
Inductive fine (mp : bool) : bool -> prog -> Prop :=
| fine_ret b o : fine mp b (PRet o)
| fine_raise b e : fine mp b (PRaise e)
| fine_do b a k : fine_action mp b a -> (forall ans, fine mp b (k ans)) -> fine mp b (PDo a k)
with fine_action (mp : bool) : bool -> action -> Prop :=
| fine_post b h : (forall n, fine mp false (h n)) -> fine_action mp b (AAddPost h)
| fine_miss b h : (forall i n, fine mp false (h i n)) -> fine_action mp b (AAddMissing h)
| fine_node b n : harmless mp n -> fine_action mp b (AAddNode n)
| fine_context b p : fine mp b p -> fine_action mp b (AHookContext p)
| fine_root a : asks_root a = true -> fine_action mp true a
| fine_plain b a : plain_action a = true -> fine_action mp b a.

Section roots.
  Variable P : paths.
  Variable E : env.
  Variable mp : bool.   (* the mypyc hook is there *)
  Hypothesis HP : forall l y, In y (pa_order P l) <-> In y l.
  Hypothesis HE : mp = true -> forall t f d, e_dist_for_file E t f = ROk (Some d) -> not_compiled d.

  (** Nodes made by the builder. *)
  Definition calm_dist (o : option dist) : Prop := mp = true -> forall d, o = Some d -> not_compiled d.
  Definition calmm (m : M (node * list iinfo)) : Prop :=
    forall s n l s', m s = Some (ROk (n, l), s') -> calm_dist (n_dist n).
  Lemma calmm_bind {A} (m : M A) f : (forall a, calmm (f a)) -> calmm (bind m f).
  Proof.
    intros H s n l s' E0. unfold bind in E0. destruct (m s) as [[[a|e] s1]|]; try discriminate. eapply H; exact E0.
  Qed.
  Lemma calmm_ret n l : calm_dist (n_dist n) -> calmm (ret (n, l)).
  Proof. intros H s n' l' s' E0. injection E0 as <- <- <-. exact H. Qed.
  Lemma calmm_raise e : calmm (raise e). Proof. intros s n l s' E0. discriminate. Qed.
  Lemma calmm_dist origin use f : (forall o, calm_dist o -> calmm (f o)) -> calmm (bind (dist_of E origin use) f).
  Proof.
    intros H s n l s' E0. unfold bind, dist_of in E0. destruct origin as [file|]; [destruct use|].
    - unfold askr in E0. destruct (e_dist_for_file E (s_clock s) file) as [o|e] eqn:Ed; [|discriminate].
      eapply H; [|exact E0]. intros HB d ->. eapply HE; eassumption.
    - eapply H; [|exact E0]. intros _. discriminate.
    - eapply H; [|exact E0]. intros _. discriminate.
  Qed.
  Ltac calmm_tac := repeat first
    [ progress cbv zeta
    | apply calmm_raise
    | apply calmm_ret; first [assumption|intros _; discriminate]
    | apply calmm_dist; intros ? ?
    | apply calmm_bind; intros ?
    | assumption
    | match goal with
      | H : forall x, calmm _ |- _ => apply H
      | |- calmm (match ?x with _ => _ end) => destruct x
      | |- calmm (if ?x then _ else _) => destruct x
      | |- calmm (let '(_, _) := ?x in _) => destruct x
      end ].
  Lemma calmm_wrap sp b src mk n l : calm_dist (n_dist n) -> calmm (wrap_package E sp b src mk n l).
  Proof. intros H. unfold wrap_package. calmm_tac. Qed.
  Lemma calmm_nfs rec_ : (forall sp, calmm (rec_ sp)) -> forall sp, calmm (nfs_body E rec_ sp).
  Proof.
    intros Hr sp. unfold nfs_body, six_spec, vendor_spec, distutils_spec.
    destruct (sp_loader sp); calmm_tac; try (apply calmm_wrap; first [assumption|intros _; discriminate]).
  Qed.
  Lemma calmm_exec k sp : calmm (f_nfs (exec E k) sp).
  Proof.
    revert sp. induction k as [|k IH]; intros sp; [intros s n l s'; discriminate|]. cbn [exec f_nfs]. now apply calmm_nfs.
  Qed.
  Lemma made_harmless n l : made E n l -> harmless mp n.
  Proof.
    intros [k name _|t path tree l' _ _|k sp s n' l' s' _ H] HB d Hd; [discriminate|discriminate|]. left. eapply calmm_exec; eassumption.
  Qed.

  Record steady (R : list string) (s : st) : Prop := {
    sd_post : forall h, In h (s_post s) -> (mp = true /\ h = mypyc_hook P) \/ forall n, fine mp false (h n);
    sd_miss : forall h, In h (s_missing s) -> h = swig_hook \/ forall i n, fine mp false (h i n);
    sd_nodes : forall n, In n (g_nodes (s_graph s)) -> harmless mp n;
    sd_roots : g_roots (s_graph s) = R
  }.
  Lemma steady_same R s s' : s_graph s' = s_graph s -> s_post s' = s_post s -> s_missing s' = s_missing s ->
    steady R s -> steady R s'.
  Proof. intros A B C [H1 H2 H3 H4]. constructor; now rewrite ?A, ?B, ?C. Qed.
  Lemma steady_graph R s s' : (forall n, In n (g_nodes (s_graph s')) -> In n (g_nodes (s_graph s)) \/ harmless mp n) ->
    g_roots (s_graph s') = g_roots (s_graph s) -> s_post s' = s_post s -> s_missing s' = s_missing s ->
    steady R s -> steady R s'.
  Proof.
    intros A D B C [H1 H2 H3 H4]. constructor; rewrite ?B, ?C, ?D; auto. intros n Hn. destruct (A n Hn) as [K|K]; auto.
  Qed.
  Lemma steady_lift R f : (forall g g', f g = ROk g' -> g_roots g' = g_roots g /\
      forall n, In n (g_nodes g') -> In n (g_nodes g) \/ harmless mp n) -> keeps (steady R) (lift_graph f).
  Proof.
    intros H s x s' Ex. unfold lift_graph in Ex. destruct (f (s_graph s)) as [g|e] eqn:Ef; injection Ex as <- <-; [|auto].
    destruct (H _ _ Ef) as [A B]. now apply steady_graph.
  Qed.
  Lemma steady_node R n : harmless mp n -> keeps (steady R) (lift_graph (fun g => gadd_node g n)).
  Proof.
    intros Hn. apply steady_lift. intros g g' H. unfold gadd_node in H. destruct (ghas g (n_name n)); [discriminate|].
    injection H as <-. cbn. split; [reflexivity|]. intros x Hx. apply in_app_or in Hx as [Hx|[<-|[]]]; auto.
  Qed.
  Lemma steady_modify R f : (forall s, s_graph (f s) = s_graph s /\ s_post (f s) = s_post s /\ s_missing (f s) = s_missing s) ->
    keeps (steady R) (modify f).
  Proof. intros H s x s' Ex. injection Ex as <- <-. destruct (H s) as (A & B & C). now apply steady_same. Qed.
  Lemma steady_bind {A B} R (m : M A) (f : A -> M B) : keeps (steady R) m -> (forall a, keeps (steady R) (f a)) -> keeps (steady R) (bind m f).
  Proof.
    intros Hm Hf s r s' H Js. unfold bind in H. destruct (m s) as [[[a|e] s1]|] eqn:Em; [| |discriminate].
    - eapply Hf; [exact H|]. eapply Hm; eassumption.
    - injection H as <- <-. eapply Hm; eassumption.
  Qed.
  Lemma steady_ret {A} R (a : A) : keeps (steady R) (ret a).
  Proof. intros s r s' H. now injection H as <- <-. Qed.
  Lemma steady_edge R a b d : keeps (steady R) (add_edge a b d).
  Proof.
    apply steady_lift. intros g g' H. unfold gadd_edge in H. destruct (_ && _)%bool; [|discriminate].
    injection H as <-. cbn. auto.
  Qed.
  Lemma schedule_same n l s : s_graph (schedule n l s) = s_graph s /\ s_post (schedule n l s) = s_post s /\ s_missing (schedule n l s) = s_missing s.
  Proof. unfold schedule. destruct (memb n _); auto. Qed.
  Lemma steady_env {A} R (m : M A) : envm m -> keeps (steady R) m.
  Proof. intros He s r s' H. apply He in H as (f & c & ->). now apply steady_same. Qed.

  Lemma fine_plain_inv a : fine_action mp false a -> plain_action a = true \/
    (exists h, a = AAddPost h /\ forall n, fine mp false (h n)) \/ (exists h, a = AAddMissing h /\ forall i n, fine mp false (h i n))
    \/ (exists n, a = AAddNode n /\ harmless mp n) \/ exists p, a = AHookContext p /\ fine mp false p.
  Proof. intros H. inversion H; subst; eauto 10. Qed.

  Lemma prim_plain R r a : plain_action a = true -> prim a = true -> keeps (steady R) (do_action E r a).
  Proof.
    intros H1 H2. destruct a; try discriminate; cbn [do_action].
    - apply steady_env, envm_get.
    - apply steady_bind; [now apply steady_modify|]. intros. apply steady_ret.
    - apply steady_bind; [now apply steady_modify|]. intros. apply steady_ret.
    - apply steady_bind; [now apply steady_modify|]. intros. apply steady_ret.
    - apply steady_bind; [now apply steady_modify|]. intros. apply steady_bind; [apply steady_edge|]. intros. apply steady_ret.
    - apply steady_bind; [apply steady_env; unfold get_node; envm_tac|]. intros [n|]; [|apply steady_env; envm_tac].
      apply steady_bind; [now apply steady_modify|]. intros _. apply steady_bind; [apply steady_modify; apply schedule_same|].
      intros. apply steady_ret.
    - apply steady_env. envm_tac.
    - apply steady_env. destruct (seqb package ""); envm_tac.
    - apply steady_bind; [now apply steady_modify|]. intros. apply steady_ret.
    - apply steady_env. envm_tac.
    - apply steady_env. envm_tac.
    - apply steady_env. envm_tac.
  Qed.

  Lemma steady_keeper R : keeper E (steady R) (fine mp false) (fine_action mp false).
  Proof.
    constructor.
    - intros s s' (f & c & ->). now apply steady_same.
    - intros n l Hn. unfold add_node. apply steady_bind; [now apply steady_node, (made_harmless n l)|]. intros. now apply steady_modify.
    - intros k im name s s1 _ _ J1 x s2 H. revert H J1. unfold add_node. apply steady_bind; [|intros; now apply steady_modify].
      apply steady_node. intros _ d Hd. discriminate.
    - intros a b d. apply steady_edge.
    - apply written_any. intros n l s x s' H. injection H as <- <-. intros [A B C D]. constructor; auto. cbn. intros y Hy.
      apply in_map_iff in Hy as (z & <- & Hz). unfold upd_written. destruct (seqb (n_name z) n); [|auto].
      intros HB d Hd. cbn in *. now apply (C z Hz HB).
    - intros n l. apply steady_modify. apply schedule_same.
    - intros n p _. now apply steady_modify.
    - intros name s x s' H. unfold pop_lazy in H. destruct (assoc name (s_lazy s)); injection H as <- <-; now apply steady_same.
    - intros k w _. now apply steady_modify.
    - intros s e _. now apply steady_same.
    - intros s _. now apply steady_same.
    - intros s id pkg stem _. now apply steady_same.
    - intros s. now apply steady_same.
    - intros s1 s _. now apply steady_same.
    - intros s w rest _. now apply steady_same.
    - intros k w s u s' _ _. now apply steady_same.
    - intros w s. now apply steady_same.
    - intros s h n Js Hh. destruct (sd_post _ _ Js h Hh) as [[HB ->]|K]; [right|left; apply K].
      intros k x s' H. apply (C45_mypyc P E k n s x s' HP) in H as [[U _]|H].
      + destruct U as [U1 _ _ _ (U5 & U6 & _)]. revert Js. now apply steady_same.
      + destruct H as (y & file & d & helper & t & H1 & H2 & H3 & H4 & (p & H5) & _). exfalso.
        apply find_some in H1 as [H1 _]. apply (sd_nodes _ _ Js) in H1. destruct (H1 HB d H3) as [N|N]; [exact (N helper p H4 H5)|].
        destruct H2 as [[H2 _]|(f & m & o & H2)]; congruence.
    - intros s h i n Js Hh. destruct (sd_miss _ _ Js h Hh) as [->|K]; [right|left; apply K].
      intros k x s' H. apply C44_swig in H as [[U _]|(_ & ext & Hx & H1 & _ & _ & _ & H2 & H3)].
      + destruct U as [U1 _ _ _ (U5 & U6 & _)]. revert Js. now apply steady_same.
      + revert Js. apply steady_graph; rewrite ?H1, ?H2, ?H3; auto. cbn. intros y Hy.
        apply in_app_or in Hy as [Hy|[<-|[]]]; [auto|]. right.
        destruct (sw_importer _ _ _ _ _ Hx) as (id & z & _ & _ & _ & _ & _ & pkg & _ & _ & t & fakes & sp & k' & s1 & s2 & found & _ & Hf & ->).
        intros HB d Hd. left. eapply calmm_exec; [exact Hf|exact HB|]. exact Hd.
    - intros a k H. inversion H; subst; auto.
    - intros p H. inversion H; subst; [assumption|discriminate].
    - intros a id H. apply fine_plain_inv in H as [H|[(h & -> & H)|[(h & -> & H)|[(n & -> & H)|(p & -> & H)]]]]; try discriminate.
      intros K. destruct a; discriminate.
    - intros a d H. apply fine_plain_inv in H as [H|[(h & -> & H)|[(h & -> & H)|[(n & -> & H)|(p & -> & H)]]]]; try discriminate.
      intros K. destruct a; discriminate.
    - intros s n name _. now apply steady_same.
    - intros r a H Ha. apply fine_plain_inv in H as [H|[(h & -> & H)|[(h & -> & H)|[(n & -> & H)|(p & -> & H)]]]].
      + now apply prim_plain.
      + intros s x s' Hx. injection Hx as <- <-. intros [A B C D]. constructor; auto. cbn. intros h' [<-|Hh]; auto.
      + intros s x s' Hx. injection Hx as <- <-. intros [A B C D]. constructor; auto. cbn. intros h' [<-|Hh]; auto.
      + cbn [do_action]. apply steady_bind; [now apply steady_modify|]. intros _. apply steady_bind; [now apply steady_node|]. intros. apply steady_ret.
      + discriminate.
    - auto.
    - auto.
  Qed.

  (** *** Calls of the user *)
  Hypothesis HN : set_order (e_names_order E).
  Definition roots (s : st) : list string := g_roots (s_graph s).
  Definition okst (s : st) : Prop := steady (roots s) s /\ linv s.

  (** [m] makes only roots of [A]. *)
  Definition within {X} (A : st -> string -> Prop) (m : M X) : Prop := forall s x s', okst s -> m s = Some (x, s') ->
    okst s' /\ grows s s' /\ forall id, In id (roots s') -> In id (roots s) \/ A s' id.
  Definition lasting (A : st -> string -> Prop) : Prop := forall s s' id, grows s s' -> A s id -> A s' id.

  Lemma within_bind {X Y} A (m : M X) (f : X -> M Y) : lasting A -> within A m -> (forall a, within A (f a)) -> within A (bind m f).
  Proof.
    intros HA Hm Hf s x s' Hs H. unfold bind in H. destruct (m s) as [[[a|e] s1]|] eqn:Em; [| |discriminate].
    - destruct (Hm _ _ _ Hs Em) as (K1 & G1 & R1). destruct (Hf a _ _ _ K1 H) as (K2 & G2 & R2).
      split; [exact K2|]. split; [eapply grows_trans; eassumption|]. intros id Hi.
      destruct (R2 id Hi) as [Hi'|Hi']; [|now right]. destruct (R1 id Hi') as [Hj|Hj]; [now left|right]. eapply HA; eassumption.
    - injection H as <- <-. exact (Hm _ _ _ Hs Em).
  Qed.
  Lemma within_keeps {X} A (m : M X) : (forall R, keeps (steady R) m) -> (forall s, cwp anyone m s (fun _ _ => True)) -> within A m.
  Proof.
    intros H1 H2 s x s' [Hs L] H. destruct (H2 s L _ _ H) as (G & L' & _). pose proof (H1 _ _ _ _ H Hs) as K.
    pose proof (sd_roots _ _ K) as Kr. assert (Hr : roots s' = roots s) by exact Kr.
    split; [split; [now rewrite Hr|exact L']|]. split; [exact G|]. intros id Hi. rewrite Hr in Hi. now left.
  Qed.
  Lemma within_none {X} A (m : M X) : (forall R, keeps (steady R) m) -> (forall s, cwp none m s (fun _ _ => True)) -> within A m.
  Proof. intros H1 H2. apply within_keeps; [exact H1|]. intros s. eapply cwp_anyone, H2. Qed.
  Lemma within_ret {X} A (a : X) : within A (ret a).
  Proof. intros s x s' Hs H. injection H as <- <-. split; [exact Hs|]. split; [apply grows_refl|auto]. Qed.
  Lemma within_raise {X} A e : within A (@raise X e).
  Proof. intros s x s' Hs H. injection H as <- <-. split; [exact Hs|]. split; [apply grows_refl|auto]. Qed.
  Lemma within_oof {X} A : within A (@out_of_fuel X).
  Proof. intros s x s' Hs H. discriminate. Qed.
  Lemma within_env {X} A (m : M X) : envm m -> within A m.
  Proof.
    intros H. apply within_none; [intros R; now apply steady_env|]. intros s. now apply cwp_env.
  Qed.
  Lemma within_iter {X} A (f : X -> M unit) l : lasting A -> (forall a, In a l -> within A (f a)) -> within A (iter f l).
  Proof.
    intros HA. induction l as [|a l IH]; intros H; [apply within_ret|]. cbn [iter]. apply within_bind; [exact HA|apply H; now left|].
    intros _. apply IH. intros b Hb. apply H. now right.
  Qed.
  Lemma within_weaken {X} (A B : st -> string -> Prop) (m : M X) : (forall s id, A s id -> B s id) -> within A m -> within B m.
  Proof.
    intros H Hm s x s' Hs Ex. destruct (Hm _ _ _ Hs Ex) as (K & G & R). split; [exact K|]. split; [exact G|].
    intros id Hi. destruct (R id Hi); auto.
  Qed.
  Lemma within_root (A : st -> string -> Prop) id : (forall s, A s id) -> within A (do note (EvRoot id) ;; add_root id).
  Proof.
    intros HA s x s' [Hs L] H. assert (C : cwp none (do note (EvRoot id) ;; add_root id) s (fun _ _ => True)).
    { apply cwp_bind, cwp_note; [reflexivity|]. now apply cwp_root. }
    destruct (C L _ _ H) as (G & L' & _). unfold bind, note, modify, add_root, lift_graph in H. cbn [s_graph log] in H.
    unfold gadd_root in H. destruct (ghas (s_graph s) id); injection H as <- <-.
    - split; [split; [|exact L']|split; [exact G|]].
      + destruct Hs as [H1 H2 H3 H4]. constructor; auto.
      + intros y Hy. unfold roots in Hy. cbn in Hy. apply set_add_In in Hy as [->|Hy]; [right; apply HA|now left].
    - split; [split; [|exact L']|split; [exact G|now left]].
      revert Hs. now apply steady_same.
  Qed.

  Section calls.
    Variable n : nat.
    Let r := exec E n.
    Let KR R := kept_exec E (steady R) (fine mp false) (fine_action mp false) _ (strong_of _ _ _ _ _ (steady_keeper R)) n.
    Lemma within_find A i name b : within A (f_find r i name b).
    Proof.
      apply within_none; [intros R; apply (k_find _ _ _ _ (KR R))|]. intros s.
      eapply cwp_conseq; [apply (c_find _ (closes_exec E n))|auto|auto].
    Qed.
    Lemma within_run A : within A (f_run r).
    Proof. apply within_none; [intros R; apply (k_run _ _ _ _ (KR R))|]. intros s. apply (c_run _ (closes_exec E n)). Qed.
    Lemma within_module name : within (fun s id => resolves s name id) (add_module r name).
    Proof.
      assert (HA : lasting (fun s id => resolves s name id)) by (intros s s' id; apply grows_resolves).
      unfold add_module. apply within_bind; [exact HA|apply within_env; unfold find_module, get_node; envm_tac|]. intros o.
      assert (X : forall m : M string, within (fun s id => resolves s name id) m ->
        (forall s, cwp none m s (fun id s' => resolves s' name id)) ->
        within (fun s id => resolves s name id) (id <- m ;; do note (EvRoot id) ;; do add_root id ;; do f_run r ;; ret id)).
      { intros m Hm Hq s x s' Hs H. unfold bind at 1 in H. destruct (m s) as [[[id|e] s1]|] eqn:Em; [| |discriminate].
        - destruct (Hm _ _ _ Hs Em) as (K1 & G1 & R1). destruct (Hq s (proj2 Hs) _ _ Em) as (_ & _ & _ & F).
          assert (Y : within (fun s2 i => resolves s2 name i \/ i = id) (do note (EvRoot id) ;; do add_root id ;; do f_run r ;; ret id)).
          { assert (HB : lasting (fun s2 i => resolves s2 name i \/ i = id)).
            { intros t t' i G [Hi|Hi]; [left; eapply grows_resolves; eassumption|now right]. }
            assert (Z : within (fun s2 i => resolves s2 name i \/ i = id)
              (bind (do note (EvRoot id) ;; add_root id) (fun _ => do f_run r ;; ret id))).
            { apply within_bind; [exact HB|apply within_root; now right|]. intros _.
              apply within_bind; [exact HB|apply within_run|]. intros. apply within_ret. }
            intros t y t' Ht Hy. apply (Z t y t' Ht). rewrite <- Hy. unfold bind, note, modify.
            destruct (add_root id (log t (EvRoot id))) as [[[[]|?] ?]|]; reflexivity. }
          destruct (Y _ _ _ K1 H) as (K2 & G2 & R2). split; [exact K2|]. split; [eapply grows_trans; eassumption|].
          intros i Hi. destruct (R2 i Hi) as [Hj|[Hj| ->]].
          + destruct (R1 i Hj) as [Hk|Hk]; [now left|right]. eapply grows_resolves; eassumption.
          + now right.
          + right. eapply grows_resolves; eassumption.
        - injection H as <- <-. exact (Hm _ _ _ Hs Em). }
      destruct o.
      - apply X; [apply within_ret|]. intros s. apply cwp_ret. now left.
      - apply X; [apply within_find|]. intros s. eapply cwp_conseq; [apply (c_find _ (closes_exec E n))|auto|auto].
    Qed.
    Lemma within_script p : within (fun s id => id = p) (add_script E r p).
    Proof.
      assert (HA : lasting (fun s id => id = p)) by (intros s s' id; auto).
      unfold add_script. apply within_bind; [exact HA|apply within_env; unfold find_module, get_node; envm_tac|].
      intros [o|]; [apply within_raise|]. apply within_bind; [exact HA|apply within_env, envm_askr|]. intros t.
      destruct (extract_ast_info _ t) as [l|]; [|apply within_oof].
      assert (Y : within (fun s id => id = p) (bind (do add_node (Node p Script [] [] None (Some p) [] false) l ;; process_import_list p l)
         (fun _ => bind (do note (EvRoot p) ;; add_root p) (fun _ => do f_run r ;; ret p)))).
      { apply within_bind; [exact HA| |].
        - apply within_none.
          + intros R. apply steady_bind; [unfold add_node; apply steady_bind; [apply steady_node; intros ? ? ?; discriminate|intros; now apply steady_modify]|].
            intros _. apply (kp_sched _ _ _ _ _ (steady_keeper R)).
          + intros s.
            assert (D : cwp none (do add_node (Node p Script [] [] None (Some p) [] false) l ;; do process_import_list p l ;; ret tt) s (fun _ _ => True)).
            { apply (cwp_new_node_k none (Node p Script [] [] None (Some p) [] false) l); [|now intros; apply cwp_ret].
              intros o Ho. destruct o as [? l0|w|id c|id a|? ref|? ?]; cbn in Ho; try contradiction.
              - destruct Ho as (_ & _ & Ho). discriminate.
              - destruct Ho as (_ & [Ho|Ho]); discriminate. }
            intros L x s' Hx. apply (D L x s'). rewrite <- Hx. unfold bind.
            destruct (add_node _ l s) as [[[[]|?] ?]|]; [|reflexivity|reflexivity].
            unfold process_import_list, modify, ret. reflexivity.
        - intros _. apply within_bind; [exact HA|now apply within_root|]. intros _.
          apply within_bind; [exact HA|apply within_run|]. intros. apply within_ret. }
      intros s x s' Hs Hx. apply (Y s x s' Hs). rewrite <- Hx. unfold bind, note, modify.
      destruct (add_node _ l s) as [[[[]|?] ?]|]; [|reflexivity|reflexivity].
      unfold process_import_list, modify. destruct (add_root p _) as [[[[]|?] ?]|]; reflexivity.
    Qed.
    Definition source_names (src : string) (s : st) (id : string) : Prop :=
      exists t tree name, e_parse E t "-source-code-" src = ROk tree /\ text_name tree name /\ resolves s name id.
    Lemma lasting_source src : lasting (source_names src).
    Proof. intros s s' id G (t & tree & name & A & B & C). exists t, tree, name. split; [exact A|]. split; [exact B|]. eapply grows_resolves; eassumption. Qed.
    Lemma within_source src : within (source_names src) (add_source E r src).
    Proof.
      pose proof (lasting_source src) as HA. intros s x s' Hs Hx. unfold add_source in Hx. unfold bind at 1, askr in Hx.
      assert (Ht : okst (tick s) /\ grows s (tick s) /\ forall id, In id (roots (tick s)) -> In id (roots s)).
      { split; [|split; [apply env_only_grows, env_only_tick|auto]]. destruct Hs as [Hs L]. split; [|exact L]. revert Hs. now apply steady_same. }
      destruct Ht as (Ht & Gt & Rt). destruct (e_parse E (s_clock s) "-source-code-" src) as [tree|e] eqn:Ep.
      2:{ injection Hx as <- <-. split; [exact Ht|]. split; [exact Gt|auto]. }
      destruct (extract_ast_info (e_names_order E) tree) as [infos|] eqn:Ei; [|discriminate].
      assert (Names : forall i, In i infos -> text_name tree (in_name (ii_module i)) /\
         forall nm, In nm (ii_names i) -> text_name tree (in_name (ii_module i) ++ "." ++ in_name nm)).
      { intros i Hi. destruct (extract_contexts (e_names_order E) tree HN) as (out & Hx' & _ & A). rewrite Ei in Hx'. injection Hx' as <-.
        destruct (A i Hi) as (p & stmt & w & Hb & Hw & Hst & _). destruct w as [name a|m names level]; cbn in Hst.
        - destruct Hst as (H1 & _ & H3 & _). rewrite H1, H3. split; [|intros nm []]. exists p, stmt, (WImport name a). auto.
        - destruct Hst as (H1 & _ & H3 & _). rewrite H1. cbn [in_name]. split.
          + exists p, stmt, (WFrom m names level). cbn. auto.
          + intros nm Hnm. apply (in_map in_name) in Hnm. apply H3 in Hnm as [N1 N2].
            apply in_map_iff in N2 as ([x0 asname] & N2 & N3). cbn in N2. subst x0.
            exists p, stmt, (WFrom m names level). split; [exact Hb|]. split; [exact Hw|]. right. eauto. }
      assert (Y : within (source_names src) (iter (fun i =>
          do add_module r (in_name (ii_module i)) ;;
          iter (fun nm => do add_module r (in_name (ii_module i) ++ "." ++ in_name nm)%string ;; ret tt) (ii_names i)) infos)).
      { apply within_iter; [exact HA|]. intros i Hi. destruct (Names i Hi) as [N1 N2]. apply within_bind; [exact HA| |].
        - eapply within_weaken; [|apply within_module]. intros s0 id K. exists (s_clock s), tree, (in_name (ii_module i)). auto.
        - intros _. apply within_iter; [exact HA|]. intros nm Hnm. apply within_bind; [exact HA| |intros; apply within_ret].
          eapply within_weaken; [|apply within_module]. intros s0 id K.
          exists (s_clock s), tree, (in_name (ii_module i) ++ "." ++ in_name nm). auto. }
      destruct (Y _ _ _ Ht Hx) as (K1 & K2 & K3). split; [exact K1|]. split; [eapply grows_trans; eassumption|].
      intros id Hi. destruct (K3 id Hi); auto.
    Qed.
    Lemma within_dist d : within (fun s id => id = dist_identifier d) (add_distribution E r d).
    Proof.
      assert (HA : lasting (fun s id => id = dist_identifier d)) by (intros s s' id; auto).
      unfold add_distribution. apply within_bind; [exact HA|apply within_env; unfold get_node; envm_tac|].
      intros [o|]; [apply within_env; envm_tac|].
      apply within_bind; [exact HA| |].
      { apply within_none; [|intros s; now apply cwp_user_node]. intros R. apply steady_node. intros _ d' _. now right. }
      intros _.
      assert (Y : within (fun s id => id = dist_identifier d) (bind (do note (EvRoot (dist_identifier d)) ;; add_root (dist_identifier d)) (fun _ =>
         do iter (fun name => m <- f_find r None name true ;; add_edge (dist_identifier d) m default_dep)
             (e_order E (dist_import_names d)) ;; do f_run r ;; ret (dist_identifier d)))).
      { apply within_bind; [exact HA|now apply within_root|]. intros _. apply within_bind; [exact HA| |].
        - apply within_iter; [exact HA|]. intros name _. apply within_bind; [exact HA|apply within_find|]. intros m.
          apply within_none; [intros R; apply steady_edge|]. intros s. apply cwp_edge. auto.
        - intros _. apply within_bind; [exact HA|apply within_run|]. intros. apply within_ret. }
      intros s x s' Hs Hx. apply (Y s x s' Hs). rewrite <- Hx. unfold bind, note, modify.
      destruct (add_root _ _) as [[[[]|?] ?]|]; reflexivity.
    Qed.
    Lemma within_named name : within (fun s id => exists t d, e_dist_named E t name = ROk (Some d) /\ id = dist_identifier d)
      (add_distribution_named E r name).
    Proof.
      intros s x s' Hs Hx. unfold add_distribution_named in Hx. unfold bind at 1, askr in Hx.
      assert (Ht : okst (tick s) /\ grows s (tick s) /\ forall id, In id (roots (tick s)) -> In id (roots s)).
      { split; [|split; [apply env_only_grows, env_only_tick|auto]]. destruct Hs as [Hs L]. split; [|exact L]. revert Hs. now apply steady_same. }
      destruct Ht as (Ht & Gt & Rt). destruct (e_dist_named E (s_clock s) name) as [[d|]|e] eqn:Ed.
      - destruct (within_dist d _ _ _ Ht Hx) as (K1 & K2 & K3). split; [exact K1|]. split; [eapply grows_trans; eassumption|].
        intros id Hi. destruct (K3 id Hi) as [K| ->]; [auto|right]. eauto.
      - injection Hx as <- <-. split; [exact Ht|]. split; [exact Gt|auto].
      - injection Hx as <- <-. split; [exact Ht|]. split; [exact Gt|auto].
    Qed.
  End calls.

  Scheme requested_rec := Induction for requested Sort Prop with requested_in_rec := Induction for requested_in Sort Prop.
  Lemma requested_later s s' a id : grows s s' -> requested E s a id -> requested E s' a id.
  Proof.
    intros G H. revert H. apply (requested_rec E s (fun a id _ => requested E s' a id) (fun p id _ => requested_in E s' p id));
      intros; try (econstructor; eauto; fail).
    - apply rq_module. eapply grows_resolves; eassumption.
    - eapply rq_source; [eassumption|eassumption|]. eapply grows_resolves; eassumption.
  Qed.
  Lemma requested_in_later s s' p id : grows s s' -> requested_in E s p id -> requested_in E s' p id.
  Proof.
    intros G H. induction H as [a k id H|a k ans id H IH]; [apply rq_here; eapply requested_later; eassumption|eapply rq_later; exact IH].
  Qed.

  Lemma within_prog n p : (forall a, fine_action mp true a -> within (fun s => requested E s a) (do_action E (exec E n) a)) ->
    fine mp true p -> within (fun s => requested_in E s p) (run_prog E (exec E n) p).
  Proof.
    intros Ha. induction p as [o|e|a k IH]; intros Hp; cbn [run_prog]; [apply within_ret|apply within_raise|].
    inversion Hp; subst. assert (HA : lasting (fun s => requested_in E s (PDo a k))) by (intros s s' id; apply requested_in_later).
    apply within_bind; [exact HA| |].
    - unfold call. intros s x s' Hs Hx. unfold bind, attempt in Hx.
      destruct (do_action E (exec E n) a s) as [[y s1]|] eqn:Ed; [|discriminate].
      destruct (Ha a H2 _ _ _ Hs Ed) as (K1 & K2 & K3). destruct y as [ans|e].
      + injection Hx as <- <-. split; [exact K1|]. split; [exact K2|]. intros id Hi. destruct (K3 id Hi) as [K|K]; [auto|right]. now apply rq_here.
      + injection Hx as <- <-. split; [split; [revert K1; intros [K1 _]; revert K1; now apply steady_same|]|].
        * destruct (cwp_note none EvErr s1 (fun _ _ => True) eq_refl Logic.I (proj2 K1) _ _ eq_refl) as (_ & L & _). exact L.
        * split; [eapply grows_trans; [exact K2|apply log_grows]|]. intros id Hi. destruct (K3 id Hi) as [K|K]; [auto|right].
          apply rq_here. eapply requested_later; [apply log_grows|exact K].
    - intros ans. eapply within_weaken; [|apply IH; auto]. intros s id K. eapply rq_later; exact K.
  Qed.

  Lemma within_action n : forall a, fine_action mp true a -> within (fun s => requested E s a) (do_action E (exec E n) a).
  Proof.
    induction n as [n IHn] using (well_founded_induction Wf_nat.lt_wf). intros a Ha.
    assert (HA : lasting (fun s => requested E s a)) by (intros s s' id; apply requested_later).
    assert (Other : fine_action mp false a -> within (fun s => requested E s a) (do_action E (exec E n) a)).
    { intros F. apply within_keeps; [|intros s; eapply cwp_anyone, (cwp_do_action E _ (closes_exec E n))].
      intros R. eapply keeps_action; [apply (strong_of _ _ _ _ _ (steady_keeper R))| |exact F]. apply (kept_exec E (steady R) (fine mp false) (fine_action mp false) _ (strong_of _ _ _ _ _ (steady_keeper R))). }
    inversion Ha; subst; try (apply Other; now constructor).
    - cbn [do_action]. apply within_bind; [exact HA| |intros; apply within_ret].
      unfold hook_context. apply within_bind; [exact HA| |].
      + destruct n as [|m]; [intros s x s' Hs Hx; discriminate|]. intros s x s' Hs Hx. unfold attempt in Hx.
        change (f_prog (exec E (S m)) p s) with (run_prog E (exec E m) p s) in Hx.
        destruct (run_prog E (exec E m) p s) as [[y s1]|] eqn:Ep; [|discriminate]. injection Hx as <- <-.
        destruct (within_prog m p (IHn m (le_n _)) H _ _ _ Hs Ep) as (K1 & K2 & K3). split; [exact K1|]. split; [exact K2|].
        intros id Hi. destruct (K3 id Hi) as [K|K]; [auto|right]. now apply rq_context.
      + intros y. apply within_bind; [exact HA|apply within_run|]. intros _. destruct y; [apply within_ret|apply within_raise].
    - destruct a; try discriminate; cbn [do_action].
      + apply within_bind; [exact HA| |intros; apply within_ret]. eapply within_weaken; [|apply within_script]. intros s id ->. constructor.
      + apply within_bind; [exact HA| |intros; apply within_ret]. eapply within_weaken; [|apply within_module]. intros s id K. now constructor.
      + apply within_bind; [exact HA| |intros; apply within_ret]. eapply within_weaken; [|apply within_source].
        intros s id (t & tree & name & A & B & C). econstructor; eassumption.
      + apply within_bind; [exact HA| |intros; apply within_ret]. eapply within_weaken; [|apply within_dist]. intros s id ->. constructor.
      + apply within_bind; [exact HA| |intros; apply within_ret]. eapply within_weaken; [|apply within_named].
        intros s id (t & d & A & ->). econstructor; eassumption.
      + intros s x s' Hs Hx. assert (Y : within (fun s => requested E s (AAddRoot id)) (do note (EvRoot id) ;; add_root id)).
        { apply within_root. intros. constructor. }
        unfold bind, note, modify in Hx. specialize (Y s). unfold bind, note, modify in Y.
        destruct (add_root id (log s (EvRoot id))) as [[[u|e] s1]|]; [| |discriminate]; injection Hx as <- <-; eapply Y; eauto.
  Qed.
  Theorem within_top fuel a s ans s' : fine_action mp true a -> okst s -> top_call E fuel a s = Some (ans, s') ->
    okst s' /\ grows s s' /\ forall id, In id (roots s') -> In id (roots s) \/ requested E s' a id.
  Proof.
    intros Ha Hs H.
    assert (X : exists y s1, do_action E (exec E fuel) a s = Some (y, s1) /\ (s' = s1 \/ s' = log s1 EvErr)).
    { unfold top_call in H. destruct (call E (exec E fuel) a s) as [[[x|e] s2]|] eqn:Ec; try discriminate. injection H as <- <-.
      apply call_split in Ec as [Ec|(e & s1 & Ec & _ & ->)]; eauto 6. }
    destruct X as (y & s1 & Hd & Hs').
    destruct (within_action fuel a Ha _ _ _ Hs Hd) as (K1 & K2 & K3). destruct Hs' as [->| ->]; [auto|].
    split; [split; [revert K1; intros [K1 _]; revert K1; now apply steady_same|]|].
    - destruct (cwp_note none EvErr s1 (fun _ _ => True) eq_refl Logic.I (proj2 K1) _ _ eq_refl) as (_ & L & _). exact L.
    - split; [eapply grows_trans; [exact K2|apply log_grows]|]. intros id Hi. destruct (K3 id Hi) as [K|K]; [auto|right].
      eapply requested_later; [apply log_grows|exact K].
  Qed.
End roots.

Lemma okst_init P mp implies post missing :
  (forall h, In h post -> (mp = true /\ h = mypyc_hook P) \/ forall n, fine mp false (h n)) ->
  (forall h, In h missing -> h = swig_hook \/ forall i n, fine mp false (h i n)) -> okst P mp (init implies post missing).
Proof. intros A B. split; [|intros n l []]. constructor; auto. intros n []. Qed.

Lemma history_roots P E mp l s0 s : (forall l y, In y (pa_order P l) <-> In y l) -> set_order (e_names_order E) ->
  (mp = true -> forall t f d, e_dist_for_file E t f = ROk (Some d) -> not_compiled d) ->
  okst P mp s0 -> Forall (fine_action mp true) l -> history_of E s0 l s ->
  okst P mp s /\ grows s0 s /\ forall id, In id (g_roots (s_graph s)) -> In id (g_roots (s_graph s0)) \/ exists a, In a l /\ requested E s a id.
Proof.
  intros HP HN HE H0 HF H. induction H as [|l s fuel a ans s' H IH HC].
  - split; [exact H0|]. split; [apply grows_refl|auto].
  - apply Forall_app in HF as [HF Ha]. inversion Ha as [|? ? Ha' _]; subst. destruct (IH HF) as (K1 & K2 & K3).
    destruct (within_top P E mp HP HE HN fuel a s ans s' Ha' K1 HC) as (L1 & L2 & L3).
    split; [exact L1|]. split; [eapply grows_trans; eassumption|]. intros id Hi. destruct (L3 id Hi) as [Hi'|Hi'].
    + destruct (K3 id Hi') as [Hj|(b & Hb & Hj)]; [now left|right]. exists b. split; [apply in_or_app; now left|].
      eapply requested_later; eassumption.
    + right. exists a. split; [apply in_or_app; right; now left|exact Hi'].
Qed.

(** With the built-in hooks: no other roots if no installed distribution is
    compiled by mypyc.  The user may add hooks, too, as long as these make no
    roots; any call may raise. *)
Theorem C30_no_other_roots_partial : forall P win32 ospath sysconfigdata E l s,
  (forall l y, In y (pa_order P l) <-> In y l) -> set_order (e_names_order E) ->
  (forall t f d, e_dist_for_file E t f = ROk (Some d) -> not_compiled d) ->
  Forall (fine_action true true) l ->
  history_of E (builtin_start P win32 ospath sysconfigdata) l s ->
  forall id, In id (g_roots (s_graph s)) -> exists a, In a l /\ requested E s a id.
Proof.
  intros P win32 ospath sysconfigdata E l s HP HN HE HF H id Hi.
  destruct (history_roots P E true l (builtin_start P win32 ospath sysconfigdata) s HP HN (fun _ => HE)) with (3 := H) as (_ & _ & K).
  - apply okst_init; [intros h [<-|[]]; auto|intros h [<-|[]]; auto].
  - exact HF.
  - destruct (K id Hi) as [[]|K']. exact K'.
Qed.

(** Without the mypyc hook: for all environments. *)
Theorem C30_no_builtin_partial : forall E implies missing l s,
  set_order (e_names_order E) -> (forall h, In h missing -> h = swig_hook \/ forall i n, fine false false (h i n)) ->
  Forall (fine_action false true) l -> history_of E (init implies [] missing) l s ->
  forall id, In id (g_roots (s_graph s)) -> exists a, In a l /\ requested E s a id.
Proof.
  intros E implies missing l s HN HM HF H id Hi.
  destruct (history_roots flat_paths E false l (init implies [] missing) s (fun l y => iff_refl _) HN) with (4 := H) as (_ & _ & K).
  - discriminate.
  - apply okst_init; [intros h []|exact HM].
  - exact HF.
  - destruct (K id Hi) as [[]|K']. exact K'.
Qed.

(** Conversely, what was asked for is a root when the call returns (for source
    text: C39; for a distribution that is in the graph already: C37). *)
Theorem C30_asked_are_roots : forall E s0 s fuel a ans s',
  order_ok E -> start s0 -> reach E s0 s -> top_call E fuel a s = Some (ans, s') -> ok_answer ans = true ->
  match a with
  | AAddScript p => In p (g_roots (s_graph s'))
  | AAddModule name => exists id, ans = AnsId id /\ resolves s' name id /\ In id (g_roots (s_graph s'))
  | AAddRoot id => In id (g_roots (s_graph s'))
  | AAddDist d => in_graph s (dist_identifier d) \/ In (dist_identifier d) (g_roots (s_graph s'))
  | AAddDistNamed name => exists d, e_dist_named E (s_clock s) name = ROk (Some d) /\
      (in_graph s (dist_identifier d) \/ In (dist_identifier d) (g_roots (s_graph s')))
  | _ => True
  end.
Proof.
  intros E s0 s fuel a ans s' HE H0 HR HC Ho. pose proof (h_linv _ _ (reach_history E s0 s HE H0 HR)) as L.
  pose proof (closes_exec E fuel) as R. destruct a; try exact Logic.I.
  - destruct (call_post E fuel (AAddScript path) s ans s' _ AnsId _ L eq_refl (cwp_script E _ R path s) HC Ho) as (x & _ & _ & _ & _ & K & _).
    apply K.
  - destruct (call_post E fuel (AAddModule name) s ans s' _ AnsId _ L eq_refl (cwp_module _ R name s) HC Ho) as (x & -> & _ & _ & K1 & K2).
    exists x. split; [reflexivity|]. split; [exact K1|]. apply K2.
  - destruct (call_post E fuel (AAddDist d) s ans s' _ AnsId _ L eq_refl (cwp_distribution E _ R d s) HC Ho) as (x & -> & _ & _ & -> & K).
    unfold in_graph. destruct (gfind (s_graph s) (dist_identifier d)); [left; discriminate|right]. apply K. reflexivity.
  - apply top_call_ok in HC as [HC|(e & s1 & _ & _ & ->)]; [|discriminate]. cbn [do_action] in HC.
    unfold add_distribution_named in HC. unfold bind at 1 in HC. unfold bind at 1 in HC. unfold askr in HC.
    destruct (e_dist_named E (s_clock s) name) as [[d|]|e] eqn:Ed; try discriminate. exists d. split; [reflexivity|].
    destruct (add_distribution E (exec E fuel) d (tick s)) as [[[x|e] s1]|] eqn:Ea; try discriminate. injection HC as <- <-.
    destruct (cwp_distribution E _ R d (tick s) L _ _ Ea) as (_ & _ & _ & -> & K).
    unfold in_graph. change (s_graph (tick s)) with (s_graph s) in K. destruct (gfind (s_graph s) (dist_identifier d)); [left; discriminate|right].
    apply K. reflexivity.
  - apply top_call_ok in HC as [HC|(e & s1 & _ & _ & ->)]; [|discriminate]. cbn [do_action] in HC.
    unfold bind, note, modify, add_root, lift_graph, gadd_root in HC. destruct (ghas _ _); [|discriminate]. injection HC as <- <-.
    cbn. apply set_add_In. now left.
Qed.

(** ** Examples *)

(** Scripts, modules and a missing module; nothing else becomes a root. *)
Definition roots_world : env := installed (world [("p", ESource true [imp "p.m"; imp "q"] []); ("p.m", EExtension); ("q", ESource false [] [])]
  [("run.py", [imp "p.m"])] []) (Dist 0 "d 1" "d" "1" [] ["p"]) ["p.py"].
Definition roots_done : st := Eval vm_compute in snd (the_calls roots_world [AAddScript "run.py"; AAddModule "p"; AAddModule "nothing"] hooked).
Example C30_nonvacuous :
  history_of roots_world hooked [AAddScript "run.py"; AAddModule "p"; AAddModule "nothing"] roots_done
  /\ g_roots (s_graph roots_done) = ["run.py"; "p"; "nothing"] /\ List.length (g_nodes (s_graph roots_done)) = 5
  /\ (forall t f d, e_dist_for_file roots_world t f = ROk (Some d) -> not_compiled d)
  /\ Forall (fine_action true true) [AAddScript "run.py"; AAddModule "p"; AAddModule "nothing"].
Proof.
  split.
  - apply (hist_call roots_world _ [AAddScript "run.py"; AAddModule "p"] (snd (the_calls roots_world [AAddScript "run.py"; AAddModule "p"] hooked)) 60 _ (AnsId "nothing")).
    + apply (hist_call roots_world _ [AAddScript "run.py"] (snd (the_calls roots_world [AAddScript "run.py"] hooked)) 60 _ (AnsId "p")).
      * apply (hist_call roots_world _ [] hooked 60 _ (AnsId "run.py")); [apply hist_nil|vm_compute; reflexivity].
      * vm_compute. reflexivity.
    + vm_compute. reflexivity.
  - split; [reflexivity|]. split; [reflexivity|]. split.
    + intros t f d H. injection H as <-. intros x p [<-|[]] K.
      assert (Hl : String.length "p" = String.length (p ++ "__mypyc")) by now rewrite <- K.
      rewrite length_app_s in Hl. cbn in Hl. lia.
    + repeat constructor.
Qed.

Print Assumptions C30_refuted.
Print Assumptions C30_no_other_roots_partial.
Print Assumptions C30_no_builtin_partial.
Print Assumptions C30_asked_are_roots.
