(** Invariant: in a steady environment the nodes and edges of a graph are
    determined by names, settings and import statements. *)
From Verif Require Export BuilderSource BuilderNames BuilderReach SameSpec.
Open Scope list_scope.

(** ** Answers that do not depend on the state *)

Definition fixed {A} (m : M A) : Prop := forall s1 s2 r1 r2 t1 t2,
  m s1 = Some (r1, t1) -> m s2 = Some (r2, t2) -> r1 = r2.
Lemma fixed_bind {A B} (m : M A) (f : A -> M B) : fixed m -> (forall a, fixed (f a)) -> fixed (bind m f).
Proof.
  intros Hm Hf s1 s2 r1 r2 t1 t2 H1 H2. unfold bind in *.
  destruct (m s1) as [[x1 u1]|] eqn:E1; [|discriminate]. destruct (m s2) as [[x2 u2]|] eqn:E2; [|discriminate].
  pose proof (Hm _ _ _ _ _ _ E1 E2) as <-. destruct x1 as [a|e]; [eapply Hf; eassumption|]. congruence.
Qed.
Lemma fixed_const {A} (x : result A) : fixed (of_result x).
Proof. intros s1 s2 r1 r2 t1 t2 H1 H2. unfold of_result in *. congruence. Qed.
Lemma fixed_ret {A} (a : A) : fixed (ret a). Proof. apply (fixed_const (ROk a)). Qed.
Lemma fixed_raise {A} e : fixed (@raise A e). Proof. apply (fixed_const (RErr e)). Qed.
Lemma fixed_oof {A} : fixed (@out_of_fuel A). Proof. intros s1 s2 r1 r2 t1 t2 H. discriminate. Qed.
Lemma fixed_attempt {A} (m : M A) : fixed m -> fixed (attempt m).
Proof.
  intros Hm s1 s2 r1 r2 t1 t2 H1 H2. unfold attempt in *.
  destruct (m s1) as [[x1 u1]|] eqn:E1; [|discriminate]. destruct (m s2) as [[x2 u2]|] eqn:E2; [|discriminate].
  pose proof (Hm _ _ _ _ _ _ E1 E2). congruence.
Qed.
Lemma fixed_askr {A} (f : nat -> result A) : (forall t t', f t = f t') -> fixed (askr f).
Proof. intros H s1 s2 r1 r2 t1 t2 H1 H2. unfold askr in *. injection H1 as <- _. injection H2 as <- _. apply H. Qed.

Section nodes.
  Variable E : env.
  Variable find : string -> option spec.
  Hypothesis HS : steady E find.

  Ltac fx := repeat (cbv beta zeta; first
    [ match goal with
      | |- fixed (bind _ _) => apply fixed_bind; [|intros ?]
      | |- fixed (ret _) => apply fixed_ret
      | |- fixed (raise _) => apply fixed_raise
      | |- fixed out_of_fuel => apply fixed_oof
      | |- fixed (of_result _) => apply fixed_const
      | |- fixed (attempt _) => apply fixed_attempt
      | |- fixed (askr _) => apply fixed_askr; intros ? ?; first
          [apply (sy_dist _ _ HS)|apply (sy_parse _ _ HS)|apply (sy_script _ _ HS)|apply (sy_import _ _ HS)
          |match goal with |- contains_datafiles _ (e_location E ?t _) = contains_datafiles _ (e_location E ?t' _) =>
             now rewrite (sy_location _ _ HS t t') end]
      | |- fixed (match ?x with _ => _ end) => destruct x
      | |- fixed (if ?x then _ else _) => destruct x
      | |- fixed (let '(_, _) := ?x in _) => destruct x
      end ]).
  Lemma fixed_dist o b : fixed (dist_of E o b).
  Proof. unfold dist_of. fx. Qed.
  Lemma fixed_wrap sp b src mk n l : fixed (wrap_package E sp b src mk n l).
  Proof. unfold wrap_package. fx. Qed.
  Lemma fixed_nfs f sp : direct (sp_loader sp) = true -> fixed (nfs_body E f sp).
  Proof.
    intros Hd. unfold nfs_body, source_imports, code_info. destruct (sp_loader sp); try discriminate Hd; fx;
      first [apply fixed_wrap|apply fixed_dist|idtac].
  Qed.

  (** The node for a spec. *)
  Lemma nfs_same_fuel f f' sp s : direct (sp_loader sp) = true -> nfs_body E f sp s = nfs_body E f' sp s.
  Proof. intros Hd. unfold nfs_body. destruct (sp_loader sp); try discriminate Hd; reflexivity. Qed.
  Lemma nfs_same k k' sp s1 s2 r1 r2 t1 t2 : direct (sp_loader sp) = true ->
    f_nfs (exec E k) sp s1 = Some (r1, t1) -> f_nfs (exec E k') sp s2 = Some (r2, t2) -> r1 = r2.
  Proof.
    intros Hd H1 H2. destruct k as [|k]; [discriminate|]. destruct k' as [|k']; [discriminate|].
    cbn [exec f_nfs] in H1, H2. rewrite (nfs_same_fuel _ (f_nfs (exec E k)) sp s2 Hd) in H2. eapply fixed_nfs; eassumption.
  Qed.
  (** Its class: a module, package or namespace package of that name. *)
  Definition spec_kind (name : string) (k : kind) : Prop :=
    match k with Module _ | NamespacePackage => True | Package _ init _ _ _ => init = name | _ => False end.
  Lemma wrap_kind sp b src mk n l s n' l' s' : n_kind n = Module mk ->
    wrap_package E sp b src mk n l s = Some (ROk (n', l'), s') -> n_name n' = n_name n /\ spec_kind (n_name n) (n_kind n').
  Proof.
    unfold wrap_package. intros Hk H. apply ok_bind in H as (p & s1 & H1 & H). destruct p; cbn [negb] in H.
    2:{ injection H as <- <- <-. rewrite Hk. now split. }
    apply ok_bind in H as (search & s2 & _ & H). destruct search; [|discriminate].
    apply ok_bind in H as (d & s3 & _ & H). injection H as <- <- <-. cbn. now split.
  Qed.
  Lemma nfs_kind k sp s n l s' : direct (sp_loader sp) = true -> f_nfs (exec E k) sp s = Some (ROk (n, l), s') ->
    n_name n = sp_name sp /\ spec_kind (sp_name sp) (n_kind n).
  Proof.
    intros Hd H. destruct k as [|k]; [discriminate|]. cbn [exec f_nfs] in H. unfold nfs_body in H.
    destruct (sp_loader sp) as [| | | |frozen gs gc| |[[root vendor]|]| |] eqn:El; try discriminate Hd; try discriminate H.
    - destruct (sp_search sp); [|discriminate]. injection H as <- <- <-. now split.
    - destruct (sp_search sp); [|discriminate]. injection H as <- <- <-. now split.
    - now apply wrap_kind in H.
    - apply ok_bind in H as (d & s1 & _ & H). now apply wrap_kind in H.
    - destruct gs as [source|e].
      2:{ destruct e; try discriminate. apply ok_bind in H as (d & s1 & _ & H). injection H as <- <- <-. now split. }
      apply ok_bind in H as (si & s1 & H1 & H). apply ok_bind in H as (ci & s2 & H2 & H). apply ok_bind in H as (d & s3 & _ & H).
      destruct (match ci with Some x => x | None => ([], [], []) end) as [[bi wr] rd]. now apply wrap_kind in H.
  Qed.
End nodes.

(** ** The invariant *)

Section same.
  Variable E : env.
  Variable find : string -> option spec.
  Variable conf : list (string * implied).
  Hypothesis HS : steady E find.
  Hypothesis HC : forall x i, assoc x conf = Some i -> starts_with "." x = false.
  (** The distributions that are added. *)
  Variable DS : dist -> Prop.

  (** The package of [x] is there. *)
  Definition above (s : st) (x : string) : Prop := starts_with "." x = false /\
    forall c, child_of c x -> exists k, kind_of s c = Some k /\ is_missing k = false /\ is_excluded k = false.
  Definition conf_kind (i : implied) : option kind :=
    match i with ImpNone => Some ExcludedModule | ImpAlias a => Some (AliasNode a) | ImpVirtual a => Some (VirtualNode a) | ImpRefs _ => None end.
  Definition free (s : st) (x : string) : Prop :=
    forall i, assoc x conf = Some i -> conf_kind i = None /\ In (EvImplied x i) (s_log s).

  (** The node for a name when it is added, with its import statements. *)
  Inductive birth (s : st) (x : string) : node -> list iinfo -> Prop :=
  | bi_script t tree l : e_script E t x = ROk tree -> extract_ast_info (e_names_order E) tree = Some l ->
      birth s x (Node x Script [] [] None (Some x) [] false) l
  | bi_dist d : DS d -> x = dist_identifier d -> birth s x (Node x Distribution [] [] (Some d) None [] false) []
  | bi_dots : starts_with "." x = true -> birth s x (plain_node InvalidRelativeImport x) []
  | bi_below c k : starts_with "." x = false -> child_of c x -> kind_of s c = Some k -> is_missing k || is_excluded k = true ->
      birth s x (plain_node k x) []
  | bi_conf i k : above s x -> assoc x conf = Some i -> conf_kind i = Some k -> birth s x (plain_node k x) []
  | bi_missing : above s x -> free s x -> find x = None -> birth s x (plain_node MissingModule x) []
  | bi_spec sp n l k s1 s2 : above s x -> free s x -> find x = Some sp ->
      f_nfs (exec E k) sp s1 = Some (ROk (n, l), s2) -> birth s x n l.
  Definition placed (s : st) (x : string) (n : node) : Prop :=
    exists n0 l, (In (EvAdd x l) (s_log s) \/ n_kind n0 = Distribution) /\ birth s x n0 l /\ same_node n0 n.

  Definition added (s : st) (x : string) (l : list iinfo) : Prop :=
    exists n n0, gfind (s_graph s) x = Some n /\ birth s x n0 l /\ same_node n0 n /\ n_kind n0 <> Distribution.

  Definition stmt (s : st) (n : string) (i : iinfo) : Prop :=
    scheduled s n i /\ exists l, In (EvAdd n l) (s_log s) /\ In i l.
  Definition aims (s : st) (n : string) (i : iinfo) (m : string) : Prop :=
    exists b, pkg_node s n b /\ imports_name n b i m.
  (** The names of statement [i] come from [m], whose node is [nd]. *)
  Definition names_of (s : st) (n : string) (i : iinfo) (m : string) (nd : node) : Prop :=
    exists m0, aims s n i m0 /\ (m = m0 \/ kind_of s m0 = Some (AliasNode m))
      /\ gfind (s_graph s) m = Some nd /\ has_names (n_kind nd) = true /\ ii_star i = false.
  Definition plainly (s : st) (x : string) : Prop := in_graph s x /\ (kind_of s x <> Some Script /\ kind_of s x <> Some Distribution) /\ starts_with "." x = false.
  Definition refs_of (s : st) (x : string) (refs : list string) : Prop :=
    In (EvImplied x (ImpRefs refs)) (s_log s) /\ above s x /\ assoc x conf = Some (ImpRefs refs).

  (** The reasons for edges. *)
  Inductive due (s : st) (a b : string) (d : dep) : Prop :=
  | du_import i : stmt s a i -> aims s a i b -> d = import_dep i -> due s a b d
  | du_beyond i p : stmt s a i -> pkg_node s a p -> beyond_top a p i -> b = invalid_name i -> d = invalid_dep i -> due s a b d
  | du_name i m nd nm : stmt s a i -> names_of s a i m nd -> is_module (n_kind nd) = false -> In nm (ii_names i) ->
      b = (m ++ "." ++ in_name nm)%string ->
      (is_package (n_kind nd) = true -> binds E find m (in_name nm) -> exists k, kind_of s b = Some k /\ is_missing k = false) ->
      d = name_dep i nm -> due s a b d
  | du_own i m nd nm : stmt s a i -> names_of s a i m nd -> In nm (ii_names i) -> In (in_name nm) (n_written nd) ->
      provides (s_graph s) m (in_name nm) b -> d = name_dep i nm -> due s a b d
  | du_member x nd : imported_from s b x nd -> a = (b ++ "." ++ x)%string -> d = default_dep -> due s a b d
  | du_parent : child_of b a -> plainly s a -> d = default_dep -> due s a b d
  | du_implied refs : plainly s a -> refs_of s a refs -> In b refs -> d = default_dep -> due s a b d
  | du_target : kind_of s a = Some (AliasNode b) \/ kind_of s a = Some (VirtualNode b) -> d = default_dep -> due s a b d
  | du_nspkg x i k f : kind_of s a = Some (Package x i k f (Some b)) -> b = "pkgutil"%string \/ b = "pkg_resources"%string ->
      d = default_dep -> due s a b d
  | du_dist nd dd : gfind (s_graph s) a = Some nd -> n_kind nd = Distribution -> n_dist nd = Some dd -> In b (dist_import_names dd) ->
      d = default_dep -> due s a b d.

  Definition wk (s : st) (w : work) : Prop :=
    match w with
    | DoPost _ => True
    | DoImport n i => stmt s n i
    | DoNames n m i => stmt s n i /\ aims s n i m
    | DoPackage _ _ => False
    end.

  Record J (s : st) : Prop := {
    j_missing : s_missing s = [];
    j_post : s_post s = [];
    j_nodes : forall x n, gfind (s_graph s) x = Some n -> placed s x n;
    j_lazy : forall x i, assoc x (s_lazy s) = Some i -> assoc x conf = Some i;
    j_conf : forall x i, assoc x conf = Some i -> assoc x (s_lazy s) = Some i \/ In (EvImplied x i) (s_log s);
    j_popped : forall x i, In (EvImplied x i) (s_log s) -> assoc x conf = Some i /\ above s x /\ (conf_kind i <> None -> in_graph s x);
    j_edges : forall a b d, has_edge (s_graph s) a b d -> due s a b d;
    j_stack : forall w, In w (s_stack s) -> wk s w;
    j_added : forall x l, In (EvAdd x l) (s_log s) -> added s x l
  }.

  Lemma grows_above s s' x : grows s s' -> above s x -> above s' x.
  Proof.
    intros G [A B]. split; [exact A|]. intros c Hc. destruct (B c Hc) as (k & K1 & K2). exists k. split; [eapply grows_kind; eassumption|exact K2].
  Qed.
  Lemma grows_free s s' x : grows s s' -> free s x -> free s' x.
  Proof. intros G H i Hi. destruct (H i Hi) as [A B]. split; [exact A|]. eapply grows_log; eassumption. Qed.
  Lemma grows_birth s s' x n l : grows s s' -> birth s x n l -> birth s' x n l.
  Proof.
    intros G [t tree l0 A B|d A B|A|c k A B C H|i k A B C|A B C|sp n0 l0 k s1 s2 A B C H].
    - eapply bi_script; eassumption.
    - now apply bi_dist.
    - now apply bi_dots.
    - eapply bi_below; try eassumption. eapply grows_kind; eassumption.
    - eapply bi_conf; try eassumption. eapply grows_above; eassumption.
    - apply bi_missing; auto; [eapply grows_above|eapply grows_free]; eassumption.
    - eapply bi_spec; try eassumption; [eapply grows_above|eapply grows_free]; eassumption.
  Qed.
  Lemma grows_placed s s' x n n' : grows s s' -> same_node n n' -> placed s x n -> placed s' x n'.
  Proof.
    intros G H (n0 & l & A & B & C). exists n0, l. split; [destruct A as [A|A]; [left; eapply grows_log; eassumption|now right]|]. split; [eapply grows_birth; eassumption|].
    eapply same_node_trans; eassumption.
  Qed.
  Lemma grows_added s s' x l : grows s s' -> added s x l -> added s' x l.
  Proof.
    intros G (n & n0 & A & B & C & D). apply (gr_nodes _ _ (gw_graph _ _ G)) in A as (n' & A & S). exists n', n0.
    split; [exact A|]. split; [eapply grows_birth; eassumption|]. split; [eapply same_node_trans; eassumption|exact D].
  Qed.
  Lemma added_in s x l : added s x l -> in_graph s x.
  Proof. intros (n & n0 & A & _). unfold in_graph. congruence. Qed.
  Lemma grows_stmt s s' n i : grows s s' -> stmt s n i -> stmt s' n i.
  Proof.
    intros G [A (l & B & C)]. split; [eapply grows_scheduled; eassumption|]. exists l. split; [eapply grows_log; eassumption|exact C].
  Qed.
  Lemma grows_aims s s' n i m : grows s s' -> aims s n i m -> aims s' n i m.
  Proof. intros G (b & A & B). exists b. split; [eapply grows_pkg_node; eassumption|exact B]. Qed.
  Lemma grows_names_of s s' n i m nd : grows s s' -> names_of s n i m nd ->
    exists nd', names_of s' n i m nd' /\ same_node nd nd'.
  Proof.
    intros G (m0 & A & B & C & D & F). apply (gr_nodes _ _ (gw_graph _ _ G)) in C as (nd' & C & S). exists nd'. split; [|exact S].
    exists m0. split; [eapply grows_aims; eassumption|]. split; [destruct B as [B|B]; [now left|right; eapply grows_kind; eassumption]|].
    split; [exact C|]. destruct S as (_ & -> & _). now split.
  Qed.
  Lemma in_kind s x : in_graph s x <-> exists k, kind_of s x = Some k.
  Proof.
    unfold in_graph, kind_of. destruct (gfind (s_graph s) x) as [n|]; cbn; split; try congruence; eauto. intros [k K]. discriminate.
  Qed.
  Lemma grows_plainly s s' x : grows s s' -> plainly s x -> plainly s' x.
  Proof.
    intros G (A & B & C). apply in_kind in A as (k & A). pose proof (grows_kind _ _ _ _ G A) as K. split; [apply in_kind; eauto|].
    split; [|exact C]. rewrite K, <- A. exact B.
  Qed.
  Lemma grows_refs_of s s' x refs : grows s s' -> refs_of s x refs -> refs_of s' x refs.
  Proof. intros G (A & B & C). split; [eapply grows_log; eassumption|]. split; [eapply grows_above; eassumption|exact C]. Qed.
  Lemma grows_due s s' a b d : grows s s' -> due s a b d -> due s' a b d.
  Proof.
    intros G [i A B C|i p A B C D F|i m nd nm A B C D F L K|i m nd nm A B C D F K|x nd A B C|A B C|refs A0 A B C|A B|x i k f A B C|nd dd A B C H K].
    - eapply du_import; [eapply grows_stmt; eassumption|eapply grows_aims; eassumption|exact C].
    - eapply du_beyond; [eapply grows_stmt; eassumption|eapply grows_pkg_node; eassumption|eassumption..].
    - destruct (grows_names_of _ _ _ _ _ _ G B) as (nd' & B' & S). destruct S as (_ & Sk & _). eapply du_name; [eapply grows_stmt; eassumption|exact B'| |exact D|exact F| |exact K].
      + rewrite Sk. exact C.
      + rewrite Sk. intros P1 P2. destruct (L P1 P2) as (k & K1 & K2). exists k. split; [eapply grows_kind; eassumption|exact K2].
    - destruct (grows_names_of _ _ _ _ _ _ G B) as (nd' & B' & S). eapply du_own; [eapply grows_stmt; eassumption|exact B'|exact C| | |exact K].
      + destruct S as (_ & _ & _ & _ & _ & _ & _ & S). now apply S.
      + eapply grows_provides; eassumption.
    - destruct (grows_from _ _ _ _ _ G A) as (nd' & A' & _). eapply du_member; eassumption.
    - apply du_parent; [exact A|eapply grows_plainly; eassumption|exact C].
    - eapply du_implied; [eapply grows_plainly; eassumption|eapply grows_refs_of; eassumption|eassumption..].
    - apply du_target; [|exact B]. destruct A as [A|A]; [left|right]; eapply grows_kind; eassumption.
    - eapply du_nspkg; [eapply grows_kind; eassumption|eassumption..].
    - apply (gr_nodes _ _ (gw_graph _ _ G)) in A as (nd' & A & S). destruct S as (_ & S2 & _ & S4 & _).
      eapply du_dist; [exact A|congruence|rewrite S4; exact C|exact H|exact K].
  Qed.
  Lemma grows_wk s s' w : grows s s' -> wk s w -> wk s' w.
  Proof.
    intros G. destruct w; cbn; auto.
    - now apply grows_stmt.
    - intros [A B]. split; [eapply grows_stmt; eassumption|eapply grows_aims; eassumption].
  Qed.

  (** What changes may do. *)
  Lemma J_step s s' : J s -> grows s s' -> s_missing s' = s_missing s -> s_post s' = s_post s ->
    (forall x n', gfind (s_graph s') x = Some n' -> in_graph s x \/ placed s' x n') ->
    (forall x i, assoc x (s_lazy s') = Some i -> assoc x (s_lazy s) = Some i) ->
    (forall x i, assoc x (s_lazy s) = Some i -> assoc x (s_lazy s') = Some i \/ In (EvImplied x i) (s_log s')) ->
    (forall x i, In (EvImplied x i) (s_log s') -> In (EvImplied x i) (s_log s)
       \/ (assoc x conf = Some i /\ above s' x /\ (conf_kind i <> None -> in_graph s' x))) ->
    (forall a b d, has_edge (s_graph s') a b d -> has_edge (s_graph s) a b d \/ due s' a b d) ->
    (forall w, In w (s_stack s') -> In w (s_stack s) \/ wk s' w) ->
    (forall x l, In (EvAdd x l) (s_log s') -> In (EvAdd x l) (s_log s) \/ added s' x l) -> J s'.
  Proof.
    intros [A1 A2 A3 A4 A5 A6 A7 A8 A9] G B1 B2 B3 B4 B5 B6 B7 B8 B9. constructor.
    - congruence.
    - congruence.
    - intros x n' Hx. destruct (B3 x n' Hx) as [K|K]; [|exact K]. destruct (node_back _ _ _ _ G K Hx) as (n & N1 & N2).
      eapply grows_placed; [exact G|exact N2|auto].
    - auto.
    - intros x i Hx. destruct (A5 x i Hx) as [K|K]; [auto|right]. eapply grows_log; eassumption.
    - intros x i Hx. destruct (B6 x i Hx) as [K|K]; [|exact K]. destruct (A6 x i K) as (K1 & K2 & K3). split; [exact K1|].
      split; [eapply grows_above; eassumption|]. intros K4. eapply grows_in_graph; [exact G|auto].
    - intros a b d He. destruct (B7 a b d He) as [K|K]; [|exact K]. eapply grows_due; [exact G|auto].
    - intros w Hw. destruct (B8 w Hw) as [K|K]; [|exact K]. eapply grows_wk; [exact G|auto].
    - intros x l Hx. destruct (B9 x l Hx) as [K|K]; [|exact K]. eapply grows_added; [exact G|auto].
  Qed.
  (** No change of the graph. *)
  Lemma J_quiet s s' : J s -> grows s s' -> s_graph s' = s_graph s -> s_missing s' = s_missing s -> s_post s' = s_post s ->
    s_lazy s' = s_lazy s -> (forall e, In e (s_log s') -> match e with EvImplied _ _ | EvAdd _ _ => In e (s_log s) | _ => True end) ->
    (forall w, In w (s_stack s') -> In w (s_stack s) \/ wk s' w) -> J s'.
  Proof.
    intros HJ G A B C D F K. apply (J_step s); auto; rewrite ?D; auto.
    - intros x n' Hx. left. rewrite A in Hx. unfold in_graph. congruence.
    - intros x i Hx. left. exact (F _ Hx).
    - intros a b d. rewrite A. auto.
    - intros x l Hx. left. exact (F _ Hx).
  Qed.
  Lemma J_env s s' : J s -> env_only s s' -> J s'.
  Proof.
    intros HJ H. pose proof (env_only_grows _ _ H) as G. destruct H as (f & c & ->). apply (J_quiet s); auto.
    intros e He. now destruct e.
  Qed.
  Lemma J_edge s a b d : J s -> due s a b d ->
    J (set_graph s (Graph (g_nodes (s_graph s)) (edges_add (g_edges (s_graph s)) a b d) (g_roots (s_graph s)))).
  Proof.
    intros HJ Hd. pose proof (lift_set_grows s _ (grows_add_edge (s_graph s) a b d)) as G. apply (J_step s); auto.
    - intros x n' Hx. left. change (gfind (s_graph s) x = Some n') in Hx. unfold in_graph. congruence.
    - intros a' b' d' (ds & K1 & K2). cbn [s_graph set_graph g_edges] in K1.
      destruct (edges_add_inv _ _ _ _ _ _ _ K1 _ K2) as [(-> & -> & ->)|(ds0 & K3 & K4)]; [right|left; now exists ds0].
      eapply grows_due; eassumption.
  Qed.
  Lemma J_schedule s n l : J s -> In (EvAdd n l) (s_log s) -> J (schedule n l s).
  Proof.
    intros HJ Ev. pose proof (schedule_grows n l s) as G. apply (J_quiet s); auto.
    - apply schedule_graph.
    - unfold schedule. cbn. destruct (memb n (s_seen s)); reflexivity.
    - unfold schedule. cbn. destruct (memb n (s_seen s)); reflexivity.
    - apply schedule_lazy.
    - intros e He. rewrite schedule_log in He. destruct He as [<-|He]; [exact Logic.I|now destruct e].
    - intros w Hw. destruct (schedule_stack n l s) as (k & Hk & Hk'). rewrite Hk in Hw. apply in_app_or in Hw as [Hw|Hw]; [|now left].
      right. destruct (Hk' w Hw) as [->|(i & Hi & ->)]; [exact Logic.I|]. split.
      + exists l. split; [|exact Hi]. rewrite schedule_log. now left.
      + exists l. split; [|exact Hi]. rewrite schedule_log. now right.
  Qed.
  Definition put_node (s : st) (n : node) (l : list iinfo) : st :=
    log (set_graph s (Graph (g_nodes (s_graph s) ++ [n]) (g_edges (s_graph s)) (g_roots (s_graph s)))) (EvAdd (n_name n) l).
  Lemma put_node_grows s n l : grows s (put_node s n l).
  Proof. eapply grows_trans; [apply lift_set_grows, grows_add_node|apply log_grows]. Qed.
  Lemma put_node_find s n l x : gfind (s_graph (put_node s n l)) x =
    match gfind (s_graph s) x with Some y => Some y | None => if seqb (n_name n) x then Some n else None end.
  Proof. unfold put_node. cbn [s_graph log set_graph]. now rewrite gfind_app. Qed.
  Lemma J_node s n l : J s -> gfind (s_graph s) (n_name n) = None -> birth s (n_name n) n l -> n_kind n <> Distribution -> J (put_node s n l).
  Proof.
    intros HJ Hn Hb Hk. pose proof (put_node_grows s n l) as G.
    apply (J_step s); auto.
    - intros x n'. rewrite put_node_find.
      destruct (gfind (s_graph s) x) as [y|] eqn:Ex; [left; unfold in_graph; congruence|].
      destruct (seqb (n_name n) x) eqn:Es; [|discriminate]. apply seqb_eq in Es as <-. intros K. injection K as <-. right.
      exists n, l. split; [left; now left|]. split; [eapply grows_birth; eassumption|apply same_node_refl].
    - intros x i [Hx|Hx]; [discriminate|]. now left.
    - intros x l0 [Hx|Hx]; [|now left]. right. injection Hx as <- <-. exists n, n.
      split; [rewrite put_node_find, Hn; unfold seqb; now rewrite String.eqb_refl|]. split; [eapply grows_birth; eassumption|]. split; [apply same_node_refl|exact Hk].
  Qed.

  (** ** What is known of new nodes *)

  Record paid (o : option string) (s : st) (x : string) : Prop := {
    pd_plain : (kind_of s x <> Some Script /\ kind_of s x <> Some Distribution) /\ starts_with "." x = false;
    pd_target : forall t, kind_of s x = Some (AliasNode t) \/ kind_of s x = Some (VirtualNode t) -> has_edge (s_graph s) x t default_dep;
    pd_nspkg : forall a i k f t, kind_of s x = Some (Package a i k f (Some t)) -> t = "pkgutil"%string \/ t = "pkg_resources"%string ->
      has_edge (s_graph s) x t default_dep;
    pd_parent : o = Some x \/ forall c, child_of c x -> has_edge (s_graph s) x c default_dep
  }.
  Definition refs_paid (s : st) (x : string) (refs : list string) : Prop := forall b, In b refs -> has_edge (s_graph s) x b default_dep.
  Record ext (o : option string) (s s' : st) : Prop := {
    ex_grows : grows s s';
    ex_nodes : forall x, in_graph s' x -> in_graph s x \/ paid o s' x;
    ex_refs : exists l, s_log s' = l ++ s_log s /\ forall x refs, In (EvImplied x (ImpRefs refs)) l -> refs_paid s' x refs
  }.

  Lemma grows_paid o s s' x : grows s s' -> in_graph s x -> paid o s x -> paid o s' x.
  Proof.
    intros G Hx [A B C D].
    assert (K : forall k, kind_of s' x = Some k -> kind_of s x = Some k) by (intros k; apply (kind_back s s' x k G Hx)).
    constructor.
    - destruct A as [[A A0] A']. split; [|exact A']. split; auto.
    - intros t H. eapply grows_edge; [exact G|]. apply B. destruct H as [H|H]; auto.
    - intros a i k f t H H'. eapply grows_edge; [exact G|]. eapply C; eauto.
    - destruct D as [D|D]; [now left|right]. intros c Hc. eapply grows_edge; [exact G|auto].
  Qed.
  Lemma grows_refs_paid s s' x refs : grows s s' -> refs_paid s x refs -> refs_paid s' x refs.
  Proof. intros G H b Hb. eapply grows_edge; [exact G|auto]. Qed.
  Lemma paid_weaken o s x : paid None s x -> paid o s x.
  Proof. intros [A B C D]. constructor; auto. destruct D as [D|D]; [discriminate|now right]. Qed.
  Lemma ext_weaken o s s' : ext None s s' -> ext o s s'.
  Proof. intros [A B C]. constructor; auto. intros x Hx. destruct (B x Hx) as [K|K]; [now left|right]. now apply paid_weaken. Qed.
  Lemma ext_refl o s : ext o s s.
  Proof. constructor; [apply grows_refl|auto|]. exists []. split; [reflexivity|]. intros x refs []. Qed.
  Lemma ext_trans o a b c : ext o a b -> ext o b c -> ext o a c.
  Proof.
    intros [A1 A2 (l1 & A3 & A4)] [B1 B2 (l2 & B3 & B4)]. constructor.
    - eapply grows_trans; eassumption.
    - intros x Hx. destruct (B2 x Hx) as [K|K]; [|now right]. destruct (A2 x K) as [K'|K']; [now left|right].
      eapply grows_paid; eassumption.
    - exists (l2 ++ l1). split; [rewrite B3, A3; apply app_assoc|]. intros x refs H. apply in_app_or in H as [H|H]; [auto|].
      eapply grows_refs_paid; [exact B1|auto].
  Qed.
  (** Changes without new nodes. *)
  Lemma ext_calm o s s' l : grows s s' -> (forall x, in_graph s' x -> in_graph s x) -> s_log s' = l ++ s_log s ->
    (forall x refs, ~ In (EvImplied x (ImpRefs refs)) l) -> ext o s s'.
  Proof. intros A B C D. constructor; auto. exists l. split; [exact C|]. intros x refs H. now elim (D x refs). Qed.
  Lemma ext_log o s e : (forall x refs, e <> EvImplied x (ImpRefs refs)) -> ext o s (log s e).
  Proof.
    intros H. apply (ext_calm _ _ _ [e]); [apply log_grows|auto|reflexivity|]. intros x refs [K|[]]. now elim (H x refs).
  Qed.
  Lemma ext_env o s s' : env_only s s' -> ext o s s'.
  Proof. intros H. pose proof (env_only_grows _ _ H) as G. destruct H as (f & c & ->). apply (ext_calm _ _ _ []); auto. Qed.
  Lemma ext_edge o s a b d :
    ext o s (set_graph s (Graph (g_nodes (s_graph s)) (edges_add (g_edges (s_graph s)) a b d) (g_roots (s_graph s)))).
  Proof. apply (ext_calm _ _ _ []); auto. apply lift_set_grows, grows_add_edge. Qed.
  Lemma ext_schedule o n l s : ext o s (schedule n l s).
  Proof.
    apply (ext_calm _ _ _ [EvSched n l]); [apply schedule_grows| |apply schedule_log|].
    - intros x. unfold in_graph. now rewrite schedule_graph.
    - intros x refs [K|[]]. discriminate.
  Qed.
  Lemma put_in_graph s n l x : in_graph (put_node s n l) x -> in_graph s x \/ x = n_name n.
  Proof.
    unfold in_graph. rewrite put_node_find. destruct (gfind (s_graph s) x); [left; discriminate|].
    destruct (seqb (n_name n) x) eqn:Es; [|congruence]. apply seqb_eq in Es. auto.
  Qed.
  Lemma put_kind s n l : gfind (s_graph s) (n_name n) = None -> kind_of (put_node s n l) (n_name n) = Some (n_kind n).
  Proof. intros H. unfold kind_of. rewrite put_node_find, H. unfold seqb. now rewrite String.eqb_refl. Qed.
  (** After the edges of the new node are there. *)
  Lemma ext_put o s n l s' : ext o (put_node s n l) s' -> paid o s' (n_name n) -> ext o s s'.
  Proof.
    intros [A B (k & C & D)] P. constructor.
    - eapply grows_trans; [apply put_node_grows|exact A].
    - intros x Hx. destruct (B x Hx) as [K|K]; [|now right]. apply put_in_graph in K as [K| ->]; auto.
    - exists (k ++ [EvAdd (n_name n) l]). split; [rewrite C; unfold put_node; cbn; now rewrite <- app_assoc|].
      intros x refs H. apply in_app_or in H as [H|[H|[]]]; [auto|discriminate].
  Qed.
  Lemma ext_parent s s' x : ext (Some x) s s' -> (forall c, child_of c x -> has_edge (s_graph s') x c default_dep) -> ext None s s'.
  Proof.
    intros [A B C] H. constructor; auto. intros y Hy. destruct (B y Hy) as [K|[K1 K2 K3 K4]]; [now left|right].
    constructor; auto. right. destruct K4 as [K4|K4]; [injection K4 as <-; exact H|exact K4].
  Qed.

  (** ** Rules *)

  Definition awp {A} (m : M A) (s : st) (Q : A -> st -> Prop) : Prop := forall a s', m s = Some (ROk a, s') -> Q a s'.
  Lemma awp_bind {A B} (m : M A) (f : A -> M B) s Q : awp m s (fun a s1 => awp (f a) s1 Q) -> awp (bind m f) s Q.
  Proof.
    intros H b s' K. unfold bind in K. destruct (m s) as [[[a|e] s1]|] eqn:Em; [|discriminate..]. exact (H a s1 Em b s' K).
  Qed.
  Lemma awp_conseq {A} (m : M A) s (Q Q' : A -> st -> Prop) : awp m s Q -> (forall a s', Q a s' -> Q' a s') -> awp m s Q'.
  Proof. intros H K a s' L. apply K, H, L. Qed.
  Lemma awp_ret {A} (a : A) s (Q : A -> st -> Prop) : Q a s -> awp (ret a) s Q.
  Proof. intros H b s' K. injection K as <- <-. exact H. Qed.
  Lemma awp_raise {A} e s (Q : A -> st -> Prop) : awp (raise e) s Q.
  Proof. intros b s' K. discriminate. Qed.
  Lemma awp_oof {A} s (Q : A -> st -> Prop) : awp out_of_fuel s Q.
  Proof. intros b s' K. discriminate. Qed.
  Lemma awp_get {A} (f : st -> A) s (Q : A -> st -> Prop) : Q (f s) s -> awp (gets f) s Q.
  Proof. intros H b s' K. injection K as <- <-. exact H. Qed.
  Lemma awp_modify f s (Q : unit -> st -> Prop) : Q tt (f s) -> awp (modify f) s Q.
  Proof. intros H b s' K. injection K as <- <-. exact H. Qed.
  Lemma awp_of_result {A} (x : result A) s (Q : A -> st -> Prop) : (forall a, x = ROk a -> Q a s) -> awp (of_result x) s Q.
  Proof. intros H b s' K. injection K as -> <-. auto. Qed.
  Lemma awp_assert b s (Q : unit -> st -> Prop) : (b = true -> Q tt s) -> awp (assert b) s Q.
  Proof. destruct b; intros H; [apply awp_ret; auto|apply awp_raise]. Qed.
  Lemma awp_env {A} (m : M A) s (Q : A -> st -> Prop) : envm m -> (forall a s', m s = Some (ROk a, s') -> env_only s s' -> Q a s') -> awp m s Q.
  Proof. intros H K b s' L. apply K; [exact L|]. eapply H; exact L. Qed.
  Lemma awp_find_module id s (Q : option node -> st -> Prop) : Q (gfind (s_graph s) id) s -> awp (find_module id) s Q.
  Proof.
    intros H. unfold find_module. apply awp_bind, awp_get. destruct (gfind (s_graph s) id) as [n|]; [|now apply awp_ret].
    apply awp_bind, awp_assert. intros _. now apply awp_ret.
  Qed.
  Lemma awp_kind_test p id s (Q : bool -> st -> Prop) : 
    Q (match kind_of s id with Some k => p k | None => false end) s -> awp (kind_test p id) s Q.
  Proof.
    intros H. unfold kind_test. apply awp_bind, awp_get, awp_ret. unfold kind_of in H. now destruct (gfind (s_graph s) id).
  Qed.
  Lemma awp_edge a b d s (Q : unit -> st -> Prop) : J s ->
    (in_graph s a -> in_graph s b -> due s a b d) ->
    (forall s', J s' -> grows s s' -> (forall o, ext o s s') -> has_edge (s_graph s') a b d -> Q tt s') -> awp (add_edge a b d) s Q.
  Proof.
    intros HJ Hd K x s' L. unfold add_edge, lift_graph in L. destruct (gadd_edge (s_graph s) a b d) as [g|e] eqn:Eg; [|discriminate].
    injection L as <- <-. apply gadd_edge_spec in Eg as (Ha & Hb & ->). apply K.
    - apply J_edge; auto.
    - apply lift_set_grows, grows_add_edge.
    - intros o. apply ext_edge.
    - apply edges_add_self.
  Qed.
  Lemma awp_node n l s (Q : unit -> st -> Prop) : (gfind (s_graph s) (n_name n) = None -> Q tt (put_node s n l)) -> awp (add_node n l) s Q.
  Proof.
    intros K. unfold add_node. apply awp_bind. intros x s' L. unfold lift_graph in L.
    destruct (gadd_node (s_graph s) n) as [g|e] eqn:Eg; [|discriminate]. injection L as <- <-.
    apply gadd_node_spec in Eg as (Ha & ->). apply awp_modify. now apply K.
  Qed.
  Lemma awp_sched n l s (Q : unit -> st -> Prop) : J s -> In (EvAdd n l) (s_log s) ->
    (J (schedule n l s) -> Q tt (schedule n l s)) -> awp (process_import_list n l) s Q.
  Proof. intros HJ Ev K. apply awp_modify, K. now apply J_schedule. Qed.
  Lemma awp_iter {X} (f : X -> M unit) (P : st -> Prop) l s : (forall x s, In x l -> P s -> awp (f x) s (fun _ s' => P s')) ->
    P s -> awp (iter f l) s (fun _ s' => P s').
  Proof.
    revert s. induction l as [|x l IH]; intros s Hf Hs; [now apply awp_ret|]. cbn [iter]. apply awp_bind.
    eapply awp_conseq; [apply Hf; [now left|exact Hs]|]. cbv beta. intros _ s1 H1. apply IH; [|exact H1]. intros y s0 Hy. apply Hf. now right.
  Qed.
  Lemma J_note s e : J s -> (forall x i, e <> EvImplied x i) -> (forall x l, e <> EvAdd x l) -> J (log s e).
  Proof.
    intros HJ A B. apply (J_quiet s); auto; [apply log_grows|]. intros e' [<-|H]; [|now destruct e'].
    destruct e; auto; [now elim (A name i)|now elim (B n imports)].
  Qed.

  (** ** Names and classes *)

  Lemma dot_first a x y : starts_with "." (String a x) = starts_with "." (String a y).
  Proof. unfold starts_with. cbn [prefix]. destruct (ascii_dec "."%char a); [now destruct x, y|reflexivity]. Qed.
  Lemma child_dots c x : child_of c x -> starts_with "." c = starts_with "." x.
  Proof.
    intros [y H D|k y Hc D]; [|subst c].
    - destruct c as [|a c]; [now elim H|]. apply dot_first.
    - apply (dot_first dot).
  Qed.
  Lemma child_one c c' x : starts_with "." x = false -> child_of c x -> child_of c' x -> c = c'.
  Proof.
    intros S0 H H'. destruct H as [y Hc Hy|k y Hc Hy]; [|subst c; cbn in S0; now destruct (repeat_char dot k ++ y)%string].
    remember (c ++ "." ++ y)%string as z eqn:Ez. destruct H' as [y' Hc' Hy'|k y' Hc' Hy'].
    - apply app_dot_inj in Ez as [-> _]; auto.
    - subst c'. cbn in S0. now destruct (repeat_char dot k ++ y')%string.
  Qed.
  Lemma placed_kind s x n : J s -> gfind (s_graph s) x = Some n -> 
    (n_kind n = Script \/ (n_kind n = Distribution /\ exists d, DS d /\ x = dist_identifier d /\ n_dist n = Some d))
    \/ (n_kind n = InvalidRelativeImport /\ starts_with "." x = true)
    \/ (starts_with "." x = false /\ (n_kind n = MissingModule \/ n_kind n = ExcludedModule
        \/ (exists t, n_kind n = AliasNode t \/ n_kind n = VirtualNode t) \/ (spec_kind x (n_kind n) /\ find x <> None))).
  Proof.
    intros HJ Hx. destruct (j_nodes _ HJ _ _ Hx) as (n0 & l & _ & B & S). destruct S as (_ & -> & _ & Sd & _).
    destruct B as [t tree l A B|d A B|A|c k A B C D|i k A B C|A B C|sp n0 l k s1 s2 A B C D]; cbn [plain_node n_kind].
    - left. now left.
    - left. right. split; [reflexivity|]. exists d. auto.
    - right. left. now split.
    - right. right. split; [exact A|]. destruct k; try discriminate D; auto.
    - right. right. split; [apply A|]. destruct i; try discriminate C; injection C as <-; eauto 6.
    - right. right. split; [apply A|]. auto.
    - right. right. split; [apply A|]. right. right. right. apply (nfs_kind E) in D as [_ D]; [|eapply sy_direct; eassumption].
      rewrite (sy_name _ _ HS _ _ C) in D. split; [exact D|congruence].
  Qed.
  Lemma no_six s x n b i k f t : J s -> gfind (s_graph s) x = Some n -> n_kind n = Package b i k f t -> seqb i "@@SIX_MOVES@@" = false.
  Proof.
    intros HJ Hx Hk. destruct (placed_kind _ _ _ HJ Hx) as [[K|[K _]]|[[K _]|(_ & [K|[K|[(t' & [K|K])|[K K']]]])]]; try congruence.
    rewrite Hk in K. cbn in K. subst i. destruct (seqb x "@@SIX_MOVES@@") eqn:Es; [|reflexivity]. apply seqb_eq in Es. subst x.
    elim K'. apply (sy_six _ _ HS).
  Qed.

  (** The globals a node starts with. *)
  Lemma binds_written s x n y : J s -> gfind (s_graph s) x = Some n -> binds E find x y -> has_names (n_kind n) = true -> In y (n_written n).
  Proof.
    intros HJ Hx (sp & n1 & l1 & k1 & t1 & t1' & A & B & C) Hk. destruct (j_nodes _ HJ _ _ Hx) as (n0 & l & _ & D & S).
    destruct S as (_ & S2 & _ & _ & _ & _ & _ & S8). apply S8. rewrite S2 in Hk.
    destruct D as [t tree l D F|d D F|D|c k D F G H|i k D F G|D F G|sp' n0 l k s1 s2 D F G H]; cbn [plain_node n_kind] in Hk; try discriminate Hk.
    - destruct k; try discriminate H; discriminate Hk.
    - destruct i; try discriminate G; injection G as <-; discriminate Hk.
    - assert (sp' = sp) as -> by congruence. pose proof (nfs_same E find HS _ _ _ _ _ _ _ _ _ (sy_direct _ _ HS _ _ A) B H) as K.
      injection K as <- <-. exact C.
  Qed.

  (** ** The functions *)

  Definition link_ext (link : bool) (name : string) (s s' : st) : Prop :=
    ext None s s' \/ (link = false /\ kind_of s' name = Some MissingModule /\ ext (Some name) s s').
  Definition fine_above (s : st) (name : string) : Prop :=
    forall c, child_of c name -> exists k, kind_of s c = Some k /\ is_missing k = false /\ is_excluded k = false.

  (** Each node is a script, an import beyond the top, or has its edges; the missing
      module for an imported name may lack that to its package. *)
  Definition dist_paid (s : st) (x : string) : Prop := exists nd d, gfind (s_graph s) x = Some nd /\ n_kind nd = Distribution
    /\ n_dist nd = Some d /\ forall b, In b (dist_import_names d) -> has_edge (s_graph s) x b default_dep.
  Definition ok_node (s : st) (x : string) : Prop :=
    (kind_of s x = Some Script \/ dist_paid s x) \/ (starts_with "." x = true /\ kind_of s x <> Some Distribution) \/ paid None s x \/
    (paid (Some x) s x /\ exists m y nd, imported_from s m y nd /\ x = (m ++ "." ++ y)%string
      /\ (left_over s m y x \/ has_edge (s_graph s) x m default_dep)).
  Record JW (s : st) : Prop := {
    w_inv : J s;
    w_nodes : forall x, in_graph s x -> ok_node s x;
    w_refs : forall x refs, In (EvImplied x (ImpRefs refs)) (s_log s) -> refs_paid s x refs
  }.

  Record good (r : funs) : Prop := {
    gd_find : forall im name link s, J s -> awp (f_find r im name link) s
      (fun id s' => id = name /\ J s' /\ in_graph s' name /\ link_ext link name s s');
    gd_load : forall im name s, J s -> fine_above s name -> (gfind (s_graph s) name = None -> assoc name (s_lazy s) = None) ->
      awp (f_load r im name) s (fun id s' => id = name /\ J s' /\ in_graph s' name /\ starts_with "." name = false /\ ext (Some name) s s');
    gd_run : forall s, JW s -> awp (f_run r) s (fun _ s' => JW s');
    gd_post : forall i n s, J s -> awp (f_post r i n) s (fun _ s' => s' = s);
    gd_miss : forall i im name s res s', s_missing s = [] -> f_miss r i im name s = Some (res, s') -> res = ROk None /\ s' = s
  }.

  Lemma grows_dist_paid s s' x : grows s s' -> dist_paid s x -> dist_paid s' x.
  Proof.
    intros G (nd & d & A & B & C & K). apply (gr_nodes _ _ (gw_graph _ _ G)) in A as (nd' & A & S). destruct S as (_ & S2 & _ & S4 & _).
    exists nd', d. split; [exact A|]. split; [congruence|]. split; [congruence|]. intros b Hb. eapply grows_edge; [exact G|auto].
  Qed.
  Lemma ok_grows s s' x : grows s s' -> in_graph s x -> ok_node s x -> ok_node s' x.
  Proof.
    intros G Hx [K|[K|[K|[K (m & y & nd & A & B & C)]]]].
    - left. destruct K as [K|K]; [left; eapply grows_kind; eassumption|right; eapply grows_dist_paid; eassumption].
    - right. left. destruct K as [K1 K2]. split; [exact K1|]. apply in_kind in Hx as (k & Hk).
      rewrite (grows_kind _ _ _ _ G Hk). congruence.
    - right. right. left. eapply grows_paid; eassumption.
    - right. right. right. split; [eapply grows_paid; eassumption|]. destruct (grows_from _ _ _ _ _ G A) as (nd' & A' & _).
      exists m, y, nd'. split; [exact A'|]. split; [exact B|]. destruct C as [C|C]; [left; eapply grows_left|right; eapply grows_edge]; eassumption.
  Qed.
  Lemma JW_ext s s' : JW s -> J s' -> ext None s s' -> JW s'.
  Proof.
    intros [A B C] HJ [D F (l & K & L)]. constructor; [exact HJ|..].
    - intros x Hx. destruct (F x Hx) as [H|H]; [eapply ok_grows; eauto|right; right; now left].
    - intros x refs Hx. rewrite K in Hx. apply in_app_or in Hx as [Hx|Hx]; [auto|]. eapply grows_refs_paid; eauto.
  Qed.
  (** The missing module [x] is dealt with. *)
  Lemma JW_member s s' x : JW s -> J s' -> ext (Some x) s s' ->
    (exists m y nd, imported_from s' m y nd /\ x = (m ++ "." ++ y)%string /\ (left_over s' m y x \/ has_edge (s_graph s') x m default_dep)) ->
    JW s'.
  Proof.
    intros [A B C] HJ [D F (l & K & L)] H. constructor; [exact HJ|..].
    - intros y Hy. destruct (F y Hy) as [Hx|Hx]; [eapply ok_grows; eauto|]. right. right.
      destruct (pd_parent _ _ _ Hx) as [Hp|Hp]; [right|left].
      + injection Hp as <-. now split.
      + destruct Hx as [X1 X2 X3 X4]. constructor; auto.
    - intros y refs Hx. rewrite K in Hx. apply in_app_or in Hx as [Hx|Hx]; [auto|]. eapply grows_refs_paid; eauto.
  Qed.

  Section step.
    Variable n : nat.
    Let r := exec E n.
    Hypothesis IH : good r.

    (** A new node without imports, edges or import statements. *)
    Lemma bare k name s s' : s' = schedule name [] (put_node s (plain_node k name) []) ->
      J s -> gfind (s_graph s) name = None -> birth s name (plain_node k name) [] ->
      is_missing k || is_excluded k = true -> starts_with "." name = false ->
      J s' /\ kind_of s' name = Some k /\ in_graph s' name /\ ext (Some name) s s'.
    Proof.
      intros -> HJ Hn Hb Hk Hd. set (nd := plain_node k name).
      assert (HJ1 : J (put_node s nd [])) by (apply J_node; [exact HJ|exact Hn|exact Hb|]; cbn [nd plain_node n_kind]; intros ->; discriminate Hk).
      pose proof (put_kind s nd [] Hn) as K1. cbn [nd plain_node n_name n_kind] in K1.
      assert (K : kind_of (schedule name [] (put_node s nd [])) name = Some k) by (rewrite schedule_kind; exact K1).
      split; [apply J_schedule; [exact HJ1|now left]|]. split; [exact K|]. split; [apply in_kind; eauto|].
      eapply (ext_put _ _ nd); [apply ext_schedule|]. cbn [nd plain_node n_name]. constructor.
      - split; [|exact Hd]. rewrite K. destruct k; split; discriminate.
      - intros t [H|H]; rewrite K in H; injection H as ->; discriminate.
      - intros a i0 k0 f t H. rewrite K in H. injection H as ->. discriminate.
      - now left.
    Qed.
    Lemma awp_bare {A} k name s (rest : M A) Q : J s -> is_missing k || is_excluded k = true -> starts_with "." name = false ->
      birth s name (plain_node k name) [] ->
      (forall s', J s' -> kind_of s' name = Some k -> in_graph s' name -> ext (Some name) s s' -> awp rest s' Q) ->
      awp (do add_node (plain_node k name) [] ;; do process_import_list name [] ;; rest) s Q.
    Proof.
      intros HJ Hk Hd Hb H. apply awp_bind, awp_node. intros Hn. apply awp_bind, awp_modify.
      destruct (bare k name s _ eq_refl HJ Hn Hb Hk Hd) as (A1 & A2 & A3 & A4). auto.
    Qed.
    Lemma awp_create_missing im name s : J s -> starts_with "." name = false -> birth s name (plain_node MissingModule name) [] ->
      awp (create_missing r im name) s (fun id s' => id = name /\ J s' /\ kind_of s' name = Some MissingModule /\ in_graph s' name /\ ext (Some name) s s').
    Proof.
      intros HJ Hd Hb. unfold create_missing. apply awp_bind. intros ans s1 H1.
      destruct (gd_miss r IH _ _ _ _ _ _ (j_missing _ HJ) H1) as [Ha ->]. injection Ha as ->.
      apply awp_bare; [exact HJ|reflexivity|exact Hd|exact Hb|]. intros s' A1 A2 A3 A4. apply awp_ret. auto.
    Qed.
    (** It does not raise. *)
    Lemma create_missing_ok im name s e s' : J s -> gfind (s_graph s) name = None ->
      create_missing r im name s <> Some (RErr e, s').
    Proof.
      intros HJ Hn H. unfold create_missing, bind in H. destruct (f_miss r 0 im name s) as [[res s1]|] eqn:E1; [|discriminate].
      destruct (gd_miss r IH _ _ _ _ _ _ (j_missing _ HJ) E1) as [-> ->].
      unfold add_node, bind, lift_graph, gadd_node, ghas in H. cbn [plain_node n_name] in H. rewrite Hn in H. discriminate.
    Qed.

    Lemma awp_f_find im name s (Q : string -> st -> Prop) : J s ->
      (forall s', J s' -> in_graph s' name -> ext None s s' -> Q name s') -> awp (f_find r im name true) s Q.
    Proof.
      intros HJ H. eapply awp_conseq; [apply (gd_find r IH _ _ _ _ HJ)|]. cbv beta. intros id s' (-> & A & B & [C|(C & _)]); [auto|discriminate].
    Qed.

    Lemma awp_load_spec name sp s : J s -> gfind (s_graph s) name = None -> above s name -> free s name -> find name = Some sp ->
      awp (load_spec r name sp) s (fun id s' => id = name /\ J s' /\ in_graph s' name /\ ext (Some name) s s').
    Proof.
      intros HJ Hn Ha Hf Hfi. pose proof (sy_direct _ _ HS _ _ Hfi) as Hdir. unfold load_spec. apply awp_bind, awp_env; [apply envm_nfs_exec|].
      intros [nd l] s1 H1 He. pose proof (nfs_kind E _ _ _ _ _ _ Hdir H1) as [N1 N2]. rewrite (sy_name _ _ HS _ _ Hfi) in N1, N2.
      cbv beta iota. rewrite N1. unfold seqb at 1. rewrite String.eqb_refl. cbn [negb].
      pose proof (J_env _ _ HJ He) as HJ1. pose proof (env_only_grows _ _ He) as G1.
      assert (Hb : birth s1 (n_name nd) nd l) by (rewrite N1; eapply bi_spec; [eapply grows_above; eassumption|eapply grows_free; eassumption|exact Hfi|exact H1]).
      apply awp_bind, awp_node. intros Hn1. assert (Hk1 : n_kind nd <> Distribution) by (intros K; now rewrite K in N2).
      pose proof (J_node _ _ _ HJ1 Hn1 Hb Hk1) as HJ2.
      pose proof (put_kind s1 nd l Hn1) as K2. rewrite N1 in K2.
      set (s2 := put_node s1 nd l) in *.
      assert (Ev : In (EvAdd name l) (s_log s2)) by (rewrite <- N1; now left).
      apply awp_bind. eapply awp_conseq with (Q := fun _ s3 => J s3 /\ ext None s2 s3 /\
        forall a i k f t, n_kind nd = Package a i k f (Some t) -> t = "pkgutil"%string \/ t = "pkg_resources"%string -> has_edge (s_graph s3) name t default_dep).
      - assert (K : forall s', J s2 -> s' = s2 -> (forall t, memb t ["pkgutil"; "pkg_resources"] = true ->
            forall a i k f, n_kind nd <> Package a i k f (Some t)) -> J s' /\ ext None s2 s' /\
            forall a i k f t, n_kind nd = Package a i k f (Some t) -> t = "pkgutil"%string \/ t = "pkg_resources"%string -> has_edge (s_graph s') name t default_dep).
        { intros s' A -> B. split; [exact A|]. split; [apply ext_refl|]. intros a i k f t H Ht. elim (B t) with (2 := H).
          destruct Ht as [-> | ->]; reflexivity. }
        destruct (n_kind nd) as [|mk| |b i k f [t|]| | | | | |] eqn:Ek;
          try (apply awp_ret; apply K; [exact HJ2|reflexivity|congruence]; fail).
        destruct (memb t ["pkgutil"; "pkg_resources"]) eqn:Em.
        + assert (Ht : t = "pkgutil"%string \/ t = "pkg_resources"%string).
          { apply memb_In in Em as [<-|[<-|[]]]; auto. }
          apply awp_bind, awp_f_find; [exact HJ2|]. intros s3 HJ3 I3 X3.
          apply awp_edge; [exact HJ3| |].
          * intros _ _. eapply du_nspkg; [eapply grows_kind; [apply X3|exact K2]|exact Ht|reflexivity].
          * intros s4 HJ4 G4 X4 He4. split; [exact HJ4|]. split; [eapply ext_trans; [exact X3|apply X4]|].
            intros a0 i0 k0 f0 t0 H _. injection H as <- <- <- <- <-. exact He4.
        + apply awp_ret. apply K; [exact HJ2|reflexivity|]. intros t' Ht' a0 i0 k0 f0 H. injection H as _ _ _ _ <-. congruence.
      - cbv beta. intros _ s3 (HJ3 & X3 & P3). apply awp_bind, awp_sched; [exact HJ3|eapply grows_log; [apply X3|exact Ev]|].
        intros HJ4. apply awp_ret. split; [reflexivity|]. split; [exact HJ4|].
        assert (K4 : kind_of (schedule name l s3) name = Some (n_kind nd)).
        { rewrite schedule_kind. eapply grows_kind; [apply X3|exact K2]. }
        split; [apply in_kind; eauto|]. apply (ext_trans _ _ s1); [now apply ext_env|].
        apply (ext_put _ _ nd l); [apply (ext_trans _ _ s3); [now apply ext_weaken|apply ext_schedule]|].
        rewrite N1. constructor.
        + split; [|apply Ha]. split; rewrite K4; intros H; injection H as H; now rewrite H in N2.
        + intros t [H|H]; rewrite K4 in H; injection H as H; now rewrite H in N2.
        + intros a i k f t H Ht. rewrite K4 in H. injection H as H. rewrite schedule_graph. eapply P3; eassumption.
        + now left.
    Qed.

    Lemma spec_found name s res s' : spec_or_none E name s = Some (res, s') -> env_only s s' /\
      ((exists sp, find name = Some sp /\ res = ROk (Some sp)) \/ (find name = None /\ (res = ROk None \/ res = RErr (ENotFound false)))).
    Proof.
      unfold spec_or_none, bind, attempt, find_spec. intros H.
      assert (He : env_only s (tick s)) by (now eexists _, _).
      destruct (find name) as [sp|] eqn:Ef.
      - rewrite (sy_some _ _ HS _ _ _ _ Ef) in H. injection H as <- <-. split; [exact He|]. left. eauto.
      - destruct (sy_none _ _ HS (s_clock s) (s_fakes s) name Ef) as [K|[K|K]]; rewrite K in H; injection H as <- <-;
          (split; [exact He|right; auto]).
    Qed.
    Lemma lazy_free s name : J s -> gfind (s_graph s) name = None -> assoc name (s_lazy s) = None -> free s name.
    Proof.
      intros HJ Hn Hl i Hi. destruct (j_conf _ HJ _ _ Hi) as [K|K]; [congruence|].
      destruct (j_popped _ HJ _ _ K) as (_ & _ & P). split; [|exact K]. destruct (conf_kind i) eqn:Ek; [|reflexivity].
      elim (P ltac:(discriminate)). exact Hn.
    Qed.
    Lemma awp_load_body im name s : J s -> fine_above s name -> (gfind (s_graph s) name = None -> assoc name (s_lazy s) = None) ->
      awp (load_body E r im name) s (fun id s' => id = name /\ J s' /\ in_graph s' name /\ starts_with "." name = false /\ ext (Some name) s s').
    Proof.
      intros HJ Ha Hl. unfold load_body. apply awp_bind, awp_assert. intros Hd. apply negb_true_iff in Hd.
      apply awp_bind, awp_get. destruct (gfind (s_graph s) name) as [nd|] eqn:Hn.
      { apply awp_ret. split; [reflexivity|]. split; [exact HJ|]. split; [unfold in_graph; congruence|]. split; [exact Hd|apply ext_refl]. }
      specialize (Hl eq_refl). pose proof (lazy_free _ _ HJ Hn Hl) as Hf. assert (Hab : above s name) by now split.
      apply awp_bind. intros r0 s1 H1. unfold attempt in H1. destruct (spec_or_none E name s) as [[x sx]|] eqn:Es; [|discriminate].
      injection H1 as <- <-. apply spec_found in Es as [He Hx]. pose proof (J_env _ _ HJ He) as HJ1.
      pose proof (env_only_grows _ _ He) as G1. pose proof (grows_above _ _ _ G1 Hab) as Hab1. pose proof (grows_free _ _ _ G1 Hf) as Hf1.
      assert (Hn1 : gfind (s_graph sx) name = None) by (destruct He as (f & c & ->); exact Hn).
      destruct Hx as [(sp & Hfi & ->)|[Hfi Hx]].
      - eapply awp_conseq; [apply awp_load_spec; eassumption|]. cbv beta. intros id s' (-> & A & B & C). do 4 (split; [auto|]).
        apply (ext_trans _ _ sx); [now apply ext_env|exact C].
      - pose proof (awp_create_missing im name sx HJ1 Hd (bi_missing _ _ Hab1 Hf1 Hfi)) as K.
        destruct Hx as [-> | ->].
        + apply awp_bind. intros r1 s2 H2. unfold attempt in H2. destruct (create_missing r im name sx) as [[[id|e] s3]|] eqn:Ec; [| |discriminate].
          * injection H2 as <- <-. destruct (K _ _ Ec) as (-> & A & _ & B & C). apply awp_ret. do 4 (split; [auto|]).
            apply (ext_trans _ _ sx); [now apply ext_env|exact C].
          * now elim (create_missing_ok im name sx e s3 HJ1 Hn1).
        + unfold load_failed. cbn [is_exception negb]. eapply awp_conseq; [exact K|]. cbv beta. intros id s' (-> & A & _ & B & C). do 4 (split; [auto|]).
          apply (ext_trans _ _ sx); [now apply ext_env|exact C].
    Qed.

    (** Entries of the table of implied actions. *)
    Definition popped (s : st) (name : string) (i : implied) : st :=
      log (set_lazy s (filter (fun x => negb (seqb (fst x) name)) (s_lazy s))) (EvImplied name i).
    Lemma popped_grows s name i : grows s (popped s name i).
    Proof. constructor; cbn; first [apply grows_graph_refl|apply incl_refl|now exists []|now exists [EvImplied name i]]. Qed.
    Lemma popped_lazy s name i x : assoc x (s_lazy (popped s name i)) = if seqb x name then None else assoc x (s_lazy s).
    Proof.
      unfold popped. cbn [s_lazy log set_lazy]. induction (s_lazy s) as [|[y j] l IHl]; cbn [filter assoc fst]; [now destruct (seqb x name)|].
      destruct (seqb y name) eqn:Ey; cbn [negb].
      - apply seqb_eq in Ey as ->. rewrite IHl. now destruct (seqb x name).
      - cbn [assoc]. rewrite IHl. destruct (seqb x y) eqn:Exy; [|reflexivity]. apply seqb_eq in Exy as ->. now rewrite Ey.
    Qed.
    (** An entry is used, and a node added for it at once. *)
    Lemma J_popped s s' name i : J s -> assoc name (s_lazy s) = Some i -> above s name ->
      grows (popped s name i) s' -> s_lazy s' = s_lazy (popped s name i) -> s_missing s' = s_missing s -> s_post s' = s_post s ->
      (forall e, In e (s_log s') -> match e with EvImplied _ _ => In e (s_log (popped s name i)) | EvAdd x l => In e (s_log s) \/ added s' x l | _ => True end) ->
      (forall x n', gfind (s_graph s') x = Some n' -> in_graph s x \/ placed s' x n') ->
      (forall a b d, has_edge (s_graph s') a b d -> has_edge (s_graph s) a b d) ->
      (forall w, In w (s_stack s') -> In w (s_stack s)) ->
      (conf_kind i <> None -> in_graph s' name) -> J s'.
    Proof.
      intros HJ Hi Ha G A B C D F K L N. pose proof (grows_trans _ _ _ (popped_grows s name i) G) as G'.
      assert (Ev : In (EvImplied name i) (s_log s')) by (eapply grows_log; [exact G|now left]).
      apply (J_step s); auto.
      - intros x j. rewrite A, popped_lazy. destruct (seqb x name); [discriminate|auto].
      - intros x j Hx. rewrite A, popped_lazy. destruct (seqb x name) eqn:Ex; [|auto]. apply seqb_eq in Ex as ->. right. congruence.
      - intros x j Hx. destruct (D _ Hx) as [Hy|Hy]; [|now left]. injection Hy as <- <-. right.
        split; [now apply (j_lazy _ HJ)|]. split; [eapply grows_above; eassumption|exact N].
      - intros x l Hx. destruct (D _ Hx); auto.
    Qed.
    (** The edge to another module: alias, virtual and excluded modules. *)
    Lemma J_implied_node s name i k : J s -> assoc name (s_lazy s) = Some i -> above s name -> conf_kind i = Some k ->
      gfind (s_graph s) name = None ->
      J (schedule name [] (put_node (popped s name i) (plain_node k name) [])).
    Proof.
      intros HJ Hi Ha Hk Hn. set (s1 := put_node _ _ _).
      assert (G1 : grows (popped s name i) s1) by apply put_node_grows.
      assert (Hb : birth s1 name (plain_node k name) []).
      { apply (bi_conf s1 name i k); [|now apply (j_lazy _ HJ)|exact Hk]. eapply grows_above; [|exact Ha].
        eapply grows_trans; [apply popped_grows|exact G1]. }
      assert (Hg : gfind (s_graph s1) name = Some (plain_node k name)).
      { unfold s1. rewrite put_node_find. cbn [s_graph popped log set_lazy plain_node n_name]. rewrite Hn. unfold seqb. now rewrite String.eqb_refl. }
      apply J_schedule; [|now left]. apply (J_popped s s1 name i); auto.
      - intros e [<-|He].
        + right. cbn [plain_node n_name]. exists (plain_node k name), (plain_node k name). split; [exact Hg|]. split; [exact Hb|]. split; [apply same_node_refl|].
          cbn [plain_node n_kind]. intros ->. destruct i; discriminate Hk.
        + destruct e; auto. left. destruct He as [He|He]; [discriminate|exact He].
      - intros x n'. unfold s1. rewrite put_node_find. cbn [s_graph popped log set_lazy plain_node n_name].
        destruct (gfind (s_graph s) x) as [y|] eqn:Ex; [left; unfold in_graph; congruence|].
        destruct (seqb name x) eqn:Es; [|discriminate]. apply seqb_eq in Es as <-. intros H. injection H as <-. right.
        exists (plain_node k name), []. split; [left; now left|]. split; [exact Hb|apply same_node_refl].
      - intros _. unfold in_graph. rewrite Hg. discriminate.
    Qed.
    Lemma ext_popped o s name i s' : ext o (popped s name i) s' -> (forall refs, i = ImpRefs refs -> refs_paid s' name refs) -> ext o s s'.
    Proof.
      intros [A B (l & C & D)] H. constructor.
      - eapply grows_trans; [apply popped_grows|exact A].
      - exact B.
      - exists (l ++ [EvImplied name i]). split; [rewrite C; cbn; now rewrite <- app_assoc|]. intros x refs K.
        apply in_app_or in K as [K|[K|[]]]; [auto|]. injection K as <- ->. auto.
    Qed.

    Lemma awp_implied_node s name i k t : J s -> assoc name (s_lazy s) = Some i -> above s name ->
      conf_kind i = Some k -> k = AliasNode t \/ k = VirtualNode t ->
      awp (implied_node r k name t) (popped s name i) (fun o s' => o = Some name /\ J s' /\ in_graph s' name /\ ext (Some name) s s').
    Proof.
      intros HJ Hi Ha Hk Ht. unfold implied_node. apply awp_bind, awp_get, awp_bind, awp_assert.
      change (gfind (s_graph (popped s name i)) name) with (gfind (s_graph s) name).
      destruct (gfind (s_graph s) name) eqn:Hn; [discriminate|]. intros _.
      apply awp_bind, awp_node. intros Hn'. apply awp_bind, awp_modify.
      pose proof (J_implied_node s name i k HJ Hi Ha Hk Hn) as HJ1. pose proof (put_kind (popped s name i) (plain_node k name) [] Hn') as K1.
      set (nd := plain_node k name) in *. cbn [n_name n_kind nd plain_node] in K1.
      set (s1 := put_node (popped s name i) nd []) in *.
      apply awp_bind, awp_f_find; [exact HJ1|]. intros s2 HJ2 I2 X2.
      assert (K2 : kind_of s2 name = Some k) by (eapply grows_kind; [apply X2|rewrite schedule_kind; exact K1]).
      apply awp_bind, awp_edge; [exact HJ2| |].
      { intros _ _. apply du_target; [|reflexivity]. rewrite K2. destruct Ht as [-> | ->]; auto. }
      intros s3 HJ3 G3 X3 He. apply awp_ret. split; [reflexivity|]. split; [exact HJ3|].
      assert (K3 : kind_of s3 name = Some k) by (eapply grows_kind; eassumption).
      split; [apply in_kind; eauto|]. apply (ext_popped _ _ name i).
      - apply (ext_put _ _ nd []).
        + eapply ext_trans; [apply ext_schedule|]. eapply ext_trans; [apply ext_weaken, X2|apply X3].
        + cbn [nd plain_node n_name]. constructor.
          * split; [|apply Ha]. rewrite K3. destruct Ht as [-> | ->]; split; discriminate.
          * intros t' Ht'. rewrite K3 in Ht'. replace t' with t; [exact He|]. destruct Ht as [-> | ->], Ht' as [H|H]; congruence.
          * intros a i0 k0 f t' H. rewrite K3 in H. destruct Ht as [-> | ->]; discriminate.
          * now left.
      - intros refs ->. discriminate.
    Qed.
    Lemma awp_refs name refs l s : J s -> plainly s name -> refs_of s name refs -> incl l refs ->
      awp (iter (fun ref => other <- f_find r (Some name) ref true ;; add_edge name other default_dep) l) s
        (fun _ s' => J s' /\ ext None s s' /\ refs_paid s' name l).
    Proof.
      revert s. induction l as [|b l IHl]; intros s HJ Hpl Hr Hl.
      - apply awp_ret. split; [exact HJ|]. split; [apply ext_refl|]. intros b [].
      - cbn [iter]. apply awp_bind, awp_bind, awp_f_find; [exact HJ|]. intros s1 HJ1 I1 X1.
        pose proof (grows_refs_of _ _ _ _ (ex_grows _ _ _ X1) Hr) as Hr1. pose proof (grows_plainly _ _ _ (ex_grows _ _ _ X1) Hpl) as Hpl1.
        apply awp_edge; [exact HJ1| |].
        + intros _ _. apply (du_implied _ _ _ _ refs); [exact Hpl1|exact Hr1|apply Hl; now left|reflexivity].
        + intros s2 HJ2 G2 X2 He. eapply awp_conseq; [apply IHl; [exact HJ2|eapply grows_plainly; eassumption|eapply grows_refs_of; eassumption|intros x Hx; apply Hl; now right]|].
          cbv beta. intros _ s3 (HJ3 & X3 & R3). split; [exact HJ3|]. split.
          * eapply ext_trans; [exact X1|]. eapply ext_trans; [apply X2|exact X3].
          * intros b' [<-|Hb]; [|auto]. eapply grows_edge; [apply X3|exact He].
    Qed.
    Lemma awp_implied_references im name s : J s -> fine_above s name ->
      awp (implied_references r im name) s (fun o s' =>
        (o = None /\ s' = s /\ (gfind (s_graph s) name = None -> assoc name (s_lazy s) = None)) \/
        (o = Some name /\ J s' /\ in_graph s' name /\ ext (Some name) s s')).
    Proof.
      intros HJ Ha. unfold implied_references. apply awp_bind, awp_get. destruct (gfind (s_graph s) name) as [nd|] eqn:Hn.
      { apply awp_ret. left. split; [reflexivity|]. split; [reflexivity|discriminate]. }
      apply awp_bind. intros i0 s1 H1. unfold pop_lazy in H1. destruct (assoc name (s_lazy s)) as [i|] eqn:Hi; injection H1 as <- <-.
      2:{ apply awp_ret. left. auto. }
      assert (Hd : starts_with "." name = false) by (eapply HC, (j_lazy _ HJ), Hi).
      assert (Hab : above s name) by now split.
      change (log (set_lazy s (filter (fun x => negb (seqb (fst x) name)) (s_lazy s))) (EvImplied name i)) with (popped s name i).
      destruct i as [|t|t|refs].
      - apply awp_bind, awp_node. intros Hn'. apply awp_bind, awp_modify, awp_ret. right.
        pose proof (J_implied_node s name ImpNone ExcludedModule HJ Hi Hab eq_refl Hn) as HJ1.
        set (nd := plain_node ExcludedModule name) in *. pose proof (put_kind (popped s name ImpNone) nd [] Hn') as K1. cbn [n_name n_kind nd plain_node] in K1.
        assert (K : kind_of (schedule name [] (put_node (popped s name ImpNone) nd [])) name = Some ExcludedModule) by (rewrite schedule_kind; exact K1).
        split; [reflexivity|]. split; [exact HJ1|]. split; [apply in_kind; eauto|].
        apply (ext_popped _ _ name ImpNone); [|discriminate]. apply (ext_put _ _ nd []); [apply ext_schedule|]. cbn [nd plain_node n_name]. constructor.
        + split; [|exact Hd]. rewrite K. split; discriminate.
        + intros t [H|H]; rewrite K in H; discriminate.
        + intros a i k f t H. rewrite K in H. discriminate.
        + now left.
      - eapply awp_conseq; [apply (awp_implied_node s name _ _ t HJ Hi Hab eq_refl); auto|]. auto.
      - eapply awp_conseq; [apply (awp_implied_node s name _ _ t HJ Hi Hab eq_refl); auto|]. auto.
      - assert (HJ1 : J (popped s name (ImpRefs refs))).
        { apply (J_popped s _ name (ImpRefs refs)); auto; [apply grows_refl| | |].
          - intros e He. destruct e; auto. left. destruct He as [He|He]; [discriminate|exact He].
          - intros x n' Hx. left. unfold in_graph. change (gfind (s_graph s) x = Some n') in Hx. congruence.
          - intros H. now elim H. }
        apply awp_bind, awp_f_find; [exact HJ1|]. intros s2 HJ2 I2 X2.
        assert (Hr : refs_of s2 name refs).
        { eapply grows_refs_of; [apply X2|]. split; [now left|]. split; [|now apply (j_lazy _ HJ)].
          eapply grows_above; [apply popped_grows|exact Hab]. }
        apply awp_bind. assert (Hpl : plainly s2 name).
        { split; [exact I2|]. destruct (ex_nodes _ _ _ X2 _ I2) as [K|K]; [now elim K|]. apply K. }
        eapply awp_conseq; [apply (awp_refs name refs refs s2 HJ2 Hpl Hr (incl_refl _))|]. cbv beta. intros _ s3 (HJ3 & X3 & R3).
        apply awp_ret. right. split; [reflexivity|]. split; [exact HJ3|]. split; [eapply grows_in_graph; [apply X3|exact I2]|].
        apply ext_weaken. apply (ext_popped _ _ name (ImpRefs refs)); [eapply ext_trans; eassumption|]. intros refs' H. injection H as <-. exact R3.
    Qed.

    Lemma awp_find_body im name link s : J s -> awp (find_body r im name link) s
      (fun id s' => id = name /\ J s' /\ in_graph s' name /\ link_ext link name s s').
    Proof.
      intros HJ. unfold find_body. apply awp_bind, awp_find_module. destruct (gfind (s_graph s) name) as [nd|] eqn:Hn.
      { apply awp_ret. split; [reflexivity|]. split; [exact HJ|]. split; [unfold in_graph; congruence|]. left. apply ext_refl. }
      apply awp_bind, awp_of_result. intros [po y] Hs. cbn [fst]. apply awp_bind.
      (* the package, and the node if that is missing or excluded *)
      eapply awp_conseq with (Q := fun x s1 => J s1 /\ (forall c, child_of c name -> fst x = Some c /\ in_graph s1 c) /\ fst x = po /\
        match snd x with
        | None => ext None s s1 /\ fine_above s1 name
        | Some id => id = name /\ in_graph s1 name /\ ext (Some name) s s1
        end).
      { destruct po as [c|].
        2:{ apply awp_ret. cbn [fst snd]. split; [exact HJ|]. pose proof (split_none_no_child name y) as K.
            split; [intros c Hc; now elim (K c Hs)|]. split; [reflexivity|]. split; [apply ext_refl|]. intros c Hc. now elim (K c Hs). }
        pose proof (split_child_of _ _ _ Hs) as Hc. assert (U : forall c', child_of c' name -> c' = c) by (intros c' Hc'; eapply child_of_unique; eassumption).
        apply awp_bind, awp_f_find; [exact HJ|]. intros s1 HJ1 I1 X1. apply in_kind in I1 as (k & Hk).
        assert (Hdots : is_missing k || is_excluded k = true -> starts_with "." name = false).
        { intros Hm. rewrite <- (child_dots _ _ Hc). unfold kind_of in Hk. destruct (gfind (s_graph s1) c) as [nd|] eqn:Ec; [|discriminate].
          injection Hk as Hk. destruct (placed_kind _ _ _ HJ1 Ec) as [[K|[K _]]|[[K _]|[K _]]]; [rewrite K in Hk; subst k; discriminate Hm..|exact K]. }
        assert (Hb : is_missing k || is_excluded k = true -> birth s1 name (plain_node k name) []).
        { intros Hm. eapply bi_below; eauto. }
        apply awp_bind, awp_kind_test. rewrite Hk. destruct (is_missing k) eqn:Em.
        - apply awp_bind. assert (k = MissingModule) as -> by (destruct k; try discriminate Em; reflexivity).
          eapply awp_conseq; [apply (awp_create_missing im name s1 HJ1 (Hdots eq_refl) (Hb eq_refl))|]. cbv beta.
          intros id s2 (-> & HJ2 & K2 & I2 & X2). apply awp_ret. cbn [fst snd]. split; [exact HJ2|].
          split; [intros c' Hc'; rewrite (U c' Hc'); split; [reflexivity|apply in_kind; exists MissingModule; eapply grows_kind; [apply X2|exact Hk]]|].
          split; [reflexivity|]. split; [reflexivity|]. split; [exact I2|]. eapply ext_trans; [apply ext_weaken, X1|exact X2].
        - apply awp_bind, awp_kind_test. rewrite Hk. destruct (is_excluded k) eqn:Ee.
          + assert (k = ExcludedModule) as -> by (destruct k; try discriminate Ee; reflexivity).
            apply awp_bare; [exact HJ1|reflexivity|exact (Hdots eq_refl)|exact (Hb eq_refl)|]. intros s2 HJ2 K2 I2 X2. apply awp_ret. cbn [fst snd].
            split; [exact HJ2|].
            split; [intros c' Hc'; rewrite (U c' Hc'); split; [reflexivity|apply in_kind; exists ExcludedModule; eapply grows_kind; [apply X2|exact Hk]]|].
            split; [reflexivity|]. split; [reflexivity|]. split; [exact I2|]. eapply ext_trans; [apply ext_weaken, X1|exact X2].
          + apply awp_ret. cbn [fst snd]. split; [exact HJ1|].
            split; [intros c' Hc'; rewrite (U c' Hc'); split; [reflexivity|apply in_kind; eauto]|].
            split; [reflexivity|]. split; [exact X1|]. intros c' Hc'. rewrite (U c' Hc'). eauto. }
      cbv beta. intros [parent found] s1 (HJ1 & Hc1 & Hp & H1). cbn [fst snd] in *. subst parent.
      apply awp_bind. eapply awp_conseq with (Q := fun id s2 => id = name /\ J s2 /\ in_graph s2 name /\ grows s1 s2 /\ ext (Some name) s s2).
      { destruct found as [id|].
        { apply awp_ret. destruct H1 as (-> & A & B). do 3 (split; [auto|]). split; [apply grows_refl|exact B]. }
        destruct H1 as [X1 Ha]. apply awp_bind. eapply awp_conseq; [apply (awp_implied_references im name s1 HJ1 Ha)|]. cbv beta.
        intros o s2 [(-> & -> & Hl)|(-> & HJ2 & I2 & X2)].
        - eapply awp_conseq; [apply (gd_load r IH im name s1 HJ1 Ha Hl)|]. cbv beta. intros id s2 (-> & HJ2 & I2 & _ & X2).
          do 3 (split; [auto|]). split; [apply X2|]. eapply ext_trans; [apply ext_weaken, X1|exact X2].
        - apply awp_ret. do 3 (split; [auto|]). split; [apply X2|]. eapply ext_trans; [apply ext_weaken, X1|exact X2]. }
      cbv beta. intros id s2 (-> & HJ2 & I2 & G2 & X2). apply awp_bind, awp_kind_test.
      assert (Hpl : plainly s2 name).
      { split; [exact I2|]. destruct (ex_nodes _ _ _ X2 _ I2) as [K|K]; [now elim K|]. apply K. }
      apply in_kind in I2 as (k & Hk). rewrite Hk. apply awp_bind. destruct po as [c|].
      2:{ apply awp_ret, awp_ret. split; [reflexivity|]. split; [exact HJ2|]. split; [apply Hpl|]. left. apply (ext_parent _ _ name X2).
          intros c Hc. destruct (Hc1 c Hc) as [K _]. discriminate. }
      pose proof (split_child_of _ _ _ Hs) as Hc.
      destruct (link || negb (is_missing k)) eqn:El.
      - apply awp_edge; [exact HJ2| |].
        + intros _ _. now apply du_parent.
        + intros s3 HJ3 G3 X3 He. apply awp_ret. split; [reflexivity|]. split; [exact HJ3|]. split; [eapply grows_in_graph; [exact G3|apply Hpl]|].
          left. apply (ext_parent _ _ name); [eapply ext_trans; [exact X2|apply X3]|]. intros c' Hc'.
          destruct (Hc1 c' Hc') as [K _]. injection K as <-. exact He.
      - apply awp_ret, awp_ret. split; [reflexivity|]. split; [exact HJ2|]. split; [apply Hpl|]. right.
        apply orb_false_iff in El as [-> El]. split; [reflexivity|]. split; [|exact X2]. rewrite Hk. destruct k; try discriminate El. reflexivity.
    Qed.

    (** ** Import statements *)

    Lemma awp_written id names s (Q : unit -> st -> Prop) : J s ->
      (forall s', J s' -> grows s s' -> ext None s s' -> Q tt s') -> awp (add_written id names) s Q.
    Proof.
      intros HJ K. apply awp_modify. pose proof (lift_set_grows s _ (grows_written (s_graph s) id names)) as G.
      assert (B : forall x n', gfind (gadd_written (s_graph s) id names) x = Some n' -> in_graph s x).
      { intros x n' Hx H. rewrite gfind_written, H in Hx. discriminate. }
      apply K; [|exact G|].
      - apply (J_step s); auto. intros x n' Hx. left. exact (B x n' Hx).
      - apply (ext_calm _ _ _ []); auto. intros x Hx. apply in_kind in Hx as (k & Hk). unfold kind_of in Hk.
        destruct (gfind (s_graph (set_graph s (gadd_written (s_graph s) id names))) x) as [n'|] eqn:En; [|discriminate]. exact (B x n' En).
    Qed.
    Lemma awp_process_import nn i s : JW s -> stmt s nn i -> awp (process_import r nn i) s (fun _ s' => JW s').
    Proof.
      intros HW Hst. pose proof (w_inv _ HW) as HJ. destruct Hst as [Hsc (l & Hl & Hil)].
      assert (Hin : in_graph s nn) by exact (added_in _ _ _ (j_added _ HJ _ _ Hl)). assert (Hst : stmt s nn i) by (split; [exact Hsc|now exists l]).
      apply in_kind in Hin as (k & Hk). unfold process_import. apply awp_bind, awp_kind_test. rewrite Hk.
      assert (Hp : pkg_node s nn (is_package k || is_nspkg k)) by (exists k; now split).
      set (b := is_package k || is_nspkg k) in *. pose proof (absolute_name_spec nn b i) as Habs.
      destruct (absolute_name nn b i) as [inv|name].
      - destruct Habs as [Hbe ->]. assert (Hd : starts_with "." (invalid_name i) = true).
        { unfold invalid_name. destruct Hbe as [Hl0 _]. destruct (ii_level i) as [|lv]; [now elim Hl0|]. cbn [repeat_char append].
          rewrite (dot_first dot _ ""). reflexivity. }
        apply awp_bind, awp_find_module, awp_bind. eapply awp_conseq with (Q := fun _ s1 => J s1 /\ grows s s1 /\ JW s1).
        + destruct (gfind (s_graph s) (invalid_name i)) as [o|] eqn:Eo.
          * apply awp_assert. intros _. split; [exact HJ|]. split; [apply grows_refl|exact HW].
          * apply awp_bind, awp_node. intros Hn. set (nd := plain_node InvalidRelativeImport (invalid_name i)) in *.
            assert (HJ1 : J (put_node s nd [])) by (apply J_node; [exact HJ|exact Hn|now apply bi_dots|discriminate]).
            apply awp_sched; [exact HJ1|now left|]. intros HJ2.
            assert (G : grows s (schedule (invalid_name i) [] (put_node s nd []))) by (eapply grows_trans; [apply put_node_grows|apply schedule_grows]).
            split; [exact HJ2|]. split; [exact G|]. constructor; [exact HJ2|..].
            -- intros x Hx. assert (Hx' : in_graph (put_node s nd []) x) by (revert Hx; unfold in_graph; now rewrite schedule_graph).
               apply put_in_graph in Hx' as [Hx'| ->]; [|right; left; split; [exact Hd|rewrite schedule_kind, (put_kind s nd [] Hn); discriminate]]. eapply ok_grows; [exact G|exact Hx'|]. now apply (w_nodes _ HW).
            -- intros x refs Hx. rewrite schedule_log in Hx. destruct Hx as [Hx|[Hx|Hx]]; try discriminate.
               eapply grows_refs_paid; [exact G|]. now apply (w_refs _ HW).
        + cbv beta. intros _ s1 (HJ1 & G1 & HW1). apply awp_edge; [exact HJ1| |].
          * intros _ _. eapply du_beyond; [eapply grows_stmt; eassumption|eapply grows_pkg_node; eassumption|exact Hbe|reflexivity|reflexivity].
          * intros s2 HJ2 G2 X2 He. exact (JW_ext _ _ HW1 HJ2 (X2 None)).
      - apply awp_bind, awp_assert. intros _. apply awp_bind, awp_get, awp_bind, awp_f_find; [exact HJ|]. intros s1 HJ1 I1 X1.
        pose proof (ex_grows _ _ _ X1) as G1. pose proof (JW_ext _ _ HW HJ1 X1) as HW1.
        assert (Hai : aims s1 nn i name) by (exists b; split; [eapply grows_pkg_node; eassumption|exact Habs]).
        pose proof (grows_stmt _ _ _ _ G1 Hst) as Hst1.
        apply awp_bind, awp_edge; [exact HJ1| |].
        + intros _ _. eapply du_import; [exact Hst1|exact Hai|reflexivity].
        + intros s2 HJ2 G2 X2 He. pose proof (JW_ext _ _ HW1 HJ2 (X2 None)) as HW2. unfold insert_work. apply awp_modify.
          set (s3 := set_stack s2 _).
          assert (G3 : grows s2 s3) by (constructor; cbn; first [apply grows_graph_refl|apply incl_refl|now exists []]).
          assert (HJ3 : J s3).
          { apply (J_quiet s2); auto; [intros e He'; now destruct e|]. intros w Hw. unfold s3 in Hw. cbn [s_stack set_stack] in Hw.
            apply in_app_or in Hw as [Hw|[<-|Hw]].
            - left. rewrite <- (firstn_skipn (List.length (s_stack s2) - List.length (s_stack s)) (s_stack s2)). apply in_or_app. now left.
            - right. apply (grows_wk s2); [exact G3|]. split; [eapply grows_stmt; eassumption|eapply grows_aims; eassumption].
            - left. rewrite <- (firstn_skipn (List.length (s_stack s2) - List.length (s_stack s)) (s_stack s2)). apply in_or_app. now right. }
          apply (JW_ext _ _ HW2 HJ3). apply (ext_calm _ _ _ []); auto.
    Qed.

    Lemma awp_process_name nn m i nm s k : JW s -> stmt s nn i -> In nm (ii_names i) ->
      (exists nd, names_of s nn i m nd /\ n_kind nd = k) ->
      awp (process_name r nn m k i nm) s (fun _ s' => JW s' /\ grows s s').
    Proof.
      intros HW Hst Hnm (nd & Hno & Hk). pose proof (w_inv _ HW) as HJ. assert (Hf : gfind (s_graph s) m = Some nd) by (destruct Hno as (m0 & _ & _ & H & _); exact H).
      assert (Hhn : has_names k = true) by (rewrite <- Hk; destruct Hno as (m0 & _ & _ & _ & H & _); exact H).
      unfold process_name. apply awp_bind, awp_get. rewrite Hf. apply awp_bind.
      eapply awp_conseq with (Q := fun known s1 => JW s1 /\ grows s s1 /\ (known = false -> s1 = s /\ is_module k = false)).
      { destruct (memb (in_name nm) (n_written nd)) eqn:Ew.
        - apply awp_bind, awp_get. destruct (option_map snd _) as [t|] eqn:Et.
          + apply reexported_provides in Et. apply awp_bind, awp_edge; [exact HJ| |].
            * intros _ _. apply memb_In in Ew. eapply du_own; eauto.
            * intros s1 HJ1 G1 X1 He. apply awp_ret. split; [exact (JW_ext _ _ HW HJ1 (X1 None))|]. split; [exact G1|discriminate].
          + apply awp_ret. split; [exact HW|]. split; [apply grows_refl|auto].
        - apply awp_ret. split; [exact HW|]. split; [apply grows_refl|auto]. }
      cbv beta. intros known s1 (HW1 & G0 & H1). destruct known; [now apply awp_ret|]. destruct (H1 eq_refl) as [-> Hm]. clear H1 HW1 G0.
      set (sub := (m ++ "." ++ in_name nm)%string).
      apply awp_bind. eapply awp_conseq; [apply (gd_find r IH _ _ _ _ HJ)|]. cbv beta. intros id s1 (-> & HJ1 & I1 & X1).
      apply awp_bind, awp_kind_test, awp_bind, awp_get.
      assert (Hs : forall s', ext (Some sub) s s' -> J s' ->
        (left_over s' m (in_name nm) sub \/ has_edge (s_graph s') sub m default_dep) -> JW s' /\ grows s s').
      { intros s' X HJ' Hx. split; [|apply X]. apply (JW_member s s' sub HW HJ' X). pose proof (ex_grows _ _ _ X) as G.
        destruct (grows_names_of _ _ _ _ _ _ G Hno) as (nd' & (m0 & _ & _ & A & B & _) & _). exists m, (in_name nm), nd'.
        split; [|now split]. exists nn, i, nm. split; [eapply grows_scheduled; [exact G|apply Hst]|]. auto. }
      assert (X1' : ext (Some sub) s s1) by (destruct X1 as [X1|(_ & _ & X1)]; [now apply ext_weaken|exact X1]).
      pose proof (ex_grows _ _ _ X1') as G1.
      destruct (grows_names_of _ _ _ _ _ _ G1 Hno) as (nd1 & Hno1 & S1).
      assert (Hf1 : gfind (s_graph s1) m = Some nd1) by (destruct Hno1 as (m0 & _ & _ & H & _); exact H).
      assert (Hk1 : n_kind nd1 = k) by (destruct S1 as (_ & S1 & _); congruence).
      pose proof (grows_stmt _ _ _ _ G1 Hst) as Hst1.
      assert (Hif : imported_from s1 m (in_name nm) nd1).
      { exists nn, i, nm. split; [apply Hst1|]. repeat split; auto. now rewrite Hk1. }
      apply in_kind in I1 as (k1 & Ek1). rewrite Ek1, Hf1.
      assert (Hlink : (is_missing k1 && (is_package k && memb (in_name nm) (n_written nd1)) = false) ->
        awp (do add_edge sub m default_dep ;; add_edge nn sub (name_dep i nm)) s1 (fun _ s' => JW s' /\ grows s s')).
      { intros Hg. apply awp_bind, awp_edge; [exact HJ1| |].
        - intros _ _. eapply du_member; [exact Hif|reflexivity|reflexivity].
        - intros s2 HJ2 G2 X2 He2. apply awp_edge; [exact HJ2| |].
          + intros _ _. destruct (grows_names_of _ _ _ _ _ _ G2 Hno1) as (nd2 & Hno2 & S2).
            eapply du_name; [eapply grows_stmt; eassumption|exact Hno2| |exact Hnm|reflexivity| |reflexivity].
            * destruct S2 as (_ & S2 & _). congruence.
            * intros P1 P2. exists k1. split; [eapply grows_kind; eassumption|]. destruct (is_missing k1); [|reflexivity].
              replace (is_package k) with true in Hg by (destruct S2 as (_ & S2 & _); congruence).
              assert (P3 : In (in_name nm) (n_written nd1)) by (apply (binds_written _ _ _ _ HJ1 Hf1 P2); now rewrite Hk1). apply memb_In in P3. rewrite P3 in Hg. discriminate.
          + intros s3 HJ3 G3 X3 He3. apply Hs; [|exact HJ3|right; eapply grows_edge; eassumption].
            eapply ext_trans; [exact X1'|]. eapply ext_trans; [apply X2|apply X3]. }
      assert (Hsix : match k with Package _ init _ _ _ => seqb init "@@SIX_MOVES@@" | _ => false end = false).
      { destruct k; try reflexivity. exact (no_six _ _ _ _ _ _ _ _ HJ Hf Hk). }
      rewrite Hsix, andb_false_r. destruct (is_missing k1) eqn:Em; [|exact (Hlink eq_refl)].
      destruct (is_package k && memb (in_name nm) (n_written nd1)) eqn:Ep; [|exact (Hlink eq_refl)].
      apply andb_true_iff in Ep as [Ep Ew]. apply awp_ret. apply Hs; [exact X1'|exact HJ1|]. left. exists nd1. split; [exact Hif|].
      split; [split; [now rewrite Hk1|left; now apply memb_In]|]. split; [now left|]. rewrite Ek1. destruct k1; try discriminate Em. reflexivity.
    Qed.
    Lemma awp_names nn m i k l s : JW s -> stmt s nn i -> incl l (ii_names i) ->
      (exists nd, names_of s nn i m nd /\ n_kind nd = k) -> awp (iter (process_name r nn m k i) l) s (fun _ s' => JW s').
    Proof.
      revert s. induction l as [|nm l IHl]; intros s HW Hst Hl Hno; [now apply awp_ret|]. cbn [iter]. apply awp_bind.
      eapply awp_conseq; [apply awp_process_name; [exact HW|exact Hst|apply Hl; now left|exact Hno]|]. cbv beta. intros u s1 [HW1 G1].
      apply IHl; [exact HW1|eapply grows_stmt; eassumption|intros x Hx; apply Hl; now right|].
      destruct Hno as (nd & A & B). destruct (grows_names_of _ _ _ _ _ _ G1 A) as (nd' & A' & S). exists nd'. split; [exact A'|].
      destruct S as (_ & S & _). congruence.
    Qed.
    Lemma awp_process_namelist nn m i s : JW s -> stmt s nn i -> aims s nn i m -> awp (process_namelist r nn m i) s (fun _ s' => JW s').
    Proof.
      intros HW Hst Ha. pose proof (w_inv _ HW) as HJ. unfold process_namelist. apply awp_bind, awp_kind_test, awp_bind, awp_assert. intros _.
      apply awp_bind, awp_get. destruct (ii_star i) eqn:Est.
      { destruct (gfind (s_graph s) m) as [x|]; [|now apply awp_ret]. destruct (_ || _); [|now apply awp_ret].
        apply awp_written; [exact HJ|]. intros s1 HJ1 G1 X1. exact (JW_ext _ _ HW HJ1 X1). }
      destruct (ii_names i) as [|nm0 names] eqn:En; [now apply awp_ret|]. rewrite <- En.
      destruct (gfind (s_graph s) m) as [x|] eqn:Ex; [|now apply awp_ret].
      (* the names of a module [m'] *)
      assert (K : forall m' y s1, JW s1 -> grows s s1 -> (m' = m \/ kind_of s1 m = Some (AliasNode m')) -> gfind (s_graph s1) m' = Some y ->
        awp (if is_package (n_kind y) || is_nspkg (n_kind y) || is_module (n_kind y) then
               do add_written nn (map in_name (ii_names i)) ;; iter (process_name r nn m' (n_kind y) i) (ii_names i) else ret tt) s1 (fun _ s' => JW s')).
      { intros m' y s1 HW1 G1 Hm Hy. destruct (_ || _ || _) eqn:Eh; [|now apply awp_ret].
        apply awp_bind, awp_written; [apply HW1|]. intros s2 HJ2 G2 X2. pose proof (JW_ext _ _ HW1 HJ2 X2) as HW2.
        pose proof (grows_trans _ _ _ G1 G2) as G. apply awp_names; [exact HW2|eapply grows_stmt; [exact G|exact Hst]|apply incl_refl|].
        apply (gr_nodes _ _ (gw_graph _ _ G2)) in Hy as (y' & Hy' & S). destruct S as (_ & S & _). exists y'. split; [|exact S].
        exists m. split; [eapply grows_aims; [exact G|exact Ha]|]. split; [destruct Hm as [Hm|Hm]; [now left|right; eapply grows_kind; [exact G2|exact Hm]]|].
        split; [exact Hy'|]. split; [now rewrite S|exact Est]. }
      assert (K0 : awp (if is_package (n_kind x) || is_nspkg (n_kind x) || is_module (n_kind x) then
               do add_written nn (map in_name (ii_names i)) ;; iter (process_name r nn m (n_kind x) i) (ii_names i) else ret tt) s (fun _ s' => JW s')).
      { apply K; [exact HW|apply grows_refl|now left|exact Ex]. }
      rewrite En in K0 |- *. destruct (n_kind x) as [|mk| |b i0 k f t| | | |t|t|] eqn:Ek; try exact K0.
      apply awp_bind, awp_written; [exact HJ|]. intros s1 HJ1 G1 X1. apply awp_bind, awp_find_module.
      destruct (gfind (s_graph s1) t) as [y|] eqn:Ey; [|apply awp_raise]. rewrite <- En.
      apply K; [exact (JW_ext _ _ HW HJ1 X1)|exact G1| |exact Ey]. right. eapply grows_kind; [exact G1|]. unfold kind_of. now rewrite Ex, <- Ek.
    Qed.

    (** ** The loop *)

    Lemma awp_do_work w s : JW s -> wk s w -> awp (do_work E r w) s (fun _ s' => JW s').
    Proof.
      intros HW Hw. destruct w as [x|x i|x m i|x p]; cbn [do_work wk] in *.
      - apply awp_bind, awp_modify. assert (HJ1 : J (log s (EvHook x))) by (apply J_note; [apply HW|intros; discriminate..]).
        eapply awp_conseq; [apply (gd_post r IH 0 x _ HJ1)|]. cbv beta. intros _ s' ->.
        apply (JW_ext _ _ HW HJ1). apply ext_log. discriminate.
      - now apply awp_process_import.
      - now apply awp_process_namelist.
      - contradiction.
    Qed.
    Lemma awp_run_body s : JW s -> awp (run_body E r) s (fun _ s' => JW s').
    Proof.
      intros HW u s' H. pose proof (w_inv _ HW) as HJ. unfold run_body in H. destruct (s_stack s) as [|w rest] eqn:Es; [now injection H as <- <-|].
      set (s1 := log (set_run (set_stack s rest) (w :: s_run s)) (EvPop w)) in *.
      assert (G1 : grows s s1) by (constructor; cbn; first [apply grows_graph_refl|apply incl_refl|now exists []|now exists [EvPop w]]).
      assert (HJ1 : J s1).
      { apply (J_quiet s); auto.
        - intros e [<-|He]; [exact Logic.I|now destruct e].
        - intros w' Hw'. left. rewrite Es. now right. }
      assert (HW1 : JW s1).
      { apply (JW_ext _ _ HW HJ1). apply (ext_calm _ _ _ [EvPop w]); auto. intros x refs [K|[]]. discriminate. }
      assert (Hw : wk s1 w) by (apply (grows_wk s); [exact G1|]; apply (j_stack _ HJ); rewrite Es; now left).
      destruct (do_work E r w s1) as [[[x|e] s2]|] eqn:Ew; [|discriminate..].
      pose proof (awp_do_work w s1 HW1 Hw _ _ Ew) as HW2. set (s3 := log (set_run s2 (tl (s_run s2))) (EvDone w)) in *.
      assert (G3 : grows s2 s3) by (constructor; cbn; first [apply grows_graph_refl|apply incl_refl|now exists []|now exists [EvDone w]]).
      assert (HJ3 : J s3).
      { apply (J_quiet s2); auto; [apply HW2|]. intros e [<-|He]; [exact Logic.I|now destruct e]. }
      apply (gd_run r IH s3) with (a := u); [|exact H].
      apply (JW_ext _ _ HW2 HJ3). apply (ext_calm _ _ _ [EvDone w]); auto. intros y refs [K|[]]. discriminate.
    Qed.
    Lemma good_step : good (exec E (S n)).
    Proof.
      constructor; cbn [exec f_find f_load f_run f_post f_miss].
      - intros. now apply awp_find_body.
      - intros. now apply awp_load_body.
      - intros. now apply awp_run_body.
      - intros i x s HJ u s' H. unfold post_body, bind, gets in H. rewrite (j_post _ HJ) in H. destruct i; now injection H as <- <-.
      - intros i im name s res s' Hm H. unfold miss_body, bind, gets in H. rewrite Hm in H. destruct i; now injection H as <- <-.
    Qed.
  End step.

  Lemma good_exec n : good (exec E n).
  Proof.
    induction n as [|n IH]; [|now apply good_step]. constructor; cbn [exec no_fuel f_find f_load f_run f_post f_miss].
    - intros. apply awp_oof.
    - intros. apply awp_oof.
    - intros. apply awp_oof.
    - intros. apply awp_oof.
    - intros. discriminate.
  Qed.

  (** ** Calls *)

  Section calls.
    Variable n : nat.
    Let r := exec E n.
    Let IH : good r := good_exec n.

    Lemma JW_root s id : JW s -> awp (add_root id) s (fun _ s' => JW s').
    Proof.
      intros HW u s' H. unfold add_root, lift_graph in H. destruct (gadd_root (s_graph s) id) as [g|e] eqn:Eg; [|discriminate].
      injection H as <- <-. assert (Hg : g_nodes g = g_nodes (s_graph s) /\ g_edges g = g_edges (s_graph s) /\ grows_graph (s_graph s) g).
      { split; [|split]; unfold gadd_root in Eg; destruct (ghas _ _); try discriminate Eg; injection Eg as <-; try reflexivity. apply grows_add_root. }
      destruct Hg as (N & D & G). pose proof (lift_set_grows s g G) as G1.
      assert (Hi : forall x, gfind g x = gfind (s_graph s) x) by (intros x; unfold gfind; now rewrite N).
      assert (HJ1 : J (set_graph s g)).
      { apply (J_step s); auto; [apply HW| |].
        - intros x n' Hx. left. cbn [s_graph set_graph] in Hx. rewrite Hi in Hx. unfold in_graph. congruence.
        - intros a b d (ds & H1 & H2). left. exists ds. cbn [s_graph set_graph] in H1. rewrite D in H1. now split. }
      apply (JW_ext _ _ HW HJ1). apply (ext_calm _ _ _ []); auto. intros x. unfold in_graph. cbn [s_graph set_graph]. now rewrite Hi.
    Qed.
    Lemma JW_note s e : JW s -> (forall x i, e <> EvImplied x i) -> (forall x l, e <> EvAdd x l) -> JW (log s e).
    Proof.
      intros HW A B. apply (JW_ext _ _ HW); [apply J_note; [apply HW|exact A|exact B]|]. apply ext_log. intros x refs. apply A.
    Qed.
    Lemma JW_rooted s id : JW s -> awp (do note (EvRoot id) ;; do add_root id ;; do f_run r ;; ret id) s (fun _ s' => JW s').
    Proof.
      intros HW. apply awp_bind, awp_modify. assert (HW1 : JW (log s (EvRoot id))) by (apply JW_note; [exact HW|intros; discriminate..]).
      apply awp_bind. eapply awp_conseq; [apply (JW_root _ id HW1)|]. cbv beta. intros _ s2 HW2. apply awp_bind.
      eapply awp_conseq; [apply (gd_run r IH _ HW2)|]. cbv beta. intros _ s3 HW3. now apply awp_ret.
    Qed.
    Lemma JW_add_script path s : JW s -> awp (add_script E r path) s (fun _ s' => JW s').
    Proof.
      intros HW. unfold add_script. apply awp_bind, awp_find_module. destruct (gfind (s_graph s) path); [apply awp_raise|].
      apply awp_bind. intros tree s1 H1. unfold askr in H1. injection H1 as Ht <-. 
      assert (He : env_only s (tick s)) by (now eexists _, _). pose proof (J_env _ _ (w_inv _ HW) He) as HJ1.
      pose proof (JW_ext _ _ HW HJ1 (ext_env _ _ _ He)) as HW1.
      destruct (extract_ast_info (e_names_order E) tree) as [l|] eqn:El; [|apply awp_oof].
      apply awp_bind, awp_node. intros Hn. set (nd := Node path Script [] [] None (Some path) [] false) in *.
      assert (HJ2 : J (put_node (tick s) nd l)) by (apply J_node; [exact HJ1|exact Hn|eapply bi_script; eassumption|discriminate]).
      pose proof (put_kind (tick s) nd l Hn) as K2. cbn [nd n_name n_kind] in K2.
      assert (G2 : grows (tick s) (put_node (tick s) nd l)) by apply put_node_grows.
      assert (HW2 : JW (put_node (tick s) nd l)).
      { constructor; [exact HJ2|..].
        - intros x Hx. apply put_in_graph in Hx as [Hx| ->]; [|left; left; exact K2]. eapply ok_grows; [exact G2|exact Hx|]. now apply (w_nodes _ HW1).
        - intros x refs [Hx|Hx]; [discriminate|]. eapply grows_refs_paid; [exact G2|]. now apply (w_refs _ HW1). }
      apply awp_bind, awp_sched; [exact HJ2|now left|]. intros HJ3. apply JW_rooted. apply (JW_ext _ _ HW2 HJ3), ext_schedule.
    Qed.
    Lemma JW_add_module name s : JW s -> awp (add_module r name) s (fun _ s' => JW s').
    Proof.
      intros HW. unfold add_module. apply awp_bind, awp_find_module, awp_bind.
      eapply awp_conseq with (Q := fun _ s1 => JW s1); [|cbv beta; intros id s1 HW1; now apply JW_rooted].
      destruct (gfind (s_graph s) name); [now apply awp_ret|]. apply (awp_f_find n IH); [apply HW|]. intros s1 HJ1 _ X1. exact (JW_ext _ _ HW HJ1 X1).
    Qed.
    Lemma JW_add_source text s : JW s -> awp (add_source E r text) s (fun _ s' => JW s').
    Proof.
      intros HW. unfold add_source. apply awp_bind. intros tree s1 H1. unfold askr in H1. injection H1 as Ht <-. 
      assert (He : env_only s (tick s)) by (now eexists _, _). pose proof (J_env _ _ (w_inv _ HW) He) as HJ1.
      pose proof (JW_ext _ _ HW HJ1 (ext_env _ _ _ He)) as HW1.
      destruct (extract_ast_info (e_names_order E) tree) as [l|] eqn:El; [|apply awp_oof].
      apply (awp_iter _ JW); [|exact HW1]. intros i s2 _ HW2. apply awp_bind. eapply awp_conseq; [apply JW_add_module; exact HW2|].
      cbv beta. intros _ s3 HW3. apply (awp_iter _ JW); [|exact HW3]. intros nm s4 _ HW4. apply awp_bind.
      eapply awp_conseq; [apply JW_add_module; exact HW4|]. cbv beta. intros _ s5 HW5. now apply awp_ret.
    Qed.
    (** A distribution: its node is not scheduled. *)
    Definition put_plain (s : st) (x : node) : st :=
      set_graph s (Graph (g_nodes (s_graph s) ++ [x]) (g_edges (s_graph s)) (g_roots (s_graph s))).
    Definition dist_node (d : dist) : node := Node (dist_identifier d) Distribution [] [] (Some d) None [] false.
    Lemma put_plain_find s x y : gfind (s_graph (put_plain s x)) y =
      match gfind (s_graph s) y with Some z => Some z | None => if seqb (n_name x) y then Some x else None end.
    Proof. exact (put_node_find s x [] y). Qed.
    Lemma J_dist s d : J s -> DS d -> gfind (s_graph s) (dist_identifier d) = None -> J (put_plain s (dist_node d)).
    Proof.
      intros HJ Hd Hn. pose proof (lift_set_grows s _ (grows_add_node (s_graph s) (dist_node d))) as G. apply (J_step s); auto.
      intros x n'. change (gfind (s_graph (put_plain s (dist_node d))) x = Some n' -> in_graph s x \/ placed (put_plain s (dist_node d)) x n').
      rewrite put_plain_find. unfold in_graph. destruct (gfind (s_graph s) x) as [y|] eqn:Ex; [left; congruence|].
      destruct (seqb (n_name (dist_node d)) x) eqn:Es; [|discriminate]. apply seqb_eq in Es as <-. intros H. injection H as <-. right.
      exists (dist_node d), []. split; [now right|]. split; [now apply bi_dist|apply same_node_refl].
    Qed.
    Lemma dist_edges d l s : J s -> gfind (s_graph s) (dist_identifier d) <> None -> 
      (forall nd, gfind (s_graph s) (dist_identifier d) = Some nd -> n_kind nd = Distribution /\ n_dist nd = Some d) ->
      incl l (dist_import_names d) ->
      awp (iter (fun name => m <- f_find r None name true ;; add_edge (dist_identifier d) m default_dep) l) s
        (fun _ s' => J s' /\ ext None s s' /\ forall b, In b l -> has_edge (s_graph s') (dist_identifier d) b default_dep).
    Proof.
      revert s. induction l as [|b l IHl]; intros s HJ Hi Hk Hl.
      - apply awp_ret. split; [exact HJ|]. split; [apply ext_refl|]. intros b [].
      - assert (P : forall s', grows s s' -> gfind (s_graph s') (dist_identifier d) <> None /\
            forall nd, gfind (s_graph s') (dist_identifier d) = Some nd -> n_kind nd = Distribution /\ n_dist nd = Some d).
        { intros s' G. split; [exact (grows_in_graph _ _ _ G Hi)|]. intros nd Hnd.
          destruct (node_back _ _ _ _ G Hi Hnd) as (n0 & N1 & _ & S2 & _ & S4 & _). destruct (Hk _ N1). split; congruence. }
        cbn [iter]. apply awp_bind, awp_bind, (awp_f_find n IH); [exact HJ|]. intros s1 HJ1 I1 X1.
        apply awp_edge; [exact HJ1| |].
        + intros _ _. destruct (P s1 (ex_grows _ _ _ X1)) as [P1 P2]. destruct (gfind (s_graph s1) (dist_identifier d)) as [nd|] eqn:En; [|now elim P1].
          destruct (P2 _ eq_refl) as [Q1 Q2]. eapply du_dist; [exact En|exact Q1|exact Q2|apply Hl; now left|reflexivity].
        + intros s2 HJ2 G2 X2 He. destruct (P s2 (grows_trans _ _ _ (ex_grows _ _ _ X1) G2)) as [P1 P2].
          eapply awp_conseq; [apply (IHl s2 HJ2 P1 P2); intros x Hx; apply Hl; now right|].
          cbv beta. intros _ s3 (HJ3 & X3 & R3). split; [exact HJ3|]. split.
          * eapply ext_trans; [exact X1|]. eapply ext_trans; [apply X2|exact X3].
          * intros b' [<-|Hb]; [|auto]. eapply grows_edge; [apply X3|exact He].
    Qed.
    Lemma J_root s id : J s -> awp (add_root id) s (fun _ s' => J s' /\ grows s s' /\ s_log s' = s_log s /\ forall x, gfind (s_graph s') x = gfind (s_graph s) x).
    Proof.
      intros HJ a s' H. unfold add_root, lift_graph in H. destruct (gadd_root (s_graph s) id) as [g|e] eqn:Eg; [|discriminate].
      injection H as <- <-. assert (Hg : g_nodes g = g_nodes (s_graph s) /\ g_edges g = g_edges (s_graph s) /\ grows_graph (s_graph s) g).
      { split; [|split]; unfold gadd_root in Eg; destruct (ghas _ _); try discriminate Eg; injection Eg as <-; try reflexivity. apply grows_add_root. }
      destruct Hg as (N & D & G). pose proof (lift_set_grows s g G) as G1.
      assert (Hi : forall x, gfind g x = gfind (s_graph s) x) by (intros x; unfold gfind; now rewrite N).
      split; [|split; [exact G1|split; [reflexivity|exact Hi]]]. apply (J_step s); auto.
      - intros x n' Hx. left. cbn [s_graph set_graph] in Hx. rewrite Hi in Hx. unfold in_graph. congruence.
      - intros b c d (ds & H1 & H2). left. exists ds. cbn [s_graph set_graph] in H1. rewrite D in H1. now split.
    Qed.
    Lemma JW_add_distribution d s : order_ok E -> DS d -> JW s -> awp (add_distribution E r d) s (fun _ s' => JW s').
    Proof.
      intros Ho Hd HW. unfold add_distribution. apply awp_bind. intros f s0 H0. unfold get_node, gets in H0. injection H0 as <- <-.
      destruct (gfind (s_graph s) (dist_identifier d)) as [nd|] eqn:Hn.
      { apply awp_bind, awp_assert. intros _. now apply awp_ret. }
      apply awp_bind. intros u s1 H1. change (Node (dist_identifier d) Distribution [] [] (Some d) None [] false) with (dist_node d) in H1.
      assert (s1 = put_plain s (dist_node d)) as ->.
      { unfold user_add_node, lift_graph, gadd_node, ghas in H1. cbn [n_name dist_node] in H1. rewrite Hn in H1. now injection H1 as _ <-. }
      clear H1 u. pose proof (J_dist s d (w_inv _ HW) Hd Hn) as HJ1. set (s1 := put_plain s (dist_node d)) in *.
      assert (G1 : grows s s1) by exact (lift_set_grows s _ (grows_add_node (s_graph s) (dist_node d))).
      apply awp_bind, awp_modify. assert (HJ2 : J (log s1 (EvRoot (dist_identifier d)))) by (apply J_note; [exact HJ1|intros; discriminate..]).
      apply awp_bind. eapply awp_conseq; [apply (J_root _ (dist_identifier d) HJ2)|]. cbv beta. intros _ s2 (HJ3 & G3 & L3 & F3).
      assert (F : forall x, gfind (s_graph s2) x = match gfind (s_graph s) x with Some z => Some z | None => if seqb (dist_identifier d) x then Some (dist_node d) else None end).
      { intros x. rewrite F3. apply (put_plain_find s (dist_node d)). }
      assert (Fd : gfind (s_graph s2) (dist_identifier d) = Some (dist_node d)).
      { rewrite F, Hn. now rewrite (proj2 (seqb_eq _ _) eq_refl). }
      assert (G2 : grows s s2) by (eapply grows_trans; [exact G1|]; eapply grows_trans; [apply log_grows|exact G3]).
      apply awp_bind. eapply awp_conseq; [apply (dist_edges d _ s2 HJ3)|].
      { congruence. }
      { rewrite Fd. intros x Hx. injection Hx as <-. now split. }
      { intros x Hx. now apply Ho. }
      cbv beta. intros _ s4 (HJ4 & [X1 X2 (l & X3 & X4)] & Hb).
      assert (HW4 : JW s4).
      { constructor; [exact HJ4|..].
        - intros x Hx. destruct (X2 x Hx) as [K|K]; [|right; right; now left].
          unfold in_graph in K. rewrite F in K. destruct (gfind (s_graph s) x) as [z|] eqn:Ex.
          + assert (Ix : in_graph s x) by (unfold in_graph; congruence). eapply ok_grows; [exact (grows_trans _ _ _ G2 X1)|exact Ix|now apply (w_nodes _ HW)].
          + destruct (seqb (dist_identifier d) x) eqn:Es; [|now elim K]. apply seqb_eq in Es as <-. left. right.
            destruct (gr_nodes _ _ (gw_graph _ _ X1) _ _ Fd) as (nd & A & S). destruct S as (_ & S2 & _ & S4 & _).
            exists nd, d. split; [exact A|]. split; [exact S2|]. split; [exact S4|]. intros b K0. apply Hb, Ho, K0.
        - intros x refs Hx. rewrite X3 in Hx. apply in_app_or in Hx as [Hx|Hx]; [auto|]. rewrite L3 in Hx. destruct Hx as [Hx|Hx]; [discriminate|].
          eapply grows_refs_paid; [exact (grows_trans _ _ _ G2 X1)|]. now apply (w_refs _ HW). }
      apply awp_bind. eapply awp_conseq; [apply (gd_run r IH _ HW4)|]. cbv beta. intros _ s5 HW5. now apply awp_ret.
    Qed.
    Lemma JW_action a s : JW s -> root_action a -> awp (do_action E r a) s (fun _ s' => JW s').
    Proof.
      intros HW Ha. destruct a; try contradiction Ha; cbn [do_action].
      - now apply awp_get.
      - apply awp_bind. eapply awp_conseq; [apply JW_add_script; exact HW|]. cbv beta. intros. now apply awp_ret.
      - apply awp_bind. eapply awp_conseq; [apply JW_add_module; exact HW|]. cbv beta. intros. now apply awp_ret.
      - apply awp_bind. eapply awp_conseq; [apply JW_add_source; exact HW|]. cbv beta. intros. now apply awp_ret.
    Qed.
    Lemma JW_daction a s : order_ok E -> JW s -> dist_action E DS a -> awp (do_action E r a) s (fun _ s' => JW s').
    Proof.
      intros Ho HW Ha. destruct a; try contradiction Ha; cbn [do_action dist_action] in *.
      - apply awp_bind. eapply awp_conseq; [apply JW_add_distribution; [exact Ho|exact Ha|exact HW]|]. cbv beta. intros. now apply awp_ret.
      - apply awp_bind. eapply awp_conseq with (Q := fun _ s1 => JW s1); [|cbv beta; intros; now apply awp_ret].
        unfold add_distribution_named. apply awp_bind. intros o s1 H1. unfold askr in H1. injection H1 as Ht <-.
        assert (He : env_only s (tick s)) by (now eexists _, _). pose proof (J_env _ _ (w_inv _ HW) He) as HJ1.
        destruct o as [d|]; [|apply awp_raise]. apply JW_add_distribution; [exact Ho|eapply Ha; exact Ht|].
        exact (JW_ext _ _ HW HJ1 (ext_env _ _ _ He)).
    Qed.
  End calls.

  Lemma JW_call fuel a s ans s' : JW s -> root_action a \/ (order_ok E /\ dist_action E DS a) ->
    top_call E fuel a s = Some (ans, s') -> (forall e, ans <> AnsErr e) -> JW s'.
  Proof.
    intros HW Ha H He. unfold top_call, call, bind, attempt in H. destruct (do_action E (exec E fuel) a s) as [[[x|e] s1]|] eqn:Ed; [| |discriminate].
    - injection H as <- <-. destruct Ha as [Ha|[Ho Ha]]; [exact (JW_action fuel a s HW Ha _ _ Ed)|exact (JW_daction fuel a s Ho HW Ha _ _ Ed)].
    - unfold note, modify, ret in H. injection H as <- <-. now elim (He e).
  Qed.
  Lemma opening_new implies s : opening E implies s -> s_graph s = empty_graph /\ s_stack s = [] /\ s_post s = [] /\ s_missing s = []
    /\ (forall e, In e (s_log s) -> exists l, e = EvConf l).
  Proof.
    intros H. induction H as [|s fuel names ans s' H IH K He|s fuel l ans s' H IH K He]; [cbn; repeat split; intros e []|..];
      cbn in K; injection K as <- <-; destruct IH as (A & B & C & D & F); cbn; repeat split; auto; intros e [<-|Hx]; eauto.
  Qed.
  Lemma opening_JW implies s : opening E implies s -> s_lazy s = conf -> JW s.
  Proof.
    intros H Hc. apply opening_new in H as (A & B & C & D & F).
    assert (N : forall x, gfind (s_graph s) x = None) by (intros x; now rewrite A).
    assert (V : forall e, In e (s_log s) -> match e with EvAdd _ _ | EvImplied _ _ => False | _ => True end).
    { intros e Hx. destruct (F e Hx) as [l ->]. exact Logic.I. }
    constructor; [constructor|..]; auto.
    - intros x nd Hx. rewrite N in Hx. discriminate.
    - now rewrite Hc.
    - rewrite Hc. auto.
    - intros x i Hx. now apply V in Hx.
    - intros a b d (ds & Hx & _). rewrite A in Hx. destruct Hx.
    - rewrite B. intros w [].
    - intros x l Hx. now apply V in Hx.
    - intros x Hx. now elim Hx.
    - intros x refs Hx. now apply V in Hx.
  Qed.
  Lemma dsession_JW implies s : order_ok E -> dsession E DS implies conf s -> JW s.
  Proof.
    intros Ho H. induction H as [s H Hc|s fuel a ans s' H IH Ha Hk He]; [eapply opening_JW; eassumption|]. eapply JW_call; [exact IH| |exact Hk|exact He].
    destruct Ha; auto.
  Qed.
End same.
