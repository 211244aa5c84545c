(** Every node that the builder adds is tied to a root or to another node. *)
From Verif Require Export BuilderClose ReachSpec.

Lemma leads_trans g a b c : leads g a b -> leads g b c -> leads g a c.
Proof. intros H K. induction K as [|b' c d K IH He]; [exact H|]. eapply leads_edge; eassumption. Qed.
Lemma grows_leads s s' a b : grows s s' -> leads (s_graph s) a b -> leads (s_graph s') a b.
Proof. intros G H. induction H as [|b c d H IH He]; [constructor|]. eapply leads_edge; [exact IH|]. eapply grows_edge; eassumption. Qed.

Lemma grows_from s s' m x nd : grows s s' -> imported_from s m x nd ->
  exists nd', imported_from s' m x nd' /\ (own_name nd x -> own_name nd' x).
Proof.
  intros G (n & i & nm & A & B & C & D & F).
  apply (gr_nodes _ _ (gw_graph _ _ G)) in D as (nd' & D & S). exists nd'. destruct S as (S1 & S2 & _ & _ & _ & _ & _ & S8). split.
  - exists n, i, nm. split; [eapply grows_scheduled; eassumption|]. do 3 (split; [assumption|]). congruence.
  - intros [F' H]. split; [congruence|]. destruct H as [H|(b & k & f & ty & t & H1 & H2)]; [left; now apply S8|right].
    exists b, k, f, ty, t. split; [congruence|exact H2].
Qed.
Lemma grows_left s s' m x id : grows s s' -> left_over s m x id -> left_over s' m x id.
Proof.
  intros G (nd & A & O & B & C). destruct (grows_from _ _ _ _ _ G A) as (nd' & A' & O'). exists nd'.
  split; [exact A'|]. split; [auto|]. split; [eapply grows_resolves; eassumption|eapply grows_kind; eassumption].
Qed.
Lemma grows_busy s s' id : grows s s' -> busy s id -> busy s' id.
Proof.
  intros G [[i H]|[x H]]; [left; exists i; eapply grows_scheduled; eassumption|right; exists x; eapply grows_log; eassumption].
Qed.
Lemma grows_loose s s' id : grows s s' -> loose s id -> loose s' id.
Proof.
  intros G [x H|m x refs id' A B|m x id' A B|m x nd c p A B C D|x H|n x l l' A B].
  - apply loose_root. now apply (gr_roots _ _ (gw_graph _ _ G)).
  - eapply loose_implied; [eapply grows_left; eassumption|eapply grows_log; eassumption].
  - eapply loose_busy; [eapply grows_left; eassumption|eapply grows_busy; eassumption].
  - destruct (grows_from _ _ _ _ _ G A) as (nd' & A' & O').
    eapply loose_package; [exact A'|exact B|exact C|eapply grows_resolves; eassumption].
  - apply loose_given. eapply grows_log; eassumption.
  - destruct (gw_log _ _ G) as [k K]. eapply (loose_early _ n x (k ++ l) l'); [|exact B]. now rewrite K, A, app_assoc.
Qed.

(** ** Tied nodes *)

(** [n] can be reached from [A] or from a loose node, unless there was an exception. *)
Definition firm (A : string -> Prop) (s : st) (n : string) : Prop :=
  In EvErr (s_log s) \/ exists b, (A b \/ loose s b) /\ leads (s_graph s) b n.
Definition stub (s : st) (n : string) : Prop := exists m x, left_over s m x n.
Definition tied (A : string -> Prop) (s : st) (n : string) : Prop := firm A s n \/ stub s n.
Definition held (A : string -> Prop) (s : st) : Prop := forall n, in_graph s n -> tied A s n.
(** The same for all nodes but [id]. *)
Definition alone (id : string) (A : string -> Prop) (s : st) : Prop := forall n, in_graph s n -> n = id \/ tied A s n.
Definition plus (b : string) (A : string -> Prop) : string -> Prop := fun x => x = b \/ A x.

(** More, but no new nodes. *)
Definition calm (s s' : st) : Prop := grows s s' /\ forall n, in_graph s' n -> in_graph s n.

Lemma grows_firm A s s' n : grows s s' -> firm A s n -> firm A s' n.
Proof.
  intros G [H|(b & H & K)]; [left; eapply grows_log; eassumption|right]. exists b. split.
  - destruct H as [H|H]; [now left|right]. eapply grows_loose; eassumption.
  - eapply grows_leads; eassumption.
Qed.
Lemma grows_tied A s s' n : grows s s' -> tied A s n -> tied A s' n.
Proof.
  intros G [H|(m & x & H)]; [left; eapply grows_firm; eassumption|right]. exists m, x. eapply grows_left; eassumption.
Qed.
Lemma firm_self (A : string -> Prop) s n : A n -> firm A s n.
Proof. intros H. right. exists n. split; [now left|constructor]. Qed.
Lemma firm_loose A s n : loose s n -> firm A s n.
Proof. intros H. right. exists n. split; [now right|constructor]. Qed.
Lemma firm_busy A s n : busy s n -> tied A s n -> firm A s n.
Proof. intros H [K|(m & x & K)]; [exact K|]. apply firm_loose. eapply loose_busy; eassumption. Qed.
Lemma firm_kind A s n : kind_of s n <> Some MissingModule -> tied A s n -> firm A s n.
Proof. intros H [K|(m & x & nd & _ & _ & _ & K)]; [exact K|contradiction]. Qed.
Lemma firm_more (A B : string -> Prop) s n : (forall x, A x -> B x) -> firm A s n -> firm B s n.
Proof. intros H [K|(b & [K|K] & L)]; [now left|right; exists b; auto|right; exists b; auto]. Qed.
Lemma tied_more (A B : string -> Prop) s n : (forall x, A x -> B x) -> tied A s n -> tied B s n.
Proof. intros H [K|K]; [left; eapply firm_more; eassumption|now right]. Qed.
Lemma firm_edge A s a b d : firm A s a -> has_edge (s_graph s) a b d -> firm A s b.
Proof. intros [H|(c & H & K)] He; [now left|right]. exists c. split; [exact H|]. eapply leads_edge; eassumption. Qed.
Lemma tied_cut A s b n : tied (plus b A) s n -> firm A s b -> tied A s n.
Proof.
  intros [[H|(c & [[->|H]|H] & K)]|H] T; [left; now left| |left; right; exists c; auto|left; right; exists c; auto|now right].
  left. destruct T as [T|(c & T & T')]; [now left|right]. exists c. split; [exact T|]. eapply leads_trans; eassumption.
Qed.
Lemma held_calm A s s' : calm s s' -> held A s -> held A s'.
Proof. intros [G N] H n Hn. eapply grows_tied; [exact G|]. auto. Qed.
Lemma held_more (A B : string -> Prop) s : (forall x, A x -> B x) -> held A s -> held B s.
Proof. intros H K n Hn. eapply tied_more; eauto. Qed.
Lemma held_plus A s b : held A s -> held (plus b A) s.
Proof. apply held_more. intros x. now right. Qed.
Lemma held_cut A s b : held (plus b A) s -> firm A s b -> held A s.
Proof. intros H T n Hn. eapply tied_cut; eauto. Qed.
Lemma held_err A s : In EvErr (s_log s) -> held A s.
Proof. intros H n _. left. now left. Qed.
Lemma held_link A s s' a b d : calm s s' -> has_edge (s_graph s') a b d -> held (plus b A) s -> firm A s a -> held A s'.
Proof.
  intros C He H T. apply (held_cut _ _ b); [eapply held_calm; eassumption|]. eapply firm_edge; [|exact He].
  eapply grows_firm; [apply C|exact T].
Qed.
Lemma alone_calm id A s s' : calm s s' -> alone id A s -> alone id A s'.
Proof. intros [G N] H n Hn. destruct (H n (N n Hn)) as [K|K]; [now left|right]. eapply grows_tied; eassumption. Qed.
Lemma alone_held id A s : alone id A s -> held (plus id A) s.
Proof.
  intros H n Hn. destruct (H n Hn) as [->|K]; [left; apply firm_self; now left|].
  eapply tied_more; [|exact K]. intros x. now right.
Qed.
Lemma alone_cut id A s b : alone id (plus b A) s -> firm A s b -> alone id A s.
Proof. intros H T n Hn. destruct (H n Hn) as [K|K]; [now left|right]. eapply tied_cut; eassumption. Qed.
Lemma held_alone id A s : held A s -> alone id A s.
Proof. intros H n Hn. right. now apply H. Qed.
Lemma alone_stub id A s : alone id A s -> stub s id -> held A s.
Proof. intros H K n Hn. destruct (H n Hn) as [->|T]; [now right|exact T]. Qed.
Lemma plus_swap a b A x : plus a (plus b A) x -> plus b (plus a A) x.
Proof. unfold plus. tauto. Qed.
Lemma calm_refl s : calm s s. Proof. split; [apply grows_refl|auto]. Qed.
Lemma calm_trans a b c : calm a b -> calm b c -> calm a c.
Proof. intros [G1 N1] [G2 N2]. split; [eapply grows_trans; eassumption|auto]. Qed.

(** ** The work on the stack *)

Definition wok (s : st) (w : work) : Prop :=
  match w with
  | DoPost _ => True
  | DoImport n i | DoNames n _ i => in_graph s n /\ scheduled s n i
  | DoPackage n _ => exists k, kind_of s n = Some k /\ is_missing k = false
  end.
Definition stk (s : st) : Prop := forall w, In w (s_stack s) -> wok s w.
Lemma grows_wok s s' w : grows s s' -> wok s w -> wok s' w.
Proof.
  intros G. destruct w; cbn; [auto|..].
  - intros [A B]. split; [eapply grows_in_graph|eapply grows_scheduled]; eassumption.
  - intros [A B]. split; [eapply grows_in_graph|eapply grows_scheduled]; eassumption.
  - intros (k & A & B). exists k. split; [eapply grows_kind; eassumption|exact B].
Qed.
Lemma grows_stk s s' : grows s s' -> s_stack s' = s_stack s -> stk s -> stk s'.
Proof. intros G E H w Hw. rewrite E in Hw. eapply grows_wok; eauto. Qed.

(** ** Rules *)

Definition owp {A} (m : M A) (s : st) (Q : A -> st -> Prop) : Prop :=
  linv s -> stk s -> forall r s', m s = Some (r, s') ->
    grows s s' /\ linv s' /\ stk s' /\ match r with ROk a => Q a s' | RErr _ => True end.

Lemma owp_bind {A B} (m : M A) (f : A -> M B) s Q :
  owp m s (fun a s1 => owp (f a) s1 Q) -> owp (bind m f) s Q.
Proof.
  intros H L T r s' E. unfold bind in E. destruct (m s) as [[[a|e] s1]|] eqn:Em; [| |discriminate].
  - destruct (H L T _ _ Em) as (G1 & L1 & T1 & K). destruct (K L1 T1 _ _ E) as (G2 & L2 & T2 & K2).
    split; [eapply grows_trans; eassumption|]. auto.
  - injection E as <- <-. destruct (H L T _ _ Em) as (G1 & L1 & K). auto.
Qed.
Lemma owp_conseq {A} (m : M A) s (Q Q' : A -> st -> Prop) :
  owp m s Q -> (forall a s', grows s s' -> linv s' -> Q a s' -> Q' a s') -> owp m s Q'.
Proof.
  intros H K L T r s' E. destruct (H L T _ _ E) as (G & L' & T' & D). do 3 (split; [assumption|]). destruct r; auto.
Qed.
Lemma owp_ret {A} (a : A) s (Q : A -> st -> Prop) : Q a s -> owp (ret a) s Q.
Proof. intros H L T r s' E. injection E as <- <-. split; [apply grows_refl|]. auto. Qed.
Lemma owp_raise {A} e s (Q : A -> st -> Prop) : owp (raise e) s Q.
Proof. intros L T r s' E. injection E as <- <-. split; [apply grows_refl|]. auto. Qed.
Lemma owp_oof {A} s (Q : A -> st -> Prop) : owp out_of_fuel s Q.
Proof. intros L T r s' E. discriminate. Qed.
Lemma owp_of_result {A} (x : result A) s (Q : A -> st -> Prop) : (forall a, x = ROk a -> Q a s) -> owp (of_result x) s Q.
Proof. intros H L T r s' E. injection E as <- <-. split; [apply grows_refl|]. do 2 (split; [assumption|]). destruct x; auto. Qed.
Lemma owp_get {A} (f : st -> A) s (Q : A -> st -> Prop) : Q (f s) s -> owp (gets f) s Q.
Proof. intros H. apply (owp_ret (f s) s Q H). Qed.
Lemma owp_assert b s (Q : unit -> st -> Prop) : (b = true -> Q tt s) -> owp (assert b) s Q.
Proof. destruct b; intros H; [apply owp_ret; auto|apply owp_raise]. Qed.
Lemma env_calm s s' : env_only s s' -> calm s s'.
Proof. intros H. split; [now apply env_only_grows|]. destruct H as (f & c & ->). auto. Qed.
Lemma owp_env {A} (m : M A) s (Q : A -> st -> Prop) :
  envm m -> (forall a s', env_only s s' -> calm s s' -> Q a s') -> owp m s Q.
Proof.
  intros H K L T r s' E. apply H in E. pose proof (env_calm _ _ E) as C. split; [apply C|]. split; [|split].
  - destruct E as (f & c & ->). exact L.
  - apply (grows_stk s); [apply C| |exact T]. now destruct E as (f & c & ->).
  - destruct r; auto.
Qed.
(** Changes of the state at once. *)
Lemma owp_modify f s (Q : unit -> st -> Prop) : grows s (f s) -> (linv s -> linv (f s)) -> (stk s -> stk (f s)) ->
  Q tt (f s) -> owp (modify f) s Q.
Proof. intros G HL HT K L T r s' E. injection E as <- <-. auto. Qed.
Lemma log_linv s e : (forall n l, e <> EvAdd n l) -> linv s -> linv (log s e).
Proof. intros H L n l [K|K]; [now elim (H n l)|exact (L n l K)]. Qed.
Lemma log_calm s e : calm s (log s e).
Proof. split; [apply log_grows|auto]. Qed.
Lemma owp_note e s (Q : unit -> st -> Prop) : (forall n l, e <> EvAdd n l) -> Q tt (log s e) -> owp (note e) s Q.
Proof. intros H K. apply owp_modify; [apply log_grows|now apply log_linv|apply grows_stk; [apply log_grows|reflexivity]|exact K]. Qed.

(** Changes of the graph that add no nodes. *)
Lemma set_graph_linv s g : grows_graph (s_graph s) g -> linv s -> linv (set_graph s g).
Proof. intros H L n l K. eapply grows_in_graph; [apply lift_set_grows, H|exact (L n l K)]. Qed.
Lemma owp_edge a b d s (Q : unit -> st -> Prop) :
  (forall s', calm s s' -> in_graph s a -> has_edge (s_graph s') a b d -> Q tt s') -> owp (add_edge a b d) s Q.
Proof.
  intros K L T r s' E. unfold add_edge, lift_graph in E. destruct (gadd_edge (s_graph s) a b d) as [g|e] eqn:Eg; injection E as <- <-.
  - apply gadd_edge_spec in Eg as (Ha & Hb & ->).
    pose proof (lift_set_grows s _ (grows_add_edge (s_graph s) a b d)) as G. split; [exact G|].
    split; [now apply set_graph_linv, L; apply grows_add_edge|]. split; [now apply (grows_stk s)|].
    apply K; [split; [exact G|auto]|exact Ha|]. apply edges_add_self.
  - split; [apply grows_refl|]. auto.
Qed.
Lemma owp_root id s (Q : unit -> st -> Prop) :
  (forall s', calm s s' -> In id (g_roots (s_graph s')) -> Q tt s') -> owp (add_root id) s Q.
Proof.
  intros K L T r s' E. unfold add_root, lift_graph in E. destruct (gadd_root (s_graph s) id) as [g|e] eqn:Eg; injection E as <- <-.
  - apply gadd_root_spec in Eg as (_ & ->).
    pose proof (lift_set_grows s _ (grows_add_root (s_graph s) id)) as G. split; [exact G|].
    split; [now apply set_graph_linv, L; apply grows_add_root|]. split; [now apply (grows_stk s)|].
    apply K; [split; [exact G|auto]|]. cbn. apply set_add_In. now left.
  - split; [apply grows_refl|]. auto.
Qed.
Lemma owp_written id names s (Q : unit -> st -> Prop) : (forall s', calm s s' -> Q tt s') -> owp (add_written id names) s Q.
Proof.
  intros K. pose proof (lift_set_grows s _ (grows_written (s_graph s) id names)) as G. apply owp_modify.
  - exact G.
  - apply set_graph_linv, grows_written.
  - now apply grows_stk.
  - apply K. split; [exact G|]. intros n. unfold in_graph. cbn [s_graph set_graph]. rewrite gfind_written. destruct (gfind (s_graph s) n); cbn; congruence.
Qed.

(** A new node has to be tied. *)
Definition with_node (s s' : st) (name : string) (k : kind) : Prop :=
  grows s s' /\ kind_of s' name = Some k /\ forall n, in_graph s' n -> in_graph s n \/ n = name.
Lemma with_in s s' name k : with_node s s' name k -> in_graph s' name.
Proof. intros (_ & K & _). unfold kind_of in K. unfold in_graph. destruct (gfind _ _); discriminate. Qed.
Lemma held_new A s s' name k : with_node s s' name k -> held A s -> alone name A s'.
Proof.
  intros (G & _ & N) H n Hn. destruct (N n Hn) as [K| ->]; [right|now left]. eapply grows_tied; [exact G|]. now apply H.
Qed.
Lemma add_with s n : gfind (s_graph s) (n_name n) = None ->
  with_node s (set_graph s (Graph (g_nodes (s_graph s) ++ [n]) (g_edges (s_graph s)) (g_roots (s_graph s)))) (n_name n) (n_kind n).
Proof.
  intros Hn. split; [apply lift_set_grows, grows_add_node|]. unfold in_graph, kind_of. cbn [s_graph set_graph]. split.
  - rewrite gfind_app, Hn. unfold seqb. now rewrite String.eqb_refl.
  - intros x. rewrite gfind_app. destruct (gfind (s_graph s) x); [left; discriminate|].
    destruct (seqb (n_name n) x) eqn:E; [|congruence]. apply seqb_eq in E. now right.
Qed.
Lemma owp_node n l s (Q : unit -> st -> Prop) : (forall s', with_node s s' (n_name n) (n_kind n) -> Q tt s') -> owp (add_node n l) s Q.
Proof.
  intros K L T r s' E. unfold add_node, bind, lift_graph, modify in E.
  destruct (gadd_node (s_graph s) n) as [g'|e] eqn:Eg; [|injection E as <- <-; split; [apply grows_refl|auto]].
  apply gadd_node_spec in Eg as [Ef ->]. injection E as <- <-. pose proof (add_with s n Ef) as W. set (s1 := set_graph s _) in *. pose proof (with_in _ _ _ _ W) as W0. destruct W as (W1 & W2 & W3).
  assert (G : grows s (log s1 (EvAdd (n_name n) l))) by (eapply grows_trans; [exact W1|apply log_grows]).
  split; [exact G|]. split; [|split].
  - intros x k [Hx|Hx]; [injection Hx as <- <-; exact W0|]. eapply grows_in_graph; [exact G|exact (L x k Hx)].
  - now apply (grows_stk s).
  - apply K. split; [exact G|]. now split.
Qed.
Lemma owp_user_node n s (Q : unit -> st -> Prop) : (forall s', with_node s s' (n_name n) (n_kind n) -> s_log s' = s_log s -> Q tt s') -> owp (user_add_node n) s Q.
Proof.
  intros K L T r s' E. unfold user_add_node, lift_graph in E.
  destruct (gadd_node (s_graph s) n) as [g'|e] eqn:Eg; [|injection E as <- <-; split; [apply grows_refl|auto]].
  apply gadd_node_spec in Eg as [Ef ->]. injection E as <- <-. pose proof (add_with s n Ef) as W. destruct W as (W1 & W2 & W3).
  split; [exact W1|]. split; [|split].
  - intros x k Hx. eapply grows_in_graph; [exact W1|exact (L x k Hx)].
  - now apply (grows_stk s).
  - apply K; [now split|reflexivity].
Qed.
Lemma schedule_stack n l s : exists k, s_stack (schedule n l s) = k ++ s_stack s /\
  forall w, In w k -> w = DoPost n \/ exists i, In i l /\ w = DoImport n i.
Proof.
  unfold schedule. cbn. destruct (memb n (s_seen s)); cbn.
  - exists (rev (map (DoImport n) l)). split; [reflexivity|]. intros w Hw. right. apply in_rev, in_map_iff in Hw as (i & <- & Hi). eauto.
  - exists (rev (map (DoImport n) l) ++ [DoPost n]). split; [now rewrite <- app_assoc|]. intros w Hw.
    apply in_app_or in Hw as [Hw|[<-|[]]]; [|now left]. right. apply in_rev, in_map_iff in Hw as (i & <- & Hi). eauto.
Qed.
Lemma schedule_calm n l s : calm s (schedule n l s).
Proof. split; [apply schedule_grows|]. intros x. unfold in_graph. now rewrite schedule_graph. Qed.
Lemma owp_sched n l s (Q : unit -> st -> Prop) : in_graph s n -> (forall s', calm s s' -> Q tt s') -> owp (process_import_list n l) s Q.
Proof.
  intros Hn K. apply owp_modify; [apply schedule_grows| | |apply K, schedule_calm].
  - intros L x k. rewrite schedule_log. intros [Hx|Hx]; [discriminate|]. eapply grows_in_graph; [apply schedule_grows|exact (L x k Hx)].
  - intros T w Hw. destruct (schedule_stack n l s) as (k & Hk & Hk'). rewrite Hk in Hw. apply in_app_or in Hw as [Hw|Hw].
    + destruct (Hk' w Hw) as [->|(i & Hi & ->)]; [exact Logic.I|]. split; [eapply grows_in_graph; [apply schedule_grows|exact Hn]|].
      exists l. split; [|exact Hi]. rewrite schedule_log. now left.
    + eapply grows_wok; [apply schedule_grows|auto].
Qed.
Lemma owp_find_module id s (Q : option node -> st -> Prop) :
  (forall o, gfind (s_graph s) id = o -> Q o s) -> owp (find_module id) s Q.
Proof.
  intros K. unfold find_module, get_node. apply owp_bind, owp_get.
  destruct (gfind (s_graph s) id) as [n|] eqn:E; [|apply owp_ret; now apply K].
  apply owp_bind, owp_assert. intros H. apply owp_ret. now apply K.
Qed.
Lemma owp_kind_test p id s (Q : bool -> st -> Prop) :
  Q (match kind_of s id with Some k => p k | None => false end) s -> owp (kind_test p id) s Q.
Proof.
  intros K. unfold kind_test, get_node. apply owp_bind, owp_get. apply owp_ret.
  unfold kind_of in K. destruct (gfind (s_graph s) id); exact K.
Qed.
(** A new node without imports to be processed. *)
Lemma owp_node_k {X} n l s (k : M X) (Q : X -> st -> Prop) : (forall s', with_node s s' (n_name n) (n_kind n) -> owp k s' Q) ->
  owp (do add_node n l ;; do process_import_list (n_name n) l ;; k) s Q.
Proof.
  intros H. apply owp_bind, owp_node. intros s1 W. apply owp_bind, owp_sched; [eapply with_in, W|]. intros s2 [G2 N2]. apply H.
  destruct W as (W1 & W2 & W3). split; [eapply grows_trans; eassumption|]. split; [eapply grows_kind; eassumption|]. auto.
Qed.
Lemma owp_iter {X} (f : X -> M unit) (J : st -> Prop) l s : (forall x s, In x l -> J s -> owp (f x) s (fun _ s' => J s')) ->
  J s -> owp (iter f l) s (fun _ s' => J s').
Proof.
  revert s. induction l as [|x l IH]; intros s H Js; cbn [iter]; [now apply owp_ret|].
  apply owp_bind. eapply owp_conseq; [apply H; [now left|exact Js]|]. intros u s1 _ _ J1. apply IH; [|exact J1].
  intros y s2 Hy. apply H. now right.
Qed.
Lemma owp_attempt {A} (m : M A) s (Q : A -> st -> Prop) : owp m s Q ->
  owp (attempt m) s (fun x s' => match x with ROk a => Q a s' | RErr _ => True end).
Proof.
  intros H L T r s' E. unfold attempt in E. destruct (m s) as [[x s1]|] eqn:Em; [|discriminate].
  injection E as <- <-. exact (H L T _ _ Em).
Qed.
Lemma owp_close {A} (m : M A) s (Q Q' : A -> st -> Prop) : cwp none m s Q -> owp m s Q' -> owp m s (fun a s' => Q a s' /\ Q' a s').
Proof.
  intros H K L T r s' E. destruct (K L T _ _ E) as (G & L' & T' & D). do 3 (split; [assumption|]).
  destruct r; [|exact D]. split; [|exact D]. now destruct (H L _ _ E) as (_ & _ & _ & H').
Qed.
Lemma owp_stk {A} (m : M A) s Q : (linv s -> stk s -> owp m s Q) -> owp m s Q.
Proof. intros H L T. exact (H L T L T). Qed.
(** Changes of other parts of the state. *)
Lemma owp_same f s (Q : unit -> st -> Prop) : s_graph (f s) = s_graph s -> s_stack (f s) = s_stack s -> grows s (f s) ->
  (linv s -> linv (f s)) -> (calm s (f s) -> Q tt (f s)) -> owp (modify f) s Q.
Proof.
  intros Hg Hs G HL K. apply owp_modify; [exact G|exact HL|now apply grows_stk|]. apply K. split; [exact G|].
  intros n. unfold in_graph. now rewrite Hg.
Qed.

Definition tight (s s' : st) : Prop := forall A, held A s -> held A s'.
Definition gives (id : string) (s s' : st) : Prop := forall A, held A s -> held (plus id A) s'.
Lemma calm_tight s s' : calm s s' -> tight s s'. Proof. intros C A. now apply held_calm. Qed.
Lemma tight_trans a b c : tight a b -> tight b c -> tight a c. Proof. intros H K A HA. auto. Qed.
Ltac tight_both := cbv beta in *; match goal with
  | H : tight ?a ?b, K : tight ?b ?c |- tight ?a ?c => exact (tight_trans a b c H K)
  end.
Lemma tight_gives id s s' : tight s s' -> gives id s s'. Proof. intros H A HA. now apply held_plus, H. Qed.
Lemma tight_gives_trans id a b c : tight a b -> gives id b c -> gives id a c. Proof. intros H K A HA. auto. Qed.
Lemma gives_tight_trans id a b c : gives id a b -> tight b c -> gives id a c. Proof. intros H K A HA. auto. Qed.
Definition single (id : string) (s s' : st) : Prop := forall A, held A s -> alone id A s'.
Lemma single_gives id s s' : single id s s' -> gives id s s'. Proof. intros H A HA. now apply alone_held, H. Qed.
Lemma tight_single id s s' : tight s s' -> single id s s'. Proof. intros H A HA. now apply held_alone, H. Qed.
Lemma tight_single_trans id a b c : tight a b -> single id b c -> single id a c. Proof. intros H K A HA. auto. Qed.
Lemma with_single s s' id k : with_node s s' id k -> single id s s'. Proof. intros W A. eapply held_new, W. Qed.
Lemma with_gives s s' id k : with_node s s' id k -> gives id s s'. Proof. intros W. eapply single_gives, with_single, W. Qed.
Lemma err_tight s s' : In EvErr (s_log s') -> tight s s'. Proof. intros H A _. now apply held_err. Qed.
(** A node of the graph gets a new edge to what was found. *)
Definition active (s : st) (n : string) : Prop := in_graph s n /\ (busy s n \/ kind_of s n <> Some MissingModule).
Lemma active_firm A s n : active s n -> held A s -> firm A s n.
Proof. intros [I [B|K]] H; [apply firm_busy|apply firm_kind]; auto. Qed.
Lemma grows_active s s' n : grows s s' -> active s n -> active s' n.
Proof.
  intros G [I H]. split; [eapply grows_in_graph; eassumption|]. destruct H as [H|H]; [left; eapply grows_busy; eassumption|right].
  intros K. apply H. eapply kind_back; eassumption.
Qed.
Lemma sched_active s n i : in_graph s n -> scheduled s n i -> active s n.
Proof. intros H K. split; [exact H|]. left. left. now exists i. Qed.
Lemma kind_active s n k : kind_of s n = Some k -> is_missing k = false -> active s n.
Proof.
  intros K M. split; [|right; rewrite K; intros H; injection H as ->; discriminate].
  unfold kind_of in K. unfold in_graph. destruct (gfind _ _); discriminate.
Qed.
Lemma with_active s s' n k : with_node s s' n k -> is_missing k = false -> active s' n.
Proof. intros (_ & K & _). now apply kind_active. Qed.
Lemma gives_link s s1 s2 n id d : grows s s1 -> active s n -> gives id s s1 -> calm s1 s2 -> has_edge (s_graph s2) n id d -> tight s s2.
Proof.
  intros G Hn H C He A HA. apply (held_link A s1 s2 n id d C He (H A HA)). eapply grows_firm; [exact G|]. now apply active_firm.
Qed.
(** What was found becomes a root, or is loose for another reason. *)
Lemma gives_loose s s1 id : gives id s s1 -> loose s1 id -> tight s s1.
Proof. intros H K A HA. apply (held_cut _ _ id); [now apply H|now apply firm_loose]. Qed.

Definition plus' (o : option string) (A : string -> Prop) : string -> Prop := match o with Some p => plus p A | None => A end.
Definition found_post (name : string) (link : bool) (s : st) (id : string) (s' : st) : Prop :=
  (in_graph s name -> id = name /\ calm s s') /\
  exists o,
    match o with
    | None => True
    | Some p => link = false /\ exists c, child_of c name /\ ~ in_graph s c /\ resolves s' c p
    end /\
    (forall A, held A s -> held (plus id (plus' o A)) s') /\
    (link = false -> kind_of s' id = Some MissingModule ->
       (forall A, held A s -> alone id (plus' o A) s') \/ exists refs, In (EvImplied name (ImpRefs refs)) (s_log s')).
(** What [_load_module] does: a missing module is added with nothing else. *)
Definition load_gives (id : string) (s s' : st) : Prop :=
  gives id s s' /\ (kind_of s' id = Some MissingModule -> single id s s').
Lemma single_load id s s' : single id s s' -> load_gives id s s'.
Proof. intros H. split; [now apply single_gives|auto]. Qed.
Lemma tight_load_trans id a b c : tight a b -> load_gives id b c -> load_gives id a c.
Proof. intros H [K1 K2]. split; [eapply tight_gives_trans; eassumption|]. intros M. eapply tight_single_trans; eauto. Qed.

Record ties (r : funs) : Prop := {
  t_find : forall im name link s, owp (f_find r im name link) s (found_post name link s);
  t_load : forall im name s, owp (f_load r im name) s (fun id s' => load_gives id s s');
  t_run : forall s, owp (f_run r) s (fun _ s' => tight s s');
  t_prog : forall p s, owp (f_prog r p) s (fun _ s' => tight s s');
  t_post : forall i n s, owp (f_post r i n) s (fun _ s' => tight s s');
  t_miss : forall i im n s, owp (f_miss r i im n) s (fun _ s' => tight s s')
}.

Section bodies.
  Variable E : env.
  Variable r : funs.
  Hypothesis C : closes r.
  Hypothesis R : ties r.

  Lemma owp_find im name s : owp (f_find r im name true) s (fun id s' => gives id s s').
  Proof. eapply owp_conseq; [apply (t_find _ R)|]. intros id s' G L [_ ([p|] & O & H & _)]; [now destruct O|exact H]. Qed.

  Lemma owp_create_missing im name s : owp (create_missing r im name) s (fun id s' => single id s s').
  Proof.
    unfold create_missing. apply owp_bind. eapply owp_conseq; [apply (t_miss _ R)|]. intros [id|] s1 G L K.
    - apply owp_bind, owp_note; [discriminate|]. apply owp_ret. apply tight_single. eapply tight_trans; [exact K|].
      apply calm_tight, log_calm.
    - apply (owp_node_k (plain_node MissingModule name) []). intros s2 W. apply owp_ret.
      eapply tight_single_trans; [exact K|]. eapply with_single, W.
  Qed.

  Lemma owp_implied_node k name target s : is_missing k = false ->
    owp (implied_node r k name target) s (fun o s' => exists id, o = Some id /\ load_gives id s s').
  Proof.
    intros Hk. unfold implied_node, get_node. apply owp_bind, owp_get, owp_bind, owp_assert. intros _.
    apply (owp_node_k (plain_node k name) []). intros s1 W. apply owp_bind. eapply owp_conseq; [apply owp_find|].
    intros o s2 G2 L2 K2. apply owp_bind, owp_edge. intros s3 C3 _ He. apply owp_ret. exists name. split; [reflexivity|]. split.
    - eapply gives_tight_trans; [eapply with_gives, W|]. apply (gives_link s1 s2 s3 name o default_dep G2); auto. eapply with_active; [exact W|exact Hk].
    - intros M. destruct W as (_ & W & _). apply (grows_kind _ _ _ _ G2), (grows_kind _ _ _ _ (proj1 C3)) in W.
      cbn [plain_node n_name n_kind] in W. rewrite W in M. injection M as M. rewrite M in Hk. discriminate.
  Qed.

  Lemma owp_pop name s (Q : option implied -> st -> Prop) :
    (forall o s', calm s s' -> match o with Some i => In (EvImplied name i) (s_log s') | None => True end -> Q o s') -> owp (pop_lazy name) s Q.
  Proof.
    intros K L T x s' Ex. unfold pop_lazy in Ex. destruct (assoc name (s_lazy s)) as [i|].
    - injection Ex as <- <-. set (s1 := log _ _).
      assert (G : grows s s1) by (constructor; cbn; first [apply grows_graph_refl|apply incl_refl|now exists []|now eexists [_]]).
      split; [exact G|]. split; [intros n l [H|H]; [discriminate|exact (L n l H)]|]. split; [now apply (grows_stk s)|].
      apply K; [split; [exact G|auto]|now left].
    - injection Ex as <- <-. split; [apply grows_refl|]. do 2 (split; [assumption|]). apply K; [apply calm_refl|exact Logic.I].
  Qed.

  Lemma owp_implied_references im name s : owp (implied_references r im name) s
    (fun o s' => match o with
                 | Some id => gives id s s' /\
                     (kind_of s' id = Some MissingModule -> single id s s' \/ exists refs, In (EvImplied name (ImpRefs refs)) (s_log s'))
                 | None => tight s s'
                 end).
  Proof.
    unfold implied_references, get_node. apply owp_bind, owp_get.
    destruct (gfind (s_graph s) name); [apply owp_ret, calm_tight, calm_refl|].
    apply owp_bind, owp_pop. intros i s1 C1 Hi. apply calm_tight in C1. destruct i as [[|a|a|refs]|].
    - apply (owp_node_k (plain_node ExcludedModule name) []). intros s2 W. apply owp_ret.
      assert (X : single name s s2) by (eapply tight_single_trans; [exact C1|eapply with_single, W]).
      split; [now apply single_gives|auto].
    - eapply owp_conseq; [now apply owp_implied_node|]. intros o s2 G2 L2 (id & -> & K).
      apply (tight_load_trans _ _ _ _ C1) in K as [K1 K2]. auto.
    - eapply owp_conseq; [now apply owp_implied_node|]. intros o s2 G2 L2 (id & -> & K).
      apply (tight_load_trans _ _ _ _ C1) in K as [K1 K2]. auto.
    - apply owp_bind. eapply owp_conseq; [apply owp_find|]. intros id s2 G2 L2 K2.
      apply owp_bind. eapply owp_conseq; [apply (owp_iter _ (fun s3 => gives id s s3))|].
      + intros ref s3 _ K3. apply owp_bind. eapply owp_conseq; [apply owp_find|]. intros o s4 G4 L4 K4.
        apply owp_edge. intros s5 C5 _ He A HA.
        apply (held_link _ s4 s5 id o default_dep C5 He); [now apply K4, K3|apply firm_self; now left].
      + now apply (tight_gives_trans _ _ s1).
      + intros u s3 G3 L3 K3. apply owp_ret. split; [exact K3|]. intros _. right. exists refs.
        eapply grows_log; [exact G3|]. eapply grows_log; eassumption.
    - now apply owp_ret.
  Qed.

  Lemma owp_load_spec name sp s : owp (load_spec r name sp) s (fun id s' => load_gives id s s').
  Proof.
    unfold load_spec. apply owp_bind, owp_env; [apply (c_nfs _ C)|]. intros [n imports] s1 _ C1. apply calm_tight in C1.
    destruct (seqb (n_name n) name) eqn:En; cbn [negb].
    - apply seqb_eq in En. subst name. apply owp_bind, owp_node. intros s2 W. apply owp_bind.
      eapply owp_conseq with (Q := fun _ s3 => tight s2 s3 /\ (is_missing (n_kind n) = false \/ calm s2 s3)).
      + assert (X : tight s2 s2 /\ (is_missing (n_kind n) = false \/ calm s2 s2)) by (split; [apply calm_tight, calm_refl|right; apply calm_refl]).
        destruct (n_kind n) as [ |k| |b x mk f ty| | | |a|a| ] eqn:Ek; try (now apply owp_ret).
        destruct ty as [ty|]; [|now apply owp_ret].
        destruct (memb ty _); [|now apply owp_ret].
        apply owp_bind. eapply owp_conseq; [apply owp_find|]. intros o s3 G3 L3 K3. apply owp_edge. intros s4 C4 _ He.
        split; [|now left]. apply (gives_link s2 s3 s4 (n_name n) o default_dep); auto. eapply with_active; [exact W|reflexivity].
      + intros u s3 G3 L3 [K3 M3]. apply owp_bind, owp_sched; [eapply grows_in_graph; [exact G3|eapply with_in, W]|]. intros s4 C4. apply owp_ret.
        apply (tight_load_trans _ _ s1); [exact C1|]. split.
        * apply (gives_tight_trans _ _ s2); [eapply with_gives, W|]. eapply tight_trans; [exact K3|now apply calm_tight].
        * intros M. destruct M3 as [M3|M3].
          -- exfalso. destruct W as (_ & W & _). apply (grows_kind _ _ _ _ G3), (grows_kind _ _ _ _ (proj1 C4)) in W.
             rewrite W in M. injection M as M. rewrite M in M3. discriminate.
          -- intros A HA. eapply alone_calm; [exact C4|]. eapply alone_calm; [exact M3|]. eapply held_new; eassumption.
    - apply (owp_node_k (plain_node (AliasNode (n_name n)) name) []). intros s2 W. unfold get_node.
      apply owp_bind, owp_get. apply owp_bind. eapply owp_conseq with (Q := fun _ s3 => gives (n_name n) s2 s3).
      + destruct (gfind (s_graph s2) (n_name n)) as [x|] eqn:Eo; [apply owp_ret, tight_gives, calm_tight, calm_refl|].
        apply (owp_node_k n imports). intros s3 W3. apply owp_bind, owp_of_result. intros [po nm] Hpk. cbn [fst].
        destruct po as [c|]; [|apply owp_ret; eapply with_gives, W3].
        apply owp_bind. eapply owp_conseq; [apply owp_find|]. intros p s4 G4 L4 K4. apply owp_edge. intros s5 C5 _ He A HA.
        apply (held_link _ s4 s5 (n_name n) p default_dep C5 He); [|apply firm_self; now left].
        apply K4. now apply (with_gives _ _ _ _ W3).
      + intros u s3 G3 L3 K3. apply owp_bind, owp_edge. intros s4 C4 _ He. apply owp_ret.
        apply (tight_load_trans _ _ s1); [exact C1|]. split.
        * apply (gives_tight_trans _ _ s2); [eapply with_gives, W|].
          apply (gives_link s2 s3 s4 name (n_name n) default_dep); auto. eapply with_active; [exact W|reflexivity].
        * intros M. destruct W as (_ & W & _). apply (grows_kind _ _ _ _ G3), (grows_kind _ _ _ _ (proj1 C4)) in W.
          cbn [plain_node n_name n_kind] in W. rewrite W in M. discriminate.
  Qed.

  Lemma owp_load_failed im name e s : owp (load_failed E r im name e) s (fun id s' => load_gives id s s').
  Proof.
    unfold load_failed. destruct (negb (is_exception e)); [apply owp_raise|].
    destruct e as [| | | | | | | | | |[|]| | | |]; try (eapply owp_conseq; [apply owp_create_missing|]; intros; now apply single_load); cbv zeta;
    ( apply owp_bind, owp_env; [apply envm_in_sysmod|]; intros b s1 _ C1; apply calm_tight in C1;
      apply owp_bind, owp_assert; intros _;
      apply owp_bind, owp_env; [apply envm_find_spec|]; intros m s2 _ C2; apply calm_tight in C2;
      pose proof (tight_trans _ _ _ C1 C2) as C12;
      destruct m as [sp|]; [|apply owp_raise];
      apply owp_bind, owp_assert; intros _; apply owp_bind, owp_of_result; intros p _;
      destruct p;
      [ destruct (sp_origin sp); [|apply owp_raise];
        apply owp_bind, owp_assert; intros _;
        apply owp_bind, owp_env; [apply (envm_set_fakes (fun s => set_add _ (s_fakes s)))|]; intros _ s3 _ C3; apply calm_tight in C3;
        eapply owp_conseq; [apply (t_load _ R)|]; intros id s4 _ _ K; eapply tight_load_trans; [|exact K]; tight_both
      | eapply owp_conseq; [apply owp_create_missing|]; intros id s4 _ _ K; eapply tight_load_trans; [exact C12|now apply single_load] ] ).
  Qed.

  Lemma owp_load_body im name s : owp (load_body E r im name) s (fun id s' => load_gives id s s').
  Proof.
    unfold load_body, get_node. apply owp_bind, owp_assert. intros _. apply owp_bind, owp_get.
    destruct (gfind (s_graph s) name); [apply owp_ret, single_load, tight_single, calm_tight, calm_refl|].
    apply owp_bind, owp_env; [apply envm_attempt, envm_spec_or_none|]. intros r0 s1 _ C1. apply calm_tight in C1.
    destruct r0 as [[sp|]|e].
    - eapply owp_conseq; [apply owp_load_spec|]. intros id s2 _ _ K. eapply tight_load_trans; eassumption.
    - apply owp_bind. eapply owp_conseq; [apply owp_attempt, owp_create_missing|]. intros [id|e] s2 G2 L2 K.
      + apply owp_ret. eapply tight_load_trans; [exact C1|now apply single_load].
      + apply owp_bind, owp_note; [discriminate|]. eapply owp_conseq; [apply owp_load_failed|].
        intros id s3 G3 _ _. apply single_load, tight_single, err_tight. eapply grows_log; [exact G3|now left].
    - eapply owp_conseq; [apply owp_load_failed|]. intros id s2 _ _ K. eapply tight_load_trans; eassumption.
  Qed.

  Lemma owp_find_body im name link s : owp (find_body r im name link) s (found_post name link s).
  Proof.
    unfold find_body. apply owp_bind, owp_find_module. intros [n|] Hn.
    { apply owp_ret. split; [split; [reflexivity|apply calm_refl]|]. exists None. split; [exact Logic.I|].
      split; [apply tight_gives, calm_tight, calm_refl|]. intros _ _. left. apply (tight_single name), calm_tight, calm_refl. }
    assert (Hin : forall id s', in_graph s name -> id = name /\ calm s s') by (intros id s' Hx; now elim Hx).
    apply owp_bind, owp_of_result. intros [po nm] Hpk. cbn [fst].
    apply owp_bind. eapply owp_conseq with (Q := fun x s1 => exists o,
      match o with
      | None => True
      | Some p => fst x = Some p /\ exists c, po = Some c /\ ~ in_graph s c /\ resolves s1 c p
      end /\
      match snd x with
      | Some id => forall A, held A s -> alone id (plus' o A) s1
      | None => forall A, held A s -> held (plus' o A) s1
      end).
    - destruct po as [c|]; [|apply owp_ret; exists None; now split].
      apply owp_bind. eapply owp_conseq; [apply owp_close; [apply (c_find _ C)|apply (t_find _ R)]|].
      intros p s1 G1 L1 [F1 [I1 (o1 & O1 & K1 & _)]]. destruct o1 as [p1|]; [now destruct O1|]. clear O1. cbn in K1.
      assert (X : exists o, match o with
        | None => True
        | Some q => Some p = Some q /\ exists c', Some c = Some c' /\ ~ in_graph s c' /\ resolves s1 c' q end /\
        forall A, held A s -> held (plus' o A) s1).
      { destruct (gfind (s_graph s) c) as [x|] eqn:Ec.
        - exists None. split; [exact Logic.I|]. destruct I1 as [_ I1]; [unfold in_graph; congruence|]. apply (calm_tight _ _ I1).
        - exists (Some p). split; [|exact K1]. split; [reflexivity|]. exists c. split; [reflexivity|]. split; [|exact F1].
          intros Hx. now elim Hx. }
      destruct X as (o & O & K). apply owp_bind, owp_kind_test.
      destruct (match kind_of s1 p with Some k => is_missing k | None => false end).
      + apply owp_bind. eapply owp_conseq; [apply owp_create_missing|]. intros id s2 G2 L2 K2. apply owp_ret. exists o. cbn [fst snd].
        split; [|intros A HA; apply K2, K, HA]. destruct o; [|exact Logic.I]. destruct O as (O1 & c' & O2 & O3 & O4).
        split; [exact O1|]. exists c'. split; [exact O2|]. split; [exact O3|eapply grows_resolves; eassumption].
      + apply owp_bind, owp_kind_test.
        destruct (match kind_of s1 p with Some k => is_excluded k | None => false end).
        * apply (owp_node_k (plain_node ExcludedModule name) []). intros s2 W. apply owp_ret. exists o. cbn [fst snd].
          split; [|intros A HA; apply (with_single _ _ _ _ W), K, HA]. destruct o; [|exact Logic.I]. destruct O as (O1 & c' & O2 & O3 & O4).
          split; [exact O1|]. exists c'. split; [exact O2|]. split; [exact O3|eapply grows_resolves; [apply W|exact O4]].
        * apply owp_ret. exists o. cbn [fst snd]. split; [exact O|exact K].
    - intros [parent fnd] s1 G1 L1 (o & H1 & H2). cbn [fst snd] in *.
      apply owp_bind. eapply owp_conseq with (Q := fun id s2 =>
        (forall A, held A s -> held (plus id (plus' o A)) s2) /\
        (kind_of s2 id = Some MissingModule ->
          (forall A, held A s -> alone id (plus' o A) s2) \/ exists refs, In (EvImplied name (ImpRefs refs)) (s_log s2))).
      + destruct fnd as [id|]; [apply owp_ret; split; [intros A HA; now apply alone_held, H2|now left]|].
        apply owp_bind. eapply owp_conseq; [apply owp_implied_references|]. intros [id|] s2 G2 L2 K.
        * apply owp_ret. destruct K as [K1 K2]. split; [intros A HA; apply K1, H2, HA|]. intros M.
          destruct (K2 M) as [K|K]; [left; intros A HA; apply K, H2, HA|now right].
        * eapply owp_conseq; [apply (t_load _ R)|]. intros id s3 G3 L3 [K3 K4]. split; [intros A HA; apply K3, K, H2, HA|].
          intros M. left. intros A HA. apply (K4 M), K, H2, HA.
      + intros id s2 G2 L2 [K2 M2]. apply owp_bind, owp_kind_test.
        set (b := match kind_of s2 id with Some k => is_missing k | None => false end).
        apply owp_bind. eapply owp_conseq with (Q := fun _ s3 => found_post name link s id s3).
        2:{ intros u s3 _ _ H. now apply owp_ret. }
        assert (Same : forall s3, calm s2 s3 -> o = None -> found_post name link s id s3).
        { intros s3 C3 ->. split; [apply Hin|]. exists None. split; [exact Logic.I|].
          split; [intros A HA; eapply held_calm; [exact C3|now apply K2]|]. intros _ M.
          assert (M' : in_graph s2 id -> kind_of s2 id = Some MissingModule) by (intros X; eapply kind_back; [apply C3|exact X|exact M]).
          assert (X : in_graph s2 id) by (apply (proj2 C3); intros X; unfold kind_of in M; rewrite X in M; discriminate).
          destruct (M2 (M' X)) as [K|(refs & K)]; [left; intros A HA; eapply alone_calm; [exact C3|now apply K]|right].
          exists refs. eapply grows_log; [apply C3|exact K]. }
        destruct o as [p|].
        2:{ destruct parent as [p|]; [|apply owp_ret, Same; [apply calm_refl|reflexivity]].
            destruct (link || negb b); [|apply owp_ret, Same; [apply calm_refl|reflexivity]].
            apply owp_edge. intros s3 C3 _ _. now apply Same. }
        destruct H1 as (-> & c & -> & H1 & F1). cbn [plus'] in *.
        destruct (link || negb b) eqn:Eb.
        * apply owp_edge. intros s3 C3 _ He. split; [apply Hin|]. exists None. split; [exact Logic.I|]. split.
          -- intros A HA. cbn. apply (held_link _ s2 s3 id p default_dep C3 He); [|apply firm_self; now left].
             eapply held_more; [apply plus_swap|]. now apply K2.
          -- intros -> M. exfalso. apply negb_true_iff in Eb. unfold b in Eb.
             assert (X : in_graph s2 id) by (apply (proj2 C3); intros X; unfold kind_of in M; rewrite X in M; discriminate).
             apply (kind_back _ _ _ _ (proj1 C3) X) in M. rewrite M in Eb. discriminate.
        * apply owp_ret. split; [apply Hin|]. apply orb_false_iff in Eb as [-> Eb].
          exists (Some p). split; [split; [reflexivity|]; exists c; split; [eapply split_child_of; exact Hpk|]; split; [exact H1|eapply grows_resolves; eassumption]|].
          split; [exact K2|]. intros _. exact M2.
  Qed.

  (** ** Work *)

  Lemma owp_process_import n i s : in_graph s n -> scheduled s n i -> owp (process_import r n i) s (fun _ s' => tight s s').
  Proof.
    intros Hn Hs. pose proof (sched_active _ _ _ Hn Hs) as Ha. unfold process_import. apply owp_bind, owp_kind_test. destruct (absolute_name n _ i) as [x|name].
    - apply owp_bind, owp_find_module. intros old Hold. apply owp_bind.
      eapply owp_conseq with (Q := fun _ s1 => gives x s s1).
      + destruct old as [o|]; [apply owp_assert; intros _; apply tight_gives, calm_tight, calm_refl|].
        apply owp_bind, owp_node. intros s1 W. apply owp_sched; [eapply with_in, W|]. intros s2 C2.
        eapply gives_tight_trans; [eapply with_gives, W|now apply calm_tight].
      + intros u s1 G1 L1 K1. apply owp_edge. intros s2 C2 _ He. exact (gives_link s s1 s2 n x _ G1 Ha K1 C2 He).
    - apply owp_bind, owp_assert. intros _. apply owp_bind, owp_get, owp_bind. eapply owp_conseq; [apply owp_find|].
      intros id s1 G1 L1 K1. apply owp_bind, owp_edge. intros s2 C2 _ He.
      assert (K : tight s s2) by exact (gives_link s s1 s2 n id _ G1 Ha K1 C2 He). unfold insert_work.
      set (k := List.length _). clearbody k.
      assert (G : forall l, grows s2 (set_stack s2 l)) by (intros l; constructor; cbn; first [apply grows_graph_refl|apply incl_refl|now exists []]).
      apply owp_modify; [apply G|auto| |].
      + intros T w Hw. cbn in Hw. apply (grows_wok s2); [apply G|]. apply in_app_or in Hw as [Hw|[<-|Hw]].
        * apply T. rewrite <- (firstn_skipn (List.length (s_stack s2) - k) (s_stack s2)). apply in_or_app. now left.
        * assert (G2 : grows s s2) by (eapply grows_trans; [exact G1|apply C2]).
          split; [eapply grows_in_graph|eapply grows_scheduled]; eassumption.
        * apply T. rewrite <- (firstn_skipn (List.length (s_stack s2) - k) (s_stack s2)). apply in_or_app. now right.
      + eapply tight_trans; [exact K|]. apply calm_tight. split; [apply G|auto].
  Qed.

  Lemma owp_process_name n m k i nm s : in_graph s n -> scheduled s n i -> In nm (ii_names i) -> kind_of s m = Some k -> has_names k = true ->
    owp (process_name r n m k i nm) s (fun _ s' => tight s s').
  Proof.
    intros Hn Hs Hnm Hk Hkn. unfold process_name, get_node. apply owp_bind, owp_get. apply owp_bind.
    eapply owp_conseq with (Q := fun _ s1 => calm s s1).
    - destruct (memb _ _); [|apply owp_ret, calm_refl]. apply owp_bind, owp_get.
      destruct (option_map snd _); [|apply owp_ret, calm_refl]. apply owp_bind, owp_edge. intros s1 C1 _ _. now apply owp_ret.
    - intros known s1 G1 L1 C1. pose proof (calm_tight _ _ C1) as K1. destruct known; [now apply owp_ret|].
      assert (Hk1 : kind_of s1 m = Some k) by (eapply grows_kind; eassumption).
      assert (Im : in_graph s1 m) by (unfold kind_of in Hk1; unfold in_graph; destruct (gfind (s_graph s1) m); discriminate).
      apply owp_bind. eapply owp_conseq; [apply owp_close; [apply (c_find _ C)|apply (t_find _ R)]|].
      intros sub s2 G2 L2 [F2 [_ (o & O2 & K2 & M2)]]. apply owp_bind, owp_kind_test, owp_bind, owp_get.
      pose proof (grows_trans _ _ _ G1 G2) as G12.
      assert (Hk2 : kind_of s2 m = Some k) by (eapply grows_kind; eassumption).
      destruct (gfind (s_graph s2) m) as [nd|] eqn:End; [|unfold kind_of in Hk2; rewrite End in Hk2; discriminate].
      assert (Hkd : n_kind nd = k) by (unfold kind_of in Hk2; rewrite End in Hk2; now injection Hk2).
      assert (Hif : imported_from s2 m (in_name nm) nd).
      { exists n, i, nm. split; [eapply grows_scheduled; eassumption|]. do 3 (split; [assumption || reflexivity|]). now rewrite Hkd. }
      assert (Hp : forall A, match o with Some p => firm A s2 p | None => True end).
      { intros A. destruct o as [p|]; [|exact Logic.I]. destruct O2 as (_ & c & Hc & Hi & Fc). apply firm_loose.
        eapply loose_package; [exact Hif|exact Hc| |exact Fc]. intros ->. contradiction. }
      assert (Hgive : gives sub s1 s2).
      { intros A HA. specialize (K2 A HA). specialize (Hp (plus sub A)). destruct o as [p|]; [|exact K2].
        apply (held_cut _ _ p); [|exact Hp]. eapply held_more; [apply plus_swap|exact K2]. }
      assert (Ha : active s n) by (eapply sched_active; eassumption).
      assert (Hl : owp (do add_edge sub m default_dep ;; add_edge n sub (from_importinfo i true (in_asname nm))) s2 (fun _ s' => tight s s')).
      { apply owp_bind, owp_edge. intros s3 C3 _ _. apply owp_edge. intros s4 C4 _ He.
        eapply tight_trans; [exact K1|]. eapply (gives_link s1 s2 s4); [exact G2|eapply grows_active; eassumption|exact Hgive| |exact He].
        eapply calm_trans; eassumption. }
      destruct (match kind_of s2 sub with Some k => is_missing k | None => false end) eqn:Em; [|exact Hl].
      assert (Hms : kind_of s2 sub = Some MissingModule) by (destruct (kind_of s2 sub) as [[]|]; try discriminate; reflexivity).
      assert (Ks : own_name nd (in_name nm) -> tight s1 s2).
      { intros Ho. assert (Hlo : left_over s2 m (in_name nm) sub) by (exists nd; auto).
        destruct (M2 eq_refl Hms) as [K|(refs & K)].
        - intros A HA. apply (alone_stub sub); [|now exists m, (in_name nm)]. specialize (K A HA). specialize (Hp A).
          destruct o as [p|]; [|exact K]. eapply alone_cut; eassumption.
        - apply (gives_loose _ _ sub Hgive). eapply loose_implied; eassumption. }
      destruct (is_package k && match k with Package _ init _ _ _ => seqb init "@@SIX_MOVES@@" | _ => false end) eqn:Esix.
      + destruct (assoc (in_name nm) SIX_MOVES_TO) as [t|] eqn:Et; [|exact Hl].
        apply andb_prop in Esix as [Ep Esix].
        assert (Ks2 : tight s1 s2).
        { apply Ks. split; [now rewrite Hkd|right].
          destruct k as [ | | |b init mk f ty| | | | | | ]; try discriminate. apply seqb_eq in Esix. subst init.
          exists b, mk, f, ty, t. split; [exact Hkd|]. now apply assoc_In. }
        apply owp_bind. eapply owp_conseq; [apply owp_find|]. intros d s3 G3 L3 K3. apply owp_edge. intros s4 C4 _ He.
        eapply tight_trans; [exact K1|]. eapply tight_trans; [exact Ks2|].
        eapply (gives_link s2 s3 s4); [exact G3|eapply grows_active; eassumption|exact K3|exact C4|exact He].
      + clear Esix. destruct (is_package k && memb (in_name nm) (n_written nd)) eqn:Ew; [|exact Hl]. apply owp_ret.
        apply andb_prop in Ew as [Ep Ew]. apply memb_In in Ew.
        eapply tight_trans; [exact K1|]. apply Ks. split; [now rewrite Hkd|now left].
  Qed.

  Lemma owp_names n m k i s : in_graph s n -> scheduled s n i -> kind_of s m = Some k -> has_names k = true ->
    owp (iter (process_name r n m k i) (ii_names i)) s (fun _ s' => tight s s').
  Proof.
    intros Hn Hs Hk Hkn. eapply owp_conseq; [apply (owp_iter _ (fun s' => grows s s' /\ tight s s'))|].
    - intros nm s1 Hnm [G1 K1]. eapply owp_conseq; [apply owp_process_name; auto|].
      + eapply grows_in_graph; eassumption.
      + eapply grows_scheduled; eassumption.
      + eapply grows_kind; eassumption.
      + intros u s2 G2 _ K2. split; [eapply grows_trans; eassumption|tight_both].
    - split; [apply grows_refl|apply calm_tight, calm_refl].
    - intros u s' _ _ [_ H]. exact H.
  Qed.
  Lemma owp_written_names n m k i names s : in_graph s n -> scheduled s n i -> kind_of s m = Some k -> has_names k = true ->
    owp (do add_written n names ;; iter (process_name r n m k i) (ii_names i)) s (fun _ s' => tight s s').
  Proof.
    intros Hn Hs Hk Hkn. apply owp_bind, owp_written. intros s1 C1. eapply owp_conseq; [apply owp_names|].
    - eapply grows_in_graph; [apply C1|exact Hn].
    - eapply grows_scheduled; [apply C1|exact Hs].
    - eapply grows_kind; [apply C1|exact Hk].
    - exact Hkn.
    - intros u s2 _ _ K2. eapply tight_trans; [apply calm_tight, C1|exact K2].
  Qed.
  Lemma owp_process_namelist n m i s : in_graph s n -> scheduled s n i -> owp (process_namelist r n m i) s (fun _ s' => tight s s').
  Proof.
    intros Hn Hs. unfold process_namelist, get_node. apply owp_bind, owp_kind_test, owp_bind, owp_assert. intros _.
    apply owp_bind, owp_get. assert (Kr : tight s s) by apply calm_tight, calm_refl.
    destruct (ii_star i).
    - destruct (gfind (s_graph s) m); [|now apply owp_ret]. destruct (_ || _); [|now apply owp_ret].
      apply owp_written. intros s1 C1. now apply calm_tight.
    - destruct (ii_names i) as [|x l] eqn:En; [now apply owp_ret|]. rewrite <- En in *. clear En x l.
      destruct (gfind (s_graph s) m) as [x|] eqn:Em; [|now apply owp_ret].
      assert (Hk : kind_of s m = Some (n_kind x)) by (unfold kind_of; now rewrite Em).
      destruct (n_kind x); try (destruct (is_package _ || _ || _) eqn:Ey; [now apply owp_written_names|now apply owp_ret]; fail).
      apply owp_bind, owp_written. intros s1 C1. apply owp_bind, owp_find_module.
      intros [y|] Hy; [|apply owp_raise]. destruct (is_package _ || _ || _) eqn:Ey; [|apply owp_ret; now apply calm_tight].
      eapply owp_conseq; [apply owp_written_names|].
      + eapply grows_in_graph; [apply C1|exact Hn].
      + eapply grows_scheduled; [apply C1|exact Hs].
      + unfold kind_of. now rewrite Hy.
      + exact Ey.
      + intros u s2 _ _ K2. eapply tight_trans; [apply calm_tight, C1|exact K2].
  Qed.

  (** ** The calls *)

  Lemma owp_root_run id s s1 : grows s s1 -> gives id s s1 ->
    owp (do note (EvRoot id) ;; do add_root id ;; do f_run r ;; ret id) s1 (fun _ s' => tight s s').
  Proof.
    intros G1 K1. apply owp_bind, owp_note; [discriminate|]. apply owp_bind, owp_root. intros s2 C2 Hr.
    assert (K : tight s s2).
    { apply (gives_loose s s2 id); [|now apply loose_root]. eapply gives_tight_trans; [exact K1|].
      apply calm_tight. eapply calm_trans; [apply log_calm|exact C2]. }
    apply owp_bind. eapply owp_conseq; [apply (t_run _ R)|]. intros u s3 _ _ K3. apply owp_ret. tight_both.
  Qed.
  Lemma owp_add_script path s : owp (add_script E r path) s (fun _ s' => tight s s').
  Proof.
    unfold add_script. apply owp_bind, owp_find_module. intros [n|] _; [apply owp_raise|].
    apply owp_bind, owp_env; [apply envm_askr|]. intros t s1 _ C1.
    destruct (extract_ast_info _ t) as [imports|]; [|apply owp_oof].
    apply (owp_node_k (Node path Script [] [] None (Some path) [] false) imports). intros s2 W.
    eapply owp_conseq; [apply (owp_root_run path s1 s2); [apply W|eapply with_gives, W]|].
    intros u s3 _ _ K. eapply tight_trans; [apply calm_tight, C1|exact K].
  Qed.
  Lemma owp_find_or name (x : option node) im s : owp (match x with Some _ => ret name | None => f_find r im name true end) s
    (fun id s' => gives id s s').
  Proof. destruct x; [apply owp_ret, tight_gives, calm_tight, calm_refl|apply owp_find]. Qed.
  Lemma owp_add_module name s : owp (add_module r name) s (fun _ s' => tight s s').
  Proof.
    unfold add_module. apply owp_bind, owp_find_module. intros n _. apply owp_bind.
    eapply owp_conseq; [apply owp_find_or|]. intros id s1 G1 L1 K1. now apply owp_root_run.
  Qed.
  Lemma owp_iter_tight {X} (f : X -> M unit) l s : (forall x s, owp (f x) s (fun _ s' => tight s s')) ->
    owp (iter f l) s (fun _ s' => tight s s').
  Proof.
    intros H. apply (owp_iter f (tight s)); [|apply calm_tight, calm_refl]. intros x s1 _ K1.
    eapply owp_conseq; [apply H|]. intros u s2 _ _ K2. tight_both.
  Qed.
  Lemma owp_add_source src s : owp (add_source E r src) s (fun _ s' => tight s s').
  Proof.
    unfold add_source. apply owp_bind, owp_env; [apply envm_askr|]. intros t s1 _ C1. apply calm_tight in C1.
    destruct (extract_ast_info _ t) as [infos|]; [|apply owp_oof].
    eapply owp_conseq; [apply owp_iter_tight|intros u s2 _ _ K; tight_both].
    intros i s2. apply owp_bind. eapply owp_conseq; [apply owp_add_module|].
    intros w3 s3 _ _ K3. eapply owp_conseq; [apply owp_iter_tight|intros v4 s4 _ _ K; tight_both].
    intros nm s4. apply owp_bind. eapply owp_conseq; [apply owp_add_module|]. intros u s5 _ _ K5. now apply owp_ret.
  Qed.
  Lemma owp_add_distribution d s : owp (add_distribution E r d) s (fun _ s' => tight s s').
  Proof.
    unfold add_distribution, get_node. apply owp_bind, owp_get. destruct (gfind _ _).
    { apply owp_bind, owp_assert. intros _. apply owp_ret, calm_tight, calm_refl. }
    set (id := dist_identifier d). apply owp_bind, owp_user_node. intros s1 W _. apply owp_bind, owp_note; [discriminate|].
    apply owp_bind, owp_root. intros s2 C2 Hr.
    assert (K : tight s s2).
    { apply (gives_loose s s2 id); [|now apply loose_root]. eapply gives_tight_trans; [eapply with_gives, W|].
      apply calm_tight. eapply calm_trans; [apply log_calm|exact C2]. }
    assert (Hi : active s2 id).
    { apply (grows_active s1); [eapply grows_trans; [apply log_grows|apply C2]|]. eapply with_active; [exact W|reflexivity]. }
    apply owp_bind. eapply owp_conseq; [apply (owp_iter _ (fun s' => grows s2 s' /\ tight s2 s'))|].
    - intros name s3 _ [G3 K3]. apply owp_bind. eapply owp_conseq; [apply owp_find|]. intros m s4 G4 L4 K4. apply owp_edge.
      intros s5 C5 _ He. split; [eapply grows_trans; [exact G3|]; eapply grows_trans; [exact G4|apply C5]|].
      eapply tight_trans; [exact K3|]. eapply (gives_link s3 s4 s5); [exact G4|eapply grows_active; eassumption|exact K4|exact C5|exact He].
    - split; [apply grows_refl|apply calm_tight, calm_refl].
    - intros u s3 _ _ [_ K3]. apply owp_bind. eapply owp_conseq; [apply (t_run _ R)|]. intros v4 s4 _ _ K4. apply owp_ret.
      eapply tight_trans; [exact K|]. tight_both.
  Qed.

  (** A node that is asked to import something is tied. *)
  Lemma asked_tied A s n x : linv s -> held A s -> firm A (log s (EvReq n x)) n.
  Proof.
    intros L H. destruct (gfind (s_graph s) n) as [nd|] eqn:En.
    - apply firm_busy; [right; exists x; now left|]. eapply grows_tied; [apply log_grows|]. apply H. unfold in_graph. now rewrite En.
    - apply firm_loose. apply (loose_early _ n x [] (s_log s)); [reflexivity|]. intros i Hi. now apply (L n i Hi).
  Qed.
  Lemma asked_link s n x s1 s2 id d : linv s -> grows (log s (EvReq n x)) s1 -> gives id (log s (EvReq n x)) s1 ->
    calm s1 s2 -> has_edge (s_graph s2) n id d -> tight s s2.
  Proof.
    intros L G K C2 He A HA. apply (held_link A s1 s2 n id d C2 He); [apply K; eapply held_calm; [apply log_calm|exact HA]|].
    eapply grows_firm; [exact G|]. now apply asked_tied.
  Qed.
  Lemma owp_import_module n name s : owp (import_module r n name) s (fun _ s' => tight s s').
  Proof.
    apply owp_stk. intros L _. unfold import_module. apply owp_bind, owp_note; [discriminate|]. apply owp_bind, owp_find_module.
    intros x _. apply owp_bind. eapply owp_conseq; [apply owp_find_or|]. intros id s1 G1 L1 K1.
    apply owp_bind, owp_edge. intros s2 C2 _ He. apply owp_ret. exact (asked_link s n name s1 s2 id _ L G1 K1 C2 He).
  Qed.
  Lemma owp_push n pkg s (Q : unit -> st -> Prop) : (exists k, kind_of s n = Some k /\ is_missing k = false) -> (forall s', calm s s' -> Q tt s') -> owp (push_package n pkg) s Q.
  Proof.
    intros Hn K. set (f := fun s => log (set_stack s (DoPackage n pkg :: s_stack s)) (EvPush n pkg)).
    assert (G : grows s (f s)) by (constructor; cbn; first [apply grows_graph_refl|apply incl_refl|now exists []|now eexists [_]]).
    apply (owp_modify f); [exact G| | |apply K; split; [exact G|auto]].
    - intros L x l [H|H]; [discriminate|exact (L x l H)].
    - intros T w [<-|Hw]; [exact Hn|]. eapply grows_wok; [exact G|now apply T].
  Qed.
  Lemma owp_import_directory id pkg path s k : kind_of s id = Some k -> is_missing k = false -> owp (import_directory E r id pkg path) s (fun _ s' => tight s s').
  Proof.
    intros Hid Hk. unfold import_directory. apply owp_bind, owp_env; [apply envm_askr|]. intros stems s1 _ C1.
    assert (Hr : grows s s1 /\ tight s s1) by (split; [apply C1|apply calm_tight, C1]).
    apply owp_bind. eapply owp_conseq; [apply (owp_iter _ (fun s' => grows s s' /\ tight s s'))|].
    - intros stem s2 _ [G2 K2]. destruct (e_isidentifier E stem); [|now apply owp_ret].
      apply owp_bind, owp_note; [discriminate|]. apply owp_bind. eapply owp_conseq; [apply owp_find|]. intros m s3 G3 L3 K3.
      assert (I2 : kind_of s2 id = Some k) by (eapply grows_kind; eassumption).
      apply owp_bind, owp_edge. intros s4 C4 _ He. set (s2' := log s2 _) in *.
      assert (G4 : grows s2 s4) by (eapply grows_trans; [apply log_grows|]; eapply grows_trans; [exact G3|apply C4]).
      apply owp_push; [exists k; split; [eapply grows_kind; eassumption|exact Hk]|]. intros s5 C5.
      split; [eapply grows_trans; [exact G2|]; eapply grows_trans; [exact G4|apply C5]|].
      eapply tight_trans; [exact K2|]. eapply tight_trans; [apply calm_tight, (log_calm s2 (EvList id (pkg ++ "." ++ stem)))|].
      eapply tight_trans; [|apply calm_tight, C5]. eapply (gives_link s2' s3 s4); [exact G3|eapply kind_active; [exact I2|exact Hk]|exact K3|exact C4|exact He].
    - exact Hr.
    - intros u s2 _ _ [G2 K2]. apply owp_bind, owp_env; [apply envm_askr|]. intros dirs s3 _ C3.
      eapply owp_conseq; [apply (owp_iter _ (fun s' => grows s s' /\ tight s s'))|].
      + intros dir s4 _ [G4 K4]. destruct (e_isidentifier E dir); [|now apply owp_ret].
        apply owp_bind, owp_note; [discriminate|]. apply owp_push; [exists k; split; [eapply (grows_kind s4); [apply log_grows|eapply grows_kind; eassumption]|exact Hk]|].
        intros s5 C5. assert (C45 : calm s4 s5) by (eapply calm_trans; [apply log_calm|exact C5]).
        split; [eapply grows_trans; [exact G4|apply C45]|]. eapply tight_trans; [exact K4|now apply calm_tight].
      + split; [eapply grows_trans; [exact G2|apply C3]|]. eapply tight_trans; [exact K2|now apply calm_tight].
      + intros u2 s4 _ _ [_ H]. exact H.
  Qed.
  Lemma owp_saved {X} (m : M X) s (Q : X -> st -> Prop) :
    (forall s0, s_graph s0 = s_graph s -> s_log s0 = s_log s -> calm s s0 ->
       owp m s0 (fun a s1 => forall s2, calm s1 s2 -> Q a s2)) -> owp (saved_stack m) s Q.
  Proof.
    intros H L T x s' Ex. unfold saved_stack in Ex.
    set (s0 := set_saved (set_stack s []) (s_stack s :: s_saved s)) in *.
    assert (G0 : grows s s0) by (constructor; cbn; first [apply grows_graph_refl|apply incl_refl|now exists []]).
    assert (C0 : calm s s0) by (split; [exact G0|auto]).
    destruct (m s0) as [[y s1]|] eqn:Em; [|discriminate]. injection Ex as <- <-.
    assert (T0 : stk s0) by (intros w []).
    destruct (H s0 eq_refl eq_refl C0 L T0 _ _ Em) as (G1 & L1 & T1 & D). set (s2 := set_saved _ _).
    assert (G2 : grows s1 s2) by (constructor; cbn; first [apply grows_graph_refl|apply incl_refl|now exists []]).
    assert (G : grows s s2) by (eapply grows_trans; [exact G0|eapply grows_trans; eassumption]).
    split; [exact G|]. split; [exact L1|]. split.
    - intros w Hw. cbn in Hw. apply in_app_or in Hw as [Hw|Hw]; [eapply grows_wok; [exact G2|now apply T1]|].
      eapply grows_wok; [exact G|now apply T].
    - destruct y; [|exact Logic.I]. apply D. split; [exact G2|auto].
  Qed.
  (** [K0] tells how the importing node is tied. *)
  Lemma owp_import_package n pkg s0 s : grows s0 s -> tight s0 s -> (forall A, held A s0 -> firm A s n) ->
    owp (import_package E r n pkg) s (fun _ s' => tight s0 s').
  Proof.
    intros G0 K0 T0. unfold import_package. apply owp_bind, owp_find_module. intros x _. apply owp_bind.
    eapply owp_conseq; [apply (owp_saved _ s (fun id s' => gives id s s'))|].
    - intros s1 Hg Hl C1. apply owp_bind. eapply owp_conseq; [apply owp_find_or|]. intros id s2 G2 L2 K2.
      apply owp_bind. eapply owp_conseq; [apply (t_run _ R)|]. intros u s3 G3 L3 K3. apply owp_ret. intros s4 C4.
      apply (tight_gives_trans _ _ s1); [now apply calm_tight|]. apply (gives_tight_trans _ _ s2); [exact K2|].
      eapply tight_trans; [exact K3|now apply calm_tight].
    - intros id s1 G1 L1 K1. apply owp_bind, owp_edge. intros s2 C2 _ He.
      assert (K : tight s0 s2).
      { intros A HA. apply (held_link A s1 s2 n id default_dep C2 He); [now apply K1, K0|]. eapply grows_firm; [exact G1|]. now apply T0. }
      apply owp_bind, owp_kind_test.
      destruct (match kind_of s2 id with Some k => is_package k | None => false end) eqn:Ep; cbn [negb]; [|now apply owp_ret].
      destruct (kind_of s2 id) as [k|] eqn:Hid; [|discriminate].
      assert (Hk : is_missing k = false) by (destruct k; try discriminate; reflexivity).
      apply owp_bind, owp_env; [apply envm_find_spec|]. intros [sp|] s3 _ C3; [|apply owp_raise].
      apply owp_bind. eapply owp_conseq; [apply (owp_iter _ (fun s' => grows s2 s' /\ tight s2 s'))|].
      + intros path s4 _ [G4 K4]. eapply owp_conseq; [apply (owp_import_directory _ _ _ _ k); [eapply grows_kind; eassumption|exact Hk]|].
        intros u s5 G5 _ K5. split; [eapply grows_trans; eassumption|tight_both].
      + split; [apply C3|now apply calm_tight].
      + intros u s4 _ _ [_ K4]. apply owp_ret. tight_both.
  Qed.

  Lemma owp_hook_context p s : owp (hook_context r p) s (fun _ s' => tight s s').
  Proof.
    unfold hook_context. apply owp_bind. eapply owp_conseq; [apply owp_attempt, (t_prog _ R)|]. intros a s1 _ _ K1.
    apply owp_bind. eapply owp_conseq; [apply (t_run _ R)|]. intros u s2 _ _ K2.
    destruct a; [|apply owp_raise]. apply owp_ret. tight_both.
  Qed.

  Ltac same := apply owp_bind, owp_same; [reflexivity|reflexivity|
    constructor; cbn; first [apply grows_graph_refl|apply incl_refl|now exists []|now eexists [_]]|auto|
    intros Cs; apply owp_ret, calm_tight, Cs].
  Lemma owp_do_action a s : owp (do_action E r a) s (fun _ s' => tight s s').
  Proof.
    assert (Kr : tight s s) by apply calm_tight, calm_refl.
    assert (Kl : forall e, tight s (log s e)) by (intros e; apply calm_tight, log_calm).
    destruct a; cbn [do_action].
    - now apply owp_get.
    - same.
    - apply owp_bind. eapply owp_conseq; [apply owp_add_script|]. intros. now apply owp_ret.
    - apply owp_bind. eapply owp_conseq; [apply owp_add_module|]. intros. now apply owp_ret.
    - apply owp_bind. eapply owp_conseq; [apply owp_add_source|]. intros. now apply owp_ret.
    - apply owp_bind. eapply owp_conseq; [apply owp_add_distribution|]. intros. now apply owp_ret.
    - apply owp_bind. unfold add_distribution_named. apply owp_bind, owp_env; [apply envm_askr|].
      intros [d|] s1 _ C1; [|apply owp_raise]. eapply owp_conseq; [apply owp_add_distribution|]. intros id s2 _ _ K2. apply owp_ret.
      eapply tight_trans; [apply calm_tight, C1|exact K2].
    - apply owp_bind. eapply owp_conseq; [apply owp_hook_context|]. intros. now apply owp_ret.
    - apply owp_bind. eapply owp_conseq; [apply owp_import_module|]. intros. now apply owp_ret.
    - apply owp_stk. intros L _. apply owp_bind, owp_note; [discriminate|]. apply owp_bind.
      eapply owp_conseq; [apply (owp_import_package importing name s)|].
      + apply log_grows.
      + apply Kl.
      + intros A HA. now apply asked_tied.
      + intros. now apply owp_ret.
    - same.
    - same.
    - apply owp_bind, owp_same; [reflexivity|reflexivity|
        constructor; cbn; first [apply grows_graph_refl|apply incl_refl|now exists []|now eexists [_]]| |
        intros Cs; apply owp_ret, calm_tight, Cs].
      intros L x l [H|H]; [discriminate|exact (L x l H)].
    - apply owp_bind, owp_same; [reflexivity|reflexivity|
        constructor; cbn; first [apply grows_graph_refl|apply incl_refl|now exists []|now eexists [_]]| |
        intros Cs; apply owp_ret, calm_tight, Cs].
      intros L x l' [H|H]; [discriminate|exact (L x l' H)].
    - apply owp_bind, owp_note; [discriminate|]. apply owp_bind, owp_user_node. intros s1 W Hl. apply owp_ret.
      apply (gives_loose _ _ (n_name n)); [eapply tight_gives_trans; [apply Kl|exact (with_gives _ _ _ _ W)]|].
      apply loose_given. rewrite Hl. now left.
    - apply owp_bind, owp_note; [discriminate|]. apply owp_bind, owp_edge. intros s1 C1 _ _. apply owp_ret.
      eapply tight_trans; [apply Kl|exact (calm_tight _ _ C1)].
    - apply owp_bind, owp_note; [discriminate|]. apply owp_bind, owp_root. intros s1 C1 _. apply owp_ret.
      eapply tight_trans; [apply Kl|exact (calm_tight _ _ C1)].
    - unfold get_node. apply owp_bind, owp_get. destruct (gfind _ _) eqn:Eg; [|apply owp_raise].
      apply owp_bind, owp_note; [discriminate|]. apply owp_bind, owp_sched; [unfold in_graph; cbn; congruence|].
      intros s1 C1. apply owp_ret. eapply tight_trans; [apply Kl|exact (calm_tight _ _ C1)].
    - apply owp_bind. eapply owp_conseq; [apply (t_run _ R)|]. intros. now apply owp_ret.
    - apply owp_env; [envm_tac|]. intros x s1 _ C1. now apply calm_tight.
    - apply owp_env; [envm_tac|]. intros x s1 _ C1. now apply calm_tight.
    - apply owp_env; [envm_tac|]. intros x s1 _ C1. now apply calm_tight.
    - apply owp_env; [envm_tac|]. intros x s1 _ C1. now apply calm_tight.
    - apply owp_env; [pose proof (c_nfs _ C) as Hn; envm_tac|]. intros x s1 _ C1. now apply calm_tight.
    - apply owp_env; [envm_tac|]. intros x s1 _ C1. now apply calm_tight.
    - apply owp_env; [envm_tac|]. intros x s1 _ C1. now apply calm_tight.
  Qed.

  Lemma owp_call a s : owp (call E r a) s (fun _ s' => tight s s').
  Proof.
    unfold call. apply owp_bind. eapply owp_conseq; [apply owp_attempt, owp_do_action|]. intros [ans|e] s1 _ _ K.
    - now apply owp_ret.
    - apply owp_bind, owp_note; [discriminate|]. apply owp_ret, err_tight. now left.
  Qed.
  Lemma owp_run_prog p : forall s, owp (run_prog E r p) s (fun _ s' => tight s s').
  Proof.
    induction p as [o|e|a k IH]; intros s; cbn [run_prog]; [apply owp_ret, calm_tight, calm_refl|apply owp_raise|].
    apply owp_bind. eapply owp_conseq; [apply owp_call|]. intros ans s1 _ _ K1.
    eapply owp_conseq; [apply IH|]. intros o s2 _ _ K2. tight_both.
  Qed.
  Lemma owp_post_body i n s : owp (post_body E r i n) s (fun _ s' => tight s s').
  Proof.
    unfold post_body. apply owp_bind, owp_get. destruct (nth_error _ _); [|apply owp_ret, calm_tight, calm_refl].
    apply owp_bind. eapply owp_conseq; [apply owp_run_prog|]. intros o s1 _ _ K1.
    eapply owp_conseq; [apply (t_post _ R)|]. intros u s2 _ _ K2. tight_both.
  Qed.
  Lemma owp_miss_body i im n s : owp (miss_body E r i im n) s (fun _ s' => tight s s').
  Proof.
    unfold miss_body. apply owp_bind, owp_get. destruct (nth_error _ _); [|apply owp_ret, calm_tight, calm_refl].
    apply owp_bind. eapply owp_conseq; [apply owp_run_prog|]. intros [id|] s1 _ _ K1; [now apply owp_ret|].
    eapply owp_conseq; [apply (t_miss _ R)|]. intros u s2 _ _ K2. tight_both.
  Qed.
  Lemma owp_do_work w s : wok s w -> owp (do_work E r w) s (fun _ s' => tight s s').
  Proof.
    destruct w; cbn [do_work wok]; intros Hw.
    - apply owp_bind, owp_note; [discriminate|]. eapply owp_conseq; [apply (t_post _ R)|]. intros u s1 _ _ K.
      eapply tight_trans; [apply calm_tight, log_calm|exact K].
    - now apply owp_process_import.
    - now apply owp_process_namelist.
    - apply owp_bind. eapply owp_conseq; [apply (owp_import_package n pkg s s)|].
      + apply grows_refl.
      + apply calm_tight, calm_refl.
      + intros A HA. destruct Hw as (k & H1 & H2). apply active_firm; [eapply kind_active; eassumption|exact HA].
      + intros. now apply owp_ret.
  Qed.
  Lemma owp_run_body s : owp (run_body E r) s (fun _ s' => tight s s').
  Proof.
    intros L T x s' Ex. unfold run_body in Ex. destruct (s_stack s) as [|w rest] eqn:Es.
    { injection Ex as <- <-. split; [apply grows_refl|]. do 2 (split; [assumption|]). apply calm_tight, calm_refl. }
    set (s1 := log (set_run (set_stack s rest) (w :: s_run s)) (EvPop w)) in *.
    assert (G1 : grows s s1) by (constructor; cbn; first [apply grows_graph_refl|apply incl_refl|now exists []|now eexists [_]]).
    assert (L1 : linv s1) by (intros n l [Hn|Hn]; [discriminate|exact (L n l Hn)]).
    assert (T1 : stk s1) by (intros v Hv; eapply grows_wok; [exact G1|apply T; rewrite Es; now right]).
    assert (Hw : wok s1 w) by (eapply grows_wok; [exact G1|apply T; rewrite Es; now left]).
    assert (K1 : tight s s1) by (apply calm_tight; split; [exact G1|auto]).
    destruct (do_work E r w s1) as [[[u|e] s2]|] eqn:Ew; [| |discriminate].
    - destruct (owp_do_work w s1 Hw L1 T1 _ _ Ew) as (G2 & L2 & T2 & K2).
      set (s3 := log (set_run s2 (tl (s_run s2))) (EvDone w)) in *.
      assert (G3 : grows s2 s3) by (constructor; cbn; first [apply grows_graph_refl|apply incl_refl|now exists []|now eexists [_]]).
      assert (L3 : linv s3) by (intros n l [Hn|Hn]; [discriminate|exact (L2 n l Hn)]).
      assert (T3 : stk s3) by (now apply (grows_stk s2)).
      destruct (t_run _ R s3 L3 T3 _ _ Ex) as (G4 & L4 & T4 & K4).
      split; [eapply grows_trans; [exact G1|]; eapply grows_trans; [exact G2|]; eapply grows_trans; eassumption|].
      do 2 (split; [assumption|]). destruct x; [|exact Logic.I]. eapply tight_trans; [exact K1|]. eapply tight_trans; [exact K2|].
      eapply tight_trans; [|exact K4]. apply calm_tight. split; [exact G3|auto].
    - injection Ex as <- <-. destruct (owp_do_work w s1 Hw L1 T1 _ _ Ew) as (G2 & L2 & T2 & _). set (s3 := log _ _).
      assert (G3 : grows s2 s3) by (constructor; cbn; first [apply grows_graph_refl|apply incl_refl|now exists []|now eexists [_]]).
      split; [eapply grows_trans; [exact G1|]; eapply grows_trans; eassumption|].
      split; [intros n l [Hn|Hn]; [discriminate|exact (L2 n l Hn)]|]. split; [now apply (grows_stk s2)|exact Logic.I].
  Qed.
End bodies.

Lemma ties_exec E n : ties (exec E n).
Proof.
  induction n as [|n IH]; cbn [exec]; [constructor; intros; apply owp_oof|].
  pose proof (closes_exec E n) as C.
  constructor; cbn [f_find f_load f_nfs f_run f_prog f_post f_miss]; intros.
  - now apply owp_find_body.
  - now apply owp_load_body.
  - now apply owp_run_body.
  - now apply owp_run_prog.
  - now apply owp_post_body.
  - now apply owp_miss_body.
Qed.

Lemma top_call_ties E fuel a s ans s' : linv s -> stk s -> top_call E fuel a s = Some (ans, s') ->
  linv s' /\ stk s' /\ tight s s'.
Proof.
  intros L T Ht. unfold top_call in Ht.
  destruct (call E (exec E fuel) a s) as [[[x|e] s1]|] eqn:Ec; try discriminate. injection Ht as <- <-.
  destruct (owp_call E _ (closes_exec E fuel) (ties_exec E fuel) a s L T _ _ Ec) as (_ & L' & T' & K). auto.
Qed.
