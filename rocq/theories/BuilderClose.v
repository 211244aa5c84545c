(** What the builder owes for the nodes it made, and that it pays it when no
    exception occurs. *)
From Verif Require Export BuilderPass.

(** Node kinds that are linked to their package. *)
Definition linkable (k : kind) : bool := negb (is_script k || is_invalid_rel k || is_missing k).

Inductive obl :=
| OSched (n : string) (l : list iinfo)   (* schedule the imports of a new node *)
| OFail (w : work)                       (* no work item failed *)
| OLink (id c : string)                  (* link a new node to its package *)
| OTarget (id a : string)                (* link an alias or virtual node to its target *)
| OImpl (name ref : string)              (* implied reference *)
| OList (n name : string).               (* look at a module found by import_package *)

Definition owed (s : st) (o : obl) : Prop :=
  match o with
  | OSched n l => In (EvAdd n l) (s_log s)
  | OFail w => In (EvFail w) (s_log s)
  | OLink id c => (exists l, In (EvAdd id l) (s_log s)) /\ child_of c id
      /\ exists k, kind_of s id = Some k /\ linkable k = true
  | OTarget id a => (exists l, In (EvAdd id l) (s_log s))
      /\ (kind_of s id = Some (AliasNode a) \/ kind_of s id = Some (VirtualNode a))
  | OList n name => In (EvList n name) (s_log s)
  | OImpl name ref => exists refs, In (EvImplied name (ImpRefs refs)) (s_log s) /\ In ref refs
  end.

Definition paid (s : st) (o : obl) : Prop :=
  match o with
  | OSched n l => In (EvSched n l) (s_log s)
  | OFail w => False
  | OLink id c => exists p, resolves s c p /\ has_edge (s_graph s) id p default_dep
  | OTarget id a => exists p, resolves s a p /\ has_edge (s_graph s) id p default_dep
  | OList n name => In (EvPush n name) (s_log s)
  | OImpl name ref => exists t p, resolves s name t /\ resolves s ref p /\ has_edge (s_graph s) t p default_dep
  end.

Lemma grows_paid s s' o : grows s s' -> paid s o -> paid s' o.
Proof.
  intros G. destruct o as [n l|w|id c|id a|name ref|? ?]; cbn.
  - now apply grows_log.
  - auto.
  - intros (p & A & B). exists p. split; [eapply grows_resolves|eapply grows_edge]; eassumption.
  - intros (p & A & B). exists p. split; [eapply grows_resolves|eapply grows_edge]; eassumption.
  - intros (t & p & A & B & C). exists t, p.
    split; [eapply grows_resolves; eassumption|]. split; [eapply grows_resolves|eapply grows_edge]; eassumption.
  - now apply grows_log.
Qed.

(** Added nodes are in the graph. *)
Definition linv (s : st) : Prop := forall n l, In (EvAdd n l) (s_log s) -> in_graph s n.

(** The number of exceptions that reached a caller or were ignored, and that
    there was one between two states. *)
Definition is_err (e : event) : bool := match e with EvErr => true | _ => false end.
Definition errs (s : st) : nat := List.length (filter is_err (s_log s)).
Definition erred (s s' : st) : Prop := errs s < errs s'.
Lemma grows_errs s s' : grows s s' -> errs s <= errs s'.
Proof. intros G. unfold errs. destruct (gw_log _ _ G) as [l ->]. rewrite filter_app, app_length. lia. Qed.
Lemma erred_before s s1 s' : grows s s1 -> erred s1 s' -> erred s s'.
Proof. intros G H. apply grows_errs in G. unfold erred in *. lia. Qed.
Lemma erred_after s s1 s' : grows s1 s' -> erred s s1 -> erred s s'.
Proof. intros G H. apply grows_errs in G. unfold erred in *. lia. Qed.
Lemma erred_log s : erred s (log s EvErr).
Proof. unfold erred, errs. cbn. lia. Qed.

(** From [s] to [s'] everything new is paid, except [P]. *)
Definition clo (P : obl -> Prop) (s s' : st) : Prop :=
  erred s s' \/ forall o, owed s' o -> paid s' o \/ owed s o \/ P o.
Definition none : obl -> Prop := fun _ => False.

Lemma clo_trans P s s1 s2 : grows s s1 -> grows s1 s2 -> clo P s s1 -> clo P s1 s2 -> clo P s s2.
Proof.
  intros G0 G [H|H] [K|K]; [left; eapply erred_after; eassumption|left; eapply erred_after; eassumption
    |left; eapply erred_before; eassumption|right].
  intros o Ho. destruct (K o Ho) as [A|[A|A]]; auto. destruct (H o A) as [B|[B|B]]; auto.
  left. eapply grows_paid; eassumption.
Qed.
Lemma clo_weaken (P P' : obl -> Prop) s s' : (forall o, P o -> P' o) -> clo P s s' -> clo P' s s'.
Proof. intros H [K|K]; [now left|right]. intros o Ho. destruct (K o Ho) as [A|[A|A]]; auto. Qed.
Lemma clo_none P s s' : clo none s s' -> clo P s s'.
Proof. apply clo_weaken. intros o []. Qed.
Lemma clo_refl P s : clo P s s.
Proof. right. auto. Qed.

(** Events without obligations. *)
Definition neutral (e : event) : bool :=
  match e with EvAdd _ _ | EvFail _ | EvList _ _ | EvImplied _ (ImpRefs _) => false | _ => true end.
Definition nlog (s s' : st) : Prop :=
  forall e, In e (s_log s') -> In e (s_log s) \/ neutral e = true.
Lemma nlog_refl s : nlog s s. Proof. intros e H. now left. Qed.
Lemma nlog_trans a b c : nlog a b -> nlog b c -> nlog a c.
Proof. intros H K e He. destruct (K e He) as [A|A]; auto. Qed.

Lemma nlog_linv s s' : grows s s' -> nlog s s' -> linv s -> linv s'.
Proof.
  intros G N L n l H. destruct (N _ H) as [A|A]; [|discriminate].
  eapply grows_in_graph; [exact G|]. eapply L; exact A.
Qed.
Lemma in_graph_kind s id : in_graph s id -> exists k, kind_of s id = Some k.
Proof.
  unfold in_graph, kind_of. destruct (gfind (s_graph s) id) as [n|]; [|congruence].
  intros _. now exists (n_kind n).
Qed.
Lemma kind_back s s' id k : grows s s' -> in_graph s id -> kind_of s' id = Some k -> kind_of s id = Some k.
Proof.
  intros G H K. apply in_graph_kind in H as [k' H]. rewrite H. apply (grows_kind _ _ _ _ G) in H. congruence.
Qed.
Lemma nlog_clo s s' : grows s s' -> nlog s s' -> linv s -> clo none s s'.
Proof.
  intros G N L. right. intros o Ho. right. left. destruct o as [n l|w|id c|id a|name ref|? ?]; cbn in *.
  - destruct (N _ Ho) as [A|A]; [exact A|discriminate].
  - destruct (N _ Ho) as [A|A]; [exact A|discriminate].
  - destruct Ho as ((l & H1) & H2 & k & H3 & H4). destruct (N _ H1) as [A|A]; [|discriminate].
    split; [now exists l|]. split; [exact H2|]. exists k. split; [|exact H4].
    eapply kind_back; [exact G|eapply L; exact A|exact H3].
  - destruct Ho as ((l & H1) & H2). destruct (N _ H1) as [A|A]; [|discriminate].
    split; [now exists l|]. destruct H2 as [H2|H2]; [left|right]; (eapply kind_back; [exact G|eapply L; exact A|exact H2]).
  - destruct Ho as (refs & H1 & H2). destruct (N _ H1) as [A|A]; [|discriminate]. exists refs. now split.
  - destruct (N _ Ho) as [A|A]; [exact A|discriminate].
Qed.

(** ** Rules *)

Definition cwp {A} (P : obl -> Prop) (m : M A) (s : st) (Q : A -> st -> Prop) : Prop :=
  linv s -> forall r s', m s = Some (r, s') ->
    grows s s' /\ linv s' /\ match r with ROk a => clo P s s' /\ Q a s' | RErr _ => True end.

Lemma cwp_bind {A B} P (m : M A) (f : A -> M B) s Q :
  cwp P m s (fun a s1 => cwp P (f a) s1 Q) -> cwp P (bind m f) s Q.
Proof.
  intros H L r s' E. unfold bind in E. destruct (m s) as [[[a|e] s1]|] eqn:Em; [| |discriminate].
  - destruct (H L _ _ Em) as (G1 & L1 & C1 & K). destruct (K L1 _ _ E) as (G2 & L2 & K2).
    split; [eapply grows_trans; eassumption|]. split; [exact L2|].
    destruct r; [|exact I]. destruct K2 as [C2 K2]. split; [|exact K2]. eapply clo_trans; eassumption.
  - injection E as <- <-. destruct (H L _ _ Em) as (G1 & L1 & K). auto.
Qed.
Lemma cwp_conseq {A} (P P' : obl -> Prop) (m : M A) s (Q Q' : A -> st -> Prop) :
  cwp P m s Q ->
  (forall a s', grows s s' -> linv s' -> clo P s s' -> Q a s' -> Q' a s') ->
  (forall o, P o -> P' o) -> cwp P' m s Q'.
Proof.
  intros H K HP L r s' E. destruct (H L _ _ E) as (G & L' & D). split; [exact G|]. split; [exact L'|].
  destruct r; [|exact I]. destruct D as [C D]. split; [eapply clo_weaken; eassumption|auto].
Qed.
(** Pay at the end. *)
Lemma cwp_pay {A} (P P' : obl -> Prop) (m : M A) s (Q Q' : A -> st -> Prop) :
  cwp P m s Q ->
  (forall a s', grows s s' -> linv s' -> Q a s' -> Q' a s' /\
     (erred s s' \/ forall o, P o -> owed s' o -> paid s' o \/ owed s o \/ P' o)) ->
  cwp P' m s Q'.
Proof.
  intros H K L r s' E. destruct (H L _ _ E) as (G & L' & D). split; [exact G|]. split; [exact L'|].
  destruct r; [|exact I]. destruct D as [C D]. destruct (K a s' G L' D) as [K1 [K2|K2]].
  - split; [now left|exact K1].
  - split; [|exact K1]. destruct C as [C|C]; [now left|right]. intros o Ho.
    destruct (C o Ho) as [X|[X|X]]; auto.
Qed.
Lemma cwp_ret {A} P (a : A) s (Q : A -> st -> Prop) : Q a s -> cwp P (ret a) s Q.
Proof.
  intros H L r s' E. injection E as <- <-. split; [apply grows_refl|]. split; [exact L|].
  split; [apply clo_refl|exact H].
Qed.
Lemma cwp_raise {A} P e s (Q : A -> st -> Prop) : cwp P (raise e) s Q.
Proof. intros L r s' E. injection E as <- <-. split; [apply grows_refl|]. now split. Qed.
Lemma cwp_oof {A} P s (Q : A -> st -> Prop) : cwp P out_of_fuel s Q.
Proof. intros L r s' E. discriminate. Qed.
Lemma cwp_of_result {A} P (x : result A) s (Q : A -> st -> Prop) :
  (forall a, x = ROk a -> Q a s) -> cwp P (of_result x) s Q.
Proof.
  intros H L r s' E. injection E as <- <-. split; [apply grows_refl|]. split; [exact L|].
  destruct x; [|exact I]. split; [apply clo_refl|now apply H].
Qed.
Lemma cwp_get {A} P (f : st -> A) s (Q : A -> st -> Prop) : Q (f s) s -> cwp P (gets f) s Q.
Proof. intros H. apply (cwp_ret P (f s) s Q H). Qed.
Lemma cwp_assert P b s (Q : unit -> st -> Prop) : (b = true -> Q tt s) -> cwp P (assert b) s Q.
Proof. destruct b; intros H; [apply cwp_ret; auto|apply cwp_raise]. Qed.
Lemma cwp_attempt {A} P (m : M A) s Q (Q' : result A -> st -> Prop) :
  cwp P m s Q ->
  (forall a s', grows s s' -> linv s' -> clo P s s' -> Q a s' -> Q' (ROk a) s') ->
  (forall e s', m s = Some (RErr e, s') -> grows s s' -> linv s' -> clo P s s' /\ Q' (RErr e) s') ->
  cwp P (attempt m) s Q'.
Proof.
  intros H K1 K2 L r s' E. unfold attempt in E. destruct (m s) as [[x s1]|] eqn:Em; [|discriminate].
  injection E as <- <-. destruct (H L _ _ Em) as (G & L1 & D). split; [exact G|]. split; [exact L1|].
  destruct x as [a|e].
  - destruct D as [D1 D2]. auto.
  - now apply K2.
Qed.

(** Computations without obligations. *)
Definition neutralm {A} (m : M A) : Prop := forall s r s', m s = Some (r, s') -> grows s s' /\ nlog s s'.
Lemma cwp_neutral {A} P (m : M A) s (Q : A -> st -> Prop) :
  neutralm m -> (forall a s', m s = Some (ROk a, s') -> grows s s' -> linv s' -> Q a s') -> cwp P m s Q.
Proof.
  intros H K L r s' E. destruct (H _ _ _ E) as [G N]. pose proof (nlog_linv _ _ G N L) as L'.
  split; [exact G|]. split; [exact L'|]. destruct r; [|exact I].
  split; [apply clo_none; now apply nlog_clo|now apply K].
Qed.
Lemma cwp_env {A} P (m : M A) s (Q : A -> st -> Prop) :
  envm m -> (forall a s', m s = Some (ROk a, s') -> env_only s s' -> linv s' -> Q a s') -> cwp P m s Q.
Proof.
  intros H K. apply cwp_neutral.
  - intros s0 r s' E. apply H in E. split; [now apply env_only_grows|].
    destruct E as (f & c & ->). intros e He. now left.
  - intros a s' E _ L. apply (K a s' E); [eapply H; exact E|exact L].
Qed.
Lemma neutral_modify f : (forall s, grows s (f s) /\ nlog s (f s)) -> neutralm (modify f).
Proof. intros H s r s' E. injection E as <- <-. apply H. Qed.
Lemma same_neutral s s' : grows s s' -> s_log s' = s_log s -> grows s s' /\ nlog s s'.
Proof. intros G H. split; [exact G|]. intros e. rewrite H. now left. Qed.
Lemma log_grows s e : grows s (log s e).
Proof. constructor; cbn; first [apply grows_graph_refl|apply incl_refl|now exists []|now exists [e]]. Qed.
Lemma neutral_note e : neutral e = true -> neutralm (note e).
Proof.
  intros H. apply neutral_modify. intros s. split; [apply log_grows|].
  intros x [<-|Hx]; [now right|now left].
Qed.
Lemma cwp_note P e s (Q : unit -> st -> Prop) : neutral e = true -> Q tt (log s e) -> cwp P (note e) s Q.
Proof. intros H K. apply cwp_neutral; [now apply neutral_note|]. intros a s' E _ _. now injection E as <- <-. Qed.
Lemma lift_set_grows s g : grows_graph (s_graph s) g -> grows s (set_graph s g).
Proof. intros H. constructor; cbn; first [exact H|apply incl_refl|now exists []]. Qed.

Lemma cwp_edge P a b d s (Q : unit -> st -> Prop) :
  (forall s', grows s s' -> linv s' -> has_edge (s_graph s') a b d -> (forall x y, resolves s x y -> resolves s' x y) -> Q tt s') ->
  cwp P (add_edge a b d) s Q.
Proof.
  intros K. apply cwp_neutral.
  - intros s0 r s' E. unfold add_edge, lift_graph in E.
    destruct (gadd_edge (s_graph s0) a b d) as [g|e] eqn:Eg; injection E as <- <-.
    + apply gadd_edge_spec in Eg as (_ & _ & ->). apply same_neutral; [|reflexivity].
      apply lift_set_grows, grows_add_edge.
    + apply same_neutral; [apply grows_refl|reflexivity].
  - intros u s' E G L. unfold add_edge, lift_graph in E.
    destruct (gadd_edge (s_graph s) a b d) as [g|e] eqn:Eg; [|discriminate]. injection E as <- <-.
    apply K; [exact G|exact L| |].
    + apply gadd_edge_spec in Eg as (_ & _ & ->). apply edges_add_self.
    + intros x y. now apply grows_resolves.
Qed.
Lemma cwp_root P id s (Q : unit -> st -> Prop) :
  (forall s', grows s s' -> linv s' -> Q tt s') -> cwp P (add_root id) s Q.
Proof.
  intros K. apply cwp_neutral.
  - intros s0 r s' E. unfold add_root, lift_graph in E.
    destruct (gadd_root (s_graph s0) id) as [g|e] eqn:Eg; injection E as <- <-.
    + apply gadd_root_spec in Eg as (_ & ->). apply same_neutral; [|reflexivity].
      apply lift_set_grows, grows_add_root.
    + apply same_neutral; [apply grows_refl|reflexivity].
  - intros [] s' _ G L. now apply K.
Qed.
Lemma cwp_user_node P n s (Q : unit -> st -> Prop) :
  (forall s', grows s s' -> linv s' -> Q tt s') -> cwp P (user_add_node n) s Q.
Proof.
  intros K. apply cwp_neutral.
  - intros s0 r s' E. unfold user_add_node, lift_graph in E.
    destruct (gadd_node (s_graph s0) n) as [g|e] eqn:Eg; injection E as <- <-.
    + apply gadd_node_spec in Eg as (_ & ->). apply same_neutral; [|reflexivity].
      apply lift_set_grows, grows_add_node.
    + apply same_neutral; [apply grows_refl|reflexivity].
  - intros [] s' _ G L. now apply K.
Qed.
Lemma cwp_written P id names s (Q : unit -> st -> Prop) :
  (forall s', grows s s' -> linv s' -> Q tt s') -> cwp P (add_written id names) s Q.
Proof.
  intros K. apply cwp_neutral.
  - apply neutral_modify. intros s0. apply same_neutral; [|reflexivity]. apply lift_set_grows, grows_written.
  - intros [] s' _ G L. now apply K.
Qed.
Lemma schedule_grows n l s : grows s (schedule n l s).
Proof.
  unfold schedule. constructor; cbn; destruct (memb n (s_seen s)); cbn;
    first [apply grows_graph_refl|apply incl_refl|now exists []|now exists [EvSched n l]|idtac].
  intros x Hx. apply set_add_In. now right.
Qed.
Lemma cwp_sched P n l s (Q : unit -> st -> Prop) :
  (forall s', s' = schedule n l s -> grows s s' -> linv s' -> In (EvSched n l) (s_log s') -> Q tt s') ->
  cwp P (process_import_list n l) s Q.
Proof.
  intros K. apply cwp_neutral.
  - apply neutral_modify. intros s0. split; [apply schedule_grows|].
    intros e He. rewrite schedule_log in He. destruct He as [<-|He]; [now right|now left].
  - intros u s' E G L. injection E as <- <-. apply K; auto. rewrite schedule_log. now left.
Qed.
Lemma cwp_find_module P id s (Q : option node -> st -> Prop) :
  (forall o, gfind (s_graph s) id = o -> Q o s) -> cwp P (find_module id) s Q.
Proof.
  intros K. unfold find_module, get_node. apply cwp_bind, cwp_get.
  destruct (gfind (s_graph s) id) as [n|] eqn:E; [|apply cwp_ret; now apply K].
  apply cwp_bind, cwp_assert. intros H. apply cwp_ret. now apply K.
Qed.
Lemma cwp_kind_test P p id s (Q : bool -> st -> Prop) :
  Q (match kind_of s id with Some k => p k | None => false end) s -> cwp P (kind_test p id) s Q.
Proof.
  intros K. unfold kind_test, get_node. apply cwp_bind, cwp_get. apply cwp_ret.
  unfold kind_of in K. destruct (gfind (s_graph s) id); exact K.
Qed.

(** A new node owes its schedule, and perhaps a link and a target. *)
Definition debts (n : node) (l : list iinfo) (o : obl) : Prop :=
  match o with
  | OSched m l' => m = n_name n /\ l' = l
  | OLink id c => id = n_name n /\ child_of c id /\ linkable (n_kind n) = true
  | OTarget id a => id = n_name n /\ (n_kind n = AliasNode a \/ n_kind n = VirtualNode a)
  | _ => False
  end.
Lemma cwp_add_node (P : obl -> Prop) n l s (Q : unit -> st -> Prop) :
  (forall o, debts n l o -> P o) ->
  (forall s', grows s s' -> linv s' -> kind_of s' (n_name n) = Some (n_kind n) -> Q tt s') ->
  cwp P (add_node n l) s Q.
Proof.
  intros HP K L r s' E. unfold add_node, bind, lift_graph, modify in E.
  destruct (gadd_node (s_graph s) n) as [g'|e] eqn:Eg.
  2:{ injection E as <- <-. split; [apply grows_refl|]. now split. }
  apply gadd_node_spec in Eg as [Ef ->]. injection E as <- <-. set (s' := log _ _).
  assert (G : grows s s').
  { eapply grows_trans; [|apply log_grows]. apply lift_set_grows, grows_add_node. }
  assert (Kn : kind_of s' (n_name n) = Some (n_kind n)) by now apply kind_of_add.
  assert (L' : linv s').
  { intros x l' [Hx|Hx].
    - injection Hx as <- <-. unfold in_graph. unfold kind_of in Kn. destruct (gfind (s_graph s') (n_name n)); [congruence|discriminate].
    - eapply grows_in_graph; [exact G|]. eapply L; exact Hx. }
  split; [exact G|]. split; [exact L'|]. split; [|now apply K].
  right. intros o Ho. destruct o as [x l'|w|id c|id a|name ref|? ?]; cbn in Ho.
  - destruct Ho as [Ho|Ho]; [|right; now left]. injection Ho as <- <-. right. right. apply HP. now split.
  - destruct Ho as [Ho|Ho]; [discriminate|right; now left].
  - destruct Ho as ((l' & H1) & H2 & k & H3 & H4). destruct H1 as [H1|H1].
    + injection H1 as <- <-. right. right. apply HP. cbn. split; [reflexivity|]. split; [exact H2|congruence].
    + right. left. split; [now exists l'|]. split; [exact H2|]. exists k. split; [|exact H4].
      eapply kind_back; [exact G|eapply L; exact H1|exact H3].
  - destruct Ho as ((l' & H1) & H2). destruct H1 as [H1|H1].
    + injection H1 as <- <-. right. right. apply HP. cbn. split; [reflexivity|].
      rewrite Kn in H2. destruct H2 as [H2|H2]; injection H2; auto.
    + right. left. split; [now exists l'|].
      destruct H2 as [H2|H2]; [left|right]; (eapply kind_back; [exact G|eapply L; exact H1|exact H2]).
  - destruct Ho as (refs & [Ho|Ho] & H2); [discriminate|]. right. left. exists refs. now split.
  - destruct Ho as [Ho|Ho]; [discriminate|right; now left].
Qed.

(** Add and schedule: what remains. *)
Definition debts' (n : node) (o : obl) : Prop :=
  match o with
  | OLink id c => id = n_name n /\ child_of c id /\ linkable (n_kind n) = true
  | OTarget id a => id = n_name n /\ (n_kind n = AliasNode a \/ n_kind n = VirtualNode a)
  | _ => False
  end.
Lemma cwp_new_node (P : obl -> Prop) n l s (Q : unit -> st -> Prop) :
  (forall o, debts' n o -> P o) ->
  (forall s', grows s s' -> linv s' -> kind_of s' (n_name n) = Some (n_kind n) -> Q tt s') ->
  cwp P (do add_node n l ;; process_import_list (n_name n) l) s Q.
Proof.
  intros HP K. apply (cwp_pay (fun o => P o \/ o = OSched (n_name n) l) _ _ _
    (fun u s' => (linv s' -> Q u s') /\ In (EvSched (n_name n) l) (s_log s'))).
  - apply cwp_bind, cwp_add_node.
    + intros o Ho. destruct o as [x l'|w|id c|id a|name ref|? ?]; cbn in Ho; try (left; apply HP; exact Ho).
      destruct Ho as [-> ->]. now right.
    + intros s1 G1 L1 K1. apply cwp_sched. intros s2 E2 G2 L2 H2. split; [|exact H2]. intros _.
      apply K; [eapply grows_trans; eassumption|exact L2|]. eapply grows_kind; eassumption.
  - intros [] s' G L [HQ HS]. split; [auto|]. right. intros o [Ho| ->] _; [right; now right|]. now left.
Qed.
Lemma cwp_new_node_k {A} (P : obl -> Prop) n l s (k : M A) (Q : A -> st -> Prop) :
  (forall o, debts' n o -> P o) ->
  (forall s', grows s s' -> linv s' -> kind_of s' (n_name n) = Some (n_kind n) -> cwp P k s' Q) ->
  cwp P (do add_node n l ;; do process_import_list (n_name n) l ;; k) s Q.
Proof.
  intros HP K. assert (H := cwp_new_node P n l s (fun _ s1 => cwp P k s1 Q) HP K).
  clear H. intros L r s' E.
  assert (E2 : bind (do add_node n l ;; process_import_list (n_name n) l) (fun _ => k) s = Some (r, s')).
  { rewrite <- E. unfold bind. destruct (add_node n l s) as [[[u|e] s1]|]; reflexivity. }
  exact (cwp_bind P _ (fun _ => k) s Q
    (cwp_new_node P n l s (fun _ s1 => cwp P k s1 Q) HP K) L r s' E2).
Qed.

(** ** The second pass *)

Section pass2.
  Variable E : env.

  Definition PL (name : string) (o : obl) : Prop := exists c, o = OLink name c /\ child_of c name.

  Record closes (r : funs) : Prop := {
    c_find : forall imp name link s, cwp none (f_find r imp name link) s (fun id s' => resolves s' name id);
    c_load : forall imp name s, cwp (PL name) (f_load r imp name) s
      (fun id s' => resolves s' name id /\ (id = name \/ clo none s s'));
    c_nfs : forall sp, envm (f_nfs r sp);
    c_kind : forall sp s n l s', f_nfs r sp s = Some (ROk (n, l), s') -> real_kind (n_kind n) = true;
    c_run : forall s, cwp none (f_run r) s (fun _ _ => True);
    c_prog : forall p s, cwp none (f_prog r p) s (fun _ _ => True);
    c_post : forall i n s, cwp none (f_post r i n) s (fun _ _ => True);
    c_miss : forall i imp n s, cwp none (f_miss r i imp n) s (fun _ _ => True)
  }.

  Lemma closes_no_fuel : closes no_fuel.
  Proof. constructor; intros; try apply cwp_oof; [apply envm_oof|discriminate]. Qed.

  Lemma cwp_none {A} P (m : M A) s Q : cwp none m s Q -> cwp P m s Q.
  Proof. intros H. eapply cwp_conseq; [exact H|auto|intros o []]. Qed.
  (** Sequencing after a closed computation. *)
  Lemma cwp_then {A} P (m : M A) s Q (Q' : A -> st -> Prop) : cwp none m s Q ->
    (forall a s', grows s s' -> linv s' -> Q a s' -> Q' a s') -> cwp P m s Q'.
  Proof. intros H K. eapply cwp_conseq; [exact H|auto|intros o []]. Qed.

  Section bodies.
    Variable r : funs.
    Hypothesis R : closes r.

    Lemma cwp_create_missing imp name s : cwp none (create_missing r imp name) s (fun id s' => resolves s' name id).
    Proof.
      unfold create_missing. apply cwp_bind. eapply cwp_then; [apply (c_miss _ R)|].
      intros [id|] s1 G L _.
      - apply cwp_bind, cwp_note; [reflexivity|]. apply cwp_ret. right. now left.
      - apply (cwp_new_node_k none (plain_node MissingModule name) []).
        + intros o Ho. destruct o; cbn in Ho; try destruct Ho as (_ & Ho); try discriminate Ho; try destruct Ho as [_ Ho];
            try discriminate; destruct Ho; discriminate.
        + intros s2 G2 L2 K2. apply cwp_ret. now left.
    Qed.

    Lemma cwp_implied_node k name target s : k = AliasNode target \/ k = VirtualNode target ->
      cwp (PL name) (implied_node r k name target) s (fun o s' => o = Some name).
    Proof.
      intros Hk. unfold implied_node, get_node. apply cwp_bind, cwp_get, cwp_bind, cwp_assert. intros _.
      apply (cwp_pay (fun o => PL name o \/ o = OTarget name target) _ _ _
        (fun o s' => o = Some name /\ paid s' (OTarget name target))).
      - apply (cwp_new_node_k _ (plain_node k name) []).
        + intros o Ho. destruct o as [| |id c|id a| |]; cbn in Ho; try contradiction.
          * left. destruct Ho as (-> & Ho & _). exists c. now split.
          * right. destruct Ho as (-> & Ho). f_equal. destruct Hk, Ho; congruence.
        + intros s1 G1 L1 K1. apply cwp_bind. eapply cwp_then; [apply (c_find _ R)|].
          intros o s2 G2 L2 F. apply cwp_bind, cwp_edge. intros s3 G3 L3 Hed Hres. apply cwp_ret.
          split; [reflexivity|]. exists o. split; [now apply Hres|exact Hed].
      - intros o s' G L [H1 H2]. split; [exact H1|]. right. intros ob [Hob| ->] _; [right; now right|now left].
    Qed.

    Lemma cwp_iter {A} P (f : A -> M unit) (D : A -> st -> Prop) :
      (forall x s, cwp P (f x) s (fun _ s' => D x s')) -> (forall x s s', grows s s' -> D x s -> D x s') ->
      forall l s, cwp P (iter f l) s (fun _ s' => forall x, In x l -> D x s').
    Proof.
      intros Hf Hg l. induction l as [|x l IH]; intros s; cbn [iter]; [apply cwp_ret; intros x []|].
      apply cwp_bind. eapply cwp_conseq; [apply Hf| |auto]. intros u s1 G L _ HD.
      eapply cwp_conseq; [apply IH| |auto]. intros u2 s2 G2 L2 _ HD2 y [<-|Hy]; [eapply Hg; eassumption|auto].
    Qed.

    Lemma cwp_step {A} P (m m' : M A) s s1 Q : m s = m' s1 -> grows s s1 ->
      (linv s -> linv s1 /\ clo P s s1) -> cwp P m' s1 Q -> cwp P m s Q.
    Proof.
      intros Em G H K L x s' Ex. rewrite Em in Ex. destruct (H L) as [L1 C1].
      destruct (K L1 _ _ Ex) as (G2 & L2 & D). split; [eapply grows_trans; eassumption|]. split; [exact L2|].
      destruct x; [|exact I]. destruct D as [C2 D]. split; [eapply clo_trans; eassumption|exact D].
    Qed.

    Lemma cwp_implied_references imp name s :
      cwp (PL name) (implied_references r imp name) s
        (fun o s' => match o with
                     | Some id => resolves s' name id /\ (id = name \/ clo none s s')
                     | None => s' = s
                     end).
    Proof.
      unfold implied_references, get_node. apply cwp_bind, cwp_get.
      destruct (gfind (s_graph s) name) as [n|] eqn:En; [now apply cwp_ret|].
      destruct (assoc name (s_lazy s)) as [i|] eqn:Ea.
      2:{ eapply (cwp_step _ _ (ret None) s s); [unfold bind, pop_lazy; now rewrite Ea|apply grows_refl| |now apply cwp_ret].
          intros L. split; [exact L|apply clo_refl]. }
      set (s1 := log (set_lazy s (filter (fun x => negb (seqb (fst x) name)) (s_lazy s))) (EvImplied name i)).
      assert (Ep : pop_lazy name s = Some (ROk (Some i), s1)) by (unfold pop_lazy; rewrite Ea; reflexivity).
      assert (G1 : grows s s1) by (constructor; cbn; first [apply grows_graph_refl|apply incl_refl|now exists []|now eexists [_]]).
      assert (N1 : neutral (EvImplied name i) = true -> forall P, linv s -> linv s1 /\ clo P s s1).
      { intros Hn P L. assert (N : nlog s s1) by (intros e [<-|He]; [now right|now left]).
        split; [eapply nlog_linv; eassumption|]. apply clo_none. now apply nlog_clo. }
      destruct i as [|a|a|refs].
      - eapply (cwp_step _ _ (do add_node (plain_node ExcludedModule name) [] ;; do process_import_list name [] ;; ret (Some name)) s s1);
          [unfold bind at 1; now rewrite Ep|exact G1|now apply N1|].
        apply (cwp_new_node_k _ (plain_node ExcludedModule name) []).
        + intros o Ho. destruct o as [| |id c|id a| |]; cbn in Ho; try contradiction.
          * destruct Ho as (-> & Ho & _). exists c. now split.
          * destruct Ho as (_ & [Ho|Ho]); discriminate.
        + intros s3 G3 L3 K3. apply cwp_ret. split; now left.
      - eapply (cwp_step _ _ (implied_node r (AliasNode a) name a) s s1);
          [unfold bind at 1; now rewrite Ep|exact G1|now apply N1|].
        eapply cwp_conseq; [apply cwp_implied_node; now left| |auto]. intros o s2 G2 L2 C2 ->. split; now left.
      - eapply (cwp_step _ _ (implied_node r (VirtualNode a) name a) s s1);
          [unfold bind at 1; now rewrite Ep|exact G1|now apply N1|].
        eapply cwp_conseq; [apply cwp_implied_node; now right| |auto]. intros o s2 G2 L2 C2 ->. split; now left.
      - set (k := id <- f_find r imp name true ;;
            do iter (fun ref => other <- f_find r (Some id) ref true ;; add_edge id other default_dep) refs ;;
            ret (Some id)).
        apply (cwp_conseq none _ _ _ (fun o s' => exists id, o = Some id /\ resolves s' name id)).
        2:{ intros o s' G L C (id & -> & H). split; [exact H|now right]. }
        2:{ intros o []. }
        apply (cwp_pay (fun o => exists ref, o = OImpl name ref /\ In ref refs) none _ s
            (fun o s' => exists id, o = Some id /\ resolves s' name id /\
               forall ref, In ref refs -> exists p, resolves s' ref p /\ has_edge (s_graph s') id p default_dep)).
        + eapply (cwp_step _ _ k s s1); [unfold bind at 1; now rewrite Ep|exact G1| |].
          * intros L. split; [intros n l [Hn|Hn]; [discriminate|exact (L n l Hn)]|].
            right. intros o Ho. destruct o as [n l|w|id c|id a|nm ref|? ?]; cbn in Ho.
            -- destruct Ho as [Ho|Ho]; [discriminate|]. right. now left.
            -- destruct Ho as [Ho|Ho]; [discriminate|]. right. now left.
            -- destruct Ho as ((l & [Hl|Hl]) & Ho); [discriminate|]. right. left. split; [now exists l|exact Ho].
            -- destruct Ho as ((l & [Hl|Hl]) & Ho); [discriminate|]. right. left. split; [now exists l|exact Ho].
            -- destruct Ho as (refs' & [Ho|Ho] & Hr).
               ++ injection Ho as <- <-. right. right. now exists ref.
               ++ right. left. exists refs'. now split.
            -- destruct Ho as [Ho|Ho]; [discriminate|]. right. now left.
          * unfold k. apply cwp_bind. eapply cwp_then; [apply (c_find _ R)|]. intros id s2 G2 L2 F.
            apply cwp_bind. eapply cwp_conseq; [apply (cwp_iter none _ (fun ref s' => exists p, resolves s' ref p /\
                has_edge (s_graph s') id p default_dep))| |intros o []].
            -- intros ref s3. apply cwp_bind. eapply cwp_then; [apply (c_find _ R)|]. intros o s4 G4 L4 F4.
               apply cwp_edge. intros s5 G5 L5 Hed Hres. exists o. split; [now apply Hres|exact Hed].
            -- intros ref s3 s4 G4 (p & A & B). exists p. split; [eapply grows_resolves|eapply grows_edge]; eassumption.
            -- intros u s3 G3 L3 _ K3. apply cwp_ret. exists id. split; [reflexivity|].
               split; [eapply grows_resolves; eassumption|exact K3].
        + intros o s' G L (id & -> & H1 & H2). split; [now exists id|]. right.
          intros ob (ref & -> & Hr) _. left. destruct (H2 ref Hr) as (p & A & B). exists id, p. auto.
    Qed.

    Lemma cwp_load_spec name sp s : cwp (PL name) (load_spec r name sp) s (fun id s' => id = name).
    Proof.
      unfold load_spec. apply cwp_bind, cwp_env; [apply (c_nfs _ R)|]. intros [n imports] s1 En _ L1.
      pose proof (c_kind _ R _ _ _ _ _ En) as Hk.
      destruct (seqb (n_name n) name) eqn:Enm; cbn [negb].
      - apply seqb_eq in Enm. subst name.
        apply (cwp_pay (fun o => PL (n_name n) o \/ o = OSched (n_name n) imports) _ _ _
          (fun o s' => o = n_name n /\ In (EvSched (n_name n) imports) (s_log s'))).
        + apply cwp_bind, cwp_add_node.
          * intros o Ho. destruct o as [x l|w|id c|id a|nm ref|? ?]; cbn in Ho; try contradiction.
            -- right. destruct Ho as [-> ->]. reflexivity.
            -- left. destruct Ho as (-> & Ho & _). exists c. now split.
            -- destruct Ho as (_ & [Ho|Ho]); rewrite Ho in Hk; discriminate.
          * intros s2 G2 L2 K2. apply cwp_bind. eapply cwp_conseq with (Q := fun _ _ => True) (P := none); [| |intros o []].
            -- destruct (n_kind n) as [ |k| |b x mk f ty| | | |a|a| ]; try (now apply cwp_ret).
               destruct ty as [ty|]; [|now apply cwp_ret].
               destruct (memb ty _); [|now apply cwp_ret].
               apply cwp_bind. eapply cwp_then; [apply (c_find _ R)|]. intros o s3 G3 L3 F3. now apply cwp_edge.
            -- intros u s3 G3 L3 _ _. apply cwp_bind, cwp_sched. intros s4 E4 G4 L4 H4. apply cwp_ret. now split.
        + intros o s' G L [H1 H2]. split; [exact H1|]. right. intros ob [Hob| ->] _; [right; now right|now left].
      - apply (cwp_pay (fun o => PL name o \/ o = OTarget name (n_name n)) _ _ _
          (fun o s' => o = name /\ has_edge (s_graph s') name (n_name n) default_dep)).
        2:{ intros o s' G L [H1 H2]. split; [exact H1|]. right. intros ob [Hob| ->] _; [right; now right|left].
            exists (n_name n). split; [now left|exact H2]. }
        apply (cwp_new_node_k _ (plain_node (AliasNode (n_name n)) name) []).
        + intros o Ho. destruct o as [x l|w|id c|id a|nm ref|? ?]; cbn in Ho; try contradiction.
          * left. destruct Ho as (-> & Ho & _). exists c. now split.
          * right. destruct Ho as (-> & [Ho|Ho]); [|discriminate]. now injection Ho as ->.
        + intros s2 G2 L2 K2. apply cwp_bind, cwp_get.
          apply cwp_bind. eapply cwp_conseq with (Q := fun _ _ => True) (P := none); [| |intros o []].
          * destruct (gfind (s_graph s2) (n_name n)) as [x|] eqn:Eo; [now apply cwp_ret|].
            apply (cwp_pay (PL (n_name n)) _ _ _ (fun _ s' => forall c, child_of c (n_name n) -> paid s' (OLink (n_name n) c))).
            2:{ intros u s' G L H. split; [exact I|]. right. intros o (c & -> & Hc) _. left. now apply H. }
            apply (cwp_new_node_k _ n imports).
            -- intros o Ho. destruct o as [x l|w|id c|id a|nm ref|? ?]; cbn in Ho; try contradiction.
               ++ destruct Ho as (-> & Ho & _). exists c. now split.
               ++ destruct Ho as (_ & [Ho|Ho]); rewrite Ho in Hk; discriminate.
            -- intros s3 G3 L3 K3. apply cwp_bind, cwp_of_result. intros [po nm] Hpk. cbn [fst].
               destruct po as [c|].
               ++ apply cwp_bind. eapply cwp_then; [apply (c_find _ R)|]. intros p s4 G4 L4 F4.
                  apply cwp_edge. intros s5 G5 L5 Hed Hres c' Hc'.
                  assert (c' = c) as -> by (eapply child_of_unique; [exact Hpk|exact Hc'|eapply split_child_of; exact Hpk]).
                  exists p. split; [now apply Hres|exact Hed].
               ++ apply cwp_ret. intros c Hc. now apply (split_none_no_child _ _ _ Hpk) in Hc.
          * intros u s3 G3 L3 _ _. apply cwp_bind, cwp_edge. intros s4 G4 L4 Hed _. apply cwp_ret. now split.
    Qed.

    Definition load_post (name : string) (s : st) : string -> st -> Prop :=
      fun id s' => resolves s' name id /\ (id = name \/ clo none s s').

    Lemma cwp_create_load imp name s : cwp (PL name) (create_missing r imp name) s (load_post name s).
    Proof.
      eapply cwp_conseq; [apply cwp_create_missing| |intros o []].
      intros id s' G L C H. split; [exact H|now right].
    Qed.

    (** Prepend a step without obligations. *)
    Lemma load_post_env name s s1 id s' : linv s -> env_only s s1 -> grows s1 s' ->
      load_post name s1 id s' -> load_post name s id s'.
    Proof.
      intros L E1 G [H1 [H2|H2]]; [split; [exact H1|now left]|]. split; [exact H1|right].
      eapply (clo_trans none s s1); [now apply env_only_grows|exact G| |exact H2]. apply nlog_clo; [now apply env_only_grows| |exact L].
      destruct E1 as (f & c & ->). intros e He. now left.
    Qed.
    Lemma cwp_linv {A} P (m : M A) s Q : (linv s -> cwp P m s Q) -> cwp P m s Q.
    Proof. intros H L. exact (H L L). Qed.

    Lemma cwp_load_failed imp name e s : cwp (PL name) (load_failed E r imp name e) s (load_post name s).
    Proof.
      apply cwp_linv. intros L. unfold load_failed.
      destruct (negb (is_exception e)); [apply cwp_raise|].
      assert (Hw : cwp (PL name)
        (let parent := fst (rpartition dot name) in
             b <- in_sysmod E parent ;;
             do assert (negb b) ;;
             m <- find_spec E parent ;;
             match m with
             | None => raise EAssert
             | Some sp =>
                 do assert (sp_inspect sp) ;;
                 p <- of_result (sp_ispkg sp) ;;
                 if p : bool then
                   match sp_origin sp with
                   | None => raise EAssert
                   | Some path =>
                       do assert (starts_with "__init__." (snd (rpartition slash path))) ;;
                       do modify (fun s => set_fakes s (set_add parent (s_fakes s))) ;;
                       f_load r imp name
                   end
                 else create_missing r imp name
             end) s (load_post name s)).
      { cbv zeta.
        apply cwp_bind, cwp_env; [apply envm_in_sysmod|]. intros b s1 _ E1 L1.
        apply cwp_bind, cwp_assert. intros _.
        apply cwp_bind, cwp_env; [apply envm_find_spec|]. intros m s2 _ E2 L2.
        destruct m as [sp|]; [|apply cwp_raise].
        apply cwp_bind, cwp_assert. intros _. apply cwp_bind, cwp_of_result. intros p _.
        pose proof (env_only_trans _ _ _ E1 E2) as E12.
        destruct p.
        - destruct (sp_origin sp); [|apply cwp_raise].
          apply cwp_bind, cwp_assert. intros _.
          apply cwp_bind, cwp_env; [apply (envm_set_fakes (fun s => set_add _ (s_fakes s)))|]. intros _ s3 _ E3 L3.
          eapply cwp_conseq; [apply (c_load _ R)| |auto]. intros id s4 G4 L4 _ H4.
          eapply load_post_env; [exact L|eapply env_only_trans; eassumption|exact G4|exact H4].
        - eapply cwp_conseq; [apply cwp_create_load| |auto]. intros id s4 G4 L4 _ H4.
          eapply load_post_env; [exact L|exact E12|exact G4|exact H4]. }
      destruct e as [| | | | | | | | | |[|]| | | |]; try exact Hw. apply cwp_create_load.
    Qed.

    Lemma cwp_load_body imp name s : cwp (PL name) (load_body E r imp name) s (load_post name s).
    Proof.
      apply cwp_linv. intros L. unfold load_body. apply cwp_bind, cwp_assert. intros _.
      apply cwp_bind, cwp_get.
      destruct (gfind (s_graph s) name) as [n|] eqn:En.
      { apply cwp_ret. split; now left. }
      apply cwp_bind, cwp_env; [apply envm_attempt, envm_spec_or_none|]. intros r0 s1 _ E1 L1.
      destruct r0 as [[sp|]|e].
      - eapply cwp_conseq; [apply cwp_load_spec| |auto]. intros id s2 G2 L2 _ ->. split; now left.
      - intros L1' x s' Ex. unfold bind, attempt in Ex.
        destruct (create_missing r imp name s1) as [[[id|e] s2]|] eqn:Em; [| |discriminate].
        + injection Ex as <- <-. destruct (cwp_create_load imp name s1 L1 _ _ Em) as (G2 & L2 & C2 & H2).
          split; [exact G2|]. split; [exact L2|]. split; [exact C2|]. eapply load_post_env; eassumption.
        + destruct (cwp_create_load imp name s1 L1 _ _ Em) as (G2 & L2 & _).
          assert (H : cwp (PL name) (do note EvErr ;; load_failed E r imp name e) s2 (fun id s' => resolves s' name id /\ erred s2 s')).
          { apply cwp_bind, cwp_note; [reflexivity|]. eapply cwp_conseq; [apply cwp_load_failed| |auto].
            intros id s3 G3 L3 _ [H3 _]. split; [exact H3|]. eapply erred_after; [exact G3|apply erred_log]. }
          destruct (H L2 _ _ Ex) as (G3 & L3 & D). split; [eapply grows_trans; eassumption|]. split; [exact L3|].
          destruct x; [|exact I]. destruct D as [_ [D1 D2]].
          split; [left; eapply erred_before; eassumption|]. split; [exact D1|]. right. left.
          eapply erred_before; [now apply env_only_grows, E1|]. eapply erred_before; eassumption.
      - eapply cwp_conseq; [apply cwp_load_failed| |auto]. intros id s2 G2 L2 _ H2.
        eapply load_post_env; eassumption.
    Qed.

    Lemma cwp_find_body imp name link s : cwp none (find_body r imp name link) s (fun id s' => resolves s' name id).
    Proof.
      apply cwp_linv. intros L. unfold find_body. apply cwp_bind, cwp_find_module. intros [n|] Hn; [apply cwp_ret; now left|].
      apply cwp_bind, cwp_of_result. intros [po nm] Hpk. cbn [fst].
      apply (cwp_pay (PL name) none _ s (fun id s' => resolves s' name id /\
        (erred s s' \/ forall o, PL name o -> owed s' o -> paid s' o \/ owed s o))).
      2:{ intros id s' G L' [H1 H2]. split; [exact H1|]. destruct H2 as [H2|H2]; [now left|right].
          intros o A B. destruct (H2 o A B); auto. }
      apply cwp_bind. eapply cwp_conseq with (P := PL name) (Q := fun x s1 =>
        match po with Some c => exists p, fst x = Some p /\ resolves s1 c p | None => fst x = None end /\
        match snd x with Some id => load_post name s id s1 | None => clo none s s1 end); [| |auto].
      - destruct po as [c|].
        2:{ apply cwp_ret. split; [reflexivity|apply clo_refl]. }
        apply cwp_bind. eapply cwp_conseq; [apply (c_find _ R)| |intros o []].
        intros p s1 G1 L1 C1 F1. apply cwp_bind, cwp_kind_test.
        destruct (match kind_of s1 p with Some k => is_missing k | None => false end).
        + apply cwp_bind. eapply cwp_conseq; [apply cwp_create_missing| |intros o []].
          intros id s2 G2 L2 C2 F2. apply cwp_ret. cbn. split.
          * exists p. split; [reflexivity|]. eapply grows_resolves; eassumption.
          * split; [exact F2|right]. eapply clo_trans; eassumption.
        + apply cwp_bind, cwp_kind_test.
          destruct (match kind_of s1 p with Some k => is_excluded k | None => false end).
          * apply (cwp_new_node_k _ (plain_node ExcludedModule name) []).
            -- intros o Ho. destruct o as [x l|w|id c'|id a|x ref|? ?]; cbn in Ho; try contradiction.
               ++ destruct Ho as (-> & Ho & _). exists c'. now split.
               ++ destruct Ho as (_ & [Ho|Ho]); discriminate.
            -- intros s2 G2 L2 K2. apply cwp_ret. cbn. split.
               ++ exists p. split; [reflexivity|]. eapply grows_resolves; eassumption.
               ++ split; now left.
          * apply cwp_ret. cbn. split; [|exact C1]. now exists p.
      - intros [parent fnd] s1 G1 L1 _ [H1 H2]. cbn [fst snd] in *.
        apply cwp_bind. eapply cwp_conseq with (P := PL name) (Q := load_post name s); [| |auto].
        + destruct fnd as [id|]; [now apply cwp_ret|].
          apply cwp_bind. eapply cwp_conseq; [apply cwp_implied_references| |auto].
          intros [id|] s2 G2 L2 C2 K.
          * apply cwp_ret. destruct K as [K1 [K2|K2]]; split; auto. right. eapply clo_trans; eassumption.
          * subst s2. eapply cwp_conseq; [apply (c_load _ R)| |auto].
            intros id s3 G3 L3 C3 [K1 [K2|K2]]; split; auto. right. eapply clo_trans; eassumption.
        + intros id s2 G2 L2 _ [F1 F2]. apply cwp_bind, cwp_kind_test.
          set (b := match kind_of s2 id with Some k => is_missing k | None => false end).
          apply cwp_bind. eapply cwp_conseq with (P := none) (Q := fun _ s3 =>
            parent = None \/ (link || negb b = false) \/ exists p, parent = Some p /\ has_edge (s_graph s3) id p default_dep);
            [| |intros o []].
          * destruct parent as [p|]; [|apply cwp_ret; now left].
            destruct (link || negb b) eqn:Eb; [|apply cwp_ret; auto].
            apply cwp_edge. intros s3 G3 L3 Hed _. right. right. now exists p.
          * intros u s3 G3 L3 C3 Hq. apply cwp_ret. split; [eapply grows_resolves; eassumption|].
            destruct F2 as [->|F2].
            -- right. intros o (c & -> & Hc) Ho. left.
               destruct po as [c0|].
               2:{ now apply (split_none_no_child _ _ _ Hpk) in Hc. }
               assert (c = c0) as -> by (eapply child_of_unique; [exact Hpk|exact Hc|eapply split_child_of; exact Hpk]).
               destruct H1 as (p & -> & H1). destruct Hq as [Hq|[Hq|(p' & Hp' & Hq)]]; [discriminate| |].
               ++ apply orb_false_iff in Hq as [_ Hq]. apply negb_false_iff in Hq. unfold b in Hq.
                  destruct Ho as (_ & _ & k & Hk & Hl). destruct (kind_of s2 name) as [k'|] eqn:Ek; [|discriminate].
                  apply (grows_kind _ _ _ _ G3) in Ek. assert (k' = k) as -> by congruence.
                  destruct k; discriminate.
               ++ injection Hp' as <-. exists p. split; [|exact Hq].
                  apply (grows_resolves s1); [eapply grows_trans; eassumption|exact H1].
            -- destruct (clo_trans none s s2 s3 (grows_trans _ _ _ G1 G2) G3 F2 C3) as [X|X]; [now left|right].
               intros o _ Ho. destruct (X o Ho) as [Y|[Y|[]]]; auto.
    Qed.

    Lemma cwp_process_import n i s : cwp none (process_import r n i) s (fun _ _ => True).
    Proof.
      unfold process_import. apply cwp_bind, cwp_kind_test. destruct (absolute_name n _ i) as [x|name].
      - apply cwp_bind, cwp_find_module. intros old Hold. apply cwp_bind.
        eapply cwp_conseq with (P := none) (Q := fun _ _ => True); [| |auto].
        + destruct old as [o|]; [now apply cwp_assert|].
          apply (cwp_new_node none (plain_node InvalidRelativeImport x) []); [|auto].
          intros o Ho. destruct o as [? l|w|id c|id a|? ref|? ?]; cbn in Ho; try contradiction.
          * destruct Ho as (_ & _ & Ho). discriminate.
          * destruct Ho as (_ & [Ho|Ho]); discriminate.
        + intros u s1 G1 L1 _ _. apply cwp_edge. auto.
      - apply cwp_bind, cwp_assert. intros _. apply cwp_bind, cwp_get, cwp_bind.
        eapply cwp_then; [apply (c_find _ R)|]. intros id s1 G1 L1 F. apply cwp_bind, cwp_edge.
        intros s2 G2 L2 _ _. apply cwp_neutral; [|auto]. apply neutral_modify. intros s3. apply same_neutral; [|reflexivity].
        constructor; cbn; first [apply grows_graph_refl|apply incl_refl|now exists []].
    Qed.

    Lemma cwp_process_name n m k i nm s : cwp none (process_name r n m k i nm) s (fun _ _ => True).
    Proof.
      unfold process_name. apply cwp_bind, cwp_get. apply cwp_bind.
      eapply cwp_conseq with (P := none) (Q := fun _ _ => True); [| |auto].
      - destruct (memb _ _); [|now apply cwp_ret]. apply cwp_bind, cwp_get.
        destruct (option_map snd _); [|now apply cwp_ret]. apply cwp_bind, cwp_edge. intros. now apply cwp_ret.
      - intros known s1 G1 L1 _ _. destruct known; [now apply cwp_ret|].
        apply cwp_bind. eapply cwp_then; [apply (c_find _ R)|]. intros sub s2 G2 L2 _.
        apply cwp_bind, cwp_kind_test, cwp_bind, cwp_get.
        assert (Hl : cwp none (do add_edge sub m default_dep ;; add_edge n sub (from_importinfo i true (in_asname nm))) s2 (fun _ _ => True)).
        { apply cwp_bind, cwp_edge. intros. apply cwp_edge. auto. }
        destruct (match kind_of s2 sub with Some k => is_missing k | None => false end); [|exact Hl].
        destruct (is_package k && _).
        + destruct (assoc (in_name nm) SIX_MOVES_TO); [|exact Hl].
          apply cwp_bind. eapply cwp_then; [apply (c_find _ R)|]. intros. apply cwp_edge. auto.
        + destruct (is_package k && _); [now apply cwp_ret|exact Hl].
    Qed.
    Lemma cwp_iter_true {A} (f : A -> M unit) l s : (forall x s, cwp none (f x) s (fun _ _ => True)) ->
      cwp none (iter f l) s (fun _ _ => True).
    Proof.
      intros H. eapply cwp_conseq; [apply (cwp_iter none f (fun _ _ => True)); auto|auto|auto].
    Qed.

    Lemma cwp_process_namelist n m i s : cwp none (process_namelist r n m i) s (fun _ _ => True).
    Proof.
      unfold process_namelist. apply cwp_bind, cwp_kind_test, cwp_bind, cwp_assert. intros _.
      apply cwp_bind, cwp_get.
      assert (Hw : forall m' k s', cwp none (do add_written n (map in_name (ii_names i)) ;;
        iter (process_name r n m' k i) (ii_names i)) s' (fun _ _ => True)).
      { intros m' k s'. apply cwp_bind, cwp_written. intros. apply cwp_iter_true. intros. apply cwp_process_name. }
      destruct (ii_star i).
      - destruct (gfind (s_graph s) m); [|now apply cwp_ret]. destruct (_ || _); [|now apply cwp_ret].
        apply cwp_written. auto.
      - destruct (ii_names i) as [|x l] eqn:En; [now apply cwp_ret|]. rewrite <- En in *. clear En x l.
        destruct (gfind (s_graph s) m) as [x|]; [|now apply cwp_ret].
        destruct (n_kind x); try (destruct (is_package _ || _ || _); [apply Hw|now apply cwp_ret]; fail).
        apply cwp_bind, cwp_written. intros s1 G1 L1. apply cwp_bind, cwp_find_module.
        intros [y|] _; [|apply cwp_raise]. destruct (is_package _ || _ || _); [apply Hw|now apply cwp_ret].
    Qed.

    Lemma cwp_root_run id s : cwp none (do note (EvRoot id) ;; do add_root id ;; do f_run r ;; ret id) s (fun _ _ => True).
    Proof.
      apply cwp_bind, cwp_note; [reflexivity|]. apply cwp_bind, cwp_root. intros s1 G1 L1.
      apply cwp_bind. eapply cwp_then; [apply (c_run _ R)|]. intros. now apply cwp_ret.
    Qed.
    Lemma cwp_add_script path s : cwp none (add_script E r path) s (fun _ _ => True).
    Proof.
      unfold add_script. apply cwp_bind, cwp_find_module. intros [n|] _; [apply cwp_raise|].
      apply cwp_bind, cwp_env; [apply envm_askr|]. intros t s1 _ E1 L1.
      destruct (extract_ast_info _ t) as [imports|]; [|apply cwp_oof].
      apply (cwp_new_node_k none (Node path Script [] [] None (Some path) [] false) imports).
      - intros o Ho. destruct o as [? l|w|id c|id a|? ref|? ?]; cbn in Ho; try contradiction.
        + destruct Ho as (_ & _ & Ho). discriminate.
        + destruct Ho as (_ & [Ho|Ho]); discriminate.
      - intros s2 G2 L2 _. apply cwp_root_run.
    Qed.
    Lemma cwp_add_module name s : cwp none (add_module r name) s (fun _ _ => True).
    Proof.
      unfold add_module. apply cwp_bind, cwp_find_module. intros n _. apply cwp_bind.
      eapply cwp_conseq with (P := none) (Q := fun _ _ => True); [| |auto].
      - destruct n; [now apply cwp_ret|]. eapply cwp_then; [apply (c_find _ R)|auto].
      - intros id s1 G1 L1 _ _. apply cwp_root_run.
    Qed.
    Lemma cwp_add_source src s : cwp none (add_source E r src) s (fun _ _ => True).
    Proof.
      unfold add_source. apply cwp_bind, cwp_env; [apply envm_askr|]. intros t s1 _ E1 L1.
      destruct (extract_ast_info _ t) as [infos|]; [|apply cwp_oof].
      apply cwp_iter_true. intros i s2. apply cwp_bind. eapply cwp_then; [apply cwp_add_module|].
      intros _ s3 _ _ _. apply cwp_iter_true. intros nm s4. apply cwp_bind.
      eapply cwp_then; [apply cwp_add_module|]. intros. now apply cwp_ret.
    Qed.
    Lemma cwp_add_distribution d s : cwp none (add_distribution E r d) s (fun _ _ => True).
    Proof.
      unfold add_distribution. apply cwp_bind, cwp_get. destruct (gfind _ _).
      { apply cwp_bind, cwp_assert. intros _. now apply cwp_ret. }
      apply cwp_bind, cwp_user_node. intros s1 G1 L1. apply cwp_bind, cwp_note; [reflexivity|].
      apply cwp_bind, cwp_root. intros s2 G2 L2. apply cwp_bind. eapply cwp_then; [apply cwp_iter_true|].
      - intros name s3. apply cwp_bind. eapply cwp_then; [apply (c_find _ R)|]. intros. apply cwp_edge. auto.
      - intros _ s3 _ _ _. apply cwp_bind. eapply cwp_then; [apply (c_run _ R)|]. intros. now apply cwp_ret.
    Qed.
    Lemma cwp_import_module n name s : cwp none (import_module r n name) s (fun _ _ => True).
    Proof.
      unfold import_module. apply cwp_bind, cwp_note; [reflexivity|]. apply cwp_bind, cwp_find_module. intros x _.
      apply cwp_bind. eapply cwp_conseq with (P := none) (Q := fun _ _ => True); [| |auto].
      - destruct x; [now apply cwp_ret|]. eapply cwp_then; [apply (c_find _ R)|auto].
      - intros id s1 G1 L1 _ _. apply cwp_bind, cwp_edge. intros. now apply cwp_ret.
    Qed.
    Lemma cwp_push n pkg s (Q : unit -> st -> Prop) :
      (forall s', grows s s' -> linv s' -> In (EvPush n pkg) (s_log s') -> Q tt s') -> cwp none (push_package n pkg) s Q.
    Proof.
      intros K. apply cwp_neutral.
      - apply neutral_modify. intros s0. split.
        + constructor; cbn; first [apply grows_graph_refl|apply incl_refl|now exists []|now eexists [_]].
        + intros e [<-|He]; [now right|now left].
      - intros u s' Ex G L. injection Ex as <- <-. apply K; [exact G|exact L|now left].
    Qed.
    (** A listed name is looked at later. *)
    Lemma cwp_listed {A} n name (m : M A) s :
      (forall s, cwp none m s (fun _ s' => In (EvPush n name) (s_log s'))) ->
      cwp none (do note (EvList n name) ;; m) s (fun _ _ => True).
    Proof.
      intros Hm L x s' Ex. unfold bind, note, modify in Ex. set (s1 := log s (EvList n name)) in *.
      assert (L1 : linv s1) by (intros y l [Hy|Hy]; [discriminate|exact (L y l Hy)]).
      destruct (Hm s1 L1 _ _ Ex) as (G & L' & D). split; [eapply grows_trans; [apply log_grows|exact G]|].
      split; [exact L'|]. destruct x; [|exact I]. destruct D as [D HP]. split; [|exact I].
      destruct D as [D|D]; [now left|right]. intros o Ho. destruct (D o Ho) as [X|[X|[]]]; [now left|].
      destruct o as [y l|w|id c|id a0|nm ref|y z]; cbn in X.
      - destruct X as [X|X]; [discriminate|right; now left].
      - destruct X as [X|X]; [discriminate|right; now left].
      - destruct X as ((l & [X|X]) & X2); [discriminate|right; left]. split; [now exists l|exact X2].
      - destruct X as ((l & [X|X]) & X2); [discriminate|right; left]. split; [now exists l|exact X2].
      - destruct X as (refs & [X|X] & X2); [discriminate|right; left]. now exists refs.
      - destruct X as [X|X]; [injection X as <- <-; now left|right; now left].
    Qed.
    Lemma cwp_import_directory id pkg path s : cwp none (import_directory E r id pkg path) s (fun _ _ => True).
    Proof.
      unfold import_directory. apply cwp_bind, cwp_env; [apply envm_askr|]. intros stems s1 _ _ _.
      apply cwp_bind. eapply cwp_then; [apply cwp_iter_true|].
      - intros stem s2. destruct (e_isidentifier E stem); [|now apply cwp_ret].
        apply cwp_listed. intros s3. apply cwp_bind. eapply cwp_then; [apply (c_find _ R)|].
        intros. apply cwp_bind, cwp_edge. intros. apply cwp_push. auto.
      - intros _ s2 _ _ _. apply cwp_bind, cwp_env; [apply envm_askr|]. intros dirs s3 _ _ _.
        apply cwp_iter_true. intros dir s4. destruct (e_isidentifier E dir); [|now apply cwp_ret].
        apply cwp_listed. intros s5. apply cwp_push. auto.
    Qed.
    Lemma owed_ext s s' o : s_graph s' = s_graph s -> s_log s' = s_log s -> owed s o -> owed s' o.
    Proof. intros Hg Hl. destruct o; cbn; unfold kind_of; rewrite ?Hg, ?Hl; auto. Qed.
    Lemma paid_ext s s' o : s_graph s' = s_graph s -> s_log s' = s_log s -> paid s o -> paid s' o.
    Proof. intros Hg Hl. destruct o; cbn; unfold resolves; rewrite ?Hg, ?Hl; auto. Qed.
    Lemma cwp_saved {A} (m : M A) s (Q : A -> Prop) :
      (forall s, cwp none m s (fun a _ => Q a)) -> cwp none (saved_stack m) s (fun a _ => Q a).
    Proof.
      intros H L x s' Ex. unfold saved_stack in Ex.
      set (s0 := set_saved (set_stack s []) (s_stack s :: s_saved s)) in *.
      assert (L0 : linv s0) by exact L.
      destruct (m s0) as [[y s1]|] eqn:Em; [|discriminate]. injection Ex as <- <-.
      destruct (H s0 L0 _ _ Em) as (G1 & L1 & D). set (s2 := set_saved _ _).
      assert (G : grows s s2).
      { apply (grows_trans _ s0); [|apply (grows_trans _ s1); [exact G1|]];
          constructor; cbn; first [apply grows_graph_refl|apply incl_refl|now exists []]. }
      split; [exact G|]. split; [exact L1|]. destruct y; [|exact I]. destruct D as [[D|D] DQ]; (split; [|exact DQ]).
      - now left.
      - right. intros o Ho. apply (owed_ext _ s1) in Ho; [|reflexivity|reflexivity].
        destruct (D o Ho) as [X|[X|[]]]; [left|right; left].
        + now apply (paid_ext s1).
        + now apply (owed_ext s0).
    Qed.
    Lemma cwp_import_package n pkg s : cwp none (import_package E r n pkg) s (fun _ _ => True).
    Proof.
      unfold import_package. apply cwp_bind, cwp_find_module. intros x _. apply cwp_bind.
      eapply cwp_then; [apply (cwp_saved _ _ (fun _ => True))|].
      - intros s1. apply cwp_bind. eapply cwp_conseq with (P := none) (Q := fun _ _ => True); [| |auto].
        + destruct x; [now apply cwp_ret|]. eapply cwp_then; [apply (c_find _ R)|auto].
        + intros id s2 G2 L2 _ _. apply cwp_bind. eapply cwp_then; [apply (c_run _ R)|]. intros. now apply cwp_ret.
      - intros id s1 G1 L1 _. apply cwp_bind, cwp_edge. intros s2 G2 L2 _ _. apply cwp_bind, cwp_kind_test.
        destruct (negb _); [now apply cwp_ret|]. apply cwp_bind, cwp_env; [apply envm_find_spec|].
        intros [sp|] s3 _ _ _; [|apply cwp_raise]. apply cwp_bind. eapply cwp_then; [apply cwp_iter_true|].
        + intros. apply cwp_import_directory.
        + intros. now apply cwp_ret.
    Qed.

    Lemma cwp_same f s (Q : unit -> st -> Prop) : (forall s, s_graph (f s) = s_graph s /\ s_log (f s) = s_log s
        /\ s_seen (f s) = s_seen s /\ (exists l, s_post (f s) = l ++ s_post s) /\ (exists l, s_missing (f s) = l ++ s_missing s)) ->
      Q tt (f s) -> cwp none (modify f) s Q.
    Proof.
      intros H K. apply cwp_neutral.
      - apply neutral_modify. intros s0. destruct (H s0) as (H1 & H2 & H3 & H4 & H5).
        apply same_neutral; [|exact H2]. constructor; [rewrite H1; apply grows_graph_refl|exists []; exact H2| |exact H4|exact H5].
        rewrite H3. apply incl_refl.
      - intros u s' Ex _ _. now injection Ex as <- <-.
    Qed.

    Lemma cwp_lazy f names s (Q : unit -> st -> Prop) : Q tt (log (set_lazy s (f (s_lazy s))) (EvConf names)) ->
      cwp none (modify (fun s => log (set_lazy s (f (s_lazy s))) (EvConf names))) s Q.
    Proof.
      intros K. apply cwp_neutral.
      - apply neutral_modify. intros s0. split.
        + constructor; cbn; first [apply grows_graph_refl|apply incl_refl|now exists []|now eexists [_]].
        + intros e [<-|He]; [now right|now left].
      - intros u s' Ex _ _. now injection Ex as <- <-.
    Qed.

    Lemma cwp_do_action a s : cwp none (do_action E r a) s (fun _ _ => True).
    Proof.
      destruct a; cbn [do_action].
      - now apply cwp_get.
      - apply cwp_bind, cwp_same; [|now apply cwp_ret]. intros s0. repeat split; now exists [].
      - apply cwp_bind. eapply cwp_then; [apply cwp_add_script|]. intros. now apply cwp_ret.
      - apply cwp_bind. eapply cwp_then; [apply cwp_add_module|]. intros. now apply cwp_ret.
      - apply cwp_bind. eapply cwp_then; [apply cwp_add_source|]. intros. now apply cwp_ret.
      - apply cwp_bind. eapply cwp_then; [apply cwp_add_distribution|]. intros. now apply cwp_ret.
      - apply cwp_bind. unfold add_distribution_named. apply cwp_bind, cwp_env; [apply envm_askr|].
        intros [d|] s1 _ _ _; [|apply cwp_raise]. eapply cwp_then; [apply cwp_add_distribution|]. intros. now apply cwp_ret.
      - apply cwp_bind. intros L x s' Ex. unfold hook_context, bind, attempt in Ex.
        destruct (f_prog r p s) as [[y s1]|] eqn:Ep; [|discriminate].
        destruct (c_prog _ R p s L _ _ Ep) as (G1 & L1 & D).
        destruct (f_run r s1) as [[[u|e] s2]|] eqn:Er; [| |discriminate].
        + destruct (c_run _ R s1 L1 _ _ Er) as (G2 & L2 & C2 & _).
          destruct y as [y|e]; injection Ex as <- <-; (split; [eapply grows_trans; eassumption|]; split; [exact L2|]).
          * split; [|now apply cwp_ret]. destruct D as [D _]. eapply clo_trans; eassumption.
          * exact I.
        + injection Ex as <- <-. destruct (c_run _ R s1 L1 _ _ Er) as (G2 & L2 & _).
          split; [eapply grows_trans; eassumption|]. now split.
      - apply cwp_bind. eapply cwp_then; [apply cwp_import_module|]. intros. now apply cwp_ret.
      - apply cwp_bind, cwp_note; [reflexivity|]. apply cwp_bind. eapply cwp_then; [apply cwp_import_package|].
        intros. now apply cwp_ret.
      - apply cwp_bind, cwp_same; [|now apply cwp_ret]. intros s0. repeat split; [now exists [hook]|now exists []].
      - apply cwp_bind, cwp_same; [|now apply cwp_ret]. intros s0. repeat split; [now exists []|now exists [hook]].
      - apply cwp_bind, (cwp_lazy (add_excludes names)). now apply cwp_ret.
      - apply cwp_bind, (cwp_lazy (add_implies l)). now apply cwp_ret.
      - apply cwp_bind, cwp_note; [reflexivity|]. apply cwp_bind, cwp_user_node. intros. now apply cwp_ret.
      - apply cwp_bind, cwp_note; [reflexivity|]. apply cwp_bind, cwp_edge. intros. now apply cwp_ret.
      - apply cwp_bind, cwp_note; [reflexivity|]. apply cwp_bind, cwp_root. intros. now apply cwp_ret.
      - apply cwp_bind, cwp_get. destruct (gfind _ _); [|apply cwp_raise]. apply cwp_bind, cwp_note; [reflexivity|]. apply cwp_bind, cwp_sched.
        intros. now apply cwp_ret.
      - apply cwp_bind. eapply cwp_then; [apply (c_run _ R)|]. intros. now apply cwp_ret.
      - apply cwp_env; [|auto]. envm_tac.
      - apply cwp_env; [|auto]. envm_tac.
      - apply cwp_env; [|auto]. envm_tac.
      - apply cwp_env; [|auto]. envm_tac.
      - apply cwp_env; [|auto]. pose proof (c_nfs _ R) as Hn. envm_tac.
      - apply cwp_env; [|auto]. envm_tac.
      - apply cwp_env; [|auto]. envm_tac.
    Qed.

    Lemma cwp_call a s : cwp none (call E r a) s (fun _ _ => True).
    Proof.
      intros L x s' Ex. unfold call, bind, attempt in Ex.
      destruct (do_action E r a s) as [[[y|e] s1]|] eqn:Ea; [| |discriminate].
      - injection Ex as <- <-. exact (cwp_do_action a s L _ _ Ea).
      - injection Ex as <- <-. destruct (cwp_do_action a s L _ _ Ea) as (G & L1 & _).
        split; [eapply grows_trans; [exact G|apply log_grows]|].
        split; [intros n l [Hn|Hn]; [discriminate|exact (L1 n l Hn)]|]. split; [left; eapply erred_before; [exact G|apply erred_log]|exact I].
    Qed.
    Lemma cwp_run_prog p : forall s, cwp none (run_prog E r p) s (fun _ _ => True).
    Proof.
      induction p as [o|e|a k IH]; intros s; cbn [run_prog]; [now apply cwp_ret|apply cwp_raise|].
      apply cwp_bind. eapply cwp_then; [apply cwp_call|]. intros. apply IH.
    Qed.
    Lemma cwp_post_body i n s : cwp none (post_body E r i n) s (fun _ _ => True).
    Proof.
      unfold post_body. apply cwp_bind, cwp_get. destruct (nth_error _ _); [|now apply cwp_ret].
      apply cwp_bind. eapply cwp_then; [apply cwp_run_prog|]. intros. apply (c_post _ R).
    Qed.
    Lemma cwp_miss_body i imp n s : cwp none (miss_body E r i imp n) s (fun _ _ => True).
    Proof.
      unfold miss_body. apply cwp_bind, cwp_get. destruct (nth_error _ _); [|now apply cwp_ret].
      apply cwp_bind. eapply cwp_then; [apply cwp_run_prog|]. intros [id|] s1 _ _ _; [now apply cwp_ret|]. apply (c_miss _ R).
    Qed.
    Lemma cwp_do_work w s : cwp none (do_work E r w) s (fun _ _ => True).
    Proof.
      destruct w; cbn [do_work].
      - apply cwp_bind, cwp_note; [reflexivity|]. apply (c_post _ R).
      - apply cwp_process_import.
      - apply cwp_process_namelist.
      - apply cwp_bind. eapply cwp_then; [apply cwp_import_package|]. intros. now apply cwp_ret.
    Qed.
    Lemma same_state_clo s s' : grows s s' -> nlog s s' -> linv s -> linv s' /\ clo none s s'.
    Proof. intros G N L. split; [eapply nlog_linv; eassumption|now apply nlog_clo]. Qed.
    Lemma cwp_run_body s : cwp none (run_body E r) s (fun _ _ => True).
    Proof.
      intros L x s' Ex. unfold run_body in Ex. destruct (s_stack s) as [|w rest].
      { injection Ex as <- <-. split; [apply grows_refl|]. split; [exact L|]. split; [apply clo_refl|exact I]. }
      set (s1 := log (set_run (set_stack s rest) (w :: s_run s)) (EvPop w)) in *.
      assert (G1 : grows s s1) by (constructor; cbn; first [apply grows_graph_refl|apply incl_refl|now exists []|now eexists [_]]).
      destruct (same_state_clo s s1 G1) as [L1 C1]; [intros e [<-|He]; [now right|now left]|exact L|].
      destruct (do_work E r w s1) as [[[u|e] s2]|] eqn:Ew; [| |discriminate].
      - destruct (cwp_do_work w s1 L1 _ _ Ew) as (G2 & L2 & C2 & _).
        set (s3 := log (set_run s2 (tl (s_run s2))) (EvDone w)) in *.
        assert (G3 : grows s2 s3) by (constructor; cbn; first [apply grows_graph_refl|apply incl_refl|now exists []|now eexists [_]]).
        destruct (same_state_clo s2 s3 G3) as [L3 C3]; [intros e [<-|He]; [now right|now left]|exact L2|].
        destruct (c_run _ R s3 L3 _ _ Ex) as (G4 & L4 & D).
        split; [eapply grows_trans; [exact G1|]; eapply grows_trans; [exact G2|]; eapply grows_trans; [exact G3|exact G4]|].
        split; [exact L4|]. destruct x; [|exact I]. destruct D as [D _]. split; [|exact I].
        eapply clo_trans; [exact G1| |exact C1|eapply clo_trans; [exact G2| |exact C2|eapply clo_trans; [exact G3|exact G4|exact C3|exact D]]].
        + eapply grows_trans; [exact G2|]. eapply grows_trans; [exact G3|exact G4].
        + eapply grows_trans; [exact G3|exact G4].
      - injection Ex as <- <-. destruct (cwp_do_work w s1 L1 _ _ Ew) as (G2 & L2 & _).
        split; [|split; [|exact I]].
        + eapply grows_trans; [exact G1|]. eapply grows_trans; [exact G2|].
          constructor; cbn; first [apply grows_graph_refl|apply incl_refl|now exists []|now eexists [_]].
        + intros n l [Hn|Hn]; [discriminate|exact (L2 n l Hn)].
    Qed.
  End bodies.

  Lemma closes_exec n : closes (exec E n).
  Proof.
    induction n as [|n IH]; cbn [exec]; [apply closes_no_fuel|].
    constructor; cbn [f_find f_load f_nfs f_run f_prog f_post f_miss]; intros.
    - now apply cwp_find_body.
    - now apply cwp_load_body.
    - apply envm_nfs_body, (c_nfs _ IH).
    - eapply (realm_nfs E (f_nfs (exec E n))); [|eassumption]. intros sp' s0 n' l' s0'. apply (c_kind _ IH).
    - now apply cwp_run_body.
    - now apply cwp_run_prog.
    - now apply cwp_post_body.
    - now apply cwp_miss_body.
  Qed.

  Lemma top_call_closes fuel a s ans s' : linv s -> top_call E fuel a s = Some (ans, s') ->
    grows s s' /\ linv s' /\ clo none s s'.
  Proof.
    intros L Ht. unfold top_call in Ht.
    destruct (call E (exec E fuel) a s) as [[[x|e] s1]|] eqn:Ec; try discriminate. injection Ht as <- <-.
    destruct (cwp_call _ (closes_exec fuel) a s L _ _ Ec) as (G & L' & C & _). auto.
  Qed.
End pass2.
