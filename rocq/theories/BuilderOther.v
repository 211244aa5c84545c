(** The same calls in environments that agree on the names of the graph. *)
From Verif Require Export OtherSpec BuilderFuel.
From Verif Require BuilderWp BuilderWhy.
Open Scope string_scope.

Definition sub (s t : st) : Prop := forall x, named s x -> named t x.
Definition unhooked (s : st) : Prop := s_post s = [] /\ s_missing s = [].
Lemma sub_refl s : sub s s.
Proof. intros x H. exact H. Qed.
Lemma sub_trans s t u : sub s t -> sub t u -> sub s u.
Proof. intros H K x Hx. apply K, H, Hx. Qed.
Lemma named_graph s t x : s_graph s = s_graph t -> named s x -> named t x.
Proof. intros H. unfold named. now rewrite H. Qed.
Lemma sub_graph s t : s_graph s = s_graph t -> sub s t.
Proof. intros H x. now apply named_graph. Qed.
Lemma gfind_named s x n : gfind (s_graph s) x = Some n -> named s x.
Proof.
  unfold gfind. intros H. apply find_some in H as [Hi Hn]. right. exists n. split; [exact Hi|]. now apply String.eqb_eq.
Qed.

Lemma split_above name po x : starts_with "." name = false -> split_package name = ROk (po, x) ->
  fst (rpartition dot name) = match po with Some c => c | None => "" end.
Proof.
  intros Hs H. unfold split_package in H. destruct (seqb name ""); [discriminate|].
  assert (L : lstrip dot name = name).
  { destruct name as [|a r]; [reflexivity|]. cbn [lstrip]. destruct (Ascii.eqb a dot) eqn:Ea; [|reflexivity].
    apply Ascii.eqb_eq in Ea. subst a. cbn in Hs. destruct r; discriminate. }
  rewrite L, Nat.sub_diag in H. destruct (seqb name "" || has_sub ".." name); [discriminate|].
  destruct (rpartition dot name) as [p nm]. cbn [Nat.eqb] in H. injection H as <- _. cbn [fst].
  destruct (seqb p "") eqn:Ep; [now apply String.eqb_eq|reflexivity].
Qed.

Section agree.
  Variable E : env.
  Variable finds : nat -> list string -> string -> result (option spec).
  Variable dists : nat -> string -> result (option dist).
  Variable G : string -> Prop.
  Hypothesis HA : agree G E finds dists.
  Hypothesis HD : forall t f name sp, e_find_spec E t f name = ROk (Some sp) -> direct (sp_loader sp) = true.
  Notation E' := (with_finds E finds dists).

  (** If [m] returns, with the names of the graph among [G], then so does [m']. *)
  Definition ag {A} (m m' : M A) (s : st) (Q : A -> st -> Prop) : Prop := unhooked s -> forall x t, m s = Some (x, t) ->
    unhooked t /\ sub s t /\ forall a, x = ROk a -> Q a t /\ ((forall y, named t y -> G y) -> m' s = Some (ROk a, t)).

  Lemma ag_weak {A} (m m' : M A) s (Q Q' : A -> st -> Prop) : ag m m' s Q -> (forall a t, Q a t -> sub s t -> unhooked t -> Q' a t) -> ag m m' s Q'.
  Proof.
    intros H K U x t Hm. destruct (H U x t Hm) as [U1 [S1 C]]. split; [exact U1|]. split; [exact S1|]. intros a Ha. destruct (C a Ha) as [HQ HE]. auto.
  Qed.
  Lemma ag_ret {A} (a : A) s (Q : A -> st -> Prop) : Q a s -> ag (ret a) (ret a) s Q.
  Proof. intros HQ U x t H. injection H as <- <-. split; [exact U|]. split; [apply sub_refl|]. intros b Hb. injection Hb as <-. auto. Qed.
  Lemma ag_raise {A} e s (Q : A -> st -> Prop) : ag (raise e) (raise e) s Q.
  Proof. intros U x t H. injection H as <- <-. split; [exact U|]. split; [apply sub_refl|]. intros b Hb. discriminate. Qed.
  Lemma ag_none {A} (m : M A) s (Q : A -> st -> Prop) : ag out_of_fuel m s Q.
  Proof. intros U x t H. discriminate. Qed.
  Lemma ag_of_result {A} (y : result A) s (Q : A -> st -> Prop) : (forall a, y = ROk a -> Q a s) -> ag (of_result y) (of_result y) s Q.
  Proof. destruct y; intros H; [apply ag_ret; now apply H|apply ag_raise]. Qed.
  Lemma ag_assert b s (Q : unit -> st -> Prop) : (b = true -> Q tt s) -> ag (assert b) (assert b) s Q.
  Proof. destruct b; intros H; [apply ag_ret; now apply H|apply ag_raise]. Qed.
  Lemma ag_bind {A B} (m m' : M A) (f f' : A -> M B) s Q Q' : ag m m' s Q -> (forall a s1, Q a s1 -> sub s s1 -> unhooked s1 -> ag (f a) (f' a) s1 Q') -> ag (bind m f) (bind m' f') s Q'.
  Proof.
    intros H K U x t Hb. unfold bind in *. destruct (m s) as [[[a|e] s1]|] eqn:Em; [| |discriminate].
    - destruct (H U _ _ Em) as [U1 [S1 C]]. destruct (C a eq_refl) as [HQ HE]. destruct (K a s1 HQ S1 U1 U1 _ _ Hb) as [U2 [S2 C2]].
      split; [exact U2|]. split; [eapply sub_trans; eassumption|]. intros b Hx. destruct (C2 b Hx) as [HQ2 HE2]. split; [exact HQ2|].
      intros HG. rewrite HE; [now apply HE2|]. intros y Hy. apply HG, S2, Hy.
    - destruct (H U _ _ Em) as [U1 [S1 C]]. injection Hb as <- <-. split; [exact U1|]. split; [exact S1|]. intros b Hb. discriminate.
  Qed.
  Lemma ag_gets {A} (f : st -> A) s (Q : A -> st -> Prop) : Q (f s) s -> ag (gets f) (gets f) s Q.
  Proof. intros HQ. apply ag_ret. exact HQ. Qed.
  Lemma ag_modify f s (Q : unit -> st -> Prop) : s_graph (f s) = s_graph s -> s_post (f s) = s_post s -> s_missing (f s) = s_missing s -> Q tt (f s) -> ag (modify f) (modify f) s Q.
  Proof.
    intros H1 H2 H3 HQ [U1 U2] x t H. injection H as <- <-. split; [split; congruence|]. split; [apply sub_graph; congruence|].
    intros b Hb. injection Hb as <-. auto.
  Qed.
  Lemma ag_iter {A} (f f' : A -> M unit) l s : (forall a s, ag (f a) (f' a) s (fun _ _ => True)) -> ag (iter f l) (iter f' l) s (fun _ _ => True).
  Proof.
    intros H. revert s. induction l as [|x l IH]; intros s; cbn [iter]; [now apply ag_ret|]. eapply ag_bind; [apply H|]. intros tt1 s1 _ _ _. apply IH.
  Qed.
  (** The same with something that is kept. *)
  Lemma ag_iter_in {A} (f f' : A -> M unit) l s (J : st -> Prop) : J s -> (forall s s1, J s -> sub s s1 -> J s1) ->
    (forall a s, J s -> ag (f a) (f' a) s (fun _ _ => True)) -> ag (iter f l) (iter f' l) s (fun _ _ => True).
  Proof.
    intros HJ Hk H. revert s HJ. induction l as [|x l IH]; intros s HJ; cbn [iter]; [now apply ag_ret|].
    eapply ag_bind; [now apply H|]. intros tt1 s1 _ S1 _. apply IH. eapply Hk; eassumption.
  Qed.
  Lemma ag_saved {A} (m m' : M A) s (Q Q' : A -> st -> Prop) : (forall s1, s_graph s1 = s_graph s -> ag m m' s1 Q) ->
    (forall a t t', s_graph t' = s_graph t -> Q a t -> Q' a t') -> ag (saved_stack m) (saved_stack m') s Q'.
  Proof.
    intros H K U x t Hs. unfold saved_stack in *.
    destruct (m (set_saved (set_stack s []) (s_stack s :: s_saved s))) as [[y s1]|] eqn:Em; [|discriminate]. injection Hs as <- <-.
    destruct (H (set_saved (set_stack s []) (s_stack s :: s_saved s)) eq_refl U _ _ Em) as [U1 [S1 C]].
    split; [exact U1|]. split; [exact S1|]. intros a Ha. subst y. destruct (C a eq_refl) as [HQ HE]. split; [eapply K; [|exact HQ]; reflexivity|].
    intros HG. rewrite HE; [reflexivity|exact HG].
  Qed.
  Lemma ag_ask {A} (f f' : nat -> result A) s (Q : A -> st -> Prop) : f' (s_clock s) = f (s_clock s) -> (forall a, f (s_clock s) = ROk a -> Q a (tick s)) -> ag (askr f) (askr f') s Q.
  Proof.
    intros Hf H U x t K. injection K as <- <-. split; [exact U|]. split; [now apply sub_graph|]. intros a Ha. split; [now apply H|].
    intros _. unfold askr. now rewrite Hf, Ha.
  Qed.
  Lemma ag_find_spec name s (Q : option spec -> st -> Prop) : named s name -> (forall o, e_find_spec E (s_clock s) (s_fakes s) name = ROk o -> Q o (tick s)) ->
    ag (find_spec E name) (find_spec E' name) s Q.
  Proof.
    intros Hn H U x t K. injection K as <- <-. split; [exact U|]. split; [now apply sub_graph|]. intros a Ha. split; [now apply H|].
    intros HG. unfold find_spec. cbn [with_finds e_find_spec]. rewrite (proj1 HA); [now rewrite Ha|]. apply HG. exact Hn.
  Qed.
  Lemma ag_in_sysmod name s (Q : bool -> st -> Prop) : (forall b, Q b (tick s)) -> ag (in_sysmod E name) (in_sysmod E' name) s Q.
  Proof.
    intros H U x t K. injection K as <- <-. split; [exact U|]. split; [now apply sub_graph|]. intros a Ha. injection Ha as <-. split; [apply H|]. intros _. reflexivity.
  Qed.

  (** The graph *)
  Lemma ag_get_node id s (Q : option node -> st -> Prop) : Q (gfind (s_graph s) id) s -> ag (get_node id) (get_node id) s Q.
  Proof. intros HQ. unfold get_node. apply ag_gets. exact HQ. Qed.
  Lemma ag_kind_test p id s (Q : bool -> st -> Prop) : (forall b, Q b s) -> ag (kind_test p id) (kind_test p id) s Q.
  Proof. intros H. unfold kind_test. eapply ag_bind; [apply (ag_get_node id s (fun _ t => t = s)); reflexivity|]. intros n s1 -> _ _. apply ag_ret. apply H. Qed.
  Lemma ag_lift f s (Q : unit -> st -> Prop) : (forall g, f (s_graph s) = ROk g -> sub s (set_graph s g) /\ Q tt (set_graph s g)) -> ag (lift_graph f) (lift_graph f) s Q.
  Proof.
    intros H U x t K. unfold lift_graph in *. destruct (f (s_graph s)) as [g|e] eqn:Ef; injection K as <- <-.
    - destruct (H g eq_refl) as [S1 HQ]. split; [exact U|]. split; [exact S1|]. intros b Hb. injection Hb as <-. auto.
    - split; [exact U|]. split; [apply sub_refl|]. intros b Hb. discriminate.
  Qed.
  Lemma add_sub s n g : gadd_node (s_graph s) n = ROk g -> sub s (set_graph s g) /\ named (set_graph s g) (n_name n).
  Proof.
    unfold gadd_node. destruct (ghas (s_graph s) (n_name n)); [discriminate|]. intros H. injection H as <-. split.
    - intros x [->|[k [Hk Hx]]]; [now left|]. right. exists k. cbn. rewrite in_app_iff. auto.
    - right. exists n. cbn. rewrite in_app_iff. cbn. auto.
  Qed.
  Lemma ag_user_add_node n s (Q : unit -> st -> Prop) : (forall t, sub s t -> named t (n_name n) -> Q tt t) -> ag (user_add_node n) (user_add_node n) s Q.
  Proof. intros H. apply ag_lift. intros g Hg. destruct (add_sub _ _ _ Hg) as [H1 H2]. split; [exact H1|]. now apply H. Qed.
  Lemma ag_note e s (Q : unit -> st -> Prop) : Q tt (log s e) -> ag (note e) (note e) s Q.
  Proof. intros H. now apply ag_modify. Qed.
  Lemma ag_add_node n l s (Q : unit -> st -> Prop) : (forall t, sub s t -> named t (n_name n) -> Q tt t) -> ag (add_node n l) (add_node n l) s Q.
  Proof.
    intros H. unfold add_node. eapply ag_bind.
    - apply (ag_lift _ s (fun _ t => sub s t /\ named t (n_name n))). intros g Hg. destruct (add_sub _ _ _ Hg) as [H1 H2]. auto.
    - intros tt1 s1 [H1 H2] _ _. apply ag_modify; try reflexivity. apply H; [exact H1|exact H2].
  Qed.
  Lemma ag_add_edge a b d s (Q : unit -> st -> Prop) : (forall t, sub s t -> Q tt t) -> ag (add_edge a b d) (add_edge a b d) s Q.
  Proof.
    intros H. apply ag_lift. intros g Hg. unfold gadd_edge in Hg. destruct (ghas (s_graph s) a && ghas (s_graph s) b); [|discriminate]. injection Hg as <-.
    assert (S1 : sub s (set_graph s (Graph (g_nodes (s_graph s)) (edges_add (g_edges (s_graph s)) a b d) (g_roots (s_graph s))))) by (intros x Hx; exact Hx). auto.
  Qed.
  Lemma ag_add_root a s (Q : unit -> st -> Prop) : (forall t, sub s t -> Q tt t) -> ag (add_root a) (add_root a) s Q.
  Proof.
    intros H. apply ag_lift. intros g Hg. unfold gadd_root in Hg. destruct (ghas (s_graph s) a); [|discriminate]. injection Hg as <-.
    assert (S1 : sub s (set_graph s (Graph (g_nodes (s_graph s)) (g_edges (s_graph s)) (set_add a (g_roots (s_graph s)))))) by (intros x Hx; exact Hx). auto.
  Qed.
  Lemma ag_add_written id l s (Q : unit -> st -> Prop) : (forall t, Q tt t) -> ag (add_written id l) (add_written id l) s Q.
  Proof.
    intros HQ U x t H. injection H as <- <-. split; [exact U|]. split.
    - intros y [->|[n [Hn Hy]]]; [now left|]. right. exists (upd_written id l n). split; [cbn; now apply in_map|].
      rewrite <- Hy. unfold upd_written. now destruct (seqb (n_name n) id).
    - intros b Hb. injection Hb as <-. auto.
  Qed.
  Lemma schedule_graph id l s : s_graph (schedule id l s) = s_graph s /\ s_post (schedule id l s) = s_post s /\ s_missing (schedule id l s) = s_missing s.
  Proof. unfold schedule. cbn. now destruct (memb id (s_seen s)). Qed.
  Lemma ag_schedule id l s (Q : unit -> st -> Prop) : (forall t, sub s t -> Q tt t) -> ag (process_import_list id l) (process_import_list id l) s Q.
  Proof. intros H. destruct (schedule_graph id l s) as [H1 [H2 H3]]. apply ag_modify; try assumption. apply H. now apply sub_graph. Qed.
  Lemma ag_find_module id s (Q : option node -> st -> Prop) : Q (gfind (s_graph s) id) s -> ag (find_module id) (find_module id) s Q.
  Proof.
    intros HQ. unfold find_module. eapply ag_bind; [apply (ag_get_node id s (fun o t => o = gfind (s_graph s) id /\ t = s)); now split|].
    intros n s1 [-> ->] _ _. destruct (gfind (s_graph s) id) as [n|]; [|now apply ag_ret].
    eapply ag_bind; [apply (ag_assert _ s (fun _ t => t = s)); reflexivity|]. intros tt1 s1 -> _ _. now apply ag_ret.
  Qed.
  Lemma ag_pop_lazy name s (Q : option implied -> st -> Prop) : (forall o t, s_graph t = s_graph s -> Q o t) -> ag (pop_lazy name) (pop_lazy name) s Q.
  Proof.
    intros H U x t K. unfold pop_lazy in *. destruct (assoc name (s_lazy s)) as [i|]; injection K as <- <-.
    - split; [exact U|]. split; [now apply sub_graph|]. intros a Ha. injection Ha as <-. auto.
    - split; [exact U|]. split; [now apply sub_graph|]. intros a Ha. injection Ha as <-. auto.
  Qed.

  (** The package of a name is there. *)
  Definition above (s : st) (name : string) : Prop := named s (fst (rpartition dot name)).
  (** Specs for which the two environments have the same distribution. *)
  Definition known (sp : spec) : Prop := direct (sp_loader sp) = true /\ forall f u, sp_origin sp = Some f -> dists u f = e_dist_for_file E u f.

  Record ags (r r' : funs) : Prop := {
    ag_find : forall im name link s, ag (f_find r im name link) (f_find r' im name link) s (fun id t => id = name /\ named t name);
    ag_load : forall im name s, (starts_with "." name = false -> above s name) -> ag (f_load r im name) (f_load r' im name) s (fun id t => id = name /\ named t name);
    ag_nfs : forall sp s, known sp -> ag (f_nfs r sp) (f_nfs r' sp) s (fun _ _ => True);
    ag_run : forall s, ag (f_run r) (f_run r') s (fun _ _ => True);
    ag_post : forall n s, ag (f_post r 0 n) (f_post r' 0 n) s (fun _ _ => True);
    ag_miss : forall im name s, unhooked s -> forall x t, f_miss r 0 im name s = Some (x, t) -> x = ROk None /\ t = s /\ f_miss r' 0 im name s = Some (x, t)
  }.
  Lemma named_sub s t x : sub s t -> named s x -> named t x.
  Proof. auto. Qed.

  Section bodies.
    Variables r r' : funs.
    Hypothesis H : ags r r'.

    Lemma ag_create_missing im name s : ag (create_missing r im name) (create_missing r' im name) s (fun id t => id = name /\ named t name).
    Proof.
      unfold create_missing. eapply ag_bind with (Q := fun o t => o = None /\ t = s).
      - intros U x t Hm. destruct (ag_miss _ _ H im name s U x t Hm) as [-> [-> He]]. split; [exact U|]. split; [apply sub_refl|].
        intros a Ha. injection Ha as <-. auto.
      - intros o s1 [-> ->] _ _. eapply ag_bind; [apply (ag_add_node _ _ s (fun _ t => named t name)); intros t _ X; exact X|].
        intros tt2 s2 Hn _ _. eapply ag_bind; [apply (ag_schedule _ _ s2 (fun _ t => named t name)); intros t S1; now apply S1|].
        intros tt3 s3 Hn3 _ _. now apply ag_ret.
    Qed.
    (** It does not raise if the name is new. *)
    Lemma create_missing_same im name s x t : unhooked s -> gfind (s_graph s) name = None -> create_missing r im name s = Some (x, t) -> exists a, x = ROk a.
    Proof.
      intros U Hg Hm. unfold create_missing, bind at 1 in Hm. destruct (f_miss r 0 im name s) as [[y u]|] eqn:Ef; [|discriminate].
      destruct (ag_miss _ _ H im name s U _ _ Ef) as [-> [-> _]]. unfold add_node, lift_graph, bind, gadd_node, ghas in Hm. cbn [plain_node n_name] in Hm. rewrite Hg in Hm.
      cbn in Hm. injection Hm as <- _. now eexists.
    Qed.

    Lemma ag_implied_node k name target s : ag (implied_node r k name target) (implied_node r' k name target) s
      (fun o t => o = Some name /\ named t name).
    Proof.
      unfold implied_node. eapply ag_bind; [apply (ag_get_node name s (fun _ _ => True)); exact I|]. intros n s1 _ _ _.
      eapply ag_bind; [apply (ag_assert _ s1 (fun _ _ => True)); auto|]. intros tt2 s2 _ _ _.
      eapply ag_bind; [apply (ag_add_node _ _ s2 (fun _ t => named t name)); intros t _ X; exact X|]. intros tt3 s3 N3 _ _.
      eapply ag_bind; [apply (ag_schedule _ _ s3 (fun _ t => named t name)); intros t S1; now apply S1|]. intros tt4 s4 N4 _ _.
      eapply ag_bind; [apply (ag_find _ _ H)|]. intros other s5 _ S5 _. apply S5 in N4.
      eapply ag_bind; [apply (ag_add_edge _ _ _ s5 (fun _ t => named t name)); intros t S1; now apply S1|]. intros tt6 s6 N6 _ _. now apply ag_ret.
    Qed.
    Lemma ag_implied_references im name s : ag (implied_references r im name) (implied_references r' im name) s
      (fun o t => match o with Some id => id = name /\ named t name | None => True end).
    Proof.
      unfold implied_references. eapply ag_bind; [apply (ag_get_node name s (fun _ _ => True)); exact I|]. intros n s1 _ _ _.
      destruct n as [n|]; [now apply ag_ret|].
      eapply ag_bind; [apply (ag_pop_lazy name s1 (fun _ _ => True)); auto|]. intros i s2 _ _ _. destruct i as [[|a|a|refs]|].
      - eapply ag_bind; [apply (ag_add_node _ _ s2 (fun _ t => named t name)); intros t _ X; exact X|]. intros tt3 s3 N3 _ _.
        eapply ag_bind; [apply (ag_schedule _ _ s3 (fun _ t => named t name)); intros t S1; now apply S1|]. intros tt4 s4 N4 _ _. now apply ag_ret.
      - eapply ag_weak; [apply ag_implied_node|]. intros o t [-> X] _ _. auto.
      - eapply ag_weak; [apply ag_implied_node|]. intros o t [-> X] _ _. auto.
      - eapply ag_bind; [apply (ag_find _ _ H)|]. intros id s3 [-> N3] _ _.
        eapply ag_bind; [apply ag_iter|].
        + intros ref s4. eapply ag_bind; [apply (ag_find _ _ H)|]. intros other s5 _ _ _. apply ag_add_edge. auto.
        + intros tt4 s4 _ S4 _. apply ag_ret. auto.
      - now apply ag_ret.
    Qed.
    Lemma spec_or_none_same name s : G name -> spec_or_none E' name s = spec_or_none E name s.
    Proof.
      intros HG. assert (F : forall u, find_spec E' name u = find_spec E name u).
      { intros u. unfold find_spec. cbn [with_finds e_find_spec]. now rewrite (proj1 HA). }
      unfold spec_or_none, bind, attempt. rewrite F. destruct (find_spec E name s) as [[[o|e] s1]|]; [reflexivity| |reflexivity].
      destruct e; try reflexivity. cbn [gets]. change (del_sysmod E' name) with (del_sysmod E name). change (in_sysmod E' name) with (in_sysmod E name).
      destruct (del_sysmod E name s1) as [[[u|e] s2]|]; [|reflexivity|reflexivity]. now rewrite F.
    Qed.
    (** What it does to the state. *)
    Lemma spec_or_none_calm name s x t : spec_or_none E name s = Some (x, t) -> s_graph t = s_graph s /\ s_post t = s_post s /\ s_missing t = s_missing s
      /\ forall sp, x = ROk (Some sp) -> exists u f, e_find_spec E u f name = ROk (Some sp).
    Proof.
      unfold spec_or_none, bind at 1, attempt at 1, find_spec at 1. destruct (e_find_spec E (s_clock s) (s_fakes s) name) as [o|e] eqn:E0.
      - intros Hx. injection Hx as <- <-. repeat split. intros sp Hs. injection Hs as ->. eauto.
      - destruct e; try (intros Hx; injection Hx as <- <-; repeat split; intros sp Hs; discriminate).
        unfold bind at 1, gets at 1, del_sysmod, in_sysmod. unfold bind at 1. unfold bind at 1.
        destruct (memb name (s_fakes (tick s)) || e_sysmod E (s_clock (tick s)) name).
        + cbn [modify]. unfold bind at 1, attempt at 1, find_spec at 1.
          match goal with |- context [e_find_spec E ?u ?f name] => destruct (e_find_spec E u f name) as [o|e] eqn:E1; set (UU := u) in *; set (FF := f) in * end.
          * unfold bind at 1. match goal with |- context [assert (negb ?b)] => destruct b end; cbn; intros Hx; injection Hx as <- <-; repeat split; intros sp Hs; try discriminate. injection Hs as ->. eauto.
          * unfold bind at 1. match goal with |- context [assert (negb ?b)] => destruct b end; cbn; intros Hx; injection Hx as <- <-; repeat split; intros sp Hs; discriminate.
        + cbn. intros Hx. injection Hx as <- <-. repeat split. intros sp Hs. discriminate.
    Qed.
    Lemma ag_load_failed im name e s : above s name -> ag (load_failed E r im name e) (load_failed E' r' im name e) s (fun id t => id = name /\ named t name).
    Proof.
      intros Ha. unfold load_failed. destruct (negb (is_exception e)); [apply ag_raise|].
      assert (K : ag (b <- in_sysmod E (fst (rpartition dot name)) ;; do assert (negb b) ;; m <- find_spec E (fst (rpartition dot name)) ;;
        match m with
        | None => raise EAssert
        | Some sp => do assert (sp_inspect sp) ;; p <- of_result (sp_ispkg sp) ;;
            if p : bool then match sp_origin sp with
              | None => raise EAssert
              | Some path => do assert (starts_with "__init__." (snd (rpartition slash path))) ;;
                  do modify (fun s => set_fakes s (set_add (fst (rpartition dot name)) (s_fakes s))) ;; f_load r im name
              end else create_missing r im name
        end) (b <- in_sysmod E' (fst (rpartition dot name)) ;; do assert (negb b) ;; m <- find_spec E' (fst (rpartition dot name)) ;;
        match m with
        | None => raise EAssert
        | Some sp => do assert (sp_inspect sp) ;; p <- of_result (sp_ispkg sp) ;;
            if p : bool then match sp_origin sp with
              | None => raise EAssert
              | Some path => do assert (starts_with "__init__." (snd (rpartition slash path))) ;;
                  do modify (fun s => set_fakes s (set_add (fst (rpartition dot name)) (s_fakes s))) ;; f_load r' im name
              end else create_missing r' im name
        end) s (fun id t => id = name /\ named t name)).
      { eapply ag_bind; [apply (ag_in_sysmod _ s (fun _ _ => True)); auto|]. intros b s1 _ S1 _. apply S1 in Ha.
        eapply ag_bind; [apply (ag_assert _ s1 (fun _ _ => True)); auto|]. intros tt2 s2 _ S2 _. apply S2 in Ha.
        eapply ag_bind; [apply (ag_find_spec _ s2 (fun _ _ => True)); [exact Ha|auto]|]. intros m s3 _ S3 _. apply S3 in Ha.
        destruct m as [sp|]; [|apply ag_raise].
        eapply ag_bind; [apply (ag_assert _ s3 (fun _ _ => True)); auto|]. intros tt4 s4 _ S4 _. apply S4 in Ha.
        eapply ag_bind; [apply (ag_of_result _ s4 (fun _ _ => True)); auto|]. intros p s5 _ S5 _. apply S5 in Ha.
        destruct p; [|apply ag_create_missing]. destruct (sp_origin sp) as [path|]; [|apply ag_raise].
        eapply ag_bind; [apply (ag_assert _ s5 (fun _ _ => True)); auto|]. intros tt6 s6 _ S6 _. apply S6 in Ha.
        eapply ag_bind; [apply (ag_modify _ s6 (fun _ _ => True)); try reflexivity; exact I|]. intros tt7 s7 _ S7 _. apply S7 in Ha.
        apply (ag_load _ _ H). intros _. exact Ha. }
      destruct e as [| | | | | | | | | |[]| | | |]; try exact K; apply ag_create_missing.
    Qed.

    Lemma ag_load_spec name sp s : known sp -> ag (load_spec r name sp) (load_spec r' name sp) s (fun id t => id = name /\ named t name).
    Proof.
      intros Hk. unfold load_spec. eapply ag_bind; [apply (ag_nfs _ _ H sp s Hk)|]. intros [n imports] s1 _ _ _.
      destruct (negb (seqb (n_name n) name)) eqn:En.
      - eapply ag_bind; [apply (ag_add_node _ _ s1 (fun _ t => named t name)); intros t _ X; exact X|]. intros tt2 s2 N2 _ _.
        eapply ag_bind; [apply (ag_schedule _ _ s2 (fun _ t => named t name)); intros t S1; now apply S1|]. intros tt3 s3 N3 _ _.
        eapply ag_bind; [apply (ag_get_node _ s3 (fun _ t => t = s3)); reflexivity|]. intros old s4 -> _ _.
        eapply ag_bind with (Q := fun _ t => named t name).
        + destruct old as [o|]; [now apply ag_ret|].
          eapply ag_bind; [apply (ag_add_node _ _ s3 (fun _ t => named t name)); intros t S1 _; now apply S1|]. intros tt5 s5 N5 _ _.
          eapply ag_bind; [apply (ag_schedule _ _ s5 (fun _ t => named t name)); intros t S1; now apply S1|]. intros tt6 s6 N6 _ _.
          eapply ag_bind; [apply (ag_of_result _ s6 (fun _ t => named t name)); intros a00 _; exact N6|]. intros pk s7 N7 _ _.
          destruct (fst pk) as [c|]; [|now apply ag_ret].
          eapply ag_bind; [apply (ag_find _ _ H)|]. intros parent s8 _ S8 _. apply S8 in N7. apply ag_add_edge. intros t S1. now apply S1.
        + intros tt5 s5 N5 _ _. eapply ag_bind; [apply (ag_add_edge _ _ _ s5 (fun _ t => named t name)); intros t S1; now apply S1|].
          intros tt6 s6 N6 _ _. now apply ag_ret.
      - apply negb_false_iff in En. apply String.eqb_eq in En.
        eapply ag_bind; [apply (ag_add_node _ _ s1 (fun _ t => named t name)); intros t _ X; now rewrite <- En|]. intros tt2 s2 N2 _ _.
        eapply ag_bind with (Q := fun _ t => named t name).
        + destruct (n_kind n); try (now apply ag_ret). match goal with |- context [match ?o with Some _ => _ | None => _ end] => destruct o as [nstype|]; [|now apply ag_ret] end.
          destruct (memb nstype ["pkgutil"; "pkg_resources"]); [|now apply ag_ret].
          eapply ag_bind; [apply (ag_find _ _ H)|]. intros nspkg s3 _ S3 _. apply S3 in N2. apply ag_add_edge. intros t S1. now apply S1.
        + intros tt3 s3 N3 _ _. eapply ag_bind; [apply (ag_schedule _ _ s3 (fun _ t => named t name)); intros t S1; now apply S1|].
          intros tt4 s4 N4 _ _. now apply ag_ret.
    Qed.

    (** [_load_module], for a name on which the environments agree. *)
    Lemma ag_load_body im name s : G name -> (starts_with "." name = false -> above s name) ->
      ag (load_body E r im name) (load_body E' r' im name) s (fun id t => id = name /\ named t name).
    Proof.
      intros HG Ha. unfold load_body. eapply ag_bind; [apply (ag_assert _ s (fun _ t => t = s /\ above s name)); intros Hs; split; [reflexivity|]; apply Ha; now destruct (starts_with "." name)|].
      clear Ha. intros tt0 s0 [-> Ha] _ _. eapply ag_bind; [apply (ag_get_node name s (fun o t => o = gfind (s_graph s) name /\ t = s)); now split|].
      intros n s1 [-> ->] _ _. destruct (gfind (s_graph s) name) as [n|] eqn:Eg; [apply ag_ret; split; [reflexivity|]; eapply gfind_named; exact Eg|].
      eapply ag_bind with (Q := fun y t => s_graph t = s_graph s /\ forall sp, y = ROk (Some sp) -> known sp).
      - intros U x t Hm. unfold attempt in *. destruct (spec_or_none E name s) as [[y u]|] eqn:Es; [|discriminate]. injection Hm as <- <-.
        destruct (spec_or_none_calm _ _ _ _ Es) as [H1 [H2 [H3 H4]]]. destruct U as [U1 U2].
        split; [split; congruence|]. split; [now apply sub_graph|]. intros a Hx. injection Hx as <-. split.
        + split; [exact H1|]. intros sp ->. destruct (H4 sp eq_refl) as [v [f Hf]]. split; [eapply HD; exact Hf|].
          intros file w Hfile. eapply (proj2 HA); eassumption.
        + intros _. now rewrite spec_or_none_same, Es.
      - intros y s2 [Hg Hk] S2 U2. pose proof (S2 _ Ha) as Ha2. destruct y as [[sp|]|e].
        + apply ag_load_spec. now apply Hk.
        + intros _ x t Hm. unfold bind at 1, attempt at 1 in Hm. destruct (create_missing r im name s2) as [[z u]|] eqn:Em; [|discriminate].
          assert (Eg2 : gfind (s_graph s2) name = None) by now rewrite Hg.
          destruct (create_missing_same im name s2 z u U2 Eg2 Em) as [id ->]. injection Hm as <- <-.
          destruct (ag_create_missing im name s2 U2 _ _ Em) as [U3 [S3 C]]. split; [exact U3|]. split; [exact S3|].
          intros a Hx. injection Hx as <-. destruct (C id eq_refl) as [HQ HE]. split; [exact HQ|].
          intros HGt. unfold bind at 1, attempt at 1. now rewrite (HE HGt).
        + now apply ag_load_failed.
    Qed.

    Lemma ag_find_body im name link s : ag (find_body r im name link) (find_body r' im name link) s (fun id t => id = name /\ named t name).
    Proof.
      unfold find_body. eapply ag_bind; [apply (ag_find_module name s (fun o t => o = gfind (s_graph s) name /\ t = s)); now split|].
      intros n s1 [-> ->] _ _. destruct (gfind (s_graph s) name) as [n|] eqn:Eg; [apply ag_ret; split; [reflexivity|]; eapply gfind_named; exact Eg|].
      eapply ag_bind; [apply (ag_of_result _ s (fun pk t => split_package name = ROk pk)); auto|]. intros [po xn] s2 Hsp _ _. cbn [fst].
      eapply ag_bind with (Q := fun x t => fst x = po /\ match snd x with Some id => id = name /\ named t name | None => starts_with "." name = false -> above t name end).
      - destruct po as [c|].
        + eapply ag_bind; [apply (ag_find _ _ H)|]. intros parent s3 [-> N3] _ _.
          eapply ag_bind; [apply (ag_kind_test _ _ s3 (fun _ t => t = s3)); reflexivity|]. intros m s4 -> _ _. destruct m.
          * eapply ag_bind; [apply ag_create_missing|]. intros id s5 [-> N5] _ _. now apply ag_ret.
          * eapply ag_bind; [apply (ag_kind_test _ _ s3 (fun _ t => t = s3)); reflexivity|]. intros m s4 -> _ _. destruct m.
            -- eapply ag_bind; [apply (ag_add_node _ _ s3 (fun _ t => named t name)); intros t _ X; exact X|]. intros tt5 s5 N5 _ _.
               eapply ag_bind; [apply (ag_schedule _ _ s5 (fun _ t => named t name)); intros t S1; now apply S1|]. intros tt6 s6 N6 _ _. now apply ag_ret.
            -- apply ag_ret. split; [reflexivity|]. cbn [snd]. intros Hd. unfold above. now rewrite (split_above _ _ _ Hd Hsp).
        + apply ag_ret. split; [reflexivity|]. cbn [snd]. intros Hd. unfold above. rewrite (split_above _ _ _ Hd Hsp). now left.
      - intros [parent found] s3 [Hp Hf] _ _. cbn [fst snd] in Hp, Hf. subst parent.
        eapply ag_bind with (Q := fun id t => id = name /\ named t name).
        + destruct found as [id|]; [now apply ag_ret|]. eapply ag_bind; [apply ag_implied_references|].
          intros i s4 Hi S4 _. destruct i as [id|]; [now apply ag_ret|]. apply (ag_load _ _ H). intros Hd. apply S4. now apply Hf.
        + intros id s4 [-> N4] _ _. eapply ag_bind; [apply (ag_kind_test _ _ s4 (fun _ t => t = s4)); reflexivity|]. intros m s5 -> _ _.
          eapply ag_bind with (Q := fun _ t => named t name).
          * destruct po as [c|]; [|now apply ag_ret]. destruct (link || negb m); [|now apply ag_ret]. apply ag_add_edge. intros t S1. now apply S1.
          * intros tt5 s5 N5 _ _. now apply ag_ret.
    Qed.

    Ltac ag_easy := first
      [ apply ag_none | apply ag_ret; exact I | apply ag_raise | apply ag_of_result; intros; exact I | apply ag_assert; intros; exact I
      | apply ag_add_edge; intros; exact I | apply ag_add_node; intros; exact I | apply ag_user_add_node; intros; exact I | apply ag_add_root; intros; exact I
      | apply ag_schedule; intros; exact I | apply ag_note; exact I | apply ag_add_written; intros; exact I | apply ag_kind_test; intros; exact I
      | apply ag_get_node; exact I | apply ag_find_module; exact I | apply ag_gets; exact I
      | apply ag_modify; [reflexivity|reflexivity|reflexivity|exact I]
      | apply ag_ask; [reflexivity|intros; exact I]
      | apply (ag_run _ _ H) | apply (ag_post _ _ H)
      | eapply ag_weak; [apply (ag_find _ _ H)|intros; exact I]
      | apply ag_iter; intros ? ?
      | eapply ag_bind with (Q := fun _ _ => True); [|intros ? ? _ _ _]
      | match goal with |- ag (match ?x with _ => _ end) (match ?x with _ => _ end) _ _ => destruct x end ].
    Ltac ag_cbn := cbn [with_finds e_names_order e_script e_parse e_order e_isidentifier e_glob_py e_subdirs e_dist_named].
    Ltac ag_all := ag_cbn; repeat ag_easy.

    Lemma dist_same f u s : (forall x, f = Some x -> forall u, dists u x = e_dist_for_file E u x) -> dist_of E' f u s = dist_of E f u s.
    Proof.
      intros Hf. unfold dist_of. destruct f as [f|]; [|reflexivity]. destruct u; [|reflexivity].
      unfold askr. cbn [with_finds e_dist_for_file]. now rewrite (Hf f eq_refl).
    Qed.
    Lemma nfs_same rec rec' sp s : known sp -> nfs_body E' rec' sp s = nfs_body E rec sp s.
    Proof.
      intros [Hd Hf]. unfold nfs_body. destruct (sp_loader sp) as [| | | |fz src cd| |at_| |] eqn:El; try discriminate; try reflexivity.
      - unfold bind. rewrite dist_same; [reflexivity|]. intros x Hx u. now apply Hf.
      - destruct src as [source|e].
        + unfold bind. change (source_imports E' sp source s) with (source_imports E sp source s).
          destruct (source_imports E sp source s) as [[[si|e] s1]|]; [|reflexivity|reflexivity].
          change (code_info E' cd s1) with (code_info E cd s1). destruct (code_info E cd s1) as [[[ci|e] s2]|]; [|reflexivity|reflexivity].
          rewrite dist_same; [reflexivity|]. intros x Hx u. now apply Hf.
        + destruct e; try reflexivity. unfold bind. rewrite dist_same; [reflexivity|]. intros x Hx u. now apply Hf.
    Qed.

    Lemma ag_process_import n i s : ag (process_import r n i) (process_import r' n i) s (fun _ _ => True).
    Proof. unfold process_import, insert_work. ag_all. Qed.
    Lemma ag_process_name n m k i nm s : ag (process_name r n m k i nm) (process_name r' n m k i nm) s (fun _ _ => True).
    Proof. unfold process_name, reexported. ag_all. Qed.
    Lemma ag_process_namelist n m i s : ag (process_namelist r n m i) (process_namelist r' n m i) s (fun _ _ => True).
    Proof. unfold process_namelist. repeat first [apply ag_process_name|ag_easy]. Qed.
    Lemma ag_add_script path s : ag (add_script E r path) (add_script E' r' path) s (fun _ _ => True).
    Proof. unfold add_script. ag_all. Qed.
    Lemma ag_add_module name s : ag (add_module r name) (add_module r' name) s (fun _ _ => True).
    Proof. unfold add_module. ag_all. Qed.
    Lemma ag_add_source text s : ag (add_source E r text) (add_source E' r' text) s (fun _ _ => True).
    Proof. unfold add_source. ag_cbn. repeat first [apply ag_add_module|ag_easy]. Qed.
    Lemma ag_add_distribution d s : ag (add_distribution E r d) (add_distribution E' r' d) s (fun _ _ => True).
    Proof. unfold add_distribution. ag_all. Qed.
    Lemma ag_add_distribution_named d s : ag (add_distribution_named E r d) (add_distribution_named E' r' d) s (fun _ _ => True).
    Proof. unfold add_distribution_named. ag_cbn. repeat first [apply ag_add_distribution|ag_easy]. Qed.
    Lemma ag_import_module n name s : ag (import_module r n name) (import_module r' n name) s (fun _ _ => True).
    Proof. unfold import_module. ag_all. Qed.
    Lemma ag_import_directory id pkg path s : ag (import_directory E r id pkg path) (import_directory E' r' id pkg path) s (fun _ _ => True).
    Proof. unfold import_directory, push_package. ag_all. Qed.
    Lemma ag_import_package n pkg s : ag (import_package E r n pkg) (import_package E' r' n pkg) s (fun _ _ => True).
    Proof.
      unfold import_package. eapply ag_bind; [apply (ag_find_module pkg s (fun o t => o = gfind (s_graph s) pkg /\ t = s)); now split|].
      intros o s1 [-> ->] _ _. eapply ag_bind with (Q := fun id t => named t pkg).
      - apply ag_saved with (Q := fun id t => named t pkg).
        + intros s1 Hg. eapply ag_bind with (Q := fun id t => named t pkg).
          * destruct (gfind (s_graph s) pkg) as [n0|] eqn:Eg.
            -- apply ag_ret. rewrite <- Hg in Eg. eapply gfind_named. exact Eg.
            -- eapply ag_weak; [apply (ag_find _ _ H)|]. intros id t [_ X] _ _. exact X.
          * intros id s2 N2 _ _. eapply ag_bind; [apply (ag_run _ _ H)|]. intros tt3 s3 _ S3 _. apply ag_ret. now apply S3.
        + intros id t t' Hg. intros X. eapply named_graph; [|exact X]. now symmetry.
      - intros id s2 N2 _ _. eapply ag_bind; [apply (ag_add_edge _ _ _ s2 (fun _ t => named t pkg)); intros t S1; now apply S1|].
        intros tt3 s3 N3 _ _. eapply ag_bind; [apply (ag_kind_test _ _ s3 (fun _ t => t = s3)); reflexivity|]. intros p s4 -> _ _.
        destruct (negb p); [now apply ag_ret|]. eapply ag_bind; [apply (ag_find_spec _ s3 (fun _ _ => True)); [exact N3|auto]|].
        intros sp s5 _ _ _. destruct sp as [sp|]; [|apply ag_raise].
        repeat first [apply ag_import_directory|ag_easy].
    Qed.
    Lemma ag_do_action a s : plain_call a = true -> ag (do_action E r a) (do_action E' r' a) s (fun _ _ => True).
    Proof.
      intros Ha. destruct a; try discriminate Ha; cbn [do_action];
        repeat first [apply ag_add_script|apply ag_add_module|apply ag_add_source|apply ag_add_distribution
          |apply ag_add_distribution_named|apply ag_import_module|apply ag_import_package|ag_easy].
    Qed.
    Lemma ag_do_work w s : ag (do_work E r w) (do_work E' r' w) s (fun _ _ => True).
    Proof. destruct w; cbn [do_work]; repeat first [apply ag_process_import|apply ag_process_namelist|apply ag_import_package|ag_easy]. Qed.
    Lemma ag_run_body s : ag (run_body E r) (run_body E' r') s (fun _ _ => True).
    Proof.
      intros U x t Hm. unfold run_body in *. destruct (s_stack s) as [|w rest].
      - injection Hm as <- <-. split; [exact U|]. split; [apply sub_refl|]. intros a Ha. injection Ha as <-. auto.
      - destruct (do_work E r w _) as [[[u|e] s1]|] eqn:Ew; [| |discriminate].
        + destruct (ag_do_work w (log (set_run (set_stack s rest) (w :: s_run s)) (EvPop w)) U _ _ Ew) as [U1 [S1 C]]. destruct (C u eq_refl) as [_ HE].
          destruct (ag_run _ _ H (log (set_run s1 (tl (s_run s1))) (EvDone w)) U1 _ _ Hm) as [U2 [S2 C2]].
          split; [exact U2|]. split; [intros y Hy; apply S2, S1, Hy|]. intros a Ha. destruct (C2 a Ha) as [_ HE2]. split; [exact I|].
          intros HG. rewrite HE; [now apply HE2|]. intros y Hy. apply HG, S2. exact Hy.
        + destruct (ag_do_work w (log (set_run (set_stack s rest) (w :: s_run s)) (EvPop w)) U _ _ Ew) as [U1 [S1 C]]. injection Hm as <- <-. split; [exact U1|]. split; [exact S1|]. intros a Ha. discriminate.
    Qed.
    Lemma ag_post_body n s : ag (post_body E r 0 n) (post_body E' r' 0 n) s (fun _ _ => True).
    Proof.
      intros U x t Hm. destruct U as [U1 U2]. unfold post_body, bind, gets in *. rewrite U1 in *. cbn [nth_error] in *. injection Hm as <- <-.
      split; [now split|]. split; [apply sub_refl|]. intros a Ha. injection Ha as <-. auto.
    Qed.
    Lemma ag_miss_body im name s : unhooked s -> forall x t, miss_body E r 0 im name s = Some (x, t) -> x = ROk None /\ t = s /\ miss_body E' r' 0 im name s = Some (x, t).
    Proof.
      intros [U1 U2] x t Hm. unfold miss_body, bind, gets in *. rewrite U2 in *. cbn [nth_error] in *. injection Hm as <- <-. auto.
    Qed.
  End bodies.

  Lemma calm_nfs n sp s x t : f_nfs (exec E n) sp s = Some (x, t) -> s_graph t = s_graph s /\ s_post t = s_post s /\ s_missing t = s_missing s.
  Proof. intros Hm. destruct (BuilderWhy.envm_nfs_exec E n sp s x t Hm) as [f [c ->]]. auto. Qed.

  (** All functions, if a name that [_load_module] returns for is one of [G]. *)
  Lemma ags_exec n : (forall m, m < n -> forall im name s, (starts_with "." name = false -> above s name) -> unhooked s -> forall x t, load_body E (exec E m) im name s = Some (x, t) ->
      unhooked t /\ sub s t /\ forall id, x = ROk id -> id = name /\ named t name) -> ags (exec E n) (exec E' n).
  Proof.
    induction n as [|n IH]; intros HL.
    - constructor; intros; try apply ag_none. discriminate.
    - assert (Hn : ags (exec E n) (exec E' n)) by (apply IH; intros m Hm; apply HL; lia). constructor; cbn [exec f_find f_load f_nfs f_run f_post f_miss].
      + intros. now apply ag_find_body.
      + intros im name s Ha U x t Hm. destruct (HL n (Nat.lt_succ_diag_r n) im name s Ha U x t Hm) as [U1 [S1 C]].
        split; [exact U1|]. split; [exact S1|]. intros id Hid. destruct (C id Hid) as [-> N]. split; [now split|].
        intros HG. destruct (ag_load_body _ _ Hn im name s (HG _ N) Ha U x t Hm) as [_ [_ C2]]. now apply C2.
      + intros sp s Hk U x t Hm. destruct (calm_nfs (S n) sp s x t Hm) as [H1 [H2 H3]]. destruct U as [U1 U2].
        split; [split; congruence|]. split; [now apply sub_graph|]. intros a ->. split; [exact I|]. intros _. rewrite (nfs_same (f_nfs (exec E n))); [exact Hm|exact Hk].
      + intros. now apply ag_run_body.
      + intros. apply ag_post_body.
      + intros im name s U x t Hm. now apply ag_miss_body with (r := exec E n).
  Qed.
End agree.

(** What [_load_module] does without hooks: the case of one environment. *)
Lemma load_alone E : (forall t f name sp, e_find_spec E t f name = ROk (Some sp) -> direct (sp_loader sp) = true) ->
  forall n im name s, (starts_with "." name = false -> above s name) -> unhooked s -> forall x t, load_body E (exec E n) im name s = Some (x, t) ->
  unhooked t /\ sub s t /\ forall id, x = ROk id -> id = name /\ named t name.
Proof.
  intros HD. assert (HA : agree (fun _ => True) E (e_find_spec E) (e_dist_for_file E)) by (split; auto).
  induction n as [n IH] using lt_wf_ind. intros im name s Ha U x t Hm.
  assert (Hn : ags E (e_dist_for_file E) (fun _ => True) (exec E n) (exec (with_finds E (e_find_spec E) (e_dist_for_file E)) n)) by (apply ags_exec; auto).
  assert (X := ag_load_body E _ _ _ HA HD _ _ Hn im name s I Ha U x t Hm). destruct X as [U1 [S1 C]]. split; [exact U1|]. split; [exact S1|].
  intros id Hid. now destruct (C id Hid).
Qed.

(** A call in the other environment. *)
Lemma other_call E finds dists G a n s ans t : agree G E finds dists -> (forall t f name sp, e_find_spec E t f name = ROk (Some sp) -> direct (sp_loader sp) = true) ->
  plain_call a = true -> unhooked s -> top_call E n a s = Some (ans, t) -> (forall e, ans <> AnsErr e) ->
  unhooked t /\ sub s t /\ ((forall x, named t x -> G x) -> top_call (with_finds E finds dists) n a s = Some (ans, t)).
Proof.
  intros HA HD Ha U Hc He. assert (Hn : ags E dists G (exec E n) (exec (with_finds E finds dists) n)) by (apply ags_exec; [exact HA|exact HD|]; intros; now apply (load_alone E HD m im name)).
  unfold top_call, call, bind, attempt in *. destruct (do_action E (exec E n) a s) as [[[b|e] u]|] eqn:Ed; [| |discriminate].
  - injection Hc as <- <-. destruct (ag_do_action E finds dists G HA _ _ Hn a s Ha U _ _ Ed) as [U1 [S1 C]]. split; [exact U1|]. split; [exact S1|].
    intros HG. destruct (C b eq_refl) as [_ HE]. now rewrite (HE HG).
  - injection Hc as <- _. now destruct (He e).
Qed.
