(** Invariant: work on the import statements of a node is on the stack below that
    of another node only when the first waits for the second (C74). *)
From Verif Require Import SourceSpec BuilderSame.
From Verif Require Export StarSpec.

Definition node_names (s : st) : list string := map n_name (g_nodes (s_graph s)).
Definition more (s s' : st) : Prop := grows s s' /\ exists l, node_names s' = node_names s ++ l.
Lemma more_refl s : more s s.
Proof. split; [apply grows_refl|]. exists []. now rewrite app_nil_r. Qed.
Lemma more_trans a b c : more a b -> more b c -> more a c.
Proof. intros [A [l B]] [C [l' D]]. split; [eapply grows_trans; eassumption|]. exists (l ++ l'). now rewrite D, B, app_assoc. Qed.

(** ** The relations only grow *)

Section mono.
  Variables s s' : st.
  Hypothesis H : more s s'.
  Let G : grows s s' := proj1 H.

  Lemma more_aims n i m : aims_at s n i m -> aims_at s' n i m.
  Proof. intros (b & A & B). exists b. split; [eapply grows_pkg_node; eassumption|exact B]. Qed.
  Lemma more_come n i m : names_come_from s n i m -> names_come_from s' n i m.
  Proof.
    intros (m0 & A & B). exists m0. split; [now apply more_aims|]. destruct B as [B|B]; [now left|right]. eapply grows_kind; eassumption.
  Qed.
  Lemma more_older v u : older s v u -> older s' v u.
  Proof.
    intros (l & l' & A & B & C). destruct (proj2 H) as [k K]. exists l, (l' ++ k). unfold node_names in K. rewrite K, A, app_assoc.
    split; [reflexivity|]. split; [exact B|]. apply in_or_app. now left.
  Qed.
  Lemma more_tool x t : tool_of s x t -> tool_of s' x t.
  Proof. intros (A & b & i & k & f & B). split; [exact A|]. exists b, i, k, f. eapply grows_kind; eassumption. Qed.
  Lemma more_stands x t : stands_for s x t -> stands_for s' x t.
  Proof. intros [A|A]; [left|right]; eapply grows_kind; eassumption. Qed.
  Lemma more_implied x t : implied_by s x t -> implied_by s' x t.
  Proof. intros (refs & A & B). exists refs. split; [eapply grows_log; eassumption|exact B]. Qed.
  Lemma more_brings t x : brings s t x -> brings s' t x.
  Proof.
    intros K. induction K as [|x c K IH C|x r K IH C|x y K IH C|x y K IH C].
    - apply brings_self.
    - eapply brings_package; eassumption.
    - eapply brings_implied; [exact IH|now apply more_implied].
    - eapply brings_alias; [exact IH|now apply more_stands].
    - eapply brings_tool; [exact IH|now apply more_tool].
  Qed.
  Lemma more_looks n i t : looks_for s n i t -> looks_for s' n i t.
  Proof.
    intros [K|(m & nm & A & B)]; [left; now apply more_aims|right]. exists m, nm. split; [now apply more_come|exact B].
  Qed.
  Lemma more_scheduled n i : scheduled s n i -> scheduled s' n i.
  Proof. now apply grows_scheduled. Qed.
  Lemma more_held v u : held_up s v u -> held_up s' v u.
  Proof.
    intros K. destruct K as [v i t u A B C D|n i a b v u A B C D F K|c v u A B C|x r v u A B C D|x y u A B C|x y c u A B C D|x t v A B|c x t v u A B C D F|id nd d a b v u A B C D F K L].
    - eapply hu_import; [eapply more_scheduled|eapply more_looks|eapply more_brings|eapply more_older]; eassumption.
    - exact (hu_names _ n i a b v u (more_scheduled _ _ A) (more_looks _ _ _ B) (more_looks _ _ _ C) (more_brings _ _ D) (more_brings _ _ F) (more_older _ _ K)).
    - eapply hu_package; [|eapply more_brings|eapply more_older]; eassumption.
    - exact (hu_implied _ x r v u (more_implied _ _ A) (more_brings _ _ B) (more_brings _ _ C) (more_older _ _ D)).
    - eapply hu_alias; [eapply more_stands|eapply more_brings|eapply more_older]; eassumption.
    - eapply hu_other; [eapply more_stands| |eapply more_brings|eapply more_older]; eassumption.
    - eapply hu_tool; [eapply more_tool|eapply more_brings]; eassumption.
    - exact (hu_tool_package _ c x t v u A (more_tool _ _ B) (more_brings _ _ C) (more_brings _ _ D) (more_older _ _ F)).
    - apply (gr_nodes _ _ (gw_graph _ _ G)) in A as (nd' & A & S). destruct S as (_ & _ & _ & S & _).
      eapply hu_dist; [exact A|rewrite S; exact B|exact C|exact D|eapply more_brings; eassumption|eapply more_brings; eassumption|eapply more_older; eassumption].
  Qed.
  Lemma more_waits v u : waits s v u -> waits s' v u.
  Proof. intros K. induction K as [|u w K IH C]; [apply waits_self|]. eapply waits_step; [exact IH|now apply more_held]. Qed.
End mono.

Lemma waits_trans s a b c : waits s a b -> waits s b c -> waits s a c.
Proof. intros H K. induction K as [|u w K IH C]; [exact H|]. eapply waits_step; eassumption. Qed.
Lemma waits_one s a b : held_up s a b -> waits s a b.
Proof. intros H. eapply waits_step; [apply waits_self|exact H]. Qed.
Lemma brings_trans s a b c : brings s a b -> brings s b c -> brings s a c.
Proof.
  intros H K. induction K as [|x d K IH C|x r K IH C|x y K IH C|x y K IH C]; [exact H|..].
  - eapply brings_package; eassumption.
  - eapply brings_implied; eassumption.
  - eapply brings_alias; eassumption.
  - eapply brings_tool; eassumption.
Qed.

(** ** Work *)

Definition owner (w : work) : option string :=
  match w with DoImport n _ => Some n | DoNames n _ _ => Some n | DoPost _ => None | DoPackage _ _ => None end.
Definition in_order (s : st) (u v : work) : Prop := forall a b, owner u = Some a -> owner v = Some b -> waits s b a.
Fixpoint sorted (s : st) (l : list work) : Prop :=
  match l with [] => True | u :: r => (forall v, In v r -> in_order s u v) /\ sorted s r end.
Lemma sorted_app s a b : sorted s (a ++ b) <-> sorted s a /\ sorted s b /\ forall u v, In u a -> In v b -> in_order s u v.
Proof.
  induction a as [|x a IH]; cbn [app sorted].
  - split; [intros H; split; [exact Logic.I|]; split; [exact H|intros u v []]|intros (_ & H & _); exact H].
  - rewrite IH. split.
    + intros (A & B & C & D). split; [split; [intros v Hv; apply A, in_or_app; now left|exact B]|]. split; [exact C|].
      intros u v [<-|Hu] Hv; [apply A, in_or_app; now right|now apply D].
    + intros ((A & B) & C & D). split; [|split; [exact B|split; [exact C|intros u v Hu Hv; apply D; [now right|exact Hv]]]].
      intros v Hv. apply in_app_or in Hv as [Hv|Hv]; [now apply A|apply D; [now left|exact Hv]].
Qed.
Lemma sorted_more s s' l : more s s' -> sorted s l -> sorted s' l.
Proof.
  intros H. induction l as [|x l IH]; [auto|]. cbn [sorted]. intros [A B]. split; [|auto].
  intros v Hv a b Ha Hb. eapply more_waits; [exact H|]. now apply (A v).
Qed.

(** A node is added. *)
Definition new (s s' : st) (x : string) : Prop := gfind (s_graph s) x = None /\ in_graph s' x.
Lemma in_names s x : in_graph s x <-> In x (node_names s).
Proof.
  unfold in_graph, node_names, gfind. split.
  - destruct (find _ _) as [n|] eqn:E; [|congruence]. intros _. apply find_some in E as [A B]. apply seqb_eq in B as <-. now apply in_map.
  - intros H K. apply in_map_iff in H as (n & <- & H). pose proof (find_none _ _ K n H) as L. cbn in L. unfold seqb in L. now rewrite String.eqb_refl in L.
Qed.
Lemma new_older s s' v x : more s s' -> in_graph s v -> new s s' x -> older s' v x.
Proof.
  intros [_ [l K]] Hv [A B]. exists (node_names s), l. split; [exact K|]. split; [now apply in_names|].
  apply in_names in B. rewrite K in B. apply in_app_or in B as [B|B]; [|exact B]. apply in_names in B. now elim B.
Qed.

Definition fresh_work (P : string -> Prop) (s s' : st) (w : work) : Prop :=
  (exists x, w = DoPost x) \/ exists x i, w = DoImport x i /\ new s s' x /\ P x /\ scheduled s' x i.

(** What looking for modules does: [P] holds for the new nodes with statements. *)
Record ext (P : string -> Prop) (s s' : st) : Prop := {
  x_more : more s s';
  x_same : forall id n, gfind (s_graph s) id = Some n -> gfind (s_graph s') id = Some n;
  x_missing : s_missing s' = s_missing s;
  x_post : s_post s' = s_post s;
  x_stack : exists l, s_stack s' = l ++ s_stack s /\ sorted s' l /\ (forall w, In w l -> fresh_work P s s' w)
    /\ forall n i, scheduled s' n i -> scheduled s n i \/ In (DoImport n i) l
}.

Lemma new_right s s1 s2 x : more s s1 -> new s1 s2 x -> new s s2 x.
Proof.
  intros H [A B]. split; [|exact B]. destruct (gfind (s_graph s) x) eqn:E; [|reflexivity].
  exfalso. eapply (grows_in_graph s s1); [apply H| |exact A]. unfold in_graph. congruence.
Qed.
Lemma new_left s s1 s2 x : more s1 s2 -> new s s1 x -> new s s2 x.
Proof. intros H [A B]. split; [exact A|]. eapply grows_in_graph; [apply H|exact B]. Qed.
Lemma ext_seq (P1 P2 P : string -> Prop) s s1 s2 : ext P1 s s1 -> ext P2 s1 s2 ->
  (forall x, new s s1 x -> P1 x -> P x) -> (forall x, new s1 s2 x -> P2 x -> P x) ->
  (forall v u, new s s1 v -> P1 v -> new s1 s2 u -> P2 u -> waits s2 v u) -> ext P s s2.
Proof.
  intros [A1 A2 A3 A4 (l1 & A5 & A6 & A7 & A8)] [B1 B2 B3 B4 (l2 & B5 & B6 & B7 & B8)] H1 H2 H3. constructor.
  - eapply more_trans; eassumption.
  - auto.
  - congruence.
  - congruence.
  - exists (l2 ++ l1). split; [rewrite B5, A5; now rewrite app_assoc|]. split; [|split].
    + apply sorted_app. split; [exact B6|]. split; [eapply sorted_more; eassumption|]. intros u v Hu Hv a b Ha Hb.
      destruct (B7 u Hu) as [(x & ->)|(x & i & -> & C1 & C2 & _)]; [discriminate|].
      destruct (A7 v Hv) as [(y & ->)|(y & j & -> & D1 & D2 & _)]; [discriminate|].
      injection Ha as <-. injection Hb as <-. auto.
    + intros w Hw. apply in_app_or in Hw as [Hw|Hw].
      * destruct (B7 w Hw) as [C|(x & i & C0 & C1 & C2 & C3)]; [now left|right]. exists x, i. repeat split; auto; [|apply C1]. eapply (new_right s s1); eassumption.
      * destruct (A7 w Hw) as [C|(x & i & C0 & C1 & C2 & C3)]; [now left|right]. exists x, i. split; [exact C0|]. split; [eapply new_left; eassumption|].
        split; [auto|]. eapply more_scheduled; eassumption.
    + intros n i K. destruct (B8 n i K) as [K1|K1]; [|right; apply in_or_app; now left].
      destruct (A8 n i K1) as [K2|K2]; [now left|right; apply in_or_app; now right].
Qed.
Lemma ext_weak (P P' : string -> Prop) s s' : ext P s s' -> (forall x, new s s' x -> P x -> P' x) -> ext P' s s'.
Proof.
  intros [A1 A2 A3 A4 (l & A5 & A6 & A7 & A8)] H. constructor; auto. exists l. split; [exact A5|]. split; [exact A6|]. split; [|exact A8].
  intros w Hw. destruct (A7 w Hw) as [C|(x & i & C0 & C1 & C2 & C3)]; [now left|right]. exists x, i. auto.
Qed.

(** Nodes and stack stay as they are. *)
Lemma ext_still P s s' : grows s s' -> g_nodes (s_graph s') = g_nodes (s_graph s) -> s_stack s' = s_stack s ->
  s_missing s' = s_missing s -> s_post s' = s_post s -> (forall n l, In (EvSched n l) (s_log s') -> In (EvSched n l) (s_log s)) -> ext P s s'.
Proof.
  intros A B C D F K. constructor; auto.
  - split; [exact A|]. exists []. unfold node_names. now rewrite B, app_nil_r.
  - intros id n. unfold gfind. now rewrite B.
  - exists []. split; [exact C|]. split; [exact Logic.I|]. split; [intros w []|]. intros n i (l & L1 & L2). left. exists l. auto.
Qed.
Lemma ext_refl P s : ext P s s.
Proof. apply ext_still; auto. apply grows_refl. Qed.
Lemma ext_env P s s' : env_only s s' -> ext P s s'.
Proof. intros He. pose proof (env_only_grows _ _ He) as G. destruct He as (f & c & ->). apply ext_still; auto. Qed.
Lemma ext_log P s e : (forall n l, e <> EvSched n l) -> ext P s (log s e).
Proof. intros H. apply ext_still; auto; [apply log_grows|]. intros n l [K|K]; [now elim (H n l)|exact K]. Qed.
Lemma ext_then (P : string -> Prop) s s1 s2 : ext P s s1 -> ext (fun _ => False) s1 s2 -> ext P s s2.
Proof. intros A B. eapply ext_seq; [exact A|exact B|auto|intros x _ []|intros v u _ _ _ []]. Qed.
Lemma ext_after (P : string -> Prop) s s1 s2 : ext (fun _ => False) s s1 -> ext P s1 s2 -> ext P s s2.
Proof. intros A B. eapply ext_seq; [exact A|exact B|intros x _ []|auto|intros v u _ []]. Qed.
Lemma ext_on (P1 P : string -> Prop) s s1 s2 : ext P1 s s1 -> ext (fun _ => False) s1 s2 -> (forall x, P1 x -> P x) -> ext P s s2.
Proof. intros A B H. eapply ext_seq; [exact A|exact B|auto|intros x _ []|intros v u _ _ _ []]. Qed.

(** A new node; its statements are put on the stack later on. *)
Lemma ext_put P s nd l : gfind (s_graph s) (n_name nd) = None -> ext P s (put_node s nd l).
Proof.
  intros Hn. constructor; try reflexivity.
  - split; [apply put_node_grows|]. exists [n_name nd]. unfold node_names, put_node. cbn. now rewrite map_app.
  - intros id n H. rewrite put_node_find, H. reflexivity.
  - exists []. split; [reflexivity|]. split; [exact Logic.I|]. split; [intros w []|].
    intros n i (k & [K|K] & L); [discriminate|]. left. now exists k.
Qed.
Lemma more_schedule n l s : more s (schedule n l s).
Proof. split; [apply schedule_grows|]. exists []. unfold node_names. now rewrite schedule_graph, app_nil_r. Qed.
Lemma schedule_stack n l s : exists p, s_stack (schedule n l s) = rev (map (DoImport n) l) ++ p ++ s_stack s /\ (p = [] \/ p = [DoPost n]).
Proof.
  unfold schedule. cbn [s_seen log]. destruct (memb n (s_seen s)); cbn [s_stack set_stack log set_seen]; [exists []|exists [DoPost n]]; auto.
Qed.
Lemma sorted_own s n (l : list iinfo) : sorted s (rev (map (DoImport n) l)).
Proof.
  rewrite <- map_rev. induction (rev l) as [|i k IH]; [exact Logic.I|]. cbn [map sorted]. split; [|exact IH].
  intros v Hv a b Ha Hb. apply in_map_iff in Hv as (j & <- & _). injection Ha as <-. injection Hb as <-. apply waits_self.
Qed.
Lemma ext_late (P3 P : string -> Prop) s nd l s3 : gfind (s_graph s) (n_name nd) = None -> ext P3 (put_node s nd l) s3 ->
  (forall v, new s s3 v -> P3 v -> P v /\ waits (schedule (n_name nd) l s3) v (n_name nd)) -> (l <> [] -> P (n_name nd)) ->
  ext P s (schedule (n_name nd) l s3).
Proof.
  intros Hn H3 Hv Hx. set (x := n_name nd) in *. set (s4 := schedule x l s3).
  pose proof (ext_put (fun _ => False) s nd l Hn) as H1. pose proof (ext_after _ _ _ _ H1 H3) as H.
  destruct H as [A1 A2 A3 A4 (k & A5 & A6 & A7 & A8)]. pose proof (more_schedule x l s3) as M.
  assert (Nx : new s s4 x).
  { split; [exact Hn|]. eapply grows_in_graph; [apply M|]. eapply grows_in_graph; [apply (x_more _ _ _ H3)|].
    unfold in_graph. rewrite put_node_find. fold x. rewrite Hn. unfold seqb. rewrite String.eqb_refl. discriminate. }
  assert (Hs : forall i, In i l -> scheduled s4 x i).
  { intros i Hi. exists l. split; [|exact Hi]. unfold s4. rewrite schedule_log. now left. }
  destruct (schedule_stack x l s3) as (p & K1 & K2). fold s4 in K1. constructor.
  - eapply more_trans; eassumption.
  - intros id n K. unfold s4. rewrite schedule_graph. auto.
  - unfold s4, schedule. cbn [s_seen log]. destruct (memb x (s_seen s3)); exact A3.
  - unfold s4, schedule. cbn [s_seen log]. destruct (memb x (s_seen s3)); exact A4.
  - exists (rev (map (DoImport x) l) ++ p ++ k). rewrite K1, A5. split; [now rewrite !app_assoc|].
    assert (F : forall w, In w (rev (map (DoImport x) l) ++ p ++ k) -> fresh_work P s s4 w).
    { intros w Hw. apply in_app_or in Hw as [Hw|Hw].
      - apply in_rev, in_map_iff in Hw as (i & <- & Hi). right. exists x, i. repeat split; auto; [apply Nx|]. apply Hx. intros ->. destruct Hi.
      - apply in_app_or in Hw as [Hw|Hw]; [left; exists x; destruct K2 as [-> | ->]; [destruct Hw|destruct Hw as [<-|[]]; reflexivity]|].
        destruct (A7 w Hw) as [C|(y & i & C0 & C1 & C2 & C3)]; [now left|right]. exists y, i. split; [exact C0|].
        split; [eapply new_left; eassumption|]. split; [now apply Hv|]. eapply more_scheduled; eassumption. }
    split; [|split; [exact F|]].
    2:{ intros n i (k' & B1 & B2). unfold s4 in B1. rewrite schedule_log in B1. destruct B1 as [B1|B1].
        - injection B1 as <- <-. right. apply in_or_app. left. apply in_rev. rewrite rev_involutive. now apply in_map.
        - destruct (A8 n i) as [B|B]; [now exists k'|now left|]. right. apply in_or_app. right. apply in_or_app. now right. }
    apply sorted_app. split; [apply sorted_own|]. split.
    + apply sorted_app. split; [destruct K2 as [-> | ->]; cbn; auto; now split|]. split; [eapply sorted_more; eassumption|].
      intros u v Hu Hv' a b Ha Hb. destruct K2 as [-> | ->]; [destruct Hu|]. destruct Hu as [<-|[]]. discriminate.
    + intros u v Hu Hv' a b Ha Hb. apply in_rev, in_map_iff in Hu as (i & <- & Hi). injection Ha as <-.
      apply in_app_or in Hv' as [Hw|Hw]; [destruct K2 as [-> | ->]; [destruct Hw|destruct Hw as [<-|[]]; discriminate]|].
      destruct (A7 v Hw) as [(y & ->)|(y & j & -> & C1 & C2 & C3)]; [discriminate|]. injection Hb as <-. now apply (Hv y).
Qed.
Lemma ext_add (P : string -> Prop) s nd l : gfind (s_graph s) (n_name nd) = None -> P (n_name nd) ->
  ext P s (schedule (n_name nd) l (put_node s nd l)).
Proof. intros Hn Hp. eapply (ext_late (fun _ => False)); [exact Hn|apply ext_refl|intros v _ []|intros _; exact Hp]. Qed.
Lemma ext_bare P s k name : gfind (s_graph s) name = None -> ext P s (schedule name [] (put_node s (plain_node k name) [])).
Proof. intros Hn. exact (ext_late (fun _ => False) P s (plain_node k name) [] _ Hn (ext_refl _ _) (fun v _ (H : False) => match H with end) (fun H => False_ind _ (H eq_refl))). Qed.

(** ** The functions *)

Definition quiet (s : st) : Prop := s_missing s = [] /\ s_post s = [].
Lemma ext_quiet P s s' : ext P s s' -> quiet s -> quiet s'.
Proof. intros H [A B]. split; [rewrite (x_missing _ _ _ H)|rewrite (x_post _ _ _ H)]; assumption. Qed.

(** What is known in [s] of the package of [name] waits for [u]. *)
Definition under (s s' : st) (name u : string) : Prop :=
  forall c v, child_of c name -> brings s c v -> in_graph s v -> waits s' v u.
Definition loaded (s s' : st) (name x : string) : Prop := brings s' name x /\ under s s' name x.
Definition found_new (s s' : st) (name x : string) : Prop :=
  brings s' name x /\ ((forall c, child_of c name -> in_graph s c) -> under s s' name x).
Lemma loaded_mono s0 s s' s2 name x : more s0 s -> more s' s2 -> loaded s s' name x -> loaded s0 s2 name x.
Proof.
  intros M0 M [A B]. split; [eapply more_brings; eassumption|]. intros c v Hc Hb Hi. eapply more_waits; [exact M|].
  apply (B c v Hc); [eapply more_brings; eassumption|eapply grows_in_graph; [apply M0|exact Hi]].
Qed.
(** [name] itself is added. *)
Lemma under_self s s' name : more s s' -> new s s' name -> under s s' name name.
Proof.
  intros M Hn c v Hc Hb Hi. apply waits_one. eapply hu_package; [exact Hc|eapply more_brings; eassumption|eapply new_older; eassumption].
Qed.
Lemma loaded_self s s' name : more s s' -> new s s' name -> loaded s s' name name.
Proof. intros M Hn. split; [apply brings_self|now apply under_self]. Qed.

Lemma ext_edge P s g a b d : gadd_edge (s_graph s) a b d = ROk g -> ext P s (set_graph s g).
Proof.
  intros H. apply gadd_edge_spec in H as (_ & _ & ->). apply ext_still; auto. apply lift_set_grows, grows_add_edge.
Qed.
Lemma awp_edge a b d s (Q : unit -> st -> Prop) : (forall s', ext (fun _ => False) s s' -> Q tt s') -> awp (add_edge a b d) s Q.
Proof.
  intros K x s' L. unfold add_edge, lift_graph in L. destruct (gadd_edge (s_graph s) a b d) as [g|e] eqn:Eg; [|discriminate].
  injection L as <- <-. apply K. eapply ext_edge; exact Eg.
Qed.
Lemma awp_node n l s (Q : unit -> st -> Prop) : (gfind (s_graph s) (n_name n) = None -> Q tt (put_node s n l)) -> awp (add_node n l) s Q.
Proof.
  intros K. unfold add_node. apply awp_bind. intros x s' L. unfold lift_graph in L.
  destruct (gadd_node (s_graph s) n) as [g|e] eqn:Eg; [|discriminate]. injection L as <- <-.
  apply gadd_node_spec in Eg as (Ha & ->). apply awp_modify. now apply K.
Qed.
Lemma put_schedule_in s nd l : gfind (s_graph s) (n_name nd) = None -> in_graph (schedule (n_name nd) l (put_node s nd l)) (n_name nd).
Proof.
  intros Hn. unfold in_graph. rewrite schedule_graph, put_node_find, Hn. unfold seqb. rewrite String.eqb_refl. discriminate.
Qed.
Lemma put_schedule_kind s nd l : gfind (s_graph s) (n_name nd) = None ->
  kind_of (schedule (n_name nd) l (put_node s nd l)) (n_name nd) = Some (n_kind nd).
Proof. intros Hn. rewrite schedule_kind. now apply put_kind. Qed.

(** ** The invariant *)

Definition clear (todo : list work) (m : string) : Prop := forall w, In w todo -> owner w <> Some m.
Definition waiting (todo : list work) (n : string) (i : iinfo) : Prop :=
  In (DoImport n i) todo \/ exists m, In (DoNames n m i) todo.
Definition settled (todo : list work) (s : st) (n : string) (i : iinfo) : Prop :=
  ii_star i = true -> forall m, aims_at s n i m -> ~ waits s m n -> in_graph s m /\ clear todo m /\ takes_over s n m.
Definition work_ok (s : st) (w : work) : Prop :=
  match w with
  | DoPost _ => True
  | DoImport n i => scheduled s n i
  | DoNames n m i => scheduled s n i /\ aims_at s n i m /\ in_graph s m
  | DoPackage _ _ => False
  end.
(** [todo] is the stack, with the item that is being worked on. *)
Record inv (todo : list work) (s : st) : Prop := {
  i_quiet : quiet s;
  i_sorted : sorted s todo;
  i_work : forall w, In w todo -> work_ok s w;
  i_sched : forall n i, scheduled s n i -> in_graph s n /\ (waiting todo n i \/ settled todo s n i)
}.

Lemma aims_back s s' n i m : more s s' -> in_graph s n -> aims_at s' n i m -> aims_at s n i m.
Proof.
  intros [G _] Hn (b & (k & A & B) & C). apply in_kind in Hn as (k0 & K). pose proof (grows_kind _ _ _ _ G K) as K'.
  assert (k0 = k) as -> by congruence. exists b. split; [now exists k|exact C].
Qed.
Lemma aims_one s n i m m' : aims_at s n i m -> aims_at s n i m' -> m = m'.
Proof.
  intros (b & (k & A & B) & C) (b' & (k' & A' & B') & C'). assert (k' = k) as -> by congruence. subst b b'. eapply imports_name_unique; eassumption.
Qed.
Lemma work_more s s' w : more s s' -> work_ok s w -> work_ok s' w.
Proof.
  intros M. destruct w; cbn [work_ok]; auto.
  - now apply more_scheduled.
  - intros (A & B & C). split; [eapply more_scheduled; eassumption|]. split; [eapply more_aims; eassumption|eapply grows_in_graph; [apply M|exact C]].
Qed.
(** [s'] has the same global names for the nodes of [s]. *)
Lemma settled_same todo todo' s s' n i : more s s' -> (forall id x, gfind (s_graph s) id = Some x -> gfind (s_graph s') id = Some x) ->
  in_graph s n -> (forall w m, In w todo' -> owner w = Some m -> in_graph s m -> exists w', In w' todo /\ owner w' = Some m) ->
  settled todo s n i -> settled todo' s' n i.
Proof.
  intros M Hg Hn Ht H Hs m Ha Hw. destruct (H Hs m) as (A & B & C).
  - eapply aims_back; eassumption.
  - intros K. apply Hw. eapply more_waits; eassumption.
  - split; [eapply grows_in_graph; [apply M|exact A]|]. split.
    + intros w K L. destruct (Ht w m K L A) as (w' & K1 & K2). now apply (B w').
    + intros x y Kx Ky. unfold in_graph in Hn, A. destruct (gfind (s_graph s) n) as [x0|] eqn:E1; [|congruence]. destruct (gfind (s_graph s) m) as [y0|] eqn:E2; [|congruence].
      rewrite (Hg _ _ E1) in Kx. rewrite (Hg _ _ E2) in Ky. injection Kx as <-. injection Ky as <-. now apply C.
Qed.
Lemma inv_ext todo P s s' : inv todo s -> ext P s s' ->
  (forall w v u, In w todo -> owner w = Some v -> new s s' u -> P u -> waits s' v u) ->
  exists l, s_stack s' = l ++ s_stack s /\ inv (l ++ todo) s'.
Proof.
  intros [A B C D] H K. pose proof (ext_quiet _ _ _ H A) as A'. destruct H as [X1 X2 X3 X4 (l & X5 & X6 & X7 & X8)].
  exists l. split; [exact X5|]. constructor.
  - exact A'.
  - apply sorted_app. split; [exact X6|]. split; [eapply sorted_more; eassumption|]. intros u v Hu Hv a b Ha Hb.
    destruct (X7 u Hu) as [(x & ->)|(x & i & -> & C1 & C2 & _)]; [discriminate|]. injection Ha as <-. eapply K; eassumption.
  - intros w Hw. apply in_app_or in Hw as [Hw|Hw]; [|eapply work_more; [exact X1|auto]].
    destruct (X7 w Hw) as [(x & ->)|(x & i & -> & _ & _ & C3)]; [exact Logic.I|exact C3].
  - intros n i Hs.
    assert (Hold : scheduled s n i -> in_graph s' n /\ (waiting (l ++ todo) n i \/ settled (l ++ todo) s' n i)).
    { intros Ho. destruct (D n i Ho) as [D1 D2]. split; [eapply grows_in_graph; [apply X1|exact D1]|].
      destruct D2 as [D2|D2].
      - left. destruct D2 as [D2|(m & D2)]; [left|right; exists m]; apply in_or_app; now right.
      - right. eapply (settled_same todo); [exact X1|exact X2|exact D1| |exact D2]. intros w m Hw Ho' Hm. apply in_app_or in Hw as [Hw|Hw]; [|eauto].
        destruct (X7 w Hw) as [(x & ->)|(x & j & -> & [C1 _] & _)]; [discriminate|]. injection Ho' as <-. now elim Hm. }
    destruct (X8 n i Hs) as [Ho|Ho]; [auto|]. split; [|left; left; apply in_or_app; now left].
    destruct (X7 _ Ho) as [(x & K1)|(x & j & K1 & [_ C1] & _)]; [discriminate|]. now injection K1 as -> _.
Qed.
(** Changes apart from nodes and statements; the stack is not looked at. *)
Lemma inv_move todo s s' : grows s s' -> g_nodes (s_graph s') = g_nodes (s_graph s) -> s_missing s' = s_missing s -> s_post s' = s_post s ->
  (forall n l, In (EvSched n l) (s_log s') -> In (EvSched n l) (s_log s)) -> inv todo s -> inv todo s'.
Proof.
  intros G N H1 H2 H3 [A B C D]. assert (M : more s s') by (split; [exact G|]; exists []; unfold node_names; now rewrite N, app_nil_r).
  constructor.
  - destruct A as [A1 A2]. split; congruence.
  - eapply sorted_more; eassumption.
  - intros w Hw. eapply work_more; [exact M|auto].
  - intros n i (l & L1 & L2). destruct (D n i) as [D1 D2]; [exists l; auto|]. split; [eapply grows_in_graph; eassumption|].
    destruct D2 as [D2|D2]; [now left|right]. eapply (settled_same todo); [exact M| |exact D1| |exact D2]; [|eauto].
    intros id x. unfold gfind. now rewrite N.
Qed.
(** The item that is being worked on is done. *)
Lemma inv_drop a w b s : inv (a ++ w :: b) s ->
  (forall n i, w = DoImport n i \/ (exists m, w = DoNames n m i) -> settled (a ++ b) s n i) -> inv (a ++ b) s.
Proof.
  intros [A B C D] H. assert (Sub : forall x, In x (a ++ b) -> In x (a ++ w :: b)).
  { intros x Hx. apply in_app_or in Hx as [Hx|Hx]; apply in_or_app; [now left|right; now right]. }
  constructor; [exact A| |auto|].
  - apply sorted_app in B as (B1 & [_ B2] & B3). apply sorted_app. split; [exact B1|]. split; [exact B2|]. intros u v Hu Hv. apply B3; [exact Hu|now right].
  - intros n i Hs. destruct (D n i Hs) as [D1 D2]. split; [exact D1|].
    assert (Split : forall x, In x (a ++ w :: b) -> x = w \/ In x (a ++ b)).
    { intros x Hx. apply in_app_or in Hx as [Hx|[Hx|Hx]]; [right; apply in_or_app; now left|now left|right; apply in_or_app; now right]. }
    destruct D2 as [[D2|(m & D2)]|D2].
    + apply Split in D2 as [<-|D2]; [right; apply H; now left|left; now left].
    + apply Split in D2 as [<-|D2]; [right; apply H; right; now exists m|left; right; now exists m].
    + right. eapply (settled_same (a ++ w :: b)); [apply more_refl|auto|exact D1| |exact D2]. eauto.
Qed.
Lemma inv_names a n i m b s : inv (a ++ DoImport n i :: b) s -> aims_at s n i m -> in_graph s m -> inv (a ++ DoNames n m i :: b) s.
Proof.
  intros [A B C D] Ha Hm.
  assert (Sub : forall x, In x (a ++ DoImport n i :: b) -> x = DoImport n i \/ In x (a ++ DoNames n m i :: b)).
  { intros x Hx. apply in_app_or in Hx as [Hx|[Hx|Hx]]; [right; apply in_or_app; now left|now left|right; apply in_or_app; right; now right]. }
  assert (Sup : forall x, In x (a ++ DoNames n m i :: b) -> x = DoNames n m i \/ In x (a ++ DoImport n i :: b)).
  { intros x Hx. apply in_app_or in Hx as [Hx|[Hx|Hx]]; [right; apply in_or_app; now left|now left|right; apply in_or_app; right; now right]. }
  assert (Here : In (DoImport n i) (a ++ DoImport n i :: b)) by (apply in_or_app; right; now left).
  assert (There : In (DoNames n m i) (a ++ DoNames n m i :: b)) by (apply in_or_app; right; now left).
  constructor; [exact A|..].
  - apply sorted_app in B as (B1 & [B0 B2] & B3). apply sorted_app. split; [exact B1|]. split; [split; [|exact B2]|].
    + intros v Hv x y Hx Hy. injection Hx as <-. exact (B0 v Hv n y eq_refl Hy).
    + intros u v Hu [<-|Hv] x y Hx Hy; [|exact (B3 u v Hu (or_intror Hv) x y Hx Hy)]. injection Hy as <-. exact (B3 u _ Hu (or_introl eq_refl) x n Hx eq_refl).
  - intros w Hw. destruct (Sup w Hw) as [->|K]; [|auto]. split; [exact (C _ Here)|auto].
  - intros n' i' Hs. destruct (D n' i' Hs) as [D1 D2]. split; [exact D1|]. destruct D2 as [[D2|(m' & D2)]|D2].
    + apply Sub in D2 as [D2|D2]; [injection D2 as -> ->; left; right; now exists m|left; now left].
    + apply Sub in D2 as [D2|D2]; [discriminate|left; right; now exists m'].
    + right. eapply (settled_same (a ++ DoImport n i :: b)); [apply more_refl|auto|exact D1| |exact D2]. intros w x Hw Ho _.
      destruct (Sup w Hw) as [->|K]; [|eauto]. injection Ho as <-. exists (DoImport n i). auto.
Qed.
(** Names are added to a node whose work is not done. *)
Lemma inv_written todo s n names : inv todo s -> ~ clear todo n -> inv todo (set_graph s (gadd_written (s_graph s) n names)).
Proof.
  intros [A B C D] Hn. set (s' := set_graph _ _). assert (G : grows s s') by (apply lift_set_grows, grows_written).
  assert (M : more s s').
  { split; [exact G|]. exists []. rewrite app_nil_r. unfold node_names, s', gadd_written. cbn. rewrite map_map. apply map_ext. intros x. apply upd_written_name. }
  constructor.
  - exact A.
  - eapply sorted_more; eassumption.
  - intros w Hw. eapply work_more; [exact M|auto].
  - intros n' i' Hs. destruct (D n' i' Hs) as [D1 D2]. split; [eapply grows_in_graph; eassumption|].
    destruct D2 as [D2|D2]; [now left|right]. intros Hst m Ha Hw. destruct (D2 Hst m) as (K1 & K2 & K3).
    + eapply aims_back; eassumption.
    + intros K. apply Hw. eapply more_waits; eassumption.
    + split; [eapply grows_in_graph; eassumption|]. split; [exact K2|]. intros x y Hx Hy Hk.
      assert (Hm : m <> n) by congruence. unfold s' in Hx, Hy. cbn [s_graph set_graph] in Hx, Hy. rewrite gfind_written in Hx, Hy.
      destruct (gfind (s_graph s) n') as [x0|] eqn:E1; [|discriminate]. destruct (gfind (s_graph s) m) as [y0|] eqn:E2; [|discriminate].
      injection Hx as <-. injection Hy as <-. pose proof (gfind_name _ _ _ E2) as N2.
      assert (Ey : upd_written n names y0 = y0).
      { unfold upd_written. destruct (seqb (n_name y0) n) eqn:Es; [|reflexivity]. apply seqb_eq in Es. congruence. }
      rewrite Ey in *. intros z Hz. destruct (upd_written_same n names x0) as (_ & _ & _ & _ & _ & _ & _ & K). apply K. now apply (K3 x0 y0).
Qed.

Section star.
  Variable E : env.

  Section step.
    Variable n : nat.
    Let r := exec E n.
    Hypothesis IHthere : forall im name link s, in_graph s name -> awp (f_find r im name link) s (fun id s' => id = name /\ s' = s).
    Hypothesis IHfind : forall im name link s, quiet s -> awp (f_find r im name link) s
      (fun id s' => id = name /\ in_graph s' name /\ ext (found_new s s' name) s s').
    Hypothesis IHload : forall im name s, quiet s -> awp (f_load r im name) s
      (fun id s' => id = name /\ in_graph s' name /\ ext (loaded s s' name) s s').
    Hypothesis IHmiss : forall i im name s res s', s_missing s = [] -> f_miss r i im name s = Some (res, s') -> res = ROk None /\ s' = s.

    Lemma awp_find im name link s (Q : string -> st -> Prop) : quiet s ->
      (forall s', in_graph s' name -> ext (found_new s s' name) s s' -> Q name s') -> awp (f_find r im name link) s Q.
    Proof. intros Hq H. eapply awp_conseq; [apply (IHfind _ _ _ _ Hq)|]. cbv beta. intros id s' (-> & A & B). auto. Qed.

    (** A node without statements. *)
    Lemma awp_bare {A} k name s (rest : M A) Q :
      (forall s', ext (fun x => x = name) s s' -> new s s' name -> kind_of s' name = Some k -> awp rest s' Q) ->
      awp (do add_node (plain_node k name) [] ;; do process_import_list name [] ;; rest) s Q.
    Proof.
      intros H. apply awp_bind, awp_node. cbn [plain_node n_name]. intros Hn. apply awp_bind, awp_modify.
      apply H; [exact (ext_add (fun x => x = name) s (plain_node k name) [] Hn eq_refl)| |].
      - split; [exact Hn|]. exact (put_schedule_in s (plain_node k name) [] Hn).
      - exact (put_schedule_kind s (plain_node k name) [] Hn).
    Qed.
    Lemma ext_name s s' name : ext (fun x => x = name) s s' -> ext (loaded s s' name) s s'.
    Proof.
      intros H. apply (ext_weak _ _ _ _ H). intros x Hx ->. apply loaded_self; [apply (x_more _ _ _ H)|exact Hx].
    Qed.
    Lemma awp_missing im name s : quiet s -> awp (create_missing r im name) s
      (fun id s' => id = name /\ in_graph s' name /\ ext (loaded s s' name) s s').
    Proof.
      intros Hq. unfold create_missing. apply awp_bind. intros ans s1 H1.
      destruct (IHmiss _ _ _ _ _ _ (proj1 Hq) H1) as [Ha ->]. injection Ha as ->. apply awp_bare. intros s' H Hn _.
      apply awp_ret. split; [reflexivity|]. split; [apply Hn|now apply ext_name].
    Qed.
    Lemma missing_ok im name s e s' : quiet s -> gfind (s_graph s) name = None -> create_missing r im name s <> Some (RErr e, s').
    Proof.
      intros Hq Hn H. unfold create_missing, bind in H. destruct (f_miss r 0 im name s) as [[res s1]|] eqn:E1; [|discriminate].
      destruct (IHmiss _ _ _ _ _ _ (proj1 Hq) E1) as [-> ->].
      unfold add_node, bind, lift_graph, gadd_node, ghas in H. cbn [plain_node n_name] in H. rewrite Hn in H. discriminate.
    Qed.
    Lemma load_env s s1 s' name : env_only s s1 -> ext (loaded s1 s' name) s1 s' -> ext (loaded s s' name) s s'.
    Proof.
      intros He H. pose proof (ext_env (fun _ => False) _ _ He) as H1. apply (ext_after _ _ s1); [exact H1|].
      apply (ext_weak _ _ _ _ H). intros x _ K. eapply loaded_mono; [apply H1|apply more_refl|exact K].
    Qed.

    Lemma awp_failed im name s e : quiet s -> awp (load_failed E r im name e) s
      (fun id s' => id = name /\ in_graph s' name /\ ext (loaded s s' name) s s').
    Proof.
      intros Hq. unfold load_failed. destruct (negb (is_exception e)); [apply awp_raise|].
      assert (K : awp (let parent := fst (rpartition dot name) in
        b <- in_sysmod E parent ;; do assert (negb b) ;; m <- find_spec E parent ;;
        match m with
        | None => raise EAssert
        | Some sp =>
            do assert (sp_inspect sp) ;; p <- of_result (sp_ispkg sp) ;;
            if p : bool then
              match sp_origin sp with
              | None => raise EAssert
              | Some path =>
                  do assert (starts_with "__init__." (snd (rpartition slash path))) ;;
                  do modify (fun s => set_fakes s (set_add parent (s_fakes s))) ;; f_load r im name
              end
            else create_missing r im name
        end) s (fun id s' => id = name /\ in_graph s' name /\ ext (loaded s s' name) s s')).
      { cbv zeta. apply awp_bind, awp_env; [apply envm_in_sysmod|]. intros b s1 _ H1.
        apply awp_bind, awp_assert. intros _. apply awp_bind, awp_env; [apply envm_find_spec|]. intros m s2 _ H2.
        pose proof (env_only_trans _ _ _ H1 H2) as H02. assert (Hq2 : quiet s2) by (eapply ext_quiet; [apply (ext_env (fun _ => False)); exact H02|exact Hq]).
        destruct m as [sp|]; [|apply awp_raise]. apply awp_bind, awp_assert. intros _. apply awp_bind, awp_of_result. intros p _.
        destruct p.
        - destruct (sp_origin sp) as [path|]; [|apply awp_raise]. apply awp_bind, awp_assert. intros _.
          apply awp_bind, awp_env; [apply envm_set_fakes|]. intros u s3 _ H3. pose proof (env_only_trans _ _ _ H02 H3) as H03.
          assert (Hq3 : quiet s3) by (eapply ext_quiet; [apply (ext_env (fun _ => False)); exact H03|exact Hq]).
          eapply awp_conseq; [apply (IHload _ _ _ Hq3)|]. cbv beta. intros id s' (-> & A & B). do 2 (split; [auto|]). eapply load_env; eassumption.
        - eapply awp_conseq; [apply (awp_missing _ _ _ Hq2)|]. cbv beta. intros id s' (-> & A & B). do 2 (split; [auto|]). eapply load_env; eassumption. }
      destruct e as [| | | | | | | | | |b| | | |]; try exact K. destruct b; [exact K|]. now apply awp_missing.
    Qed.

    (** The node is an alias of one of another name. *)
    Lemma other_loaded s sA s' name y x : more s sA -> more sA s' -> new s sA name -> stands_for sA name y ->
      brings s' y x -> new sA s' x -> loaded s s' name x.
    Proof.
      intros M1 M2 Hn Hs Hb Hx. pose proof (more_trans _ _ _ M1 M2) as M. pose proof (more_stands _ _ M2 _ _ Hs) as Hs'.
      split; [eapply brings_trans; [eapply brings_alias; [apply brings_self|exact Hs']|exact Hb]|].
      intros c v Hc Hv Hi. eapply waits_step; [exact (under_self s s' name M (new_left _ _ _ _ M2 Hn) c v Hc Hv Hi)|].
      eapply hu_alias; [exact Hs'|exact Hb|]. eapply new_older; [exact M2|apply Hn|exact Hx].
    Qed.
    Lemma name_waits sA s' name y x : more sA s' -> in_graph sA name -> stands_for sA name y -> brings s' y x -> new sA s' x -> waits s' name x.
    Proof.
      intros M Hn Hs Hb Hx. apply waits_one. eapply hu_alias; [eapply more_stands; eassumption|exact Hb|]. eapply new_older; eassumption.
    Qed.

    Lemma awp_spec name sp s : quiet s -> awp (load_spec r name sp) s
      (fun id s' => id = name /\ in_graph s' name /\ ext (loaded s s' name) s s').
    Proof.
      intros Hq. unfold load_spec. apply awp_bind, awp_env; [apply envm_nfs_exec|]. intros [nd l] s1 _ He.
      assert (Hq1 : quiet s1) by (eapply ext_quiet; [apply (ext_env (fun _ => False)); exact He|exact Hq]).
      apply awp_conseq with (Q := fun id s' => id = name /\ in_graph s' name /\ ext (loaded s1 s' name) s1 s').
      2:{ intros id s' (-> & A & B). do 2 (split; [auto|]). eapply load_env; eassumption. }
      clear s Hq He. destruct (negb (seqb (n_name nd) name)) eqn:En.
      - apply awp_bare. intros sA HA NA KA. apply awp_bind, awp_get, awp_bind. set (y := n_name nd) in *.
        assert (SA : stands_for sA name y) by now left. pose proof (x_more _ _ _ HA) as MA.
        eapply awp_conseq with (Q := fun _ s' => ext (fun x => brings s' y x) sA s').
        + destruct (gfind (s_graph sA) y) as [o|] eqn:Ey; [apply awp_ret; apply ext_refl|].
          apply awp_bind, awp_node. fold y. intros _. apply awp_bind, awp_modify. fold y.
          pose proof (ext_add (fun x => x = y) sA nd l Ey eq_refl) as HB. fold y in HB. set (sB := schedule y l (put_node sA nd l)) in *.
          assert (NB : in_graph sB y) by (apply (put_schedule_in sA nd l Ey)). pose proof (x_more _ _ _ HB) as MB.
          apply awp_bind, awp_of_result. intros [po z] Hs. cbn [fst]. destruct po as [c|].
          2:{ apply awp_ret. apply (ext_weak _ _ _ _ HB). intros x _ ->. apply brings_self. }
          apply split_child_of in Hs. apply awp_bind, awp_find; [eapply ext_quiet; [exact HB|]; eapply ext_quiet; eassumption|].
          intros sC IC HC. pose proof (x_more _ _ _ HC) as MC. apply awp_edge. intros s' H'. pose proof (x_more _ _ _ H') as M'.
          assert (B' : forall x, brings sC c x -> brings s' y x).
          { intros x Hx. eapply brings_trans; [eapply brings_package; [apply brings_self|exact Hs]|]. eapply more_brings; eassumption. }
          apply (ext_on (fun x => x = y \/ brings sC c x) _ _ sC); [|exact H'|].
          * eapply ext_seq; [exact HB|exact HC|auto| |].
            -- intros x _ [K _]. now right.
            -- intros v u Nv -> Nu [K _]. apply waits_one. eapply hu_other; [|exact Hs|exact K|].
               ++ eapply more_stands; [|exact SA]. eapply more_trans; eassumption.
               ++ eapply new_older; [exact MC|exact NB|exact Nu].
          * intros x [->|K]; [apply brings_self|auto].
        + cbv beta. intros _ sC HC. apply awp_bind, awp_edge. intros s' H'. apply awp_ret. pose proof (x_more _ _ _ HC) as MC. pose proof (x_more _ _ _ H') as M'.
          split; [reflexivity|]. split; [eapply grows_in_graph; [apply M'|]; eapply grows_in_graph; [apply MC|apply NA]|].
          apply (ext_on (loaded s1 sC name) _ _ sC); [|exact H'|].
          * eapply ext_seq; [exact HA|exact HC|..].
            -- intros x Nx ->. eapply loaded_self; [eapply more_trans; eassumption|]. eapply new_left; eassumption.
            -- intros x Nx K. eapply other_loaded; eassumption.
            -- intros v u Nv -> Nu K. eapply name_waits; [exact MC|apply NA|exact SA|exact K|exact Nu].
          * intros x K. eapply loaded_mono; [apply more_refl|exact M'|exact K].
      - apply negb_false_iff, seqb_eq in En. subst name. set (name := n_name nd) in *. apply awp_bind, awp_node. fold name. intros Hn.
        pose proof (put_kind s1 nd l Hn) as K2. fold name in K2. set (s2 := put_node s1 nd l) in *.
        pose proof (ext_put (fun _ => False) s1 nd l Hn) as H2. fold s2 in H2. pose proof (x_more _ _ _ H2) as M2.
        apply awp_bind. eapply awp_conseq with (Q := fun _ s3 => ext (fun x => exists t, tool_of s3 name t /\ brings s3 t x) s2 s3).
        + assert (K : forall P, awp (ret tt) s2 (fun _ s' => ext (P s') s2 s')) by (intros P; apply awp_ret; apply ext_refl).
          destruct (n_kind nd) as [|mk| |b i k f [t|]| | | | | |] eqn:Ek; try apply K.
          destruct (memb t ["pkgutil"; "pkg_resources"]) eqn:Em; [|apply K].
          assert (Ht : t = "pkgutil"%string \/ t = "pkg_resources"%string) by (apply memb_In in Em as [<-|[<-|[]]]; auto).
          apply awp_bind, awp_find; [eapply ext_quiet; eassumption|]. intros s3 I3 H3. apply awp_edge. intros s4 H4.
          apply (ext_on _ _ _ s3 s4 H3 H4). intros x [B _]. exists t. split; [|eapply more_brings; [apply H4|exact B]].
          split; [exact Ht|]. exists b, i, k, f. eapply grows_kind; [apply (x_more _ _ _ H4)|]. eapply grows_kind; [apply (x_more _ _ _ H3)|exact K2].
        + cbv beta. intros _ s3 H3. apply awp_bind, awp_modify, awp_ret. split; [reflexivity|].
          pose proof (x_more _ _ _ H3) as M3. pose proof (more_schedule name l s3) as M4. pose proof (more_trans _ _ _ M3 M4) as M24.
          pose proof (more_trans _ _ _ M2 M24) as M.
          assert (Nn : new s1 (schedule name l s3) name).
          { split; [exact Hn|]. apply in_kind. exists (n_kind nd). eapply grows_kind; [apply M24|exact K2]. }
          split; [apply Nn|]. apply (ext_late (fun x => exists t, tool_of s3 name t /\ brings s3 t x)); [exact Hn|exact H3| |].
          * fold name. intros v Nv (t & T1 & T2). pose proof (more_tool _ _ M4 _ _ T1) as T1'. pose proof (more_brings _ _ M4 _ _ T2) as T2'.
            split; [|apply waits_one; eapply hu_tool; eassumption]. split; [eapply brings_trans; [eapply brings_tool; [apply brings_self|exact T1']|exact T2']|].
            intros c w Hc Hw Hi. apply waits_one. eapply hu_tool_package; [exact Hc|exact T1'|eapply more_brings; eassumption|exact T2'|].
            eapply new_older; [exact M|exact Hi|]. exact (new_left _ _ _ _ M4 Nv).
          * fold name. intros _. now apply loaded_self.
    Qed.

    Lemma awp_load im name s : quiet s -> awp (load_body E r im name) s
      (fun id s' => id = name /\ in_graph s' name /\ ext (loaded s s' name) s s').
    Proof.
      intros Hq. unfold load_body. apply awp_bind, awp_assert. intros _. apply awp_bind, awp_get.
      destruct (gfind (s_graph s) name) as [nd|] eqn:Hn.
      { apply awp_ret. split; [reflexivity|]. split; [unfold in_graph; congruence|apply ext_refl]. }
      apply awp_bind, awp_env; [apply envm_attempt, envm_spec_or_none|]. intros r0 s1 _ He.
      assert (Hq1 : quiet s1) by (eapply ext_quiet; [apply (ext_env (fun _ => False)); exact He|exact Hq]).
      assert (Hn1 : gfind (s_graph s1) name = None) by (destruct He as (f & c & ->); exact Hn).
      apply awp_conseq with (Q := fun id s' => id = name /\ in_graph s' name /\ ext (loaded s1 s' name) s1 s').
      2:{ intros id s' (-> & A & B). do 2 (split; [auto|]). eapply load_env; eassumption. }
      destruct r0 as [[sp|]|e]; [now apply awp_spec| |now apply awp_failed].
      apply awp_bind. intros r1 s2 H2. unfold attempt in H2.
      destruct (create_missing r im name s1) as [[[id|e] s3]|] eqn:Ec; [| |discriminate].
      - injection H2 as <- <-. apply awp_ret. exact (awp_missing im name s1 Hq1 _ _ Ec).
      - now elim (missing_ok im name s1 e s3 Hq1 Hn1).
    Qed.

    Lemma ext_popped P s name i : ext P s (popped s name i).
    Proof. apply ext_still; auto; [apply popped_grows|]. intros x l [K|K]; [discriminate|exact K]. Qed.
    Lemma awp_implied_node s name k t : quiet s -> k = AliasNode t \/ k = VirtualNode t ->
      awp (implied_node r k name t) s (fun o s' => o = Some name /\ in_graph s' name /\ ext (loaded s s' name) s s').
    Proof.
      intros Hq Ht. unfold implied_node. apply awp_bind, awp_get, awp_bind, awp_assert. intros _.
      apply awp_bare. intros sA HA NA KA. pose proof (x_more _ _ _ HA) as MA.
      assert (SA : stands_for sA name t) by (unfold stands_for; rewrite KA; destruct Ht as [-> | ->]; auto).
      apply awp_bind, awp_find; [eapply ext_quiet; eassumption|]. intros sB IB HB. pose proof (x_more _ _ _ HB) as MB.
      apply awp_bind, awp_edge. intros s' H'. apply awp_ret. pose proof (x_more _ _ _ H') as M'. split; [reflexivity|].
      split; [eapply grows_in_graph; [apply M'|]; eapply grows_in_graph; [apply MB|apply NA]|].
      apply (ext_on (loaded s sB name) _ _ sB); [|exact H'|].
      - eapply ext_seq; [exact HA|exact HB|..].
        + intros x Nx ->. eapply loaded_self; [eapply more_trans; eassumption|]. eapply new_left; eassumption.
        + intros x Nx [K _]. eapply other_loaded; eassumption.
        + intros v u Nv -> Nu [K _]. eapply name_waits; [exact MB|apply NA|exact SA|exact K|exact Nu].
      - intros x K. eapply loaded_mono; [apply more_refl|exact M'|exact K].
    Qed.
    Lemma awp_refs s name refs l : forall s1, incl l refs -> quiet s1 -> In (EvImplied name (ImpRefs refs)) (s_log s1) ->
      ext (loaded s s1 name) s s1 ->
      awp (iter (fun ref => other <- f_find r (Some name) ref true ;; add_edge name other default_dep) l) s1
        (fun _ s' => ext (loaded s s' name) s s' /\ grows s1 s').
    Proof.
      induction l as [|b l IHl]; intros s1 Hl Hq Hev H1; [apply awp_ret; split; [exact H1|apply grows_refl]|].
      cbn [iter]. apply awp_bind, awp_bind, awp_find; [exact Hq|]. intros s2 I2 H2. apply awp_edge. intros s3 H3.
      pose proof (x_more _ _ _ H1) as M1. pose proof (x_more _ _ _ H2) as M2. pose proof (x_more _ _ _ H3) as M3.
      assert (Im : implied_by s2 name b) by (exists refs; split; [eapply grows_log; [apply M2|exact Hev]|apply Hl; now left]).
      pose proof (ext_quiet _ _ _ H2 Hq) as Hq2. pose proof (ext_quiet _ _ _ H3 Hq2) as Hq3.
      eapply awp_conseq; [apply (IHl s3)|].
      - intros x Hx. apply Hl. now right.
      - exact Hq3.
      - eapply grows_log; [apply M3|]. eapply grows_log; [apply M2|exact Hev].
      - apply (ext_on (loaded s s2 name) _ _ s2); [|exact H3|intros x K; eapply loaded_mono; [apply more_refl|exact M3|exact K]].
        eapply ext_seq; [exact H1|exact H2|..].
        + intros x _ K. eapply loaded_mono; [apply more_refl|exact M2|exact K].
        + intros x Nx [K _]. split; [eapply brings_trans; [eapply brings_implied; [apply brings_self|exact Im]|exact K]|].
          intros c v Hc Hv Hi. apply waits_one. eapply (hu_implied s2 name b); [exact Im| |exact K|].
          * eapply brings_trans; [eapply brings_package; [apply brings_self|exact Hc]|]. eapply more_brings; [|exact Hv]. eapply more_trans; eassumption.
          * eapply new_older; [exact M2| |exact Nx]. eapply grows_in_graph; [apply M1|exact Hi].
        + intros v u Nv [Kv _] Nu [Ku _]. apply waits_one. eapply (hu_implied s2 name b); [exact Im|eapply more_brings; eassumption|exact Ku|].
          eapply new_older; [exact M2|apply Nv|exact Nu].
      - cbv beta. intros _ s4 [H4 G4]. split; [exact H4|]. eapply grows_trans; [apply M2|]. eapply grows_trans; [apply M3|exact G4].
    Qed.
    Lemma awp_implied im name s : quiet s -> (forall c, child_of c name -> in_graph s c) ->
      awp (implied_references r im name) s (fun o s' =>
        (o = None /\ s' = s) \/ (o = Some name /\ in_graph s' name /\ ext (loaded s s' name) s s')).
    Proof.
      intros Hq Hc. unfold implied_references. apply awp_bind, awp_get. destruct (gfind (s_graph s) name) as [nd|] eqn:Hn.
      { apply awp_ret. now left. }
      apply awp_bind. intros i0 s1 H1. unfold pop_lazy in H1. destruct (assoc name (s_lazy s)) as [i|] eqn:Hi; injection H1 as <- <-.
      2:{ apply awp_ret. now left. }
      change (log (set_lazy s (filter (fun x => negb (seqb (fst x) name)) (s_lazy s))) (EvImplied name i)) with (popped s name i).
      pose proof (ext_popped (fun _ => False) s name i) as HP. pose proof (x_more _ _ _ HP) as MP. pose proof (ext_quiet _ _ _ HP Hq) as HqP.
      assert (Back : forall s', ext (loaded (popped s name i) s' name) (popped s name i) s' -> ext (loaded s s' name) s s').
      { intros s' H. eapply ext_after; [exact HP|]. apply (ext_weak _ _ _ _ H). intros x _ K. eapply loaded_mono; [exact MP|apply more_refl|exact K]. }
      destruct i as [|t|t|refs].
      - apply awp_bare. intros s' H' N' _. apply awp_ret. right. split; [reflexivity|]. split; [apply N'|]. now apply Back, ext_name.
      - eapply awp_conseq; [apply (awp_implied_node _ name _ t HqP); auto|]. cbv beta. intros o s' (-> & A & B). right. auto.
      - eapply awp_conseq; [apply (awp_implied_node _ name _ t HqP); auto|]. cbv beta. intros o s' (-> & A & B). right. auto.
      - apply awp_bind, awp_find; [exact HqP|]. intros s2 I2 H2. pose proof (x_more _ _ _ H2) as M2.
        assert (H02 : ext (loaded s s2 name) s s2).
        { apply Back. apply (ext_weak _ _ _ _ H2). intros x _ [K1 K2]. split; [exact K1|]. apply K2. intros c Kc.
          eapply grows_in_graph; [apply MP|auto]. }
        apply awp_bind. eapply awp_conseq; [apply (awp_refs s name refs refs s2 (incl_refl _))|].
        + eapply ext_quiet; eassumption.
        + eapply grows_log; [apply M2|now left].
        + exact H02.
        + cbv beta. intros _ s3 [H3 G3]. apply awp_ret. right. split; [reflexivity|]. split; [eapply grows_in_graph; [exact G3|exact I2]|exact H3].
    Qed.

    Lemma awp_find_body im name link s : quiet s -> awp (find_body r im name link) s
      (fun id s' => id = name /\ in_graph s' name /\ ext (found_new s s' name) s s').
    Proof.
      intros Hq. unfold find_body. apply awp_bind, awp_find_module. destruct (gfind (s_graph s) name) as [nd|] eqn:Hn.
      { apply awp_ret. split; [reflexivity|]. split; [unfold in_graph; congruence|apply ext_refl]. }
      apply awp_bind, awp_of_result. intros [po y] Hs. cbn [fst]. apply awp_bind.
      (* the package at [s1], and the node below a missing or excluded one *)
      eapply awp_conseq with (Q := fun x s2 => exists s1, (forall c, child_of c name -> in_graph s1 c) /\
        ext (fun x => exists c, child_of c name /\ brings s1 c x) s s1 /\
        ((forall c, child_of c name -> in_graph s c) -> s1 = s) /\ quiet s1 /\
        match snd x with
        | None => s2 = s1
        | Some id => id = name /\ in_graph s2 name /\ ext (loaded s1 s2 name) s1 s2
        end).
      { destruct po as [c|].
        2:{ apply awp_ret. cbn [snd]. exists s. pose proof (split_none_no_child name y) as K.
            split; [intros c Hc; now elim (K c Hs)|]. split; [apply ext_refl|]. split; [reflexivity|]. split; [exact Hq|reflexivity]. }
        pose proof (split_child_of _ _ _ Hs) as Hc. assert (U : forall c', child_of c' name -> c' = c) by (intros c' Hc'; eapply child_of_unique; eassumption).
        apply awp_bind. eapply awp_conseq with (Q := fun id s1 => id = c /\ in_graph s1 c /\ ext (fun x => exists c, child_of c name /\ brings s1 c x) s s1 /\ (in_graph s c -> s1 = s)).
        { intros id s1 Hf. destruct (gfind (s_graph s) c) as [ndc|] eqn:Ec.
          - destruct (IHthere im c true s) with (a := id) (s' := s1) as [-> ->]; [unfold in_graph; congruence|exact Hf|].
            split; [reflexivity|]. split; [unfold in_graph; congruence|]. split; [apply ext_refl|reflexivity].
          - destruct (IHfind im c true s Hq _ _ Hf) as (-> & A & B). split; [reflexivity|]. split; [exact A|].
            split; [|intros K; now elim K]. apply (ext_weak _ _ _ _ B). intros x _ [K _]. now exists c. }
        cbv beta. intros id s1 (-> & I1 & H1 & B1). pose proof (ext_quiet _ _ _ H1 Hq) as Hq1.
        assert (C1 : forall c', child_of c' name -> in_graph s1 c') by (intros c' K; now rewrite (U c' K)).
        assert (D1 : (forall c', child_of c' name -> in_graph s c') -> s1 = s) by auto.
        apply awp_bind, awp_kind_test. apply in_kind in I1 as (k & Hk). rewrite Hk. destruct (is_missing k).
        - apply awp_bind. eapply awp_conseq; [apply (awp_missing _ _ _ Hq1)|]. cbv beta. intros id s2 (-> & A & B). apply awp_ret.
          cbn [snd]. exists s1. auto 8.
        - apply awp_bind, awp_kind_test. rewrite Hk. destruct (is_excluded k).
          + apply awp_bare. intros s2 H2 N2 _. apply awp_ret. cbn [snd]. exists s1. do 4 (split; [auto|]). split; [reflexivity|].
            split; [apply N2|now apply ext_name].
          + apply awp_ret. cbn [snd]. exists s1. auto 8. }
      cbv beta. intros [parent found] s2 (s1 & C1 & H1 & D1 & Hq1 & H2). cbn [snd] in H2.
      apply awp_bind. eapply awp_conseq with (Q := fun id s3 => id = name /\ in_graph s3 name /\ ext (loaded s1 s3 name) s1 s3).
      { destruct found as [id|]; [apply awp_ret; exact H2|]. subst s2.
        apply awp_bind. eapply awp_conseq; [apply (awp_implied im name s1 Hq1 C1)|]. cbv beta.
        intros o s2 [(-> & ->)|(-> & A & B)]; [now apply IHload|apply awp_ret; auto]. }
      cbv beta. intros id s3 (-> & I3 & H3). apply awp_bind, awp_kind_test, awp_bind.
      eapply awp_conseq with (Q := fun _ s4 => ext (fun _ => False) s3 s4).
      { destruct parent as [p|]; [|apply awp_ret, ext_refl]. destruct (_ || _); [|apply awp_ret, ext_refl]. apply awp_edge. auto. }
      cbv beta. intros _ s4 H4. apply awp_ret. split; [reflexivity|]. pose proof (x_more _ _ _ H3) as M3. pose proof (x_more _ _ _ H4) as M4.
      split; [eapply grows_in_graph; [apply M4|exact I3]|].
      apply (ext_on (found_new s s3 name) _ _ s3); [|exact H4|].
      2:{ intros x [K1 K2]. split; [eapply more_brings; eassumption|]. intros Hc c v Kc Kv Ki. eapply more_waits; [exact M4|]. now apply (K2 Hc c v). }
      eapply ext_seq; [exact H1|exact H3|..].
      - intros x Nx (c & Kc & Kb). split; [eapply brings_trans; [eapply brings_package; [apply brings_self|exact Kc]|]; eapply more_brings; eassumption|].
        intros Hc. rewrite (D1 Hc) in Nx. destruct Nx as [N1 N2]. now elim N2.
      - intros x _ K. split; [apply K|]. intros Hc. eapply loaded_mono; [|apply more_refl|exact K]. apply H1.
      - intros v u Nv (c & Kc & Kb) Nu K. apply K with (c := c); [exact Kc|exact Kb|apply Nv].
    Qed.
    Lemma awp_there im name link s : in_graph s name -> awp (find_body r im name link) s (fun id s' => id = name /\ s' = s).
    Proof.
      intros Hi. unfold find_body. apply awp_bind, awp_find_module. unfold in_graph in Hi. destruct (gfind (s_graph s) name); [|congruence].
      now apply awp_ret.
    Qed.

    (** ** Statements *)

    Lemma inv_still l todo P s s' : inv (l ++ todo) s -> ext P s s' -> (forall x, ~ P x) -> exists l', s_stack s' = l' ++ s_stack s /\ inv (l' ++ l ++ todo) s'.
    Proof. intros H X N. apply (inv_ext _ _ _ _ H X). intros w v u _ _ _ K. now elim (N u). Qed.
    Lemma awp_process_import nn i rest s : inv (DoImport nn i :: rest) s -> s_stack s = rest ->
      awp (process_import r nn i) s (fun _ s' => inv (s_stack s') s').
    Proof.
      intros HI Hs. pose proof (i_quiet _ _ HI) as Hq. pose proof (i_work _ _ HI _ (or_introl eq_refl)) as Hsc. cbn [work_ok] in Hsc.
      destruct (i_sched _ _ HI _ _ Hsc) as [Hin _]. pose proof Hin as Hin0.
      apply in_kind in Hin as (k & Hk). unfold process_import. apply awp_bind, awp_kind_test. rewrite Hk.
      assert (Hp : pkg_node s nn (is_package k || is_nspkg k)) by (exists k; now split).
      set (b := is_package k || is_nspkg k) in *. pose proof (absolute_name_spec nn b i) as Habs.
      destruct (absolute_name nn b i) as [bad|name].
      - destruct Habs as [Hbe ->]. apply awp_bind, awp_find_module, awp_bind.
        eapply awp_conseq with (Q := fun _ s1 => ext (fun _ => False) s s1).
        + destruct (gfind (s_graph s) (invalid_name i)) as [o|] eqn:Eo.
          * apply awp_assert. intros _. apply ext_refl.
          * apply awp_bind, awp_node. intros Hn. apply awp_modify. now apply ext_bare.
        + cbv beta. intros _ s1 H1. apply awp_edge. intros s2 H2. pose proof (ext_then _ _ _ _ H1 H2) as H.
          destruct (inv_still [] _ _ _ _ HI H) as (l & L1 & L2); [auto|]. rewrite L1, Hs. apply (inv_drop _ _ _ _ L2).
          intros n' i' [K|(m & K)]; [|discriminate]. injection K as <- <-. intros _ m (b' & K1 & K2) _. exfalso.
          destruct K1 as (k' & K1 & ->). rewrite (grows_kind _ _ _ _ (proj1 (x_more _ _ _ H)) Hk) in K1. injection K1 as <-.
          now apply (imports_not_beyond _ _ _ _ K2).
      - apply awp_bind, awp_assert. intros _. apply awp_bind, awp_get, awp_bind, awp_find; [exact Hq|]. intros s1 I1 H1.
        pose proof (x_more _ _ _ H1) as M1. assert (Hai : aims_at s nn i name) by (exists b; auto).
        destruct (inv_ext _ _ _ _ HI H1) as (l & L1 & L2).
        { intros w v u Hw Hv Hu [Hb _]. apply (waits_trans _ v nn u).
          - destruct Hw as [<-|Hw]; [injection Hv as <-; apply waits_self|].
            eapply more_waits; [exact M1|]. destruct (i_sorted _ _ HI) as [K _]. exact (K w Hw _ _ eq_refl Hv).
          - apply waits_one. eapply hu_import; [eapply more_scheduled; eassumption|left; eapply more_aims; eassumption|exact Hb|].
            eapply new_older; eassumption. }
        apply awp_bind, awp_edge. intros s2 H2. destruct (inv_still l _ _ _ _ L2 H2) as (l2 & L3 & L4); [auto|].
        pose proof (x_more _ _ _ H2) as M2. unfold insert_work. apply awp_modify. rewrite L3, L1, Hs.
        set (s3 := set_stack s2 _).
        assert (E3 : s_stack s3 = (l2 ++ l) ++ DoNames nn name i :: rest).
        { unfold s3. cbn [s_stack set_stack]. rewrite app_assoc, app_length.
          replace (List.length (l2 ++ l) + List.length rest - List.length rest) with (List.length (l2 ++ l)) by lia.
          now rewrite firstn_app, firstn_all, Nat.sub_diag, app_nil_r, skipn_app, skipn_all, Nat.sub_diag. }
        rewrite E3. rewrite app_assoc in L4.
        apply (inv_move _ s2); auto; [constructor; cbn; first [apply grows_graph_refl|apply incl_refl|now exists []]|].
        apply inv_names; [exact L4|eapply more_aims; [exact M2|eapply more_aims; eassumption]|eapply grows_in_graph; [apply M2|exact I1]].
    Qed.

    (** The names of one statement. *)
    Definition sought (s : st) (nn : string) (i : iinfo) (x : string) : Prop := exists t, looks_for s nn i t /\ brings s t x.
    Lemma sought_more s s' nn i x : more s s' -> sought s nn i x -> sought s' nn i x.
    Proof. intros M (t & A & B). exists t. split; [eapply more_looks; eassumption|eapply more_brings; eassumption]. Qed.
    Lemma sought_seq s s1 s2 nn i : scheduled s nn i -> ext (sought s1 nn i) s s1 -> ext (sought s2 nn i) s1 s2 -> ext (sought s2 nn i) s s2.
    Proof.
      intros Hs A B. pose proof (x_more _ _ _ A) as M1. pose proof (x_more _ _ _ B) as M2. eapply ext_seq; [exact A|exact B|..].
      - intros x _ K. eapply sought_more; eassumption.
      - auto.
      - intros v u Nv (a & A1 & A2) Nu (b & B1 & B2). apply waits_one. apply (hu_names _ nn i a b).
        + eapply more_scheduled; [exact M2|eapply more_scheduled; eassumption].
        + eapply more_looks; eassumption.
        + exact B1.
        + eapply more_brings; eassumption.
        + exact B2.
        + eapply new_older; [exact M2|apply Nv|exact Nu].
    Qed.
    Lemma awp_process_name nn m i k nm s : quiet s -> scheduled s nn i -> names_come_from s nn i m -> In nm (ii_names i) ->
      awp (process_name r nn m k i nm) s (fun _ s' => ext (sought s' nn i) s s').
    Proof.
      intros Hq Hsc Hm Hnm. unfold process_name. apply awp_bind, awp_get. apply awp_bind.
      eapply awp_conseq with (Q := fun _ s1 => ext (fun _ => False) s s1).
      { destruct (memb _ _); [|apply awp_ret, ext_refl]. apply awp_bind, awp_get. destruct (option_map _ _) as [t|]; [|apply awp_ret, ext_refl].
        apply awp_bind, awp_edge. intros s1 H1. now apply awp_ret. }
      cbv beta. intros known s1 H1. pose proof (x_more _ _ _ H1) as M1.
      destruct known; [apply awp_ret; apply (ext_weak _ _ _ _ H1); intros x _ []|].
      apply awp_bind, awp_find; [eapply ext_quiet; eassumption|]. intros s2 I2 H2. pose proof (x_more _ _ _ H2) as M2.
      assert (H02 : ext (sought s2 nn i) s s2).
      { eapply ext_after; [exact H1|]. apply (ext_weak _ _ _ _ H2). intros x _ [K _]. eexists. split; [|exact K].
        right. exists m, nm. split; [eapply more_come; [exact M2|eapply more_come; eassumption]|]. auto. }
      pose proof (more_trans _ _ _ M1 M2) as M02.
      apply awp_bind, awp_kind_test, awp_bind, awp_get.
      assert (Hlink : awp (do add_edge (m ++ "." ++ in_name nm) m default_dep ;; add_edge nn (m ++ "." ++ in_name nm) (from_importinfo i true (in_asname nm))) s2
        (fun _ s' => ext (sought s' nn i) s s')).
      { apply awp_bind, awp_edge. intros s3 H3. apply awp_edge. intros s4 H4. pose proof (ext_then _ _ _ _ H3 H4) as H5.
        eapply ext_on; [exact H02|exact H5|]. intros x. apply sought_more, H5. }
      destruct (match kind_of _ _ with Some k0 => _ | None => _ end); [|exact Hlink].
      destruct (is_package k && _).
      - destruct (assoc (in_name nm) SIX_MOVES_TO) as [t|] eqn:Et; [|exact Hlink].
        apply awp_bind, awp_find; [eapply ext_quiet; [exact H02|exact Hq]|]. intros s3 I3 H3. apply awp_edge. intros s4 H4.
        pose proof (x_more _ _ _ H3) as M3.
        assert (H03 : ext (sought s3 nn i) s s3).
        { eapply sought_seq; [exact Hsc|exact H02|]. apply (ext_weak _ _ _ _ H3). intros x _ [K _]. exists t. split; [|exact K].
          right. exists m, nm. split; [eapply more_come; [exact M3|eapply more_come; eassumption]|]. split; [exact Hnm|right]. now apply assoc_In. }
        eapply ext_on; [exact H03|exact H4|]. intros x. apply sought_more, H4.
      - destruct (_ && _); [now apply awp_ret|exact Hlink].
    Qed.
    Lemma awp_names nn m i k l s : quiet s -> scheduled s nn i -> names_come_from s nn i m -> incl l (ii_names i) ->
      awp (iter (process_name r nn m k i) l) s (fun _ s' => ext (sought s' nn i) s s').
    Proof.
      revert s. induction l as [|nm l IHl]; intros s Hq Hsc Hm Hl; [apply awp_ret, ext_refl|]. cbn [iter]. apply awp_bind.
      eapply awp_conseq; [apply awp_process_name; [exact Hq|exact Hsc|exact Hm|apply Hl; now left]|]. cbv beta. intros u s1 H1.
      pose proof (x_more _ _ _ H1) as M1.
      eapply awp_conseq; [apply IHl; [eapply ext_quiet; eassumption|eapply more_scheduled; eassumption|eapply more_come; eassumption|intros x Hx; apply Hl; now right]|].
      cbv beta. intros u2 s2 H2. eapply sought_seq; eassumption.
    Qed.
    Lemma own_work todo nn m i : ~ clear (DoNames nn m i :: todo) nn.
    Proof. intros H. now apply (H _ (or_introl eq_refl)). Qed.
    Lemma awp_process_namelist nn m i rest s : inv (DoNames nn m i :: rest) s -> s_stack s = rest ->
      awp (process_namelist r nn m i) s (fun _ s' => inv (s_stack s') s').
    Proof.
      intros HI Hs. destruct (i_work _ _ HI _ (or_introl eq_refl)) as (Hsc & Ha & Hm).
      unfold process_namelist. apply awp_bind, awp_kind_test, awp_bind, awp_assert. intros _.
      apply awp_bind, awp_get.
      assert (Hclear : ~ waits s m nn -> clear rest m).
      { intros Hw w K1 K2. apply Hw. destruct (i_sorted _ _ HI) as [K _]. exact (K w K1 _ _ eq_refl K2). }
      destruct (ii_star i) eqn:Est.
      { assert (Done : forall s', inv (DoNames nn m i :: rest) s' -> s_stack s' = rest -> (waits s m nn -> waits s' m nn) ->
          (~ waits s' m nn -> takes_over s' nn m) -> inv (s_stack s') s').
        { intros s' HI' Hs' Hw Ht. rewrite Hs'. apply (inv_drop [] _ _ _ HI'). intros n' i' [K|(m' & K)]; [discriminate|]. injection K as <- <- <-.
          intros _ m' Ha' Hw'. destruct (i_work _ _ HI' _ (or_introl eq_refl)) as (_ & Ha2 & Hm2). assert (m' = m) as -> by (eapply aims_one; eassumption).
          split; [exact Hm2|]. split; [apply Hclear; intros K; now apply Hw', Hw|now apply Ht]. }
        destruct (gfind (s_graph s) m) as [x|] eqn:Ex; [|unfold in_graph in Hm; congruence].
        destruct (is_package (n_kind x) || is_module (n_kind x)) eqn:Ek.
        2:{ apply awp_ret. apply Done; auto. intros _ y z _ Hz Hk. rewrite Ex in Hz. injection Hz as <-. congruence. }
        apply awp_modify. apply Done; [apply inv_written; [exact HI|apply own_work]|exact Hs| |].
        - apply more_waits. split; [apply lift_set_grows, grows_written|]. exists []. rewrite app_nil_r. unfold node_names, gadd_written. cbn. rewrite map_map.
          apply map_ext. intros y. apply upd_written_name.
        - intros Hw y z Hy Hz _. cbn [s_graph set_graph] in Hy, Hz. rewrite gfind_written in Hy, Hz. rewrite Ex in Hz. cbn in Hz. injection Hz as <-.
          destruct (gfind (s_graph s) nn) as [y0|] eqn:Ey; [|discriminate]. injection Hy as <-.
          assert (m <> nn) as Hne by (intros ->; apply Hw, waits_self).
          pose proof (gfind_name _ _ _ Ex) as Nx. pose proof (gfind_name _ _ _ Ey) as Ny.
          unfold upd_written. destruct (seqb (n_name x) nn) eqn:E1; [apply seqb_eq in E1; congruence|].
          destruct (seqb (n_name y0) nn) eqn:E2; [|unfold seqb in E2; rewrite Ny, String.eqb_refl in E2; discriminate].
          intros z Hz. cbn. apply set_union_In. now right. }
      (* a statement without star *)
      assert (Settled : forall todo s', settled todo s' nn i) by (intros todo s' K; congruence).
      assert (Drop : forall l s', inv (l ++ DoNames nn m i :: rest) s' -> inv (l ++ rest) s').
      { intros l s' K. apply (inv_drop _ _ _ _ K). intros n' i' [K1|(m' & K1)]; [discriminate|]. injection K1 as <- <- <-. apply Settled. }
      assert (Skip : inv (s_stack s) s) by (rewrite Hs; now apply (Drop [])).
      destruct (ii_names i) as [|nm0 names] eqn:En; [now apply awp_ret|]. rewrite <- En.
      destruct (gfind (s_graph s) m) as [x|] eqn:Ex; [|now apply awp_ret].
      assert (Wr : forall s1, inv (DoNames nn m i :: rest) s1 -> more s s1 -> s_stack s1 = rest ->
        let s2 := set_graph s1 (gadd_written (s_graph s1) nn (map in_name (ii_names i))) in
        inv (DoNames nn m i :: rest) s2 /\ more s s2 /\ s_stack s2 = rest).
      { intros s1 HI1 M1 Hs1 s2. split; [apply inv_written; [exact HI1|apply own_work]|]. split; [|exact Hs1]. eapply more_trans; [exact M1|].
        split; [apply lift_set_grows, grows_written|]. exists []. rewrite app_nil_r. unfold node_names, s2, gadd_written. cbn. rewrite map_map.
        apply map_ext. intros y. apply upd_written_name. }
      assert (K : forall m' y s1, inv (DoNames nn m i :: rest) s1 -> more s s1 -> s_stack s1 = rest -> (m' = m \/ kind_of s m = Some (AliasNode m')) ->
        awp (if is_package (n_kind y) || is_nspkg (n_kind y) || is_module (n_kind y) then
               do add_written nn (map in_name (ii_names i)) ;; iter (process_name r nn m' (n_kind y) i) (ii_names i) else ret tt) s1 (fun _ s' => inv (s_stack s') s')).
      { intros m' y s1 HI1 M1 Hs1 Hm'. destruct (_ || _ || _) eqn:Eh; [|apply awp_ret; rewrite Hs1; now apply (Drop [])].
        apply awp_bind, awp_modify. destruct (Wr s1 HI1 M1 Hs1) as (HI2 & M2 & Hs2). set (s2 := set_graph _ _) in *.
        assert (Hsc2 : scheduled s2 nn i) by (eapply more_scheduled; eassumption).
        eapply awp_conseq; [apply awp_names; [apply HI2|exact Hsc2| |apply incl_refl]|].
        - exists m. split; [eapply more_aims; eassumption|]. destruct Hm' as [Hm'|Hm']; [now left|right; eapply grows_kind; [apply M2|exact Hm']].
        - cbv beta. intros _ s3 H3. destruct (inv_ext _ _ _ _ HI2 H3) as (l & L1 & L2); [|rewrite L1, Hs2; now apply Drop].
          pose proof (x_more _ _ _ H3) as M3. destruct (i_sched _ _ HI2 _ _ Hsc2) as [Hin _].
          intros w v u Hw Hv Hu (t & Ht & Hb). apply (waits_trans _ v nn u).
          + destruct Hw as [<-|Hw]; [injection Hv as <-; apply waits_self|].
            eapply more_waits; [exact M3|]. destruct (i_sorted _ _ HI2) as [K _]. exact (K w Hw _ _ eq_refl Hv).
          + apply waits_one. eapply hu_import; [eapply more_scheduled; eassumption|exact Ht|exact Hb|eapply new_older; eassumption]. }
      assert (K0 : awp (if is_package (n_kind x) || is_nspkg (n_kind x) || is_module (n_kind x) then
               do add_written nn (map in_name (ii_names i)) ;; iter (process_name r nn m (n_kind x) i) (ii_names i) else ret tt) s (fun _ s' => inv (s_stack s') s')).
      { apply K; [exact HI|apply more_refl|exact Hs|now left]. }
      rewrite En in K0 |- *. destruct (n_kind x) as [|mk| |b i0 k f t| | | |t|t|] eqn:Ek; try exact K0.
      apply awp_bind, awp_modify. rewrite <- En. destruct (Wr s HI (more_refl s) Hs) as (HI1 & M1 & Hs1). set (s1 := set_graph _ _) in *.
      apply awp_bind, awp_find_module.
      destruct (gfind (s_graph s1) t) as [y|] eqn:Ey; [|apply awp_raise].
      apply K; [exact HI1|exact M1|exact Hs1|]. right. unfold kind_of. now rewrite Ex, <- Ek.
    Qed.

    (** ** The loop *)

    Hypothesis IHrun : forall s, inv (s_stack s) s -> awp (f_run r) s (fun _ s' => inv [] s' /\ s_stack s' = []).
    Hypothesis IHpost : forall i x s u s', s_post s = [] -> f_post r i x s = Some (ROk u, s') -> s' = s.

    Lemma awp_do_work w rest s : inv (w :: rest) s -> s_stack s = rest -> awp (do_work E r w) s (fun _ s' => inv (s_stack s') s').
    Proof.
      intros HI Hs. destruct w as [x|x i|x m i|x p]; cbn [do_work].
      - apply awp_bind, awp_modify. intros u s' H. apply IHpost in H; [|apply HI]. subst s'. cbn [s_stack log]. rewrite Hs.
        pose proof (ext_log (fun _ => False) s (EvHook x)) as X. destruct (inv_still [] _ _ _ _ HI (X (fun _ _ => ltac:(discriminate)))) as (l & L1 & L2); [auto|].
        cbn [s_stack log] in L1. assert (l = []) as ->.
        { assert (K : List.length (s_stack s) = List.length (l ++ s_stack s)) by congruence. rewrite app_length in K. destruct l; [reflexivity|cbn in K; lia]. }
        apply (inv_drop [] _ _ _ L2). intros n' i' [K|(m & K)]; discriminate.
      - now apply (awp_process_import _ _ rest).
      - now apply (awp_process_namelist _ _ _ rest).
      - destruct (i_work _ _ HI _ (or_introl eq_refl)).
    Qed.
    Lemma awp_run_body s : inv (s_stack s) s -> awp (run_body E r) s (fun _ s' => inv [] s' /\ s_stack s' = []).
    Proof.
      intros HI u s' H. unfold run_body in H. destruct (s_stack s) as [|w rest] eqn:Es; [injection H as <- <-; auto|].
      set (s1 := log (set_run (set_stack s rest) (w :: s_run s)) (EvPop w)) in *.
      assert (HI1 : inv (w :: rest) s1).
      { apply (inv_move _ s); auto.
        - constructor; cbn; first [apply grows_graph_refl|apply incl_refl|now exists []|now exists [EvPop w]].
        - intros n' l' [K|K]; [discriminate|exact K]. }
      destruct (do_work E r w s1) as [[[x|e] s2]|] eqn:Ew; [|discriminate..].
      pose proof (awp_do_work w rest s1 HI1 eq_refl _ _ Ew) as HI2. set (s3 := log (set_run s2 (tl (s_run s2))) (EvDone w)) in *.
      apply (IHrun s3) with (a := u); [|exact H]. apply (inv_move _ s2); auto.
      - constructor; cbn; first [apply grows_graph_refl|apply incl_refl|now exists []|now exists [EvDone w]].
      - intros n' l' [K|K]; [discriminate|exact K].
    Qed.
  End step.

  Record good (r : funs) : Prop := {
    gd_there : forall im name link s, in_graph s name -> awp (f_find r im name link) s (fun id s' => id = name /\ s' = s);
    gd_find : forall im name link s, quiet s -> awp (f_find r im name link) s
      (fun id s' => id = name /\ in_graph s' name /\ ext (found_new s s' name) s s');
    gd_load : forall im name s, quiet s -> awp (f_load r im name) s
      (fun id s' => id = name /\ in_graph s' name /\ ext (loaded s s' name) s s');
    gd_miss : forall i im name s res s', s_missing s = [] -> f_miss r i im name s = Some (res, s') -> res = ROk None /\ s' = s;
    gd_run : forall s, inv (s_stack s) s -> awp (f_run r) s (fun _ s' => inv [] s' /\ s_stack s' = []);
    gd_post : forall i x s u s', s_post s = [] -> f_post r i x s = Some (ROk u, s') -> s' = s
  }.
  Lemma good_exec n : good (exec E n).
  Proof.
    induction n as [|n [H1 H2 H3 H4 H5 H6]]; constructor; cbn [exec no_fuel f_find f_load f_run f_post f_miss]; intros; try apply awp_oof; try discriminate.
    - now apply awp_there.
    - now apply awp_find_body.
    - now apply awp_load.
    - match goal with A : s_missing _ = [], H : miss_body _ _ _ _ _ _ = _ |- _ => unfold miss_body, bind, gets in H; rewrite A in H; destruct i; now injection H as <- <- end.
    - now apply awp_run_body.
    - match goal with A : s_post _ = [], H : post_body _ _ _ _ _ = _ |- _ => unfold post_body, bind, gets in H; rewrite A in H; destruct i; now injection H as <- <- end.
  Qed.

  (** ** Calls *)

  Definition idle (s : st) : Prop := inv [] s /\ s_stack s = [].
  Definition pending (s : st) : Prop := inv (s_stack s) s.
  Lemma idle_pending s : idle s -> pending s.
  Proof. intros [A B]. unfold pending. now rewrite B. Qed.
  Lemma pending_ext P s s' : idle s -> ext P s s' -> pending s'.
  Proof.
    intros [A B] H. destruct (inv_ext _ _ _ _ A H) as (l & L1 & L2); [intros w v u []|]. unfold pending. now rewrite L1, B.
  Qed.
  Lemma idle_still s s' : idle s -> grows s s' -> g_nodes (s_graph s') = g_nodes (s_graph s) -> s_stack s' = s_stack s ->
    s_missing s' = s_missing s -> s_post s' = s_post s -> (forall n l, In (EvSched n l) (s_log s') -> In (EvSched n l) (s_log s)) -> idle s'.
  Proof. intros [A B] G N S H1 H2 H3. split; [|congruence]. apply (inv_move _ s); auto. Qed.
  Lemma awp_root id s : awp (add_root id) s (fun _ s' => ext (fun _ => False) s s').
  Proof.
    intros u s' H. unfold add_root, lift_graph in H. destruct (gadd_root (s_graph s) id) as [g|e] eqn:Eg; [|discriminate].
    injection H as <- <-. unfold gadd_root in Eg. destruct (ghas _ _); [|discriminate]. injection Eg as <-.
    apply ext_still; auto. apply lift_set_grows, grows_add_root.
  Qed.

  Section calls.
    Variable n : nat.
    Let r := exec E n.
    Let IH : good r := good_exec n.
    Hypothesis Hord : forall l x, In x (e_order E l) -> In x l.

    Lemma idle_rooted P s0 s id : idle s0 -> ext P s0 s -> awp (do note (EvRoot id) ;; do add_root id ;; do f_run r ;; ret id) s (fun _ s' => idle s').
    Proof.
      intros HI H. apply awp_bind, awp_modify.
      assert (H1 : ext P s0 (log s (EvRoot id))) by (eapply ext_then; [exact H|apply ext_log; discriminate]).
      apply awp_bind. eapply awp_conseq; [apply (awp_root id)|]. cbv beta. intros _ s2 H2. pose proof (ext_then _ _ _ _ H1 H2) as H3.
      apply awp_bind. eapply awp_conseq; [apply (gd_run r IH s2), (pending_ext _ _ _ HI H3)|]. cbv beta. intros _ s3 H4. now apply awp_ret.
    Qed.
    Lemma idle_add_script path s : idle s -> awp (add_script E r path) s (fun _ s' => idle s').
    Proof.
      intros HI. unfold add_script. apply awp_bind, awp_find_module. destruct (gfind (s_graph s) path); [apply awp_raise|].
      apply awp_bind. intros tree s1 H1. unfold askr in H1. injection H1 as Ht <-.
      assert (He : env_only s (tick s)) by (now eexists _, _). pose proof (ext_env (fun _ => False) _ _ He) as H1.
      destruct (extract_ast_info (e_names_order E) tree) as [l|] eqn:El; [|apply awp_oof].
      apply awp_bind, awp_node. intros Hn. set (nd := Node path Script [] [] None (Some path) [] false) in *.
      pose proof (ext_add (fun _ => True) (tick s) nd l Hn Logic.I) as H2.
      apply awp_bind, awp_modify. eapply idle_rooted; [exact HI|]. eapply ext_after; [exact H1|exact H2].
    Qed.
    Lemma idle_add_module name s : idle s -> awp (add_module r name) s (fun _ s' => idle s').
    Proof.
      intros HI. unfold add_module. apply awp_bind, awp_find_module, awp_bind.
      eapply awp_conseq with (Q := fun _ s1 => ext (fun _ => True) s s1); [|cbv beta; intros id s1 H1; eapply idle_rooted; eassumption].
      destruct (gfind (s_graph s) name); [apply awp_ret, ext_refl|]. eapply awp_conseq; [apply (gd_find r IH), HI|].
      cbv beta. intros id s1 (_ & _ & H). apply (ext_weak _ _ _ _ H). auto.
    Qed.
    Lemma idle_add_source text s : idle s -> awp (add_source E r text) s (fun _ s' => idle s').
    Proof.
      intros HI. unfold add_source. apply awp_bind. intros tree s1 H1. unfold askr in H1. injection H1 as Ht <-.
      assert (HI1 : idle (tick s)).
      { apply (idle_still s); auto. apply (x_more _ _ _ (ext_env (fun _ => False) s (tick s) ltac:(now eexists _, _))). }
      destruct (extract_ast_info (e_names_order E) tree) as [l|] eqn:El; [|apply awp_oof].
      apply (awp_iter _ idle); [|exact HI1]. intros i s2 _ HI2. apply awp_bind. eapply awp_conseq; [apply idle_add_module; exact HI2|].
      cbv beta. intros _ s3 HI3. apply (awp_iter _ idle); [|exact HI3]. intros nm s4 _ HI4. apply awp_bind.
      eapply awp_conseq; [apply idle_add_module; exact HI4|]. cbv beta. intros _ s5 HI5. now apply awp_ret.
    Qed.

    (** Modules of a distribution. *)
    Definition part_of (d : dist) (s : st) (x : string) : Prop := exists a, In a (dist_import_names d) /\ brings s a x.
    Lemma part_more d s s' x : more s s' -> part_of d s x -> part_of d s' x.
    Proof. intros M (a & A & B). exists a. split; [exact A|eapply more_brings; eassumption]. Qed.
    Definition has_dist (s : st) (id : string) (d : dist) : Prop := exists nd, gfind (s_graph s) id = Some nd /\ n_dist nd = Some d.
    Lemma has_dist_ext P s s' id d : ext P s s' -> has_dist s id d -> has_dist s' id d.
    Proof. intros H (nd & A & B). exists nd. split; [now apply (x_same _ _ _ H)|exact B]. Qed.
    Lemma awp_parts d id l s : quiet s -> has_dist s id d -> incl l (dist_import_names d) ->
      awp (iter (fun name => m <- f_find r None name true ;; add_edge id m default_dep) l) s (fun _ s' => ext (part_of d s') s s').
    Proof.
      revert s. induction l as [|a l IHl]; intros s Hq Hd Hl; [apply awp_ret, ext_refl|]. cbn [iter]. apply awp_bind, awp_bind.
      eapply awp_conseq; [apply (gd_find r IH); exact Hq|]. cbv beta. intros m s1 (-> & _ & H1). apply awp_edge. intros s2 H2.
      assert (H02 : ext (part_of d s2) s s2).
      { apply (ext_on (part_of d s1) _ _ s1); [|exact H2|intros x; apply part_more, H2]. apply (ext_weak _ _ _ _ H1).
        intros x _ [K _]. exists a. split; [apply Hl; now left|exact K]. }
      pose proof (has_dist_ext _ _ _ _ _ H02 Hd) as Hd2.
      eapply awp_conseq; [apply IHl; [eapply ext_quiet; eassumption|exact Hd2|intros x Hx; apply Hl; now right]|].
      cbv beta. intros u s3 H3. pose proof (x_more _ _ _ H3) as M3. destruct (has_dist_ext _ _ _ _ _ H3 Hd2) as (nd & D1 & D2).
      eapply ext_seq; [exact H02|exact H3|..].
      - intros x _. now apply part_more.
      - auto.
      - intros v w Nv (x & X1 & X2) Nw (y & Y1 & Y2). apply waits_one. apply (hu_dist _ id nd d x y); auto.
        + eapply more_brings; eassumption.
        + eapply new_older; [exact M3|apply Nv|exact Nw].
    Qed.
    Lemma idle_add_dist d s : idle s -> awp (add_distribution E r d) s (fun _ s' => idle s').
    Proof.
      intros HI. unfold add_distribution. apply awp_bind, awp_get. set (id := dist_identifier d).
      destruct (gfind (s_graph s) id) as [o|] eqn:Eo.
      { apply awp_bind, awp_assert. intros _. now apply awp_ret. }
      set (nd := Node id Distribution [] [] (Some d) None [] false).
      apply awp_bind. intros u1 s1 H1. unfold user_add_node, lift_graph in H1.
      destruct (gadd_node (s_graph s) nd) as [g|e] eqn:Eg; [|discriminate]. injection H1 as <- <-.
      apply gadd_node_spec in Eg as (_ & ->). set (s1 := set_graph s _).
      assert (H1 : ext (fun _ => False) s s1).
      { constructor; try reflexivity.
        - split; [apply lift_set_grows, grows_add_node|]. exists [id]. unfold node_names, s1. cbn. now rewrite map_app.
        - intros x y Hx. unfold s1. cbn [s_graph set_graph]. now rewrite gfind_app, Hx.
        - exists []. split; [reflexivity|]. split; [exact Logic.I|]. split; [intros w []|]. auto. }
      assert (D1 : has_dist s1 id d).
      { exists nd. split; [|reflexivity]. unfold s1. cbn [s_graph set_graph]. rewrite gfind_app, Eo. unfold seqb. cbn. now rewrite String.eqb_refl. }
      apply awp_bind, awp_modify. assert (H2 : ext (fun _ => False) s (log s1 (EvRoot id))) by (eapply ext_then; [exact H1|apply ext_log; discriminate]).
      apply awp_bind. eapply awp_conseq; [apply (awp_root id)|]. cbv beta. intros _ s3 H3.
      pose proof (ext_then _ _ _ _ H2 H3) as H03. apply awp_bind.
      eapply awp_conseq; [apply (awp_parts d id)|].
      - eapply ext_quiet; [exact H03|apply HI].
      - eapply has_dist_ext; [exact H3|]. eapply has_dist_ext; [|exact D1]. apply (ext_log (fun _ => False)). discriminate.
      - intros x Hx. now apply Hord.
      - cbv beta. intros _ s4 H4. pose proof (ext_after _ _ _ _ H03 H4) as H04. apply awp_bind.
        eapply awp_conseq; [apply (gd_run r IH s4), (pending_ext _ _ _ HI H04)|]. cbv beta. intros _ s5 H5. now apply awp_ret.
    Qed.
    Lemma idle_action implies a s : idle s -> plain_action implies a -> awp (do_action E r a) s (fun _ s' => idle s').
    Proof.
      intros HI Ha. destruct a; try contradiction Ha; cbn [do_action].
      - now apply awp_get.
      - apply awp_bind. eapply awp_conseq; [apply idle_add_script; exact HI|]. cbv beta. intros. now apply awp_ret.
      - apply awp_bind. eapply awp_conseq; [apply idle_add_module; exact HI|]. cbv beta. intros. now apply awp_ret.
      - apply awp_bind. eapply awp_conseq; [apply idle_add_source; exact HI|]. cbv beta. intros. now apply awp_ret.
      - apply awp_bind. eapply awp_conseq; [apply idle_add_dist; exact HI|]. cbv beta. intros. now apply awp_ret.
      - apply awp_bind. unfold add_distribution_named. apply awp_bind. intros o s1 H1. unfold askr in H1. injection H1 as Ht <-.
        assert (HI1 : idle (tick s)).
        { apply (idle_still s); auto. apply (x_more _ _ _ (ext_env (fun _ => False) s (tick s) ltac:(now eexists _, _))). }
        destruct o as [d|]; [|apply awp_raise]. eapply awp_conseq; [apply idle_add_dist; exact HI1|]. cbv beta. intros. now apply awp_ret.
      - apply awp_bind, awp_modify, awp_ret. apply (idle_still s); auto.
        + constructor; cbn; first [apply grows_graph_refl|apply incl_refl|now exists []|now eexists [_]].
        + intros n' l' [K|K]; [discriminate|exact K].
      - apply awp_bind, awp_modify, awp_ret. apply (idle_still s); auto.
        + constructor; cbn; first [apply grows_graph_refl|apply incl_refl|now exists []|now eexists [_]].
        + intros n' l' [K|K]; [discriminate|exact K].
    Qed.
  End calls.

  Lemma history_idle implies s : (forall l x, In x (e_order E l) -> In x l) -> plain_history E implies True s -> idle s.
  Proof.
    intros Ho H. induction H as [first HF|s fuel a ans s' H IH Ha Hk He].
    - split; [|reflexivity]. constructor.
      + now split.
      + exact Logic.I.
      + intros w [].
      + intros n i (l & [] & _).
    - unfold top_call, call, bind, attempt in Hk. destruct (do_action E (exec E fuel) a s) as [[[x|e] s1]|] eqn:Ed; [| |discriminate].
      + injection Hk as <- <-. exact (idle_action fuel Ho implies a s IH Ha _ _ Ed).
      + unfold note, modify, ret in Hk. injection Hk as <- <-. now elim (He Logic.I e).
  Qed.
  Lemma history_takes_over implies s n i m : (forall l x, In x (e_order E l) -> In x l) -> plain_history E implies True s ->
    scheduled s n i -> ii_star i = true -> aims_at s n i m -> ~ waits s m n -> in_graph s m /\ takes_over s n m.
  Proof.
    intros Ho H Hs Hst Ha Hw. destruct (history_idle _ _ Ho H) as [HI _]. destruct (i_sched _ _ HI _ _ Hs) as [_ [[[]|(? & [])]|K]].
    destruct (K Hst m Ha Hw) as (A & _ & B). auto.
  Qed.
End star.
