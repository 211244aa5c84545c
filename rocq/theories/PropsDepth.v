(** C85: chains of imports do not nest calls. *)
From Verif Require Export DepthSpec.
From Verif Require Import BuilderFuel BuilderEnd BuilderDepth PyStrFacts World BuilderPass.
Open Scope string_scope.

Section shallow.
  Variable E : env.
  Hypothesis HP : plain_finder E.
  Variable D L : nat.

  (** The second computation does what the first one does. *)
  Definition sm {A} (m m' : M A) (s : st) : Prop := forall r s', m s = Some (r, s') -> m' s = Some (r, s') /\ Le D s s'.
  Lemma sm_dm {A} (m : M A) s : dm D m s -> sm m m s.
  Proof. intros (r & s' & H & L0) r1 s1 H1. rewrite H in H1. injection H1 as <- <-. now split. Qed.
  Lemma sm_bind {A B} (m m' : M A) (f f' : A -> M B) s : sm m m' s -> (forall a s', m s = Some (ROk a, s') -> Le D s s' -> sm (f a) (f' a) s') -> sm (bind m f) (bind m' f') s.
  Proof.
    intros H H' r s' R. unfold bind in *. destruct (m s) as [[r1 s1]|] eqn:E1; [|discriminate]. destruct (H _ _ E1) as [-> L1].
    destruct r1 as [a|e]; [|injection R as <- <-; now split]. destruct (H' a s1 eq_refl L1 _ _ R) as [-> L2]. split; [reflexivity|]. eapply Le_trans; eassumption.
  Qed.
  Lemma sm_attempt {A} (m m' : M A) s : sm m m' s -> sm (attempt m) (attempt m') s.
  Proof.
    intros H r s' R. unfold attempt in *. destruct (m s) as [[r1 s1]|] eqn:E1; [|discriminate]. destruct (H _ _ E1) as [-> L1]. injection R as <- <-. now split.
  Qed.
  Lemma sm_iter {A} (f f' : A -> M unit) l : forall s, Inv D s -> (forall x s', Le D s s' -> sm (f x) (f' x) s') -> sm (iter f l) (iter f' l) s.
  Proof.
    induction l as [|x l IH]; intros s I0 H; cbn [iter]; [now apply sm_dm, dm_ret|]. apply sm_bind; [apply H; now apply Le_refl|].
    intros _ s1 _ L1. apply IH; [apply L1|]. intros y s2 L2. apply H. eapply Le_trans; eassumption.
  Qed.
  Lemma sm_oof {A} (m : M A) s : sm out_of_fuel m s.
  Proof. intros r s' H. discriminate. Qed.

  (** Two bounds that are enough give the same. *)
  Lemma sm_find n k im name link s : Inv D s -> List.length (s_lazy s) <= L -> parts name + room D L <= k -> sm (f_find (exec E n) im name link) (f_find (exec E k) im name link) s.
  Proof.
    intros I0 HL Hk r s' H. destruct (find_dm E HP D L k im name link s I0 HL) as (r1 & s1 & H1 & L1); [pose proof (levels_parts name); lia|].
    apply (le_find _ _ (exec_le E n (n + k) ltac:(lia))) in H. pose proof H1 as H2. apply (le_find _ _ (exec_le E k (n + k) ltac:(lia))) in H2.
    rewrite H in H2. injection H2 as -> ->. now split.
  Qed.
  Lemma sm_work n w s : Inv D s -> List.length (s_lazy s) <= L -> (forall a b, w <> DoPackage a b) -> sm (do_work E (exec E n) w) (do_work E (exec E (depth D L w)) w) s.
  Proof.
    intros I0 HL Hw r s' H. destruct (work_dm E HP D L w s I0 HL Hw) as (r1 & s1 & H1 & L1).
    apply (le_do_work E _ _ (exec_le E n (n + depth D L w) ltac:(lia))) in H. pose proof H1 as H2. apply (le_do_work E _ _ (exec_le E (depth D L w) (n + depth D L w) ltac:(lia))) in H2.
    rewrite H in H2. injection H2 as -> ->. now split.
  Qed.
  Lemma sm_run n : forall s, Inv D s -> List.length (s_lazy s) <= L -> sm (f_run (exec E n)) (rounds E D L n) s.
  Proof.
    induction n as [|n IH]; intros s I0 HL; [apply sm_oof|]. change (f_run (exec E (S n))) with (run_body E (exec E n)). intros r s' H.
    unfold run_body in H. cbn [rounds]. destruct (s_stack s) as [|w rest] eqn:Es; [injection H as <- <-; split; [reflexivity|now apply Le_refl]|].
    set (s0 := log (set_run (set_stack s rest) (w :: s_run s)) (EvPop w)) in *.
    assert (L0 : Le D s s0).
    { destruct I0. split; [constructor; cbn; auto|cbn; lia]. intros a b Hi. apply (iv_stack a b). rewrite Es. now right. }
    destruct (do_work E (exec E n) w s0) as [[r1 s1]|] eqn:E1; [|discriminate].
    apply sm_work in E1 as [-> L1]; [|apply L0|eapply Le_lazy; eassumption|].
    2:{ intros a b ->. apply (iv_stack _ _ I0 a b). rewrite Es. now left. }
    assert (L2 : forall ev, Le D s (log (set_run s1 (tl (s_run s1))) ev)).
    { intros ev. eapply Le_trans; [exact L0|]. eapply Le_trans; [exact L1|]. destruct (proj1 L1). split; [constructor; cbn; auto|cbn; lia]. }
    destruct r1 as [u|e].
    - apply IH in H as [H L3]; [|apply L2|eapply Le_lazy; [apply L2|exact HL]]. split; [exact H|]. eapply Le_trans; [apply L2|exact L3].
    - injection H as <- <-. split; [reflexivity|apply L2].
  Qed.

  (** The calls. *)
  Variable n : nat.
  Let F := exec E n.
  Let G := shallow E D L n.
  Definition ok (s : st) : Prop := Inv D s /\ List.length (s_lazy s) <= L.
  Lemma ok_le s s' : ok s -> Le D s s' -> ok s'.
  Proof. intros [_ B] H. split; [apply H|eapply Le_lazy; eassumption]. Qed.
  Lemma sg_find im name link s : ok s -> sm (f_find F im name link) (f_find G im name link) s.
  Proof. intros [A B]. now apply sm_find. Qed.
  Lemma sg_run s : ok s -> sm (f_run F) (f_run G) s.
  Proof. intros [A B]. now apply sm_run. Qed.
  Ltac oks := match goal with
    | H : ok ?s |- Inv _ ?s => exact (proj1 H)
    | H : Le _ _ ?s |- Inv _ ?s => exact (proj1 H)
    | H : ok ?s |- ok ?s => exact H
    | H : Le _ ?t ?s |- ok ?s => apply (ok_le t s); [oks|exact H]
    end.
  Ltac prim := apply sm_dm; first
    [ apply dm_ret | apply dm_raise | apply dm_assert | apply dm_gets | apply dm_get_node | apply dm_find_module | apply dm_kind_test
    | apply dm_of_result | apply dm_find_spec | apply dm_in_sysmod | apply dm_askr | apply dm_note | apply dm_add_edge | apply dm_add_root | apply dm_schedule ]; oks.
  Ltac sm_tac := repeat first
    [ progress prim
    | apply sm_oof
    | apply sg_find; oks
    | apply sg_run; oks
    | let s := fresh "s" in let L := fresh "L" in apply sm_bind; [|intros ? s _ L]
    | match goal with |- sm (match ?x with _ => _ end) _ _ => destruct x end ].

  Lemma sg_module name s : ok s -> sm (add_module F name) (add_module G name) s.
  Proof. intros H. unfold add_module. sm_tac. Qed.
  Lemma sg_source src s : ok s -> sm (add_source E F src) (add_source E G src) s.
  Proof.
    intros H. unfold add_source. apply sm_bind; [prim|]. intros t s1 _ L1. destruct (extract_ast_info _ _); [|apply sm_oof].
    apply sm_iter; [oks|]. intros i s2 L2. apply sm_bind; [apply sg_module; oks|]. intros _ s3 _ L3. apply sm_iter; [oks|].
    intros nm s4 L4. apply sm_bind; [apply sg_module; oks|]. intros _ s5 _ L5. prim.
  Qed.
  Lemma sg_dist d s : ok s -> sm (add_distribution E F d) (add_distribution E G d) s.
  Proof.
    intros H. unfold add_distribution. cbv zeta. apply sm_bind; [prim|]. intros [x|] s1 _ L1; [sm_tac|].
    apply sm_bind; [apply sm_dm, dm_user_add_node; [oks|discriminate]|]. intros _ s2 _ L2.
    apply sm_bind; [prim|]. intros _ s3 _ L3. apply sm_bind; [prim|]. intros _ s4 _ L4.
    apply sm_bind; [|intros _ s5 _ L5; sm_tac]. apply sm_iter; [oks|]. intros nm s5 L5. sm_tac.
  Qed.
  Lemma sg_script path s : ok s -> sm (add_script E F path) (add_script E G path) s.
  Proof.
    intros H. unfold add_script. apply sm_bind; [prim|]. intros [x|] s1 _ L1; [prim|]. apply sm_bind; [prim|]. intros t s2 _ L2.
    destruct (extract_ast_info _ _) as [im|]; [|apply sm_oof]. apply sm_bind; [apply sm_dm, dm_add_node; [oks|discriminate]|]. intros _ s3 _ L3. sm_tac.
  Qed.
  Lemma sm_env {A} (m : M A) s : total m -> envm m -> Inv D s -> sm m m s.
  Proof. intros. apply sm_dm. now apply dm_env. Qed.
  Definition configures (a : action) : bool := match a with AExcludes _ | AImplies _ => true | _ => false end.
  Lemma sg_call a s : hookless_call D a -> configures a = false -> ok s -> sm (call E F a) (call E G a) s.
  Proof.
    intros Ha Hc H. unfold call. apply sm_bind; [apply sm_attempt|intros [x|e] s1 _ L1; sm_tac].
    destruct a; try discriminate Hc; try destruct Ha; cbn [do_action].
    - prim.
    - apply sm_bind; [|intros _ s1 _ L1; prim]. intros r s' R. split; [exact R|]. unfold modify in R. injection R as <- <-.
      destruct (proj1 H). split; [now constructor|cbn; lia].
    - apply sm_bind; [now apply sg_script|]. intros; prim.
    - apply sm_bind; [now apply sg_module|]. intros; prim.
    - apply sm_bind; [now apply sg_source|]. intros; prim.
    - apply sm_bind; [now apply sg_dist|]. intros; prim.
    - apply sm_bind; [|intros; prim]. unfold add_distribution_named. apply sm_bind; [prim|]. intros [d|] s1 _ L1; [apply sg_dist; oks|prim].
    - unfold import_module. sm_tac.
    - apply sm_bind; [prim|]. intros _ s1 _ L1. apply sm_bind; [apply sm_dm, dm_user_add_node; [oks|exact Ha]|]. intros; prim.
    - sm_tac.
    - sm_tac.
    - sm_tac.
    - sm_tac.
    - sm_tac.
    - sm_tac.
    - apply sm_bind; [|intros; prim]. intros r s' R. split; [exact R|]. unfold modify in R. injection R as <- <-.
      destruct (proj1 H). split; [now constructor|cbn; lia].
    - apply sm_bind; [|intros; prim]. apply sm_env; [apply total_del_sysmod|apply envm_del_sysmod|oks].
    - apply sm_bind; [|intros; prim]. apply sm_env; [apply total_ask|apply envm_ask|oks].
    - sm_tac.
  Qed.
End shallow.

(** ** All states without hooks *)

Lemma lazy_set_short D x i l : (forall y j, In (y, j) l -> short D j) -> short D i -> forall y j, In (y, j) (lazy_set x i l) -> short D j.
Proof.
  intros H Hi y j. unfold lazy_set. destruct (existsb _ _).
  - intros K. apply in_map_iff in K as ((a & b) & K1 & K2). cbn [fst] in K1. destruct (seqb a x); injection K1 as <- <-; [exact Hi|eapply H; exact K2].
  - intros K. apply in_app_iff in K as [K|[K|[]]]; [eapply H; exact K|]. injection K as <- <-. exact Hi.
Qed.
Lemma excludes_short D names : forall l, (forall y j, In (y, j) l -> short D j) -> forall y j, In (y, j) (add_excludes names l) -> short D j.
Proof.
  unfold add_excludes. induction names as [|x names IH]; intros l H; cbn [fold_left]; [exact H|]. apply IH. apply lazy_set_short; [exact H|]. intros t [].
Qed.
Lemma implies_short D imps : forall l, (forall x i, In (x, i) imps -> short D i) -> (forall y j, In (y, j) l -> short D j) -> forall y j, In (y, j) (add_implies imps l) -> short D j.
Proof.
  unfold add_implies. induction imps as [|[x i] imps IH]; intros l Hi H; cbn [fold_left fst snd]; [exact H|].
  assert (Hi' : forall x i, In (x, i) imps -> short D i) by (intros; eapply Hi; right; eassumption).
  assert (Q : forall y j, In (y, j) (lazy_set x i l) -> short D j) by (apply lazy_set_short; [exact H|]; eapply Hi; now left).
  apply IH; [exact Hi'|]. destruct (assoc x l) as [[]|]; auto.
Qed.
Lemma hookless_inv E D s : plain_finder E -> hookless E D s -> Inv D s.
Proof.
  intros HP. induction 1 as [implies H|s fuel a ans s' _ IH Ha Ht].
  - constructor; cbn [s_post s_missing s_lazy s_graph s_stack init]; auto.
    + apply implies_short; [exact H|]. intros y j [K|[]]. injection K as <- <-. intros t [].
    + intros n t [].
  - unfold top_call in Ht. destruct (call E (exec E fuel) a s) as [[[x|e] s1]|] eqn:Hc; try discriminate. injection Ht as <- <-.
    destruct (configures a) eqn:Hf.
    + destruct a; try discriminate Hf; unfold call, bind, attempt, do_action, modify, ret in Hc; injection Hc as <- <-; destruct IH.
      * constructor; cbn; auto. now apply excludes_short.
      * constructor; cbn; auto. now apply implies_short.
    + apply (sg_call E HP D (List.length (s_lazy s)) fuel a s Ha Hf (conj IH (le_n _))) in Hc. apply Hc.
Qed.

(** Whatever a program without hooks does: the calls of [_find_or_load_module] and
    of the work are nested no deeper than [depth] says. *)
Theorem C85_shallow E D L s a fuel ans s' : plain_finder E -> hookless E D s -> hookless_call D a -> List.length (s_lazy s) <= L ->
  top_call E fuel a s = Some (ans, s') -> shallow_call E D L fuel a s = Some (ans, s').
Proof.
  intros HP Hs Ha HL Ht. pose proof (hookless_inv E D s HP Hs) as I0. unfold top_call in Ht. unfold shallow_call.
  destruct (call E (exec E fuel) a s) as [[[x|e] s1]|] eqn:Hc; try discriminate. injection Ht as <- <-.
  destruct (configures a) eqn:Hf.
  - destruct a; try discriminate Hf; exact (f_equal (fun o => match o with Some (ROk ans, s') => Some (ans, s') | _ => None end) Hc).
  - apply (sg_call E HP D L fuel a s Ha Hf (conj I0 HL)) in Hc. destruct Hc as [-> _]. reflexivity.
Qed.

(** ** An example: many more modules than nested calls *)

Lemma plain_world w scripts files : forallb (fun x => match snd x with ESpec _ => false | _ => true end) w = true -> plain_finder (world w scripts files).
Proof.
  intros H t f name sp. cbn. destruct (assoc name w) as [e|] eqn:Ea; [|discriminate].
  assert (He : match e with ESpec _ => false | _ => true end = true).
  { apply assoc_In in Ea. rewrite forallb_forall in H. exact (H _ Ea). }
  destruct e; try discriminate He; intros K; try discriminate K; injection K as <-; now split.
Qed.
Definition link (k : nat) : string := repeat_char "m" k.
Definition chain (n : nat) : list (string * entry) :=
  map (fun k => (link (S k), ESource false [World.imp (link k)] [])) (seq 1 n)
  ++ [("m", ESource false [World.from "p" ["a"] 0; World.imp "old"] []);
      ("p", ESource true [] []); ("p.a", ESource false [World.from "p.b" ["z"] 0] []); ("new", EExtension)].
Definition deep_world : env := world (chain 60) [("main.py", [World.imp (link 61)])] [].
Definition deep_start : st := init [("old", ImpAlias "new")] [] [].

Definition deep_end : st := Eval vm_compute in match top_call deep_world 400 (AAddScript "main.py") deep_start with Some (_, s) => s | None => new end.
Lemma deep_hookless : hookless deep_world 1 deep_start.
Proof. apply hl_init. intros x i [H|[]]. injection H as <- <-. intros t [<-|[]]. vm_compute. constructor. Qed.
Lemma deep_ran : top_call deep_world 400 (AAddScript "main.py") deep_start = Some (AnsId "main.py", deep_end).
Proof. vm_compute. reflexivity. Qed.

(** A chain of 61 modules; the calls for each of them are nested at most 43 deep. *)
Example C85_nonvacuous :
  plain_finder deep_world /\ hookless deep_world 1 deep_start /\ hookless_call 1 (AAddScript "main.py")
  /\ top_call deep_world 400 (AAddScript "main.py") deep_start = Some (AnsId "main.py", deep_end)
  /\ shallow_call deep_world 1 2 400 (AAddScript "main.py") deep_start = Some (AnsId "main.py", deep_end)
  /\ List.length (g_nodes (s_graph deep_end)) = 67
  /\ In ("old", "new") (edge_pairs deep_end) /\ In ("p.a", "p") (edge_pairs deep_end)
  /\ depth 1 2 (DoImport (link 61) (IInfo (IName (link 60) None) 0 [] false false false false)) = 43.
Proof.
  split; [now apply plain_world|]. split; [exact deep_hookless|]. split; [exact I|]. split; [exact deep_ran|]. split.
  - apply (C85_shallow deep_world 1 2); [now apply plain_world|exact deep_hookless|exact I|cbn; lia|exact deep_ran].
  - split; [vm_compute; reflexivity|]. split; [vm_compute; repeat (try (left; reflexivity); right)|].
    split; [vm_compute; repeat (try (left; reflexivity); right)|reflexivity].
Qed.

Print Assumptions C85_shallow.
