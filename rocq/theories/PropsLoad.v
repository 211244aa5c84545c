(** C75: the modules that a program can load are in the graph. *)
From Verif Require Import ReportSpec BuilderSource BuilderHist BuilderInv BuilderCalls World PropsBuilder PropsSource PropsReach BuilderSame PropsSame LoadSpec.
Open Scope string_scope.

(** ** No SyntaxError comes from bytecode *)

Definition calm {A} (r : result A) : Prop := r <> RErr ESyntax.
Lemma calm_bind {A B} (r : result A) (f : A -> result B) : calm r -> (forall a, calm (f a)) -> calm (rbind r f).
Proof. unfold calm. destruct r as [a|e]; cbn; [auto|]. congruence. Qed.
Lemma calm_or {A} (o : option A) e : e <> ESyntax -> calm (or_err o e).
Proof. unfold calm. destruct o; cbn; congruence. Qed.
Lemma calm_ok {A} (a : A) : calm (ROk a).
Proof. discriminate. Qed.
Ltac calmly := repeat first
  [ apply calm_ok | apply calm_or; discriminate | apply calm_bind; [|intros] | discriminate
  | match goal with |- calm (match ?x with _ => _ end) => destruct x end | match goal with |- calm (let '_ := ?x in _) => destruct x end].
Lemma calm_step v c fn cls off i acc : calm (single_step v c fn cls off i acc).
Proof. unfold single_step, decode_import, decode_function, name_arg, global_arg, op_back. calmly. Qed.
Lemma calm_loop v c fn cls l : forall off acc, calm (single_loop v c fn cls off l acc).
Proof. induction l as [|i l IH]; intros off acc; cbn; [apply calm_ok|]. apply calm_bind; [apply calm_step|]. intros a. apply IH. Qed.
Lemma calm_info v l : forall acc, calm (info_loop v l acc).
Proof.
  induction l as [|[c ps] l IH]; intros acc; cbn; [apply calm_ok|]. destruct acc. apply calm_bind; [apply calm_loop|]. intros []. apply IH.
Qed.
Lemma no_syntax_error v c : extract_bytecode_info v c <> Some (RErr ESyntax).
Proof.
  unfold extract_bytecode_info. destruct (all_code_objects c) as [l|]; [|discriminate]. intros H. injection H as H.
  pose proof (calm_info v l found0) as K. destruct (info_loop v l found0); [discriminate|]. injection H as ->. now apply K.
Qed.

(** ** The node of a module that can be loaded *)

Lemma wrap_pkg E sp b src mk n l s n' l' s' : n_kind n = Module mk ->
  wrap_package E sp b src mk n l s = Some (ROk (n', l'), s') ->
  l' = l /\ sp_ispkg sp = ROk (is_package (n_kind n')) /\ is_nspkg (n_kind n') = false.
Proof.
  unfold wrap_package. intros Hk H. apply ok_bind in H as (p & s1 & H1 & H).
  assert (Hp : sp_ispkg sp = ROk p) by (unfold of_result in H1; destruct (sp_ispkg sp); [injection H1 as <- <-; reflexivity|discriminate]).
  destruct p; cbn [negb] in H.
  2:{ injection H as <- <- <-. rewrite Hk. now split. }
  apply ok_bind in H as (search & s2 & _ & H). destruct search; [|discriminate].
  apply ok_bind in H as (d & s3 & _ & H). injection H as <- <- <-. cbn. now split.
Qed.
Lemma nfs_pkg E k sp s n l s' : direct (sp_loader sp) = true -> ~ unreadable sp -> f_nfs (exec E k) sp s = Some (ROk (n, l), s') ->
  node_is_pkg n = spec_pkg sp.
Proof.
  intros Hd Hu H. destruct k as [|k]; [discriminate|]. cbn [exec f_nfs] in H. unfold nfs_body in H. unfold node_is_pkg, spec_pkg.
  destruct (sp_loader sp) as [| | | |frozen gs gc| |[[root vendor]|]| |] eqn:El; try discriminate Hd; try discriminate H.
  - destruct (sp_search sp); [|discriminate]. injection H as <- <- <-. reflexivity.
  - destruct (sp_search sp); [|discriminate]. injection H as <- <- <-. reflexivity.
  - apply wrap_pkg in H as (_ & -> & ->); [|reflexivity]. now rewrite orb_false_r.
  - apply ok_bind in H as (d & s1 & _ & H). apply wrap_pkg in H as (_ & -> & ->); [|reflexivity]. now rewrite orb_false_r.
  - destruct gs as [source|e].
    2:{ destruct e; try discriminate. elim Hu. now exists frozen, gc. }
    apply ok_bind in H as (si & s1 & H1 & H). apply ok_bind in H as (ci & s2 & H2 & H). apply ok_bind in H as (d & s3 & _ & H).
    destruct (match ci with Some x => x | None => ([], [], []) end) as [[bi wr] rd].
    apply wrap_pkg in H as (_ & -> & ->); [|reflexivity]. now rewrite orb_false_r.
Qed.

Lemma spec_real name k : spec_kind name k -> real k = true.
Proof. destruct k; cbn; easy. Qed.

Section program.
  Variable E : env.
  Variable find : string -> option spec.
  Variables implies conf : list (string * implied).
  Hypothesis HE : order_ok E.
  Hypothesis HO : set_order (e_names_order E).
  Hypothesis HP : compiled_env E.
  Hypothesis HS : steady E find.
  Hypothesis HC : forall x i, assoc x conf = Some i -> starts_with "." x = false.
  Context {DS : dist -> Prop}.
  Variable s : st.
  Hypothesis HX : dsession E DS implies conf s.
  Let W : JW E find conf DS s := one_JW E find implies conf HE HS HC s HX.
  Notation g := (s_graph s).

  (** The statements that the builder extracts are those of the code. *)
  Lemma nfs_code name sp k s1 n l s2 T : find name = Some sp -> f_nfs (exec E k) sp s1 = Some (ROk (n, l), s2) ->
    module_says E find name T -> covers T l.
  Proof.
    intros Hf H HT. destruct k as [|k]; [discriminate|]. cbn [exec f_nfs] in H. unfold nfs_body in H.
    destruct HT as [sp' frozen text code file t tree A B C D|sp' frozen src c A B C]; assert (sp' = sp) as -> by congruence; rewrite B in H.
    - apply ok_bind in H as (si & s3 & H1 & H). apply ok_bind in H as (ci & s4 & H2 & H). apply ok_bind in H as (d & s5 & _ & H).
      apply source_imports_spec in H1 as [[K _]|(text' & file' & t' & K1 & K2 & K3)]; [discriminate|].
      injection K1 as <-. assert (file' = file) as -> by congruence. rewrite (sy_parse _ _ HS t' t) in K3.
      destruct K3 as [[_ K3]|(tree' & l' & K3 & K4 & ->)]; [congruence|]. rewrite D in K3. injection K3 as <-.
      destruct (match ci with Some x => x | None => ([], [], []) end) as [[bi wr] rd].
      apply wrap_pkg in H as (-> & _); [|reflexivity]. eapply tree_covers; eassumption.
    - apply ok_bind in H as (si & s3 & H1 & H). apply ok_bind in H as (ci & s4 & H2 & H). apply ok_bind in H as (d & s5 & _ & H).
      apply code_info_spec in H2 as [[_ [K|(c' & _ & K)]]|(c' & [[bi wr] rd] & K1 & K2 & ->)]; [discriminate|now apply no_syntax_error in K|].
      injection K1 as <-.
      assert (Hl : match si with inr (Some l0) => l0 | _ => bi end = bi).
      { apply source_imports_spec in H1 as [[_ ->]|(text & file & t & K1 & K3 & K4)]; [reflexivity|].
        destruct C as [->|(text' & file' & t' & C1 & C2 & C3)]; [discriminate|]. rewrite K1 in C1. injection C1 as <-.
        assert (file' = file) as -> by congruence. rewrite (sy_parse _ _ HS t t') in K4.
        destruct K4 as [[-> _]|(tree & l' & K4 & _)]; [reflexivity|congruence]. }
      rewrite Hl in H. apply wrap_pkg in H as (-> & _); [|reflexivity]. eapply code_covers; [|exact K2].
      eapply HP; [|exact B]. exists 0, [], name. apply (sy_some _ _ HS). exact Hf.
  Qed.

  Lemma can_birth t nd : can_import find conf t -> gfind g t = Some nd -> modular s t ->
    exists sp n0 l k s1 s2, find t = Some sp /\ f_nfs (exec E k) sp s1 = Some (ROk (n0, l), s2) /\ same_node n0 nd
      /\ In (EvAdd t l) (s_log s).
  Proof.
    intros H. revert nd. induction H as [t sp A1 A2 A3 A4 A5 IH]. intros nd Hn Hk.
    destruct (j_nodes _ _ _ _ _ (w_inv _ _ _ _ _ W) _ _ Hn) as (n0 & l & Ha & B & S).
    destruct B as [t0 tree l A B|d0 A B|A|c k A B C D|i k A B C|A B C|sp' n0 l k s1 s2 A B C D].
    - elim (proj1 Hk). unfold kind_of. rewrite Hn. cbn. now destruct S as (_ & -> & _).
    - elim (proj2 Hk). unfold kind_of. rewrite Hn. cbn. now destruct S as (_ & -> & _).
    - congruence.
    - exfalso. unfold kind_of in C. destruct (gfind g c) as [nc|] eqn:Ec; [|discriminate]. injection C as C.
      destruct (IH c B nc Ec) as (sp' & n1 & l1 & k1 & t1 & t2 & K1 & K2 & K3 & _).
      { unfold modular, kind_of. rewrite Ec. cbn. rewrite C. split; intros K; injection K as ->; discriminate. }
      apply (nfs_kind E) in K2 as [_ K2]; [|eapply sy_direct; eassumption]. destruct K3 as (_ & K3 & _). rewrite <- K3, C in K2.
      destruct k; try destruct K2; discriminate.
    - exfalso. destruct (A4 i B) as (refs & ->). discriminate.
    - congruence.
    - exists sp', n0, l, k, s1, s2. split; [exact C|]. split; [exact D|]. split; [exact S|].
      destruct Ha as [Ha|Ha]; [exact Ha|]. elim (proj2 Hk). unfold kind_of. rewrite Hn. cbn. destruct S as (_ & -> & _). now rewrite Ha.
  Qed.

  Lemma can_real t nd : can_import find conf t -> gfind g t = Some nd -> modular s t -> real (n_kind nd) = true.
  Proof.
    intros A B C. destruct (can_birth t nd A B C) as (sp & n0 & l & k & s1 & s2 & K1 & K2 & K3 & _).
    apply (nfs_kind E) in K2 as [_ K2]; [|eapply sy_direct; eassumption]. destruct K3 as (_ & -> & _). eapply spec_real, K2.
  Qed.

  Variable start : program.
  Hypothesis HB : begun_with s start.
  Hypothesis HN : forall a f d, has_edge g a f d -> modular s f.
  Hypothesis HT : tidy s.
  Hypothesis HA : names_apart find conf s.
  Hypothesis HL : forall m x id, left_over s m x id -> ~ leads g (started start) id.

  Lemma within_dots t m : within t m -> starts_with "." t = starts_with "." m.
  Proof. induction 1 as [m|c p m A B IH]; [reflexivity|]. rewrite IH. now apply child_dots. Qed.

  (** Led to a node, one is led to the packages that it is in. *)
  Lemma up_edge m c : in_graph s m -> leads g (started start) m -> modular s m -> starts_with "." m = false ->
    child_of c m -> has_edge g m c (Dep false true false None).
  Proof.
    intros A B C D Hc. destruct (w_nodes _ _ _ _ _ W m A) as [[K|K]|[K|[K|(_ & m' & y & nd & K1 & K2 & K3)]]].
    - now elim (proj1 C).
    - elim (proj2 C). now apply dist_paid_kind.
    - destruct K. congruence.
    - destruct (pd_parent _ _ _ K) as [K1|K1]; [discriminate|now apply K1].
    - destruct K3 as [K3|K3]; [now elim (HL _ _ _ K3)|].
      destruct HT as [T1 T2]. destruct K1 as (n & i & nm & L1 & L2 & L3 & L4 & L5). subst y.
      rewrite K2 in Hc. rewrite (child_plainly c m' (in_name nm)); [exact K3| | |exact Hc].
      + eapply T1; eassumption.
      + eapply T2; eassumption.
  Qed.
  Definition hit (t : string) : Prop := in_graph s t /\ modular s t /\ leads g (started start) t.
  Lemma edge_hit a t d : leads g (started start) a -> has_edge g a t d -> hit t.
  Proof.
    intros A B. split; [now apply (one_ends E implies conf HE s HX _ _ _ B)|]. split; [eapply HN; exact B|eapply le_edge; eassumption].
  Qed.
  Lemma up_all t m : within t m -> hit m -> starts_with "." m = false -> hit t.
  Proof.
    induction 1 as [m|c p m Hp Hc IH]; intros H C; [exact H|]. destruct H as (A & D & B).
    pose proof (up_edge m p A B D C Hp) as He. apply IH.
    - eapply edge_hit; eassumption.
    - now rewrite (child_dots _ _ Hp).
  Qed.

  (** What a statement of a node that one is led to asks for. *)
  Lemma request_covered n nd l T fn opt w m : gfind g n = Some nd -> leads g (started start) n -> In (EvAdd n l) (s_log s) ->
    covers T l -> T fn opt w -> requests find conf n (node_is_pkg nd) w m ->
    forall t, within t m -> can_import find conf t -> hit t.
  Proof.
    intros Hn Hl Ha HT' Hw Hr. destruct (proj1 HT' fn opt w Hw) as (i & Hi & Hrec).
    pose proof (gfind_name _ _ _ Hn) as En.
    assert (Aim : forall m', mentions n (node_is_pkg nd) w m' -> aims s n i m' /\ has_edge g n m' (import_dep i)).
    { intros m' Hm. assert (A : aims s n i m').
      { exists (node_is_pkg nd). split; [rewrite <- En; apply own_pkg; now rewrite En|].
        rewrite <- En in Hm |- *. apply (recorded_names s nd fn opt w i m' Hrec); [now rewrite En|exact Hm]. }
      split; [exact A|]. eapply (one_aims E implies conf HE s HX); eassumption. }
    assert (Mod : forall m' t, mentions n (node_is_pkg nd) w m' -> within t m' -> can_import find conf t -> hit t).
    { intros m' t Hm Ht Hc. destruct (Aim m' Hm) as [_ He]. apply (up_all t m' Ht).
      - eapply edge_hit; eassumption.
      - rewrite <- (within_dots t m' Ht). now destruct Hc. }
    intros t Ht Hc. destruct Hr as [m Hm|m sp x Hm C1 C2 C3 C4 C5 C6]; [eauto|].
    destruct (Aim m Hm) as [A He]. destruct (one_ends E implies conf HE s HX _ _ _ He) as [_ Im].
    destruct (gfind g m) as [nm|] eqn:Em; [|now elim Im].
    pose proof (HN _ _ _ He) as Km.
    destruct (can_birth m nm C1 Em Km) as (sp' & n0 & l0 & k & s1 & s2 & B1 & B2 & B3 & _).
    assert (sp' = sp) as -> by congruence.
    assert (Pm : node_is_pkg nm = true).
    { rewrite <- C3, <- (nfs_pkg E k sp s1 n0 l0 s2); [|eapply sy_direct; eassumption| |exact B2].
      - unfold node_is_pkg. destruct B3 as (_ & <- & _). reflexivity.
      - destruct C1 as [m sp' D1 D2 _ _ _]. assert (sp' = sp) as -> by congruence. exact D2. }
    assert (Nm : has_names (n_kind nm) = true) by (unfold has_names; unfold node_is_pkg in Pm; now rewrite Pm).
    assert (Dm : lstrip dot m <> "") by (eapply (proj2 HT); eassumption).
    remember (m ++ "." ++ x) as mx eqn:Emx. destruct Ht as [mx|t p mx Hp Ht]; subst mx.
    2:{ rewrite (child_plainly p m x C5 Dm Hp) in Ht. eauto. }
    assert (Wn : exists y, In y (ii_names i) /\ in_name y = x /\ ii_star i = false).
    { destruct Hrec as (R1 & _). destruct w as [n' a|mo names lv]; [destruct C4|]. cbn [w_names] in *.
      destruct R1 as (_ & _ & R3 & _ & R5 & _). assert (K : In x (map in_name (ii_names i))).
      { apply R3. split; [|exact C4]. intros ->. now apply C6. }
      apply in_map_iff in K as (y & K1 & K2). exists y. split; [exact K2|]. split; [exact K1|].
      destruct (ii_star i); [|reflexivity]. elim C6. now apply R5. }
    destruct Wn as (y & Y1 & <- & Y3).
    assert (Go : forall d, has_edge g n (m ++ "." ++ in_name y) d -> hit (m ++ "." ++ in_name y)) by (intros d; now apply edge_hit).
    assert (No : BuilderSame.names_of s n i m nm).
    { exists m. split; [exact A|]. split; [now left|]. now repeat split. }
    destruct (one_names E implies conf HE s HX n l i m nm y Ha Hi No Y1)
      as [(z & t & K1 & K2 & K3 & K4)|[(k' & K1)|[(t & K1 & K2 & K3)|[(z & t & K1 & K2 & K3 & K4 & K5)|(b' & k' & f & ty & x & t & K1 & _)]]]].
    - assert (z = nm) as -> by congruence. rewrite (HA m nm (in_name y) t Em K2 Hc K3) in K4. eauto.
    - unfold kind_of in K1. rewrite Em in K1. injection K1 as K1. unfold node_is_pkg in Pm. rewrite K1 in Pm. discriminate.
    - apply (one_resolves E implies conf HE s HX) in K1. subst t. eauto.
    - exfalso. apply (one_resolves E implies conf HE s HX) in K4. subst t. unfold kind_of in K5.
      destruct (gfind g (m ++ "." ++ in_name y)) as [u|] eqn:Eu; [|discriminate]. injection K5 as K5.
      assert (R : real (n_kind u) = true); [|rewrite K5 in R; discriminate].
      apply (can_real _ u Hc Eu). unfold modular, kind_of. rewrite Eu. cbn. rewrite K5. split; discriminate.
    - unfold kind_of in K1. rewrite Em in K1. injection K1 as K1.
      pose proof (no_six _ _ _ HS _ _ _ _ _ _ _ _ _ (w_inv _ _ _ _ _ W) Em K1) as N. discriminate N.
  Qed.

  Lemma asked_covered m : asks E find conf start m -> forall t, within t m -> can_import find conf t -> hit t.
  Proof.
    induction 1 as [name H1|f t0 tree fn opt w m H1 H2 H3 H4 H5|name n sp T fn opt w m H1 IH H2 H3 H4 H5 H6 H7]; intros t Ht Hc.
    - apply (up_all t name Ht); [|rewrite <- (within_dots t name Ht); now destruct Hc]. pose proof HB as B. rewrite H1 in B. destruct B as [B B'].
      split; [exact B|]. split; [exact B'|]. rewrite H1. apply le_self.
    - pose proof HB as B. rewrite H1 in B. cbn in B. unfold kind_of in B. destruct (gfind g f) as [nd|] eqn:Ef; [|discriminate].
      injection B as B. destruct (j_nodes _ _ _ _ _ (w_inv _ _ _ _ _ W) _ _ Ef) as (n0 & l & Ha & Hb & S).
      assert (Hk0 : n_kind n0 = Script) by (destruct S as (_ & S & _); congruence).
      destruct (birth_kind E find HS _ _ _ _ _ _ Hb Hk0) as (t1 & tree' & A1 & A2 & _).
      rewrite (sy_script _ _ HS t1 t0 f), H2 in A1. injection A1 as <-.
      destruct Ha as [Ha|Ha]; [|congruence].
      assert (P : node_is_pkg nd = false) by (unfold node_is_pkg; now rewrite B).
      apply (request_covered f nd l (tree_says tree) fn opt w m Ef); auto.
      + rewrite H1. apply le_self.
      + eapply tree_covers; eassumption.
      + now rewrite P.
    - destruct (IH n H2 H3) as (I & Kn & L). destruct (gfind g n) as [nd|] eqn:En; [|now elim I].
      destruct (can_birth n nd H3 En Kn) as (sp' & n0 & l0 & k & s1 & s2 & B1 & B2 & B3 & B4).
      assert (sp' = sp) as -> by congruence.
      assert (P : node_is_pkg nd = spec_pkg sp).
      { rewrite <- (nfs_pkg E k sp s1 n0 l0 s2); [|eapply sy_direct; eassumption| |exact B2].
        - unfold node_is_pkg. destruct B3 as (_ & <- & _). reflexivity.
        - destruct H3 as [n sp' D1 D2 _ _ _]. assert (sp' = sp) as -> by congruence. exact D2. }
      apply (request_covered n nd l0 T fn opt w m En); auto.
      + eapply nfs_code; eassumption.
      + now rewrite P.
  Qed.

  Lemma loads_covered t : loads E find conf start t -> covered s start t.
  Proof.
    intros (m & A & B & C). destruct (asked_covered m A t B C) as (D & K & L). split; [|exact L].
    destruct (gfind g t) as [nd|] eqn:En; [|now elim D]. exists nd. split; [reflexivity|]. exact (can_real t nd C En K).
  Qed.
End program.

(** ** The property *)

(** An environment in which programs run. *)
Record running (E : env) (find : string -> option spec) (conf : list (string * implied)) : Prop := {
  ru_order : order_ok E;
  ru_names : set_order (e_names_order E);
  ru_code : compiled_env E;
  ru_find : steady E find;
  ru_conf : forall x i, assoc x conf = Some i -> starts_with "." x = false
}.

(** Whatever a program can load, the graph that was made for it has it. *)
Definition C75_statement : Prop := forall E find DS implies conf s p t, running E find conf -> dsession E DS implies conf s ->
  begun_with s p -> loads E find conf p t -> covered s p t.

(** Package q does "import json as name" under a condition, and there is a module
    q.name; "from q import name" in the script loads that when the condition does not
    hold. *)
Definition cond_modules : list (string * entry) :=
  [("q", ESource true [AIf [AImport [("json", Some "name")]]] ["name"]); ("q.name", ESource false [] []); ("json", ESource false [] [])].
Definition cond_world : env := world cond_modules [("main.py", [World.from "q" ["name"] 0])] [].
Definition cond_state : st := Eval vm_compute in snd (the_calls cond_world [AAddScript "main.py"] new).
Definition plain_conf : list (string * implied) := [("__main__", ImpNone)].

Lemma world_running w scripts files conf : forallb (fun p => simple_entry (snd p)) w = true -> assoc "@@SIX_MOVES@@" w = None ->
  forallb (fun p => negb (starts_with "." (fst p))) conf = true -> running (world w scripts files) (found_in w) conf.
Proof.
  intros A B C. constructor.
  - apply world_order.
  - intros l. cbn. apply Permutation.Permutation_refl.
  - apply world_compiled. intros n sp fz src c H _. rewrite forallb_forall in A. apply A in H. discriminate.
  - now apply world_steady.
  - intros x i H. apply assoc_In in H. rewrite forallb_forall in C. apply C in H. now apply negb_true_iff in H.
Qed.

(** What can be imported in such a world. *)
Definition usable_b (conf : list (string * implied)) (w : list (string * entry)) (name : string) : bool :=
  match found_in w name with
  | Some sp => match sp_loader sp with LInspect _ (RErr ESyntax) _ => false | _ => true end
  | None => false
  end && negb (starts_with "." name) && match assoc name conf with None | Some (ImpRefs _) => true | _ => false end.
Lemma usable conf w name : usable_b conf w name = true -> (forall p, child_of p name -> can_import (found_in w) conf p) ->
  can_import (found_in w) conf name.
Proof.
  intros H HP. apply andb_true_iff in H as [H H3]. apply andb_true_iff in H as [H1 H2]. destruct (found_in w name) as [sp|] eqn:Es; [|discriminate].
  apply (can_intro _ _ _ sp); [exact Es| |now apply negb_true_iff| |exact HP].
  - intros (fz & c & K). rewrite K in H1. discriminate.
  - intros i Hi. rewrite Hi in H3. destruct i; try discriminate. eauto.
Qed.
Lemma can_top conf w name : usable_b conf w name = true -> dotless name -> can_import (found_in w) conf name.
Proof.
  intros H D. apply usable; [exact H|]. intros p Hp. exfalso. unfold dotless in D. destruct Hp as [x _ _|k x -> _].
  - rewrite has_char_app in D. cbn in D. now rewrite orb_true_r in D.
  - discriminate D.
Qed.
Lemma can_sub conf w m x : usable_b conf w (m ++ "." ++ x) = true -> dotless x -> lstrip dot m <> "" -> can_import (found_in w) conf m ->
  can_import (found_in w) conf (m ++ "." ++ x).
Proof. intros H D L C. apply usable; [exact H|]. intros p Hp. now rewrite (child_plainly p m x D L Hp). Qed.

Theorem C75_refuted : ~ C75_statement.
Proof.
  intros H. destruct (H cond_world (found_in cond_modules) (fun _ => False) [] plain_conf cond_state (RunScript "main.py") "q.name") as [(n & K & _) _].
  - now apply world_running.
  - eapply (calls_session _ _ _ 60 [AAddScript "main.py"]); [apply se_open; [apply op_init|reflexivity]|reflexivity|vm_compute; reflexivity|reflexivity].
  - reflexivity.
  - assert (Q : can_import (found_in cond_modules) plain_conf "q") by now apply can_top.
    exists "q.name". split; [|split; [apply wi_self|now apply (can_sub _ _ "q" "name")]].
    eapply (ak_script _ _ _ _ "main.py" 0 (AOther [World.from "q" ["name"] 0]) false false (WFrom (Some "q") [("name", None)] 0));
      [reflexivity|reflexivity| |reflexivity|].
    + exists [KOther]. split; [now left|]. split; [split; [discriminate|intros [K|[]]; discriminate]|].
      split; [discriminate|intros [[K|[]]|[[K|[]]|[K|[]]]]; discriminate].
    + eapply (rq_name _ _ _ _ _ "q" _ "name"); [now apply mentions_absolute|exact Q|reflexivity|reflexivity|now left|reflexivity|].
      intros [K|[]]. discriminate.
  - discriminate K.
Qed.

(** All of them are there, with the class that they have, and following edges from
    the start of the program leads to them, unless a package imports something else
    under the name of a submodule. *)
Theorem C75_partial : forall E find DS implies conf s p t, running E find conf -> dsession E DS implies conf s ->
  begun_with s p -> orderly find conf s p -> loads E find conf p t -> covered s p t.
Proof.
  intros E find DS implies conf s p t [A B C D F] HX HB [T1 T2 T3 T4] HL. eapply loads_covered; eassumption.
Qed.

Lemma leads_reaches g a b : In a (g_roots g) -> leads g a b -> reaches g b.
Proof.
  intros H. induction 1 as [|b c d _ IH (ds & He & _)]; [now apply re_root|]. eapply re_edge; eassumption.
Qed.
(** So they are part of what is reported. *)
Corollary C75_reported_partial : forall E find DS implies conf s p t, running E find conf -> dsession E DS implies conf s ->
  begun_with s p -> In (started p) (g_roots (s_graph s)) -> orderly find conf s p -> loads E find conf p t ->
  exists n, gfind (s_graph s) t = Some n /\ reachable (s_graph s) n.
Proof.
  intros E find DS implies conf s p t HR HX HB Hr HO HL. destruct (C75_partial _ _ _ _ _ _ _ _ HR HX HB HO HL) as [(n & A & _) B].
  exists n. split; [exact A|]. pose proof (gfind_name _ _ _ A) as En. split; [now apply gfind_in in A as [A _]|].
  rewrite En. eapply leads_reaches; eassumption.
Qed.

(** Script main.py of the world of C66: os is imported by q.sub, a submodule that is
    named in a from list; q.core by q, relative to itself. *)
Example C75_nonvacuous :
  running pair_world (found_in pair_modules) pair_conf /\ session pair_world pair_implies pair_conf pair_1
  /\ begun_with pair_1 (RunScript "main.py") /\ orderly (found_in pair_modules) pair_conf pair_1 (RunScript "main.py")
  /\ loads pair_world (found_in pair_modules) pair_conf (RunScript "main.py") "os"
  /\ loads pair_world (found_in pair_modules) pair_conf (RunScript "main.py") "q.core"
  /\ In "main.py" (g_roots (s_graph pair_1)) /\ left_over pair_1 "q" "name" "q.name".
Proof.
  split; [now apply world_running|]. split; [exact pair_first|]. split; [reflexivity|]. split.
  { pose proof C66_nonvacuous as (_ & [T1 _ T3 _] & _). constructor.
    - exact T1.
    - intros m nd x t A B C K. exfalso. apply provides_bool in K. apply gfind_in in A as [A <-]. vm_compute in A.
      repeat (destruct A as [<-|A]; [cbn in B; repeat (destruct B as [<-|B]; [first [vm_compute in K; discriminate K|inversion C as [? ? C1]; discriminate C1]|]); destruct B|]). destruct A.
    - intros m x id L K. apply (T3 m x id L). eapply leads_reaches; [|exact K]. now left.
    - intros a f d (ds & K & _). vm_compute in K.
      repeat (destruct K as [K|K]; [injection K as <- <- <-; vm_compute; split; discriminate|]). destruct K. }
  assert (Q : can_import (found_in pair_modules) pair_conf "q") by now apply can_top.
  assert (S : can_import (found_in pair_modules) pair_conf "q.sub") by now apply (can_sub _ _ "q" "sub").
  split; [|split; [|split; [now left|exact (proj1 (proj2 (proj2 (proj2 (proj2 (proj2 C66_nonvacuous))))))]]].
  - exists "os". split; [|split; [apply wi_self|now apply can_top]].
    eapply (ak_module _ _ _ _ "q.sub" "q.sub" _ _ false false (WImport "os" None)); [|apply wi_self|exact S|reflexivity| | |].
    + eapply (ak_script _ _ _ _ "main.py" 0 _ false false (WFrom (Some "q") [("name", None); ("sub", None); ("nowhere", None)] 0)); [reflexivity|reflexivity| |reflexivity|].
      * exists [KOther]. split; [now left|]. split; [split; [discriminate|intros [K|[]]; discriminate]|].
        split; [discriminate|intros [[K|[]]|[[K|[]]|[K|[]]]]; discriminate].
      * eapply (rq_name _ _ _ _ _ "q" _ "sub"); [now apply mentions_absolute|exact Q|reflexivity|reflexivity|right; now left|reflexivity|].
        intros [K|[K|[K|[]]]]; discriminate.
    + eapply (cd_source _ _ _ _ _ _ _ _ 0); reflexivity.
    + exists [KOther]. split; [now left|]. split; [split; [discriminate|intros [K|[]]; discriminate]|].
      split; [discriminate|intros [[K|[]]|[[K|[]]|[K|[]]]]; discriminate].
    + apply rq_module. now apply mentions_absolute.
  - exists "q.core". split; [|split; [apply wi_self|now apply (can_sub _ _ "q" "core")]].
    eapply (ak_module _ _ _ _ "q" "q" _ _ false false (WFrom (Some "core") [("helper", None)] 1)); [|apply wi_self|exact Q|reflexivity| | |].
    + eapply (ak_script _ _ _ _ "main.py" 0 _ false false (WFrom (Some "q") [("name", None); ("sub", None); ("nowhere", None)] 0)); [reflexivity|reflexivity| |reflexivity|].
      * exists [KOther]. split; [now left|]. split; [split; [discriminate|intros [K|[]]; discriminate]|].
        split; [discriminate|intros [[K|[]]|[[K|[]]|[K|[]]]]; discriminate].
      * apply rq_module. now apply mentions_absolute.
    + eapply (cd_source _ _ _ _ _ _ _ _ 0); reflexivity.
    + exists [KOther]. split; [now left|]. split; [split; [discriminate|intros [K|[]]; discriminate]|].
      split; [discriminate|intros [[K|[]]|[[K|[]]|[K|[]]]]; discriminate].
    + apply rq_module. apply (mentions_relative "q" true (WFrom (Some "core") [("helper", None)] 1) "q"); [discriminate|apply up_0|discriminate].
Qed.

Print Assumptions C75_refuted.
Print Assumptions C75_partial.
Print Assumptions C75_reported_partial.
