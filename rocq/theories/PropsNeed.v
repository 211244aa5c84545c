(** C76: the graph has no other modules than those asked for. *)
From Verif Require Import ReportSpec BuilderSource BuilderHist BuilderInv BuilderCalls BuilderAttr World PropsBuilder PropsSource PropsReach BuilderSame PropsSame PropsLoad NeedSpec.
Open Scope string_scope.

Lemma wrap_tool E sp b src mk n l s n' l' s' x i k f ty : n_kind n = Module mk ->
  wrap_package E sp b src mk n l s = Some (ROk (n', l'), s') -> n_kind n' = Package x i k f (Some ty) ->
  (ty = "pkgutil" \/ ty = "pkg_resources") /\ exists text, src = Some text /\ occurs ty text.
Proof.
  unfold wrap_package. intros Hk H K. apply ok_bind in H as (p & s1 & H1 & H). destruct p; cbn [negb] in H.
  2:{ injection H as <- <- <-. congruence. }
  apply ok_bind in H as (search & s2 & _ & H). destruct search; [|discriminate].
  apply ok_bind in H as (d & s3 & _ & H). injection H as <- <- <-. cbn [n_kind] in K. injection K as _ _ _ _ K.
  destruct src as [text|]; [|discriminate]. cbn [andb] in K. destruct (memb _ _); [|discriminate]. cbn [andb] in K.
  destruct (has_sub "pkg_resources" text) eqn:E1; cbn [orb] in K.
  - injection K as <-. split; [now right|]. exists text. split; [reflexivity|]. now apply has_sub_occurs.
  - destruct (has_sub "pkgutil" text) eqn:E2; [|discriminate]. injection K as <-. split; [now left|]. exists text.
    split; [reflexivity|]. now apply has_sub_occurs.
Qed.
Lemma nfs_tool E j sp s n l s' x i k f ty : direct (sp_loader sp) = true -> f_nfs (exec E j) sp s = Some (ROk (n, l), s') ->
  n_kind n = Package x i k f (Some ty) ->
  (ty = "pkgutil" \/ ty = "pkg_resources") /\ exists frozen text code, sp_loader sp = LInspect frozen (ROk (Some text)) code /\ occurs ty text.
Proof.
  intros Hd H K. destruct j as [|j]; [discriminate|]. cbn [exec f_nfs] in H. unfold nfs_body in H.
  destruct (sp_loader sp) as [| | | |frozen gs gc| |[[root vendor]|]| |] eqn:El; try discriminate Hd; try discriminate H.
  - destruct (sp_search sp); [|discriminate]. injection H as <- <- <-. discriminate K.
  - destruct (sp_search sp); [|discriminate]. injection H as <- <- <-. discriminate K.
  - eapply wrap_tool in H as (_ & t & C & _); [discriminate C|reflexivity|exact K].
  - apply ok_bind in H as (d & s1 & _ & H). eapply wrap_tool in H as (_ & t & C & _); [discriminate C|reflexivity|exact K].
  - destruct gs as [source|e].
    2:{ destruct e; try discriminate. apply ok_bind in H as (d & s1 & _ & H). injection H as <- <- <-. discriminate K. }
    apply ok_bind in H as (si & s1 & H1 & H). apply ok_bind in H as (ci & s2 & H2 & H). apply ok_bind in H as (d & s3 & _ & H).
    destruct (match ci with Some x => x | None => ([], [], []) end) as [[bi wr] rd].
    eapply wrap_tool in H as (A & t & -> & B); [|reflexivity|exact K]. split; [exact A|]. now exists frozen, t, gc.
Qed.
(** Only what can be decoded has statements, or is a package. *)
Lemma nfs_unreadable E j sp s n l s' : unreadable sp -> f_nfs (exec E j) sp s = Some (ROk (n, l), s') -> l = [] /\ node_is_pkg n = false.
Proof.
  intros (fz & c & El) H. destruct j as [|j]; [discriminate|]. cbn [exec f_nfs] in H. unfold nfs_body in H. rewrite El in H.
  apply ok_bind in H as (d & s1 & _ & H). injection H as <- <- <-. now split.
Qed.

Section program.
  Variable E : env.
  Variable find : string -> option spec.
  Variables implies conf : list (string * implied).
  Hypothesis HE : order_ok E.
  Hypothesis HO : set_order (e_names_order E).
  Hypothesis HP : compiled_env E.
  Hypothesis HS : steady E find.
  Hypothesis HC : forall x i, assoc x conf = Some i -> starts_with "." x = false.
  Context {DS : dist -> Prop}.
  Variable s : st.
  Hypothesis HX : dsession E DS implies conf s.
  Let W : JW E find conf DS s := one_JW E find implies conf HE HS HC s HX.
  Let W0 : J E find conf DS s := w_inv _ _ _ _ _ W.
  Notation g := (s_graph s).

  (** The statements that the builder extracts are those of the code. *)
  Lemma nfs_told name sp k s1 n l s2 : find name = Some sp -> f_nfs (exec E k) sp s1 = Some (ROk (n, l), s2) ->
    l = [] \/ exists T, module_says E find name T /\ covers T l.
  Proof.
    intros Hf H. pose proof H as H0. pose proof (sy_direct _ _ HS _ _ Hf) as Hd.
    destruct k as [|k]; [discriminate|]. cbn [exec f_nfs] in H. unfold nfs_body in H.
    destruct (sp_loader sp) as [| | | |frozen gs gc| |[[root vendor]|]| |] eqn:El; try discriminate Hd; try discriminate H.
    - destruct (sp_search sp); [|discriminate]. injection H as <- <- <-. now left.
    - destruct (sp_search sp); [|discriminate]. injection H as <- <- <-. now left.
    - apply wrap_pkg in H as (-> & _); [now left|reflexivity].
    - apply ok_bind in H as (d & s3 & _ & H). apply wrap_pkg in H as (-> & _); [now left|reflexivity].
    - destruct gs as [source|e].
      2:{ destruct e; try discriminate. apply ok_bind in H as (d & s3 & _ & H). injection H as <- <- <-. now left. }
      apply ok_bind in H as (si & s3 & H1 & H). apply ok_bind in H as (ci & s4 & H2 & H). apply ok_bind in H as (d & s5 & _ & H).
      assert (Hl : l = match si with inr (Some l0) => l0 | _ => match ci with Some (bi, _, _) => bi | None => [] end end).
      { destruct ci as [[[bi wr] rd]|]; apply wrap_pkg in H as (-> & _); reflexivity. }
      clear H. subst l.
      assert (Hc : (source = None \/ (exists text file t, source = Some text /\ sp_origin sp = Some file /\ e_parse E t file text = RErr ESyntax)) ->
        match si with inr (Some l0) => False | _ => True end ->
        match ci with Some (bi, _, _) => bi | None => [] end = [] \/ exists T, module_says E find name T /\ covers T (match ci with Some (bi, _, _) => bi | None => [] end)).
      { intros A _. apply code_info_spec in H2 as [[-> _]|(c & [[bi wr] rd] & K1 & K2 & ->)]; [now left|]. right. exists (code_says (e_ge311 E) c). subst gc. split.
        - eapply cd_code; eassumption.
        - eapply code_covers; [|exact K2]. eapply HP; [|exact El]. exists 0, [], name. now apply (sy_some _ _ HS). }
      apply source_imports_spec in H1 as [[-> ->]|(text & file & t & -> & K2 & [[-> K3]|(tree & l' & K3 & K4 & ->)])].
      + now apply Hc; [left|].
      + apply Hc; [|exact Logic.I]. right. now exists text, file, t.
      + right. exists (tree_says tree). split; [|eapply tree_covers; eassumption]. eapply cd_source; eassumption.
  Qed.

  Variable start : program.
  Hypothesis HB : begun_with s start.
  Hypothesis HT : tidy s.
  Hypothesis HA : scripts_apart s.
  Hypothesis HN : script_outside E start.
  Hypothesis HR : readable_packages find s.
  Notation needed := (needs E find conf start).
  Notation there := (present find conf).

  Lemma not_script f a d : has_edge g a f d -> modular s f.
  Proof. intros H. split; intros K; (destruct (HA f) as [A _]; [auto|now apply (A a d)]). Qed.

  (** A node that is neither missing nor excluded is there. *)
  Lemma node_present c : forall x k, in_graph s x -> child_of c x -> starts_with "." c = false -> kind_of s c = Some k ->
    is_missing k = false -> is_excluded k = false -> there c.
  Proof.
    induction c as [c IH] using (induction_ltof1 _ String.length). unfold ltof in IH. intros x k Hx Hc Hd Hk Hm He.
    unfold kind_of in Hk. destruct (gfind g c) as [n|] eqn:En; [|discriminate]. injection Hk as Hk.
    assert (Up : above s c -> forall p, child_of p c -> there p).
    { intros [_ A] p Hp. destruct (A p Hp) as (k' & K1 & K2 & K3). eapply (IH p (child_shorter _ _ Hd Hp) c k'); auto.
      - intros K. rewrite En in K. discriminate.
      - now rewrite (child_dots _ _ Hp). }
    destruct (j_nodes _ _ _ _ _ W0 _ _ En) as (n0 & l & _ & B & S). destruct S as (_ & S & _). rewrite Hk in S.
    destruct B as [t tree l A B|d0 A B|A|c' k' A B C D|i k' A B C|A B C|sp n0 l k' s1 s2 A B C D]; cbn [plain_node n_kind] in S.
    - exfalso. destruct (HA c) as (_ & K & _); [left; unfold kind_of; rewrite En; cbn; congruence|]. now apply (K x).
    - exfalso. destruct (HA c) as (_ & K & _); [right; unfold kind_of; rewrite En; cbn; congruence|]. now apply (K x).
    - congruence.
    - rewrite <- S, Hm, He in D. discriminate.
    - destruct i; try discriminate C; injection C as <-; rewrite S in He; first [discriminate He|eapply pr_configured; [exact Hd|eauto|auto]].
    - rewrite S in Hm. discriminate.
    - apply (pr_found _ _ _ sp); auto.
      + eapply HR; eassumption.
      + intros i Hi. destruct (B i Hi) as [K _]. destruct i; try discriminate. eauto.
  Qed.
  Lemma above_present x : in_graph s x -> above s x -> forall p, child_of p x -> there p.
  Proof.
    intros Hx [Hd A] p Hp. destruct (A p Hp) as (k & K1 & K2 & K3). eapply (node_present p x k); auto. now rewrite (child_dots _ _ Hp).
  Qed.
  Lemma free_conf x : free conf s x -> forall i, assoc x conf = Some i -> exists refs, i = ImpRefs refs.
  Proof. intros F i Hi. destruct (F i Hi) as [K _]. destruct i; try discriminate. eauto. Qed.
  Lemma found_present x sp : in_graph s x -> above s x -> free conf s x -> find x = Some sp -> ~ unreadable sp -> there x.
  Proof.
    intros Hx A F Hf Hu. apply (pr_found _ _ _ sp); auto.
    - apply A.
    - now apply free_conf.
    - now apply above_present.
  Qed.
  Lemma pkg_birth m nd : gfind g m = Some nd -> node_is_pkg nd = true -> exists sp, find m = Some sp /\ spec_pkg sp = true /\ there m
    /\ (forall i, assoc m conf = Some i -> exists refs, i = ImpRefs refs)
    /\ forall x i k f ty, n_kind nd = Package x i k f (Some ty) ->
         exists frozen text code, sp_loader sp = LInspect frozen (ROk (Some text)) code /\ occurs ty text.
  Proof.
    intros Hm Hp. assert (Im : in_graph s m) by (unfold in_graph; congruence).
    destruct (j_nodes _ _ _ _ _ W0 _ _ Hm) as (n0 & l & _ & B & S). destruct S as (_ & S & _).
    assert (P0 : node_is_pkg n0 = true) by (unfold node_is_pkg in *; now rewrite <- S). rewrite S. clear S Hp.
    destruct B as [t tree l A B|d0 A B|A|c' k' A B C D|i k' A B C|A B C|sp n0 l k' s1 s2 A B C D]; try discriminate P0.
    - unfold node_is_pkg in P0. cbn in P0. destruct k'; discriminate.
    - unfold node_is_pkg in P0. cbn in P0. destruct i; try discriminate C; injection C as <-; discriminate.
    - assert (U : ~ unreadable sp).
      { intros K. apply (nfs_unreadable _ _ _ _ _ _ _ K) in D as [_ D]. congruence. }
      exists sp. split; [exact C|]. split; [rewrite <- P0; symmetry; eapply nfs_pkg; [eapply sy_direct; eassumption|exact U|exact D]|].
      split; [now apply (found_present m sp)|]. split; [now apply free_conf|].
      intros x i k f ty K. eapply nfs_tool in D as [_ D]; [exact D|eapply sy_direct; eassumption|exact K].
  Qed.
  Lemma conf_birth a b : kind_of s a = Some (AliasNode b) \/ kind_of s a = Some (VirtualNode b) ->
    there a /\ (kind_of s a = Some (AliasNode b) -> assoc a conf = Some (ImpAlias b))
    /\ (assoc a conf = Some (ImpAlias b) \/ assoc a conf = Some (ImpVirtual b)).
  Proof.
    intros H. unfold kind_of in *. destruct (gfind g a) as [nd|] eqn:Ea; [|destruct H; discriminate].
    assert (Ia : in_graph s a) by (unfold in_graph; congruence).
    assert (K : n_kind nd = AliasNode b \/ n_kind nd = VirtualNode b) by (destruct H as [H|H]; injection H; auto). clear H. cbn [option_map].
    destruct (j_nodes _ _ _ _ _ W0 _ _ Ea) as (n0 & l & _ & B & S). destruct S as (_ & S & _). rewrite S in *.
    destruct B as [t tree l A B|d0 A B|A|c' k' A B C D|i k' A B C|A B C|sp n0 l k' s1 s2 A B C D]; cbn [plain_node n_kind] in *; try (destruct K; discriminate).
    - destruct K as [-> | ->]; discriminate.
    - assert (X : assoc a conf = Some (ImpAlias b) /\ k' = AliasNode b \/ assoc a conf = Some (ImpVirtual b) /\ k' = VirtualNode b).
      { destruct i; try discriminate C; injection C as <-; destruct K as [K|K]; try discriminate K; injection K as ->; auto. }
      split; [eapply pr_configured; [apply A|destruct X as [[X _]|[X _]]; eauto|now apply above_present]|].
      destruct X as [[X ->]|[X ->]]; auto. split; [|auto]. discriminate.
    - apply (nfs_kind E) in D as [_ D]; [|eapply sy_direct; eassumption]. destruct K as [K|K]; rewrite K in D; destruct D.
  Qed.

  (** Where the statements of a node are in the code. *)
  Lemma stmt_told a nd i : stmt s a i -> gfind g a = Some nd ->
    (n_kind nd = Script /\ exists t tree fn opt w, e_script E t a = ROk tree /\ tree_says tree fn opt w /\ recorded fn opt w i)
    \/ (n_kind nd <> Script /\ exists sp T fn opt w, find a = Some sp /\ there a /\ (forall i, assoc a conf = Some i -> exists refs, i = ImpRefs refs)
          /\ module_says E find a T /\ T fn opt w /\ recorded fn opt w i /\ spec_pkg sp = node_is_pkg nd).
  Proof.
    intros (_ & l & Ha & Hi) Hn. assert (Ia : in_graph s a) by (unfold in_graph; congruence).
    destruct (j_added _ _ _ _ _ W0 _ _ Ha) as (n & n0 & A1 & A2 & A3 & _). assert (n = nd) as -> by congruence.
    destruct A3 as (_ & S & _).
    destruct A2 as [t tree l A B|d0 A B|A|c' k' A B C D|i' k' A B C|A B C|sp n0 l k' s1 s2 A B C D]; try destruct Hi; cbn [n_kind] in S.
    - left. split; [exact S|]. destruct (proj2 (tree_covers _ _ _ HO B) i Hi) as (fn & opt & w & K1 & K2). now exists t, tree, fn, opt, w.
    - right. split.
      { apply (nfs_kind E) in D as [_ D]; [|eapply sy_direct; eassumption]. intros K. rewrite S in K. rewrite K in D. destruct D. }
      assert (U : ~ unreadable sp).
      { intros K. apply (nfs_unreadable _ _ _ _ _ _ _ K) in D as [-> _]. destruct Hi. }
      destruct (nfs_told _ _ _ _ _ _ _ C D) as [->|(T & K1 & K2)]; [destruct Hi|].
      destruct (proj2 K2 i Hi) as (fn & opt & w & K3 & K4). exists sp, T, fn, opt, w.
      split; [exact C|]. split; [now apply (found_present a sp)|]. split; [now apply free_conf|]. split; [exact K1|]. split; [exact K3|]. split; [exact K4|].
      symmetry. unfold node_is_pkg. rewrite S. fold (node_is_pkg n0). eapply nfs_pkg; [eapply sy_direct; eassumption|exact U|exact D].
  Qed.

  (** The start of the program, when it is a script, and the modules asked for. *)
  Definition okay (a : string) : Prop := (kind_of s a = Some Script -> start = RunScript a) /\ (kind_of s a <> Some Script -> needed a) /\ kind_of s a <> Some Distribution.
  Lemma needed_okay a b d : has_edge g a b d -> needed b -> okay b.
  Proof. intros He H. destruct (not_script b a d He). split; [|now split]. intros K. contradiction. Qed.

  Lemma stmt_wants a nd i : okay a -> stmt s a i -> gfind g a = Some nd ->
    exists fn opt w, recorded fn opt w i /\ forall m, wants find conf a (node_is_pkg nd) w m -> needed m.
  Proof.
    intros (O1 & O2 & _) Hi Hn. assert (Ka : kind_of s a = Some (n_kind nd)) by (unfold kind_of; now rewrite Hn).
    destruct (stmt_told a nd i Hi Hn) as [(Hk & t & tree & fn & opt & w & A & B & C)|(Hk & sp & T & fn & opt & w & A & B & C & D & F & G & H)];
      exists fn, opt, w; (split; [assumption|]); intros m Hm.
    - assert (Hp : node_is_pkg nd = false) by (unfold node_is_pkg; now rewrite Hk). rewrite Hp in Hm.
      rewrite Ka, Hk in O1. specialize (O1 eq_refl). destruct (Nat.eq_dec (w_level w) 0) as [L|L]; [eapply nd_script; eassumption|].
      destruct (HN _ _ _ _ _ _ O1 A B L) as [_ N].
      assert (No : forall q, mentions a false w q -> False) by (intros q [K|q' _ K _|q' _ K _]; [congruence|now apply (N q')|now apply (N q')]).
      destruct Hm as [m K|K|m0 m sp x K]; [now elim (No m)|eapply nd_relative; eassumption|now elim (No m0)].
    - rewrite <- H in Hm. eapply nd_module; try eassumption. apply O2. rewrite Ka. congruence.
  Qed.
  Lemma aims_mentions a nd fn opt w i m : gfind g a = Some nd -> recorded fn opt w i -> aims s a i m -> mentions a (node_is_pkg nd) w m.
  Proof.
    intros Hn Hr (b & A & B). pose proof (gfind_name _ _ _ Hn) as En. rewrite <- En in *.
    apply (own_pkg_unique s nd b Hn) in A as ->. now apply (recorded_names s nd fn opt w i m Hr).
  Qed.
  Lemma names_needed a nd i m nm : okay a -> stmt s a i -> gfind g a = Some nd -> BuilderSame.names_of s a i m nm ->
    needed m /\ (node_is_pkg nm = true -> forall y, In y (ii_names i) -> needed (m ++ "." ++ in_name y)).
  Proof.
    intros Ho Hi Hn (m0 & A & B & C & D & F). destruct (stmt_wants a nd i Ho Hi Hn) as (fn & opt & w & Hr & Hw).
    pose proof (aims_mentions _ _ _ _ _ _ _ Hn Hr A) as Hm.
    assert (Q : m = m0 \/ (there m0 /\ assoc m0 conf = Some (ImpAlias m))).
    { destruct B as [B|B]; [now left|]. destruct (conf_birth m0 m) as (K1 & K2 & _); [now left|]. right. auto. }
    split.
    - destruct Q as [->|[Q1 Q2]]; [apply Hw; now apply wa_module|].
      eapply (nd_target _ _ _ _ m0); [apply Hw; now apply wa_module|exact Q1|now left].
    - intros Hp y Hy. destruct (pkg_birth m nm C Hp) as (sp & K1 & K2 & K3 & K4 & _). apply Hw.
      destruct Hr as (Hr & _). destruct w as [n' a'|mo names lv]; [destruct Hr as (_ & _ & Hr & _); rewrite Hr in Hy; destruct Hy|].
      destruct Hr as (_ & _ & R3 & _ & R5 & _). eapply (wa_name _ _ _ _ _ m0 m sp); try eassumption; cbn [w_names].
      + destruct (assoc m conf) as [i'|]; [|now left]. right. destruct (K4 i' eq_refl) as (refs & ->). eauto.
      + apply R3. apply in_map_iff. now exists y.
      + eapply (proj1 HT); [apply Hi|exact Hy].
      + intros K. apply R5 in K. congruence.
  Qed.

  Lemma scheduled_stmt a i : scheduled s a i -> stmt s a i.
  Proof.
    intros H. split; [exact H|]. destruct H as (l & A & B). exists l. split; [|exact B].
    destruct (session_holds _ _ _ _ _ HX) as (all & P).
    destruct (sched_from E (init implies [] []) s _ _ HE (one_start implies) (user_is_reach _ _ _ (one_user E implies conf s HX)) A) as [K|K]; [exact K|].
    now apply (pl_asked _ _ _ P) in K.
  Qed.
  Lemma source_names a i m k : names_source s a i m -> kind_of s m = Some k -> nameable k = true -> ii_star i = false ->
    exists nd, gfind g m = Some nd /\ n_kind nd = k /\ BuilderSame.names_of s a i m nd.
  Proof.
    intros (m0 & (b & name & A & B & C) & D) Hk Hn Hs. apply (one_resolves E implies conf HE s HX) in C. subst m0.
    unfold kind_of in Hk. destruct (gfind g m) as [nd|] eqn:Em; [|discriminate]. injection Hk as <-. exists nd.
    split; [reflexivity|]. split; [reflexivity|]. exists name. split; [now exists b|]. split; [exact D|]. now repeat split.
  Qed.

  Lemma step_edge u v a b d : step true true u v -> has_edge (s_graph v) a b d -> has_edge (s_graph u) a b d \/ justified u a b d.
  Proof.
    intros H. destruct H as [s' H|m|h H|h H|names|l|e H|name id H|name i H1 H2 H3|name H1 H2 H3|n l H1 H2|n H1 H2
                  |a' b' d' H1 H2 H3|id H1 H2|id names|n l H1|n m i a' b' H1 H2 H3 H4 H5 H6 H7|n pkg H1 H2|w rest H1 H2 H3
                  |n l H1 H2|w rest H1 H2 H3|w rest H1 H2 H3|H1|a' rest H1 H2]; auto.
    - destruct H as (f & c & ->). auto.
    - intros (ds & A & B). cbn [s_graph set_graph g_edges] in A. destruct (edges_add_inv _ _ _ _ _ _ _ A d B) as [(-> & -> & ->)|(ds' & A1 & A2)]; [now right|].
      left. now exists ds'.
    - rewrite schedule_graph. auto.
  Qed.

  (** Edges lead from what is asked for to what is asked for. *)
  Lemma edge_needed u a b d : grows u s -> justified u a b d -> full (s_graph u) ->
    (forall a b d, has_edge (s_graph u) a b d -> okay a -> needed b) -> has_edge g a b d -> okay a -> needed b.
  Proof.
    intros G Ju Fu IH He Ho. pose proof (one_ends E implies conf HE s HX _ _ _ He) as [Ia Ib].
    destruct (gfind g a) as [nd|] eqn:Ea; [|now elim Ia].
    assert (Ka : kind_of s a = Some (n_kind nd)) by (unfold kind_of; now rewrite Ea).
    assert (Pl : kind_of s a <> Some Script -> needed a) by apply Ho.
    destruct (j_edges _ _ _ _ _ W0 a b d He) as [i A B C|i p A B C D F|i m nm y A B C D F _ K|i m nm y A B C D F K
      |x nm A B C|A B C|refs A B C D|A B|x i k f A B C|nd' dd A B C D F].
    - destruct (stmt_wants a nd i Ho A Ea) as (fn & opt & w & Hr & Hw). apply Hw, wa_module. eapply aims_mentions; eassumption.
    - destruct (stmt_wants a nd i Ho A Ea) as (fn & opt & w & Hr & Hw). subst b.
      assert (p = node_is_pkg nd) as ->.
      { pose proof (gfind_name _ _ _ Ea) as En. rewrite <- En in *. now apply (own_pkg_unique s nd p Ea). }
      pose proof (gfind_name _ _ _ Ea) as En. rewrite <- En in C. destruct (recorded_beyond nd fn opt w i Hr C) as [K1 K2].
      rewrite En in K1. rewrite K2. apply Hw. now apply wa_beyond.
    - subst b. destruct (names_needed a nd i m nm Ho A Ea B) as [_ Q]. apply Q; [|exact D].
      destruct B as (_ & _ & _ & _ & B & _). unfold has_names in B. unfold node_is_pkg. rewrite C in B. now rewrite orb_false_r in B.
    - (* a name that the module imports itself: look at the reason when the edge was made *)
      assert (Df : d_fromlist d = true) by (subst d; reflexivity). clear i m nm y A B C D F K.
      destruct Ju as [n i m A B|n i b0 A B C|n i m nm k t A B C Q D1 D2 D|n i m nm t A B C Q D1 D|n i m nm z t b1 k f ty A B C D F K
        |name c t p A B C|n i m nm k t A B C Q D1 D2 D|name refs ref t o A B C D|name al o A B|name al o A B
        |n b1 z k f ty o A B C|id e name o A B C|n name o A B|n o e A|n name o A B]; try discriminate Df.
      + apply (grows_scheduled _ _ _ _ G), scheduled_stmt in A. apply (grows_source _ _ _ _ _ G) in B. apply (grows_kind _ _ _ _ G) in D1.
        apply (grows_resolves _ _ _ _ G), (one_resolves E implies conf HE s HX) in D. subst t.
        destruct (source_names n i m k B D1) as (nm' & S1 & S2 & S3); [unfold nameable; now rewrite D2|exact Q|].
        destruct (names_needed n nd i m nm' Ho A Ea S3) as [_ R]. apply R; [|exact C]. unfold node_is_pkg. now rewrite S2.
      + apply (grows_scheduled _ _ _ _ G), scheduled_stmt in A. apply (grows_source _ _ _ _ _ G) in B.
        apply (grows_global _ _ _ _ G) in D1 as (nm' & E1 & E2 & _).
        assert (Km : kind_of s m = Some (n_kind nm')) by (unfold kind_of; now rewrite E1).
        destruct (source_names n i m (n_kind nm') B Km E2 Q) as (nm2 & S1 & S2 & S3).
        destruct (names_needed n nd i m nm2 Ho A Ea S3) as [R _].
        destruct D as (ds & D & _). destruct (Fu _ _ _ D) as [D' _]. destruct ds as [|e ds]; [now elim D'|].
        eapply (IH m t e); [exists (e :: ds); split; [exact D|now left]|]. split; [|split; [auto|]]; intros K; rewrite Km in K; injection K as K; rewrite K in E2; discriminate.
      + apply (grows_log _ _ _ G) in A. destruct (session_holds _ _ _ _ _ HX) as (all & P). now apply (pl_asked _ _ _ P) in A.
    - apply (nd_parent _ _ _ _ a).
      + apply Pl. intros K. destruct (HA a (or_introl K)) as (_ & _ & Q). now apply (Q b x nm).
      + subst a. destruct A as (n & i & y & L1 & L2 & <- & L4 & L5). apply child_plain.
        * eapply (proj2 HT); eassumption.
        * eapply (proj1 HT); eassumption.
    - apply (nd_parent _ _ _ _ a); [|exact A]. apply Pl, B.
    - destruct A as (A1 & A2 & A3), B as (B1 & B2 & B3). eapply (nd_refs _ _ _ _ a); [apply Pl, A2|exact A3| |exact B3|exact C]. now apply above_present.
    - destruct (conf_birth a b A) as (K1 & _ & K2). eapply (nd_target _ _ _ _ a); [|exact K1|exact K2]. apply Pl. destruct A as [A|A]; rewrite A; discriminate.
    - rewrite Ka in A. injection A as A.
      destruct (pkg_birth a nd Ea) as (sp & K1 & K2 & K3 & K4 & K5); [unfold node_is_pkg; now rewrite A|].
      destruct (K5 _ _ _ _ _ A) as (fz & text & code & K6 & K7). eapply (nd_tool _ _ _ _ a); try eassumption. apply Pl. rewrite Ka, A. discriminate.
    - exfalso. destruct Ho as (_ & _ & Ho). apply Ho. unfold kind_of. rewrite A. cbn. now rewrite B.
  Qed.
  Lemma chain_needed u : chain true true (init implies [] []) u -> grows u s ->
    full (s_graph u) /\ forall a b d, has_edge (s_graph u) a b d -> okay a -> needed b.
  Proof.
    induction 1 as [|u v C IH S]; intros G.
    - split; [intros a b ds []|]. intros a b d (ds & [] & _).
    - pose proof (step_grows _ _ _ _ S) as G'. destruct (IH (grows_trans _ _ _ G' G)) as [F I]. split; [eapply step_full; eassumption|].
      intros a b d He Ho. destruct (step_edge u v a b d S He) as [K|K]; [eauto|].
      eapply (edge_needed u a b d); eauto; [eapply grows_trans; eassumption|eapply grows_edge; eassumption].
  Qed.
  Lemma led_okay t : leads g (started start) t -> okay t.
  Proof.
    pose proof (reach_history E _ s HE (one_start implies) (user_is_reach _ _ _ (one_user E implies conf s HX))) as [C _ _ _ _].
    destruct (chain_needed s C (grows_refl s)) as [_ K].
    induction 1 as [|b c d _ IH He].
    - pose proof HB as B. unfold okay, begun_with in *. destruct start as [f|n]; cbn [started] in *.
      + split; [reflexivity|]. split; congruence.
      + destruct B as (_ & B & B'). split; [congruence|]. split; [|exact B']. intros _. now apply nd_start.
    - eapply needed_okay; [exact He|]. eapply K; eassumption.
  Qed.
  Lemma real_birth t nd : gfind g t = Some nd -> real (n_kind nd) = true -> exists sp, find t = Some sp /\ (~ unreadable sp -> there t).
  Proof.
    intros Hm Hp. assert (Im : in_graph s t) by (unfold in_graph; congruence).
    destruct (j_nodes _ _ _ _ _ W0 _ _ Hm) as (n0 & l & _ & B & S). destruct S as (_ & S & _). rewrite S in Hp.
    destruct B as [t0 tree l A B|d0 A B|A|c' k' A B C D|i k' A B C|A B C|sp n0 l k' s1 s2 A B C D]; try discriminate Hp.
    - cbn in Hp. destruct k'; discriminate.
    - cbn in Hp. destruct i; try discriminate C; injection C as <-; discriminate.
    - exists sp. split; [exact C|]. now apply found_present.
  Qed.
End program.

(** ** The property *)

(** Edges from the start of a program only lead to what it asks for. *)
Definition C76_statement : Prop := forall E find DS implies conf s p t, running E find conf -> dsession E DS implies conf s ->
  begun_with s p -> leads (s_graph s) (started p) t -> t = started p \/ needs E find conf p t.

Theorem C76_partial : forall E find DS implies conf s p t, running E find conf -> dsession E DS implies conf s ->
  begun_with s p -> plausible E find s p -> leads (s_graph s) (started p) t -> t = started p \/ needs E find conf p t.
Proof.
  intros E find DS implies conf s p t [A B C D F] HX HB [P1 P2 P3 P4] HL.
  destruct (led_okay E find implies conf A B C D F s HX p HB P1 P2 P3 P4 t HL) as (K1 & K2 & _).
  destruct (kind_of s t) as [k|] eqn:Ek; [|right; apply K2; congruence].
  assert (Q : k = Script \/ k <> Script) by (destruct k; auto; right; discriminate).
  destruct Q as [->|Q]; [|right; apply K2; congruence]. left. now rewrite (K1 eq_refl).
Qed.

(** ** Counterexamples *)

(** A script main.py with "from . import x": the graph has nodes main and main.x. *)
Definition inside_world : env := world [] [("main.py", [AImportFrom None [("x", None)] 1])] [].
Definition inside_state : st := Eval vm_compute in snd (the_calls inside_world [AAddScript "main.py"] new).
Lemma inside_needs m : needs inside_world (found_in []) plain_conf (RunScript "main.py") m -> m = ".".
Proof.
  assert (T : forall t f tree fn opt w, RunScript "main.py" = RunScript f -> e_script inside_world t f = ROk tree -> tree_says tree fn opt w ->
    w = WFrom None [("x", None)] 1).
  { intros t f tree fn opt w K1 K2 (p & K3 & _). injection K1 as <-. cbn in K2. injection K2 as <-. cbn in K3. destruct K3 as [K3|[]]. now injection K3. }
  assert (C : forall n i, assoc n plain_conf = Some i -> i = ImpNone).
  { intros n i H. apply assoc_In in H. destruct H as [H|[]]. now injection H. }
  induction 1 as [name A|f t tree fn opt w m A1 A2 A3 A4 A5|f t tree fn opt w A1 A2 A3 A4|n sp T' fn opt w m A1 IH A2 A3 A4|n p A IH B
    |n refs m A1 IH A2 A3 A4|n t A IH B D|n sp fz text code tool A IH B D].
  - discriminate.
  - rewrite (T _ _ _ _ _ _ A1 A2 A3) in A4. discriminate.
  - now rewrite (T _ _ _ _ _ _ A1 A2 A3).
  - discriminate A4.
  - subst n. remember "." as z eqn:Ez in B. destruct B as [x B _|k x B _].
    + exfalso. destruct p as [|c [|c' p]]; cbn in Ez; [now apply B| |]; discriminate Ez.
    + subst p. destruct k; [reflexivity|discriminate Ez].
  - apply C in A4. discriminate.
  - destruct D as [D|D]; apply C in D; discriminate.
  - discriminate D.
Qed.
Theorem C76_refuted : ~ C76_statement.
Proof.
  intros H. destruct (H inside_world (found_in []) (fun _ => False) [] plain_conf inside_state (RunScript "main.py") "main") as [K|K].
  - now apply world_running.
  - eapply (calls_session _ _ _ 60 [AAddScript "main.py"]); [apply se_open; [apply op_init|reflexivity]|reflexivity|vm_compute; reflexivity|reflexivity].
  - reflexivity.
  - eapply (le_edge _ _ "main.py" "main" (Dep false true false None)); [apply le_self|].
    exists [Dep false true false None]. split; [vm_compute; tauto|now left].
  - discriminate K.
  - apply inside_needs in K. discriminate K.
Qed.

(** Worlds with specs of their own. *)
Definition entry_fine (p : string * entry) : bool :=
  match snd p with ESpec sp => seqb (sp_name sp) (fst p) && direct (sp_loader sp)
    && match sp_loader sp with LInspect _ _ (ROk (Some _)) => false | _ => true end | e => simple_entry e end.
Lemma spec_running w scripts files conf : forallb entry_fine w = true -> assoc "@@SIX_MOVES@@" w = None ->
  forallb (fun p => negb (starts_with "." (fst p))) conf = true -> running (world w scripts files) (found_in w) conf.
Proof.
  intros Hw H6 C. rewrite forallb_forall in Hw.
  assert (K : forall name e, assoc name w = Some e -> entry_fine (name, e) = true) by (intros name e H; apply assoc_In in H; now apply Hw in H).
  constructor.
  - apply world_order.
  - intros l. cbn. apply Permutation.Permutation_refl.
  - apply world_compiled. intros n sp fz src c H Hl. apply Hw in H. unfold entry_fine in H. cbn [snd] in H. rewrite Hl in H. now rewrite !andb_false_r in H.
  - constructor; try reflexivity.
    + intros t f name sp H. cbn. unfold found_in in H. destruct (assoc name w) as [e|]; [|discriminate].
      destruct (spec_of name e); [congruence|discriminate].
    + intros t f name H. left. cbn. unfold found_in in H. destruct (assoc name w) as [e|] eqn:Ew; [|reflexivity].
      apply K in Ew. destruct e; discriminate.
    + intros name sp H. unfold found_in in H. destruct (assoc name w) as [e|] eqn:Ew; [|discriminate]. apply K in Ew.
      destruct e; try discriminate Ew; injection H as <-; try reflexivity. unfold entry_fine in Ew. cbn [fst snd] in Ew.
      apply andb_true_iff in Ew as [Ew _]. apply andb_true_iff in Ew as [Ew _]. now apply seqb_eq.
    + intros name sp H. unfold found_in in H. destruct (assoc name w) as [e|] eqn:Ew; [|discriminate]. apply K in Ew.
      destruct e; try discriminate Ew; injection H as <-; try reflexivity. unfold entry_fine in Ew. cbn [fst snd] in Ew.
      apply andb_true_iff in Ew as [Ew _]. now apply andb_true_iff in Ew as [_ Ew].
    + unfold found_in. now rewrite H6.
  - intros x i H. apply assoc_In in H. rewrite forallb_forall in C. apply C in H. now apply negb_true_iff in H.
Qed.

(** The source of package p cannot be decoded; "import p.x" never gets at p.x, which
    imports json. *)
Definition broken_modules : list (string * entry) :=
  [("p", ESpec (Spec "p" (LInspect false (RErr ESyntax) (RErr ESyntax)) (Some "p/__init__.py") (Some ["p"]) true (ROk true)));
   ("p.x", ESource false [World.imp "json"] []); ("json", ESource false [] [])].
Definition broken_world : env := world broken_modules [("main.py", [World.imp "p.x"])] [].
Definition broken_state : st := Eval vm_compute in snd (the_calls broken_world [AAddScript "main.py"] new).
Lemma broken_needs m : needs broken_world (found_in broken_modules) plain_conf (RunScript "main.py") m -> m = "p.x" \/ m = "p".
Proof.
  assert (T : forall t f tree fn opt w, RunScript "main.py" = RunScript f -> e_script broken_world t f = ROk tree -> tree_says tree fn opt w ->
    w = WImport "p.x" None).
  { intros t f tree fn opt w K1 K2 (p & K3 & _). injection K1 as <-. cbn in K2. injection K2 as <-. cbn in K3. destruct K3 as [K3|[]]. now injection K3. }
  assert (C : forall n i, assoc n plain_conf = Some i -> i = ImpNone).
  { intros n i H. apply assoc_In in H. destruct H as [H|[]]. now injection H. }
  assert (Np : ~ present (found_in broken_modules) plain_conf "p").
  { intros H. remember "p" as z eqn:Ez. destruct H as [z sp A B|z t A [B|B]]; subst z; [|discriminate B|discriminate B].
    vm_compute in A. injection A as <-. apply B. now exists false, (RErr ESyntax). }
  assert (Nx : ~ present (found_in broken_modules) plain_conf "p.x").
  { intros H. apply Np. assert (P : child_of "p" "p.x") by now apply (child_plain "p" "x").
    remember "p.x" as z eqn:Ez. destruct H as [z sp A B D F G|z t A B G]; subst z; now apply G. }
  induction 1 as [name A|f t tree fn opt w m A1 A2 A3 A4 A5|f t tree fn opt w A1 A2 A3 A4|n sp T' fn opt w m A1 IH A2 A3 A4|n p A IH B
    |n refs m A1 IH A2 A3 A4|n t A IH B D|n sp fz text code tool A IH B D].
  - discriminate.
  - pose proof (T _ _ _ _ _ _ A1 A2 A3) as ->. destruct A5 as [m K|K|m0 m sp x _ _ _ _ _ _ K]; [|now destruct K|destruct K].
    left. destruct K as [|q K|q K]; [reflexivity|now elim K|now elim K].
  - pose proof (T _ _ _ _ _ _ A1 A2 A3) as ->. now elim A4.
  - destruct IH as [-> | ->]; contradiction.
  - right. destruct IH as [-> | ->].
    + apply (child_plainly p "p" "x"); [reflexivity|discriminate|exact B].
    + exfalso. remember "p" as z eqn:Ez in B. destruct B as [x B1 B2|k x B1 B2].
      * destruct p as [|c [|c' p]]; discriminate Ez.
      * subst p. discriminate Ez.
  - apply C in A4. discriminate.
  - destruct D as [D|D]; apply C in D; discriminate.
  - destruct IH as [-> | ->]; contradiction.
Qed.
Definition apart_b (s : st) : bool := forallb (fun n => match n_kind n with
  | Script | Distribution => forallb (fun e => negb (seqb (snd (fst e)) (n_name n))) (g_edges (s_graph s))
      && forallb (fun m => negb (starts_with (n_name n) (n_name m)) || (seqb (n_name m) (n_name n) && negb (starts_with "." (n_name n)))) (g_nodes (s_graph s))
      && forallb (fun x => forallb (fun m => negb (seqb (n_name n) (n_name m ++ "." ++ x))) (g_nodes (s_graph s))) (from_names s)
  | _ => true end) (g_nodes (s_graph s)).
Lemma apart_bool s : apart_b s = true -> scripts_apart s.
Proof.
  intros H f Hk. unfold apart_b in H. rewrite forallb_forall in H. unfold kind_of in Hk.
  destruct (gfind (s_graph s) f) as [n|] eqn:En; [|destruct Hk; discriminate]. apply gfind_in in En as [En <-]. apply H in En.
  assert (En' : forall b, match n_kind n with Script | Distribution => b | _ => true end = true -> b = true).
  { intros b K. cbn in Hk. destruct (n_kind n); destruct Hk as [Hk|Hk]; first [discriminate Hk|exact K]. }
  apply En' in En. clear En'.
  apply andb_true_iff in En as [En H3]. apply andb_true_iff in En as [H1 H2]. rewrite forallb_forall in H1, H2, H3. split; [|split].
  - intros a d (ds & A & _). apply H1 in A. cbn in A. apply negb_true_iff in A. unfold seqb in A. now rewrite String.eqb_refl in A.
  - intros x Hx Hc. unfold in_graph in Hx. destruct (gfind (s_graph s) x) as [m|] eqn:Em; [|now elim Hx].
    apply gfind_in in Em as [Em <-]. apply H2 in Em. apply orb_true_iff in Em as [Em|Em].
    + apply negb_true_iff in Em. assert (K : starts_with (n_name n) (n_name m) = true); [|congruence]. apply starts_with_spec.
      destruct Hc; eauto.
    + apply andb_true_iff in Em as [Em Ed]. apply seqb_eq in Em. apply negb_true_iff in Ed. rewrite Em in Hc.
      pose proof (child_shorter _ _ Ed Hc). lia.
  - intros m x nd A K. destruct A as (a & i & y & A1 & A2 & <- & A4 & _). apply gfind_in in A4 as [A4 <-].
    pose proof (from_names_in s a i y A1 A2) as A3. specialize (H3 _ A3). cbv beta in H3. rewrite forallb_forall in H3. apply H3 in A4. rewrite K in A4. unfold seqb in A4.
    now rewrite String.eqb_refl in A4.
Qed.

(** Scripts without relative imports. *)
Lemma level_outside E p : (forall f t tree fn opt w, p = RunScript f -> e_script E t f = ROk tree -> tree_says tree fn opt w -> w_level w = 0) -> script_outside E p.
Proof. intros H f t tree fn opt w A B C D. elim D. eapply H; eassumption. Qed.

(** Packages that cannot be decoded are needed for another counterexample. *)
Theorem C76_unreadable_refuted : ~ (forall E find DS implies conf s p t, running E find conf -> dsession E DS implies conf s ->
  begun_with s p -> tidy s -> scripts_apart s -> script_outside E p -> leads (s_graph s) (started p) t ->
  t = started p \/ needs E find conf p t).
Proof.
  intros H. destruct (H broken_world (found_in broken_modules) (fun _ => False) [] plain_conf broken_state (RunScript "main.py") "json") as [K|K].
  - now apply spec_running.
  - eapply (calls_session _ _ _ 60 [AAddScript "main.py"]); [apply se_open; [apply op_init|reflexivity]|reflexivity|vm_compute; reflexivity|reflexivity].
  - reflexivity.
  - now apply tidy_bool.
  - now apply apart_bool.
  - apply level_outside. intros f t tree fn opt w A B (q & C & _). injection A as <-. cbn in B. injection B as <-. cbn in C. destruct C as [C|[]].
    injection C as _ <-. reflexivity.
  - eapply (le_edge _ _ "p.x" "json" (Dep false true false None)).
    + eapply (le_edge _ _ "main.py" "p.x" (Dep false true false None)); [apply le_self|].
      exists [Dep false true false None]. split; [vm_compute; tauto|now left].
    + exists [Dep false true false None]. split; [vm_compute; tauto|now left].
  - discriminate K.
  - apply broken_needs in K as [K|K]; discriminate K.
Qed.

(** ** Exactly the modules that can be loaded *)

(** Nothing is configured but exclusions, and no package uses a library for
    namespace packages; all sources can be decoded. *)
Record unconfigured (find : string -> option spec) (conf : list (string * implied)) : Prop := {
  uc_conf : forall x i, assoc x conf = Some i -> i = ImpNone;
  uc_tools : forall n sp frozen text code, find n = Some sp -> sp_loader sp = LInspect frozen (ROk (Some text)) code ->
    spec_pkg sp = true -> ~ occurs "pkgutil" text /\ ~ occurs "pkg_resources" text;
  uc_readable : forall n sp, find n = Some sp -> ~ unreadable sp
}.

Lemma within_step a b c : within b c -> child_of a b -> within a c.
Proof. induction 1 as [c|b p c Hp _ IH]; intros H; [eapply wi_up; [exact H|apply wi_self]|]. eapply wi_up; [exact Hp|auto]. Qed.
Lemma present_can find conf n : unconfigured find conf -> present find conf n -> can_import find conf n.
Proof.
  intros U. induction 1 as [n sp A B C D F IH|n t A B F IH].
  - now apply (can_intro _ _ _ sp).
  - destruct B as [B|B]; apply (uc_conf _ _ U) in B; discriminate.
Qed.
Lemma can_present find conf n : can_import find conf n -> present find conf n.
Proof. induction 1 as [n sp A B C D F IH]. now apply (pr_found _ _ _ sp). Qed.

Lemma wants_requests find conf n b w m : unconfigured find conf -> wants find conf n b w m -> (leaves_top n b w /\ m = dotted w) \/ requests find conf n b w m.
Proof.
  intros U [m' K|K|m0 m' sp x A B C D F G H I L].
  - right. now apply rq_module.
  - now left.
  - right. destruct B as [->|[_ B]]; [|apply (uc_conf _ _ U) in B; discriminate]. eapply rq_name; try eassumption. now apply present_can.
Qed.
Lemma dotted_dots w : w_level w <> 0 -> starts_with "." (dotted w) = true.
Proof. unfold dotted. destruct (w_level w) as [|k]; [congruence|]. intros _. apply starts_with_spec. now exists (repeat_char dot k ++ w_module w). Qed.

(** Without configuration, all that is asked for is asked for by the program. *)
Lemma needs_asks E find conf p m : unconfigured find conf -> needs E find conf p m ->
  starts_with "." m = true \/ exists name, asks E find conf p name /\ within m name.
Proof.
  intros U. induction 1 as [name A|f t tree fn opt w m A1 A2 A3 A4 A5|f t tree fn opt w A1 A2 A3 A4|n sp T' fn opt w m A1 IH A2 A3 A4 A5 A6 A7|n q A IH B
    |n refs m A1 IH A2 A3 A4|n t A IH B D|n sp fz text code tool A IH B D F G H I].
  - right. exists name. split; [now apply ak_start|apply wi_self].
  - apply (wants_requests _ _ _ _ _ _ U) in A5 as [[[K _] _]|K]; [congruence|]. right. exists m. split; [eapply ak_script; eassumption|apply wi_self].
  - left. now apply dotted_dots.
  - destruct IH as [IH|(name & K1 & K2)]; [destruct A2; congruence|].
    apply (wants_requests _ _ _ _ _ _ U) in A7 as [[[K _] ->]|K]; [left; now apply dotted_dots|]. right. exists m.
    split; [|apply wi_self]. eapply ak_module; try eassumption. now apply present_can.
  - destruct IH as [IH|(name & K1 & K2)]; [left; now rewrite (child_dots _ _ B)|]. right. exists name. split; [exact K1|]. eapply within_step; eassumption.
  - apply (uc_conf _ _ U) in A4. discriminate.
  - destruct D as [D|D]; apply (uc_conf _ _ U) in D; discriminate.
  - destruct (uc_tools _ _ U _ _ _ _ _ D G F) as [K1 K2]. destruct H; subst tool; contradiction.
Qed.

(** The modules that one is led to from the start of a program are those, and only
    those, that it can load. *)
Theorem C76_exact_partial : forall E find DS implies conf s p, running E find conf -> dsession E DS implies conf s -> begun_with s p ->
  orderly find conf s p -> plausible E find s p -> unconfigured find conf -> forall t, covered s p t <-> loads E find conf p t.
Proof.
  intros E find DS implies conf s p HR HX HB HO HP HU t. split; [|now apply C75_partial with (DS := DS) (implies := implies)].
  intros [(n & A & B) L]. pose proof HR as [R1 R2 R3 R4 R5]. pose proof HP as [P1 P2 P3 P4].
  destruct (real_birth E find implies conf R1 R4 R5 s HX P2 P4 t n A B) as (sp & C & D). specialize (D (uc_readable _ _ HU _ _ C)).
  pose proof (present_can _ _ _ HU D) as Ct.
  assert (N : needs E find conf p t).
  { destruct (C76_partial E find DS implies conf s p t HR HX HB HP L) as [->|K]; [|exact K].
    destruct p as [f|m]; [|now apply nd_start]. exfalso. unfold begun_with, kind_of in HB. cbn [started] in A. rewrite A in HB. injection HB as HB. rewrite HB in B. discriminate. }
  apply (needs_asks _ _ _ _ _ HU) in N as [N|(name & K1 & K2)]; [destruct Ct; congruence|]. now exists name.
Qed.

(** Script main.py of the world of C66, with an alias, an exclusion and implied
    modules: json is there because q.core implies it; json.tool is in the graph of
    both scripts, but main.py does not ask for it. *)
Lemma readable_bool w s : forallb (fun p => simple_entry (snd p)) w = true -> readable_packages (found_in w) s.
Proof.
  intros H x p sp _ _ K (fz & c & L). unfold found_in in K. destruct (assoc p w) as [e|] eqn:Ew; [|discriminate].
  apply assoc_In in Ew. rewrite forallb_forall in H. apply H in Ew. destruct e; try discriminate Ew; injection K as <-; discriminate L.
Qed.
Example C76_nonvacuous :
  running pair_world (found_in pair_modules) pair_conf /\ session pair_world pair_implies pair_conf pair_1
  /\ begun_with pair_1 (RunScript "main.py") /\ plausible pair_world (found_in pair_modules) pair_1 (RunScript "main.py")
  /\ leads (s_graph pair_1) "main.py" "json" /\ leads (s_graph pair_1) "main.py" "q.nowhere" /\ leads (s_graph pair_1) "main.py" "...beyond"
  /\ in_graph pair_1 "json.tool".
Proof.
  split; [now apply world_running|]. split; [exact pair_first|]. split; [reflexivity|]. split.
  { constructor.
    - now apply tidy_bool.
    - now apply apart_bool.
    - apply level_outside. intros f t tree fn opt w A B (q & C & _). injection A as <-. cbn in B. injection B as <-. cbn in C.
      repeat (destruct C as [C|C]; [injection C as _ <-; reflexivity|]). destruct C.
    - now apply readable_bool. }
  assert (L : forall a b, leads (s_graph pair_1) "main.py" a -> existsb (fun e => seqb (fst (fst e)) a && seqb (snd (fst e)) b && match snd e with [] => false | _ => true end) (g_edges (s_graph pair_1)) = true ->
    leads (s_graph pair_1) "main.py" b).
  { intros a b Ha Hb. apply existsb_exists in Hb as ([[x y] ds] & H1 & H2). apply andb_true_iff in H2 as [H2 H3]. apply andb_true_iff in H2 as [H2 H4].
    cbn [fst snd] in *. apply seqb_eq in H2, H4. subst x y. destruct ds as [|d ds]; [discriminate|]. eapply le_edge; [exact Ha|]. exists (d :: ds). split; [exact H1|now left]. }
  split; [|split; [|split; [|discriminate]]].
  - apply (L "q.core"); [apply (L "q"); [apply (L "main.py"); [apply le_self|reflexivity]|reflexivity]|reflexivity].
  - apply (L "main.py"); [apply le_self|reflexivity].
  - apply (L "q.sub"); [apply (L "main.py"); [apply le_self|reflexivity]|reflexivity].
Qed.

(** A graph for two programs: main.py loads q, q.core, q.sub and os, but not html. *)
Definition exact_modules : list (string * entry) :=
  [("q", ESource true [World.from "core" ["helper"] 1] ["helper"]); ("q.core", ESource false [World.imp "skipped.part"; World.imp "os"] ["helper"]);
   ("q.sub", ESource false [World.imp "q.none"; World.from "beyond" ["x"] 3] ["run"]); ("os", ESource false [] []); ("html", ESource false [World.imp "os"] [])].
Definition exact_world : env := world exact_modules [("main.py", [World.from "q" ["sub"] 0]); ("tool.py", [World.imp "html"])] [].
Definition exact_open : st := Eval vm_compute in snd (the_calls exact_world [AExcludes ["skipped"]] new).
Definition exact_conf : list (string * implied) := Eval vm_compute in s_lazy exact_open.
Definition exact_state : st := Eval vm_compute in snd (the_calls exact_world [AAddScript "main.py"; AAddScript "tool.py"] exact_open).

Lemma unconfigured_bool w conf : forallb (fun p => simple_entry (snd p)) w = true ->
  forallb (fun p => match snd p with ESource _ _ _ => negb (has_sub "pkgutil" (fst p)) && negb (has_sub "pkg_resources" (fst p))
     | EText _ t _ _ _ => negb (has_sub "pkgutil" t) && negb (has_sub "pkg_resources" t) | _ => true end) w = true ->
  forallb (fun p => match snd p with ImpNone => true | _ => false end) conf = true -> unconfigured (found_in w) conf.
Proof.
  intros A B C. rewrite forallb_forall in A, B, C. constructor.
  - intros x i H. apply assoc_In in H. apply C in H. now destruct i.
  - intros n sp fz text code H L _. unfold found_in in H. destruct (assoc n w) as [e|] eqn:Ew; [|discriminate]. apply assoc_In in Ew.
    pose proof (A _ Ew) as A'. pose proof (B _ Ew) as B'.
    destruct e; try discriminate A'; injection H as <-; try discriminate L; injection L as <- <- <-; cbn [fst snd] in B';
      apply andb_true_iff in B' as [B1 B2]; apply negb_true_iff in B1, B2; (split; intros K; apply has_sub_occurs in K; congruence).
  - intros n sp H (fz & c & L). unfold found_in in H. destruct (assoc n w) as [e|] eqn:Ew; [|discriminate]. apply assoc_In in Ew.
    apply A in Ew. destruct e; try discriminate Ew; injection H as <-; discriminate L.
Qed.
Example C76_exact_nonvacuous :
  running exact_world (found_in exact_modules) exact_conf /\ session exact_world [] exact_conf exact_state
  /\ begun_with exact_state (RunScript "main.py") /\ orderly (found_in exact_modules) exact_conf exact_state (RunScript "main.py")
  /\ plausible exact_world (found_in exact_modules) exact_state (RunScript "main.py")
  /\ unconfigured (found_in exact_modules) exact_conf
  /\ covered exact_state (RunScript "main.py") "os" /\ in_graph exact_state "html" /\ ~ leads (s_graph exact_state) "main.py" "html".
Proof.
  assert (N : forall t, leads (s_graph exact_state) "main.py" t -> In t ["main.py"; "q"; "q.core"; "q.sub"; "os"; "skipped.part"; "skipped"; "q.none"; "...beyond"]).
  { induction 1 as [|b c d _ IH (ds & He & _)]; [now left|]. vm_compute in He.
    repeat (destruct He as [He|He]; [injection He as <- <- <-; cbn in IH |- *; tauto || (exfalso; repeat (destruct IH as [IH|IH]; [discriminate IH|]); exact IH)|]). destruct He. }
  split; [now apply world_running|].
  assert (X : session exact_world [] exact_conf exact_state).
  { eapply (calls_session _ _ _ 60 [AAddScript "main.py"; AAddScript "tool.py"] exact_open); [|reflexivity|vm_compute; reflexivity|reflexivity].
    apply se_open; [|reflexivity]. eapply (op_exclude _ _ (init [] [] []) 60 ["skipped"]); [apply op_init|vm_compute; reflexivity|discriminate]. }
  split; [exact X|]. split; [reflexivity|]. split; [|split; [|split; [|split; [|split]]]].
  - constructor.
    + now apply tidy_bool.
    + intros m nd x t A B C K. exfalso. apply provides_bool in K. apply gfind_in in A as [A <-]. vm_compute in A.
      repeat (destruct A as [<-|A]; [cbn in B; repeat (destruct B as [<-|B]; [first [vm_compute in K; discriminate K|inversion C as [? ? C1]; discriminate C1]|]); destruct B|]). destruct A.
    + intros m x id (nd & (a & i & y & A1 & A2 & <- & A4 & _) & _ & R & K) L. pose proof (from_names_in _ _ _ _ A1 A2) as A3.
      apply (one_resolves exact_world [] exact_conf (world_order _ _ _) exact_state X) in R. apply gfind_in in A4 as [A4 <-].
      generalize dependent (in_name y). intros x R A3. vm_compute in A3.
      apply N in L. cbn in L. repeat (destruct L as [L|L]; [subst id; try discriminate K|]); try destruct L.
      all: vm_compute in A4; repeat (destruct A3 as [<-|A3]; [repeat (destruct A4 as [<-|A4]; [discriminate R|]); destruct A4|]); destruct A3.
    + intros a f d (ds & K & _). vm_compute in K.
      repeat (destruct K as [K|K]; [injection K as <- <- <-; vm_compute; split; discriminate|]). destruct K.
  - constructor.
    + now apply tidy_bool.
    + now apply apart_bool.
    + apply level_outside. intros f t tree fn opt w A B (q & C & _). injection A as <-. cbn in B. injection B as <-. cbn in C.
      repeat (destruct C as [C|C]; [injection C as _ <-; reflexivity|]). destruct C.
    + now apply readable_bool.
  - now apply unconfigured_bool.
  - split.
    + eexists. split; vm_compute; reflexivity.
    + eapply (le_edge _ _ "q.core" "os" (Dep false true false None)); [|exists [Dep false true false None]; split; [vm_compute; tauto|now left]].
      eapply (le_edge _ _ "q" "q.core" (Dep false true false None)); [|exists [Dep false true false None]; split; [vm_compute; tauto|now left]].
      eapply (le_edge _ _ "main.py" "q" (Dep false true false None)); [apply le_self|exists [Dep false true false None]; split; [vm_compute; tauto|now left]].
  - discriminate.
  - intros K. apply N in K. cbn in K. repeat (destruct K as [K|K]; [discriminate K|]). exact K.
Qed.

Print Assumptions C76_refuted.
Print Assumptions C76_unreadable_refuted.
Print Assumptions C76_partial.
Print Assumptions C76_exact_partial.
