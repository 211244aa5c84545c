(** Theorems about source text and the graph: C63. *)
From Verif Require Import BuilderSource BuilderHist BuilderInv BuilderCalls AstProofs World PropsBuilder PropsHookRuns PropsImports PropsAst PropsBytecode BytecodeTree.
Open Scope string_scope.

(** ** C63: the import statements in the source of a module are in the graph *)

Lemma sourced_start E s : start s -> sourced E s.
Proof. intros (i & p & q & ->). split; [intros n l []|split; [intros id l x []|intros id l l' []]]. Qed.
Lemma sourced_reach E s0 s : start s0 -> reach E s0 s -> sourced E s.
Proof.
  intros H0 H. induction H as [|s fuel a ans s' H IH HC]; [now apply sourced_start|].
  eapply (keeps_top _ _ _ _ (sourced_keeper E)); [exact Logic.I|exact IH|exact HC].
Qed.

(** ** Statements and the records the builder has of them *)

Definition recorded (fn opt : bool) (w : what) (i : iinfo) : Prop :=
  states_what w i /\ ii_in_function i = fn /\ ii_in_function i || ii_in_conditional i || ii_in_tryexcept i = opt.
Definition covers (T : says) (l : list iinfo) : Prop :=
  (forall fn opt w, T fn opt w -> exists i, In i l /\ recorded fn opt w i)
  /\ (forall i, In i l -> exists fn opt w, T fn opt w /\ recorded fn opt w i).

Lemma iff_true_eq (a b : bool) (P : Prop) : (a = true <-> P) -> (b = true <-> P) -> a = b.
Proof. intros A B. destruct a, b; try reflexivity; exfalso; [destruct A, B|destruct A, B]; intuition congruence. Qed.

Lemma tree_covers order tree l : set_order order -> extract_ast_info order tree = Some l -> covers (tree_says tree) l.
Proof.
  intros HO H. destruct (extract_contexts order tree HO) as (out & E' & A & B). rewrite H in E'. injection E' as <-. split.
  - intros fn opt w (p & Hp & F & O). apply PropsAst.C04_sites_are_occurrences in Hp as (st & Hb & Hw).
    destruct (A p st w Hb Hw) as (i & Hi & S1 & C1 & C2 & C3). exists i. split; [exact Hi|]. split; [exact S1|]. split.
    + eapply iff_true_eq; eassumption.
    + eapply iff_true_eq; [|exact O]. rewrite !Bool.orb_true_iff. tauto.
  - intros i Hi. destruct (B i Hi) as (p & st & w & Hb & Hw & S1 & C1 & C2 & C3).
    exists (ii_in_function i), (ii_in_function i || ii_in_conditional i || ii_in_tryexcept i), w. split; [|now split].
    exists p. split; [apply PropsAst.C04_sites_are_occurrences; eauto|]. split; [exact C1|]. rewrite !Bool.orb_true_iff. tauto.
Qed.

(** In code as the compiler emits it the operands come first. *)
Lemma flat_nth {A B} (f : A -> list B) : forall l i x, nth_error (flat_map f l) i = Some x ->
  exists pre h suf j, l = (pre ++ h :: suf)%list /\ nth_error (f h) j = Some x /\ i = List.length (flat_map f pre) + j.
Proof.
  induction l as [|h l IH]; intros i x H; [now destruct i|]. cbn in H. destruct (Nat.lt_ge_cases i (List.length (f h))) as [L|L].
  - rewrite nth_error_app1 in H by exact L. exists [], h, l, i. auto.
  - rewrite nth_error_app2 in H by exact L. apply IH in H as (pre & h' & suf & j & -> & H1 & H2).
    exists (h :: pre), h', suf, j. split; [reflexivity|]. split; [exact H1|]. cbn. rewrite app_length. lia.
Qed.
Lemma enc_operands v c h j x : chunk_ok v c h -> nth_error (enc v h) j = Some x ->
  (i_op x = MAKE_FUNCTION -> (if v then 1 else 2) <= j) /\ (i_op x = IMPORT_NAME -> 2 <= j).
Proof.
  assert (L : forall l (r : list instr) j x, (forall y, In y l -> i_op y <> MAKE_FUNCTION /\ i_op y <> IMPORT_NAME) ->
    nth_error (l ++ r)%list j = Some x -> i_op x = MAKE_FUNCTION \/ i_op x = IMPORT_NAME -> List.length l <= j).
  { intros l r k y Hl Hn Ho. destruct (Nat.lt_ge_cases k (List.length l)) as [Hk|Hk]; [|exact Hk].
    rewrite nth_error_app1 in Hn by exact Hk. apply nth_error_In in Hn. destruct (Hl y Hn) as [A B]. destruct Ho; contradiction. }
  assert (X : forall es y, In y (map ext es) -> i_op y <> MAKE_FUNCTION /\ i_op y <> IMPORT_NAME).
  { intros es y Hy. apply in_map_iff in Hy as (e & <- & _). now split. }
  intros Hok H. destruct h as [st|i es q|i nl q|y]; cbn [enc] in H.
  - split; intros Ho.
    + exfalso. unfold enc_import in H. apply nth_error_In in H. repeat (apply in_app_or in H as [H|H]).
      * now apply X in H as [H _].
      * destruct H as [<-|[]]. now destruct (st_level_const st).
      * destruct (st_from_ext st); [destruct H as [<-|[]]; discriminate|destruct H].
      * destruct H as [<-|[]]. discriminate.
      * destruct (st_name_ext st); [destruct H as [<-|[]]; discriminate|destruct H].
      * destruct H as [<-|[]]. discriminate.
    + unfold enc_import in H. rewrite !app_assoc in H.
      eapply L in H; [|intros y Hy|right; exact Ho].
      * rewrite !app_length in H. cbn in H. lia.
      * repeat (apply in_app_or in Hy as [Hy|Hy]).
        -- eapply X. exact Hy.
        -- destruct Hy as [<-|[]]. now destruct (st_level_const st).
        -- destruct (st_from_ext st); [destruct Hy as [<-|[]]; now split|destruct Hy].
        -- destruct Hy as [<-|[]]. now split.
        -- destruct (st_name_ext st); [destruct Hy as [<-|[]]; now split|destruct Hy].
  - rewrite !app_assoc in H.
    assert (K : i_op x = MAKE_FUNCTION \/ i_op x = IMPORT_NAME -> (if v then 1 else 2) <= j /\ i_op x <> IMPORT_NAME).
    { intros Ho. split.
      - eapply L in H; [|intros y Hy|exact Ho].
        + rewrite !app_length in H. destruct v; cbn in H; lia.
        + repeat (apply in_app_or in Hy as [Hy|Hy]); [eapply X; exact Hy|destruct Hy as [<-|[]]; now split|].
          destruct v; [destruct Hy|destruct Hy as [<-|[]]; now split].
      - apply nth_error_In in H. repeat (apply in_app_or in H as [H|H]); [now apply X in H as [_ H]|destruct H as [<-|[]]; discriminate| |destruct H as [<-|[]]; discriminate].
        destruct v; [destruct H|destruct H as [<-|[]]; discriminate]. }
    split; intros Ho; [apply K; now left|]. exfalso. destruct K as [_ K]; [now right|contradiction].
  - rewrite !app_assoc in H.
    assert (K : i_op x = MAKE_FUNCTION \/ i_op x = IMPORT_NAME -> (if v then 1 else 2) <= j /\ i_op x <> IMPORT_NAME).
    { intros Ho. split.
      - eapply L in H; [|intros y Hy|exact Ho].
        + rewrite !app_length in H. destruct v, nl; cbn in H; lia.
        + repeat (apply in_app_or in Hy as [Hy|Hy]); [destruct Hy as [<-|[]]; now split| |destruct Hy as [<-|[]]; now split|].
          * destruct (v && nl); [destruct Hy as [<-|[]]; now split|destruct Hy].
          * destruct v; [destruct Hy|destruct Hy as [<-|[]]; now split].
      - apply nth_error_In in H. repeat (apply in_app_or in H as [H|H]); [destruct H as [<-|[]]; discriminate| |destruct H as [<-|[]]; discriminate| |destruct H as [<-|[]]; discriminate].
        + destruct (v && nl); [destruct H as [<-|[]]; discriminate|destruct H].
        + destruct v; [destruct H|destruct H as [<-|[]]; discriminate]. }
    split; intros Ho; [apply K; now left|]. exfalso. destruct K as [_ K]; [now right|contradiction].
  - destruct j as [|j]; [|now destruct j]. injection H as ->. cbn in Hok. split; intros Ho; rewrite Ho in Hok; destruct Hok.
Qed.
Lemma chunks_operands v c hs : co_ins c = flat_map (enc v) hs -> Forall (chunk_ok v c) hs -> operands_first v c.
Proof.
  intros Hc Hok. assert (K : forall i x, nth_error (co_ins c) i = Some x ->
    (i_op x = MAKE_FUNCTION -> (if v then 1 else 2) <= i) /\ (i_op x = IMPORT_NAME -> 2 <= i)).
  { intros i x H. rewrite Hc in H. apply flat_nth in H as (pre & h & suf & j & -> & Hj & ->).
    apply Forall_elt in Hok. destruct (enc_operands v c h j x Hok Hj) as [A B].
    split; intros Ho; [apply A in Ho|apply B in Ho]; [destruct v|]; lia. }
  split.
  - intros i (x & Hx & Ho). now apply (K i x).
  - intros i (x & Hx & Ho). destruct (K i x Hx) as [_ Q]. specialize (Q Ho). split; lia.
Qed.

Lemma descends_all p c d : descends p c d -> In d (all_codes c).
Proof. apply descends_In. Qed.

Lemma records_recorded fn name lv from i : records fn name lv from i -> recorded fn fn (code_what name lv from) i.
Proof.
  intros (A & B & C & D & F & G). split; [|split; [exact C|rewrite C, D, F; now destruct fn]].
  destruct from as [l|].
  - destruct G as (G1 & G2 & G3 & G4). assert (X : map fst (map (fun x : string => (x, @None string)) l) = l) by (rewrite map_map; apply map_id).
    cbn [code_what states_what]. rewrite A, B, X. repeat split; auto; try apply G1; try apply G3; auto.
    intros x Hx. rewrite (G4 x Hx). apply in_map_iff. exists (in_name x). split; [reflexivity|]. apply G1. now apply in_map.
  - destruct G as [G1 G2]. destruct lv as [|lv]; cbn [code_what states_what]; rewrite A, B, G1, G2; [auto|].
    split; [reflexivity|]. split; [reflexivity|]. cbn. split; [tauto|]. split; [constructor|]. split; [|contradiction]. split; [discriminate|tauto].
Qed.
Lemma stmt_is_unique c st name from name' from' : stmt_is c st name from -> stmt_is c st name' from' -> name = name' /\ from = from'.
Proof.
  intros (A & B & _) (A' & B' & _). rewrite A in A'. injection A' as <-. rewrite B in B'. split; [reflexivity|].
  destruct from, from'; congruence.
Qed.
Lemma Forall2_left {A B} (R : A -> B -> Prop) l l' x : Forall2 R l l' -> In x l -> exists y, In y l' /\ R x y.
Proof. induction 1; intros []; [subst; eexists; split; [now left|assumption]|]. destruct IHForall2 as (z & ? & ?); [assumption|]. eexists. split; [right|]; eassumption. Qed.
Lemma Forall2_right {A B} (R : A -> B -> Prop) l l' y : Forall2 R l l' -> In y l' -> exists x, In x l /\ R x y.
Proof. induction 1; intros []; [subst; eexists; split; [now left|assumption]|]. destruct IHForall2 as (z & ? & ?); [assumption|]. eexists. split; [right|]; eassumption. Qed.

Lemma code_covers v c l wr rd : compiled v c -> extract_bytecode_info v c = Some (ROk (l, wr, rd)) -> covers (code_says v c) l.
Proof.
  intros [Hn Hc] H. destruct (PropsBytecode.C11_function_context v c l wr rd Hn) with (2 := H) as [A B].
  { intros d Hd. destruct (Hc d Hd) as (hs & H1 & H2). eapply chunks_operands; eassumption. }
  split.
  - intros fn opt w (p & d & hs & st & name & from & Hd & H1 & H2 & H3 & H4 & -> & H5 & ->).
    destruct (A p d Hd) as (fn' & cls & g & F & _ & Hs & Hi). assert (fn' = fn) as -> by (eapply iff_true_eq; eassumption).
    destruct (PropsBytecode.C09_imports_decoded v d fn cls hs H1 H2) as (f & Hf & R). rewrite Hs in Hf. injection Hf as <-.
    destruct (Forall2_left _ _ _ _ R H3) as (i & I1 & name' & from' & I2 & I3).
    destruct (stmt_is_unique _ _ _ _ _ _ H4 I2) as [<- <-]. exists i. split; [now apply Hi|]. now apply records_recorded.
  - intros i Hi. destruct (B i Hi) as (p & d & fn & cls & g & Hd & F & _ & Hs & Hg & _).
    destruct (Hc d (descends_all p c d Hd)) as (hs & H1 & H2).
    destruct (PropsBytecode.C09_imports_decoded v d fn cls hs H1 H2) as (f & Hf & R). rewrite Hs in Hf. injection Hf as <-.
    destruct (Forall2_right _ _ _ _ R Hg) as (st & I1 & name & from & I2 & I3).
    exists fn, fn, (code_what name (st_level st) from). split; [|now apply records_recorded].
    exists p, d, hs, st, name, from. auto 10.
Qed.

Lemma origin_covers E x l : set_order (e_names_order E) -> compiled_env E -> origin E x l -> exists T, told_by E x T /\ covers T l.
Proof.
  intros HO HC [tree A B|c wr rd A B|A ->].
  - exists (tree_says tree). split; [now apply tx_tree|]. eapply tree_covers; eassumption.
  - exists (code_says (e_ge311 E) c). split; [now apply tx_code|]. eapply code_covers; [|exact B].
    destruct A as [sp frozen src mk A1 _ A2 _ _]. eapply HC; eassumption.
  - exists (fun _ _ _ => False). split; [now apply tx_none|]. split; [contradiction|intros i []].
Qed.

(** A statement and the edges that were made for its record. *)
Lemma recorded_import s x fn opt w i : recorded fn opt w i -> gfind (s_graph s) (n_name x) = Some x ->
  (forall name m, resolves s name m -> m = name) -> import_edge s (n_name x) i -> module_edge (s_graph s) x fn opt w.
Proof.
  intros (Hw & F1 & F2) Hx Hr Hi.
  assert (B : forall b, pkg_node s (n_name x) b -> b = node_is_pkg x).
  { intros b (k & A & ->). unfold kind_of in A. rewrite Hx in A. now injection A as <-. }
  assert (W : ii_level i = w_level w /\ in_name (ii_module i) = w_module w /\ in_asname (ii_module i) = w_asname w).
  { destruct w as [n a|m names lv]; cbn in Hw |- *.
    - destruct Hw as (-> & -> & _). auto.
    - destruct Hw as (-> & -> & _). destruct m; auto. }
  destruct W as (W1 & W2 & W3).
  assert (Ds : forall b a, dep_states fn opt b a (Dep (ii_in_function i || ii_in_conditional i || ii_in_tryexcept i) (negb (ii_in_function i)) b a)).
  { intros b a. unfold dep_states. cbn. now rewrite F2, F1. }
  destruct Hi as [(b & name & m & A1 & A2 & A3 & A4)|(b & A1 & A2 & A3 & A4)].
  - left. apply B in A1 as ->. apply Hr in A3 as ->. exists name. eexists. split; [|split; [|exact A4]].
    + destruct A2 as [L|q L U N|q L U N]; rewrite W1, ?W2 in *.
      * now apply mentions_absolute.
      * now apply mentions_package.
      * now apply mentions_relative.
    + rewrite <- W3. apply Ds.
  - right. apply B in A1 as ->. assert (Hd : invalid_name i = dotted w) by (unfold invalid_name, dotted; now rewrite W1, W2).
    rewrite Hd in *. split; [|split].
    + destruct A2 as [A2 A5]. rewrite W1 in *. now split.
    + unfold kind_of in A3. destruct (gfind (s_graph s) (dotted w)) as [y|]; [|discriminate]. exists y. split; [reflexivity|].
      now injection A3.
    + eexists. split; [|exact A4]. apply Ds.
Qed.

(** The module of a statement and of its record. *)
Lemma recorded_names s x fn opt w i name : recorded fn opt w i -> gfind (s_graph s) (n_name x) = Some x ->
  mentions (n_name x) (node_is_pkg x) w name <-> imports_name (n_name x) (node_is_pkg x) i name.
Proof.
  intros (Hw & _) Hx. assert (W : ii_level i = w_level w /\ in_name (ii_module i) = w_module w).
  { destruct w as [n a|m names lv]; cbn in Hw |- *; destruct Hw as (-> & -> & _); [auto|]. destruct m; auto. }
  destruct W as [W1 W2]. split.
  - intros [L|q L U N|q L U N]; rewrite <- ?W2, <- W1 in *.
    + now apply imports_absolute.
    + now apply imports_package.
    + now apply imports_relative.
  - intros [L|q L U N|q L U N]; rewrite ?W2, W1 in *.
    + now apply mentions_absolute.
    + now apply mentions_package.
    + now apply mentions_relative.
Qed.
Lemma own_pkg s x : gfind (s_graph s) (n_name x) = Some x -> pkg_node s (n_name x) (node_is_pkg x).
Proof. intros Hx. exists (n_kind x). unfold kind_of. rewrite Hx. now split. Qed.
Lemma own_pkg_unique s x b : gfind (s_graph s) (n_name x) = Some x -> pkg_node s (n_name x) b -> b = node_is_pkg x.
Proof. intros Hx (k & A & ->). unfold kind_of in A. rewrite Hx in A. now injection A as <-. Qed.

(** What has been done for the names of a from import. *)
Lemma recorded_from E s0 s x fn opt w i : order_ok E -> start s0 -> reach E s0 s -> s_missing s = [] ->
  recorded fn opt w i -> gfind (s_graph s) (n_name x) = Some x ->
  (forall m, import_target s (n_name x) i m -> In (EvDone (DoNames (n_name x) m i)) (s_log s)) -> name_edges (s_graph s) x fn opt w.
Proof.
  intros HE H0 HR Hm Hrec Hx Hd Hs pkg nd (name & Hn & Hal) Hp Hk H6 y Hy Hnw.
  assert (T : import_target s (n_name x) i name).
  { exists (node_is_pkg x), name. split; [now apply own_pkg|]. split; [|now left]. now apply (recorded_names s x fn opt w i name Hrec Hx). }
  destruct Hrec as (Hw & F1 & F2).
  destruct w as [n a|mo names lv]; [destruct Hy|]. cbn [w_names] in *.
  destruct Hw as (W1 & W2 & W3 & _ & W5 & W6).
  assert (Hi : In y (map in_name (ii_names i))).
  { apply W3. split; [|exact Hy]. intros ->. now apply Hs. }
  apply in_map_iff in Hi as (nm & <- & Hi).
  assert (Hst : ii_star i = false).
  { destruct (ii_star i); [|reflexivity]. elim Hs. now apply W5. }
  destruct (PropsImports.C59_from_edges_partial E s0 s (n_name x) pkg i nd nm HE H0 HR) as (t & A1 & A2 & A3 & A4 & A5).
  - exists name. split; [now apply Hd|]. split; [|now auto]. destruct Hal as [->|(m & Hname & Hal)]; [now left|right].
    unfold kind_of. rewrite Hname. cbn. now rewrite Hal.
  - exact Hi.
  - exact Hnw.
  - exact H6.
  - rewrite (A5 Hm) in *. exists (in_asname nm). eexists. split; [now apply W6|]. split; [|split; [exact A3|exact A4]].
    unfold dep_states, name_dep. cbn. now rewrite F2, F1.
Qed.

(** The full claim for one node: all statements of its code, at any depth, are in
    the graph. *)
Definition has_source (x : node) : Prop := n_kind x = Script \/ code_kind x = Some MSource.
Definition text_in_graph (s : st) (x : node) (T : says) : Prop :=
  forall fn opt w, T fn opt w -> module_edge (s_graph s) x fn opt w /\ name_edges (s_graph s) x fn opt w.
Definition code_in_graph (E : env) (s : st) (x : node) : Prop := exists T, told_by E x T /\ text_in_graph s x T.

Lemma covered_in_graph E s0 s x l T : order_ok E -> start s0 -> reach E s0 s -> s_missing s = [] ->
  s_stack s = [] -> gfind (s_graph s) (n_name x) = Some x -> covers T l -> In (EvSched (n_name x) l) (s_log s) ->
  (forall i, ~ In (EvFail (DoImport (n_name x) i)) (s_log s)) ->
  (forall m i, ~ In (EvFail (DoNames (n_name x) m i)) (s_log s)) -> text_in_graph s x T.
Proof.
  intros HE H0 HR Hm Z Hx HT Hsch N1 N2.
  pose proof (reach_facts E s0 s HE H0 HR) as F.
  assert (R : forall name m, resolves s name m -> m = name) by (intros name m; apply (reach_resolves E s0 s name m HE H0 HR Hm)).
  intros fn opt w Hw. destruct (proj1 HT fn opt w Hw) as (i & Hi & Hrec).
  destruct (f_entered _ F) as (G & _ & _). destruct (at_rest E s0 s HE H0 HR Z) as [Rest _].
  destruct (Rest _ (G (n_name x) l i Hsch Hi)) as [D|D]; [|now elim (N1 i)].
  split.
  - eapply recorded_import; [exact Hrec|exact Hx|exact R|]. eapply done_import_edge; eassumption.
  - eapply (recorded_from E s0 s); try eassumption.
    intros m Hmt. destruct (f_results _ F _ D) as [(b & A1 & A2 & _)|(m' & A1 & _ & A2)].
    + destruct Hmt as (b' & name & B1 & B2 & _). destruct A1 as (k & K1 & ->), B1 as (k' & K1' & ->).
      rewrite K1 in K1'. injection K1' as <-. now apply imports_not_beyond in B2.
    + assert (m' = m) as ->.
      { destruct Hmt as (b' & name & B1 & B2 & B3), A1 as (b & name' & A1 & A3 & A4).
        destruct A1 as (k & K1 & ->), B1 as (k' & K1' & ->). rewrite K1 in K1'. injection K1' as <-.
        apply R in B3, A4. rewrite B3, A4. eapply imports_name_unique; eassumption. }
      destruct (Rest _ A2) as [D'|D']; [exact D'|now elim (N2 m i)].
Qed.
Lemma no_text_dist E x : n_kind x = Distribution -> told_by E x (fun _ _ _ => False).
Proof. intros H. apply tx_none, nc_class; [now rewrite H|unfold code_kind; now rewrite H]. Qed.
Lemma added_covers E s0 s x l : set_order (e_names_order E) -> compiled_env E -> start s0 -> reach E s0 s ->
  gfind (s_graph s) (n_name x) = Some x -> In (EvAdd (n_name x) l) (s_log s) -> exists T, told_by E x T /\ covers T l.
Proof.
  intros HO HC H0 HR Hx Ha. eapply origin_covers; [exact HO|exact HC|]. exact (proj1 (proj2 (sourced_reach E s0 s H0 HR)) _ _ _ Ha Hx).
Qed.

Lemma source_told E x T : has_source x -> told_by E x T -> exists tree, source_of E x tree /\ T = tree_says tree.
Proof.
  intros Hsrc [tree Ht|c Ht|Ht].
  - exists tree. auto.
  - exfalso. destruct Ht as [sp fz src mk _ _ _ K1 K2]. destruct Hsrc as [K|K].
    + unfold code_kind in K1. rewrite K in K1. discriminate.
    + rewrite K in K1. injection K1 as <-. destruct K2 as [[_ K2]|(text & file & t & _ & K2 & _)]; [destruct fz; discriminate|discriminate].
  - exfalso. destruct Hsrc as [K|K], Ht as [K1 K2|K1|f ty K1|sp fz src code K1 _ _ _ _]; unfold code_kind in *; try rewrite K in *; try congruence.
    + destruct K1; discriminate.
    + destruct K1; congruence.
    + rewrite K1 in K. discriminate.
Qed.

(** Nodes made by a call without exception. *)
Theorem C63_call_partial : forall E s0 s fuel a ans s',
  order_ok E -> set_order (e_names_order E) -> compiled_env E -> start s0 -> reach E s0 s ->
  top_call E fuel a s = Some (ans, s') -> draining a = true -> ok_answer ans = true -> no_exception s s' -> s_missing s' = [] ->
  forall x, gfind (s_graph s') (n_name x) = Some x -> ~ in_graph s (n_name x) -> ~ In (EvGiven (n_name x)) (s_log s') ->
    code_in_graph E s' x.
Proof.
  intros E s0 s fuel a ans s' HE HO HP H0 HR HC D O N Hm x Hx Hn Hg.
  pose proof (reach_call E s0 s fuel a ans s' HR HC) as R'.
  assert (Hk : n_kind x = Distribution \/ n_kind x <> Distribution) by (destruct (n_kind x); auto; right; discriminate).
  destruct Hk as [Hk|Hk]; [exists (fun _ _ _ => False); split; [now apply no_text_dist|intros fn opt w []]|].
  assert (Hb : built s' (n_name x)).
  { exists (n_kind x). unfold kind_of. rewrite Hx. auto. }
  destruct (built_added E s0 s' _ HE H0 R' Hb) as (l & A).
  pose proof (call_pays E s0 s fuel a ans s' HE H0 HR HC N) as P.
  assert (Fail : forall w, In (EvFail w) (s_log s') -> (forall w', In (EvFail w) (s_log s) -> logged (EvFail w) w' -> work_ok s w -> in_graph s (n_name x)) -> False).
  { intros w K L. apply (P (OFail w) K). intros K'. cbn in K'. apply Hn. eapply L; [exact K'|right; now right|].
    apply (f_legit _ (reach_facts E s0 s HE H0 HR) _ w K'). right. now right. }
  destruct (added_covers E s0 s' x l HO HP H0 R' Hx A) as (T & HT & Hc). exists T. split; [exact HT|].
  apply (covered_in_graph E s0 s' x l); try assumption.
  - eapply top_call_drains; eassumption.
  - apply (P (OSched (n_name x) l)); [exact A|]. intros K. apply Hn.
    eapply (h_linv _ _ (reach_history E s0 s HE H0 HR)). exact K.
  - intros i K. apply (Fail _ K). intros w' _ _ [_ Hs]. exact (seen_graph E s0 s _ HE H0 HR Hs).
  - intros m i K. apply (Fail _ K). intros w' _ _ (_ & Hs & _). exact (seen_graph E s0 s _ HE H0 HR Hs).
Qed.

(** All nodes, as long as nothing has raised. *)
Lemma all_in_graph E s0 s x l T : order_ok E -> start s0 -> user_reach E s0 s -> ~ In EvErr (s_log s) -> s_missing s = [] ->
  gfind (s_graph s) (n_name x) = Some x -> In (EvAdd (n_name x) l) (s_log s) -> covers T l -> text_in_graph s x T.
Proof.
  intros HE H0 HU N Hm Hx A Hc. pose proof (user_is_reach _ _ _ HU) as HR.
  destruct (h_paid _ _ (reach_history E s0 s HE H0 HR)) as [P|P]; [contradiction|].
  apply (covered_in_graph E s0 s x l); try assumption.
  - exact (user_reach_empty E s0 s HE H0 HU N).
  - exact (P (OSched (n_name x) l) A).
  - intros i K. destruct (P (OFail (DoImport (n_name x) i)) K).
  - intros m i K. destruct (P (OFail (DoNames (n_name x) m i)) K).
Qed.
Theorem C63_all_partial : forall E s0 s,
  order_ok E -> set_order (e_names_order E) -> compiled_env E -> start s0 -> user_reach E s0 s -> ~ In EvErr (s_log s) -> s_missing s = [] ->
  forall x, gfind (s_graph s) (n_name x) = Some x -> ~ In (EvGiven (n_name x)) (s_log s) -> code_in_graph E s x.
Proof.
  intros E s0 s HE HO HP H0 HU N Hm x Hx Hg. pose proof (user_is_reach _ _ _ HU) as HR.
  assert (Hk : n_kind x = Distribution \/ n_kind x <> Distribution) by (destruct (n_kind x); auto; right; discriminate).
  destruct Hk as [Hk|Hk]; [exists (fun _ _ _ => False); split; [now apply no_text_dist|intros fn opt w []]|].
  assert (Hb : built s (n_name x)) by (exists (n_kind x); unfold kind_of; rewrite Hx; auto).
  destruct (built_added E s0 s _ HE H0 HR Hb) as (l & A).
  destruct (added_covers E s0 s x l HO HP H0 HR Hx A) as (T & HT & Hc). exists T. split; [exact HT|].
  apply (all_in_graph E s0 s x l T); assumption.
Qed.

(** The full claim: after a call that returns normally the graph has all import
    statements in the code of all nodes that hooks did not put into it. *)
Definition C63_statement : Prop := forall E s0 s fuel a ans s',
  order_ok E -> set_order (e_names_order E) -> compiled_env E -> start s0 -> reach E s0 s -> top_call E fuel a s = Some (ans, s') ->
  draining a = true -> ok_answer ans = true -> s_missing s' = [] ->
  forall x, gfind (s_graph s') (n_name x) = Some x -> ~ In (EvGiven (n_name x)) (s_log s') ->
    code_in_graph E s' x.

(** It does not hold: [q.p] was added by an earlier call that raised before the
    import statements were put on the stack (see C22); they are never processed. *)
Definition broken_node : node := Eval vm_compute in
  match gfind (s_graph broken_next) "q.p" with Some x => x | None => plain_node Script "" end.

Lemma code_of_compiled v r w : compiled v (code_of r w).
Proof.
  split; [cbn; repeat constructor; intros []|]. intros d [<-|[]].
  exists (map ChOther (co_ins (code_of r w))). split.
  - assert (X : forall l, l = flat_map (enc v) (map ChOther l)) by (induction l as [|x l IH]; [reflexivity|cbn; now f_equal]). apply X.
  - apply Forall_map, Forall_forall. intros x Hx. cbn in Hx. apply in_app_or in Hx as [Hx|Hx];
      apply in_map_iff in Hx as (i & <- & Hi); apply in_seq in Hi; cbn [chunk_ok i_op].
    + destruct (nth_error (r ++ w)%list i) as [n|] eqn:En; [now exists n, i|]. apply nth_error_None in En. rewrite app_length in En. lia.
    + destruct (nth_error (r ++ w)%list i) as [n|] eqn:En; [now exists n, i|]. apply nth_error_None in En. rewrite app_length in En. lia.
Qed.
Lemma world_compiled w scripts files :
  (forall n sp fz src c, In (n, ESpec sp) w -> sp_loader sp = LInspect fz src (ROk (Some c)) -> compiled true c) ->
  compiled_env (world w scripts files).
Proof.
  intros H sp fz src c (t & f & name & Hf) Hl. cbn in Hf. destruct (assoc name w) as [e|] eqn:Ea; [|discriminate].
  apply assoc_In in Ea. destruct e; cbn in Hf; try discriminate; injection Hf as <-; cbn in Hl; try discriminate.
  - injection Hl as _ _ <-. apply code_of_compiled.
  - injection Hl as _ _ <-. apply code_of_compiled.
  - eapply H; eassumption.
Qed.

Theorem C63_refuted : ~ C63_statement.
Proof.
  intros H. assert (X : code_in_graph broken_world broken_next broken_node).
  { apply (H broken_world new broken 60 (AAddModule "m") (AnsId "m") broken_next (world_order _ _ _)).
    - exact (fun l => Permutation_refl l).
    - apply world_compiled. intros n sp fz src c K. cbn in K. intuition discriminate.
    - exact new_start.
    - exact broken_reach.
    - exact broken_call.
    - reflexivity.
    - reflexivity.
    - reflexivity.
    - vm_compute. reflexivity.
    - cbn. clear H. intuition discriminate. }
  clear H. destruct X as (T & HT & A). apply source_told in HT as (tree & So & ->); [|right; reflexivity].
  assert (Q : tree = AOther [World.imp "x"]).
  { destruct So as [t K _|sp fz text code file t mk (t1 & f & name & Hi) Hn Hl Ho Hp _ _ _]; [discriminate K|].
    assert (N : name = "q.p").
    { cbn in Hi. destruct (seqb name "q") eqn:E1; [injection Hi as <-; apply seqb_eq in E1 as ->; discriminate|].
      destruct (seqb name "q.p") eqn:E2; [now apply seqb_eq in E2|].
      destruct (seqb name "pkgutil"); [discriminate|]. destruct (seqb name "m") eqn:E3; [|discriminate].
      injection Hi as <-. apply seqb_eq in E3 as ->. discriminate. }
    subst name. cbn in Hi. injection Hi as <-. cbn in Hl. injection Hl as _ <- _. cbn in Hp. now injection Hp as <-. }
  subst tree. destruct (A false false (WImport "x" None)) as [M _].
  { exists [KOther]. split; [now left|]. split; (split; [discriminate|]); cbn; intuition discriminate. }
  destruct M as [(name & d & M & _ & He)|((L & _) & _)]; [|now elim L].
  destruct M as [L|q L|q L]; try now elim L. clear A. cbn in He. unfold has_edge in He. vm_compute in He. now destruct He as (ds & [] & _).
Qed.

(** A package with statements in functions, conditionals and try blocks, relative
    imports, one of them beyond the top level package, names and aliases; and a
    module [b] without source that imports [p.r] and, in a function, [q] from [p]. *)
Definition b_function : code := Code 1 ["p"] [CInt 0; CTuple ["q"]]
  (enc_import (IStmt (Some 0) 0 [] 1 None 0 None)).
Definition b_code : code := Code 0 ["p.r"] [CInt 0; CNone; CCode b_function]
  (enc_import (IStmt (Some 0) 0 [] 1 None 0 None) ++ enc true (ChFunction 2 [] 0)).
Definition b_spec : spec := Spec "b" (LInspect false (ROk None) (ROk (Some b_code))) (Some "b.pyc") None true (ROk false).
Definition source_world : env := world
  [("p", ESource true [World.from "q" ["f"] 1] []);
   ("p.q", ESource false
     [AFunctionDef [ATry [AImport [("json", Some "j")]] [AIf [World.imp "simplejson"]] [] [World.imp "re"]];
      AImportFrom None [("r", Some "rr"); ("s", None)] 1;
      AFunctionDef [World.from "deep" ["z"] 7]] ["f"]);
   ("p.r", ESource false [] []); ("b", ESpec b_spec);
   ("json", ESource true [] []); ("re", EExtension)]
  [("main.py", [World.from "p" ["q"; "nothing"] 0; World.imp "b"])] [].
Definition source_end : st := Eval vm_compute in snd (the_calls source_world [AAddScript "main.py"] new).
Definition source_node (n : string) : node :=
  match gfind (s_graph source_end) n with Some x => x | None => plain_node Script "" end.
Lemma source_compiled : compiled_env source_world.
Proof.
  apply world_compiled. intros n sp fz src c K Hl. cbn in K.
  assert (sp = b_spec) as -> by (clear Hl; intuition congruence). injection Hl as _ _ <-.
  split; [cbn; repeat constructor; cbn; intuition discriminate|]. intros d [<-|[<-|[]]].
  - exists [ChImport (IStmt (Some 0) 0 [] 1 None 0 None); ChFunction 2 [] 0]. split; [reflexivity|].
    constructor; [exists "p.r", None; now repeat split|]. constructor; [now eexists|constructor].
  - exists [ChImport (IStmt (Some 0) 0 [] 1 None 0 None)]. split; [reflexivity|].
    constructor; [exists "p", (Some ["q"]); now repeat split|constructor].
Qed.
Example C63_nonvacuous :
  user_reach source_world new source_end /\ ~ In EvErr (s_log source_end) /\ s_missing source_end = []
  /\ gfind (s_graph source_end) "p.q" = Some (source_node "p.q") /\ has_source (source_node "p.q")
  /\ gfind (s_graph source_end) "main.py" = Some (source_node "main.py") /\ has_source (source_node "main.py")
  /\ gfind (s_graph source_end) "b" = Some (source_node "b") /\ n_kind (source_node "b") = Module MBytecode
  /\ ~ In (EvGiven "p.q") (s_log source_end)
  /\ has_edge (s_graph source_end) "p.q" "json" (Dep true false false (Some "j"))
  /\ has_edge (s_graph source_end) "p.q" "simplejson" (Dep true false false None)
  /\ has_edge (s_graph source_end) "p.q" "re" (Dep true false false None)
  /\ has_edge (s_graph source_end) "p.q" "p.r" (Dep false true true (Some "rr"))
  /\ has_edge (s_graph source_end) "p.q" ".......deep" (Dep true false false None)
  /\ has_edge (s_graph source_end) "main.py" "p.nothing" (Dep false true true None)
  /\ has_edge (s_graph source_end) "b" "p.r" (Dep false true false None)
  /\ has_edge (s_graph source_end) "b" "p.q" (Dep true false true None)
  /\ code_in_graph source_world source_end (source_node "p.q") /\ code_in_graph source_world source_end (source_node "b").
Proof.
  assert (U : user_reach source_world new source_end).
  { eapply (user_more _ _ new 60 (AAddScript "main.py")); [apply user_init|reflexivity|vm_compute; reflexivity]. }
  assert (G : ~ In EvErr (s_log source_end)) by (cbn; intuition discriminate).
  assert (V : ~ In (EvGiven "p.q") (s_log source_end)) by (cbn; intuition discriminate).
  pose proof (C63_all_partial source_world new source_end (world_order _ _ _) (fun l => Permutation_refl l) source_compiled new_start U G eq_refl) as K.
  repeat match goal with
  | |- _ /\ _ => split
  | |- has_edge _ _ _ _ => eexists; split; [vm_compute; tauto|vm_compute; tauto]
  | |- has_source _ => first [right; reflexivity|left; reflexivity]
  | |- code_in_graph _ _ _ => apply K; [reflexivity|cbn; clear; intuition discriminate]
  end; auto.
Qed.

(** ** C64: the edges of a node are explained by its code *)

Lemma plain_is_user E implies fine s : plain_history E implies fine s -> exists first, user_reach E (init first [] []) s.
Proof.
  induction 1 as [first HF|s fuel a ans s' H (first & IH) Ha HC _]; [exists first; apply user_init|]. exists first. eapply user_more; [exact IH| |exact HC].
  destruct a; try destruct Ha; reflexivity.
Qed.
Lemma plain_holds E implies fine s : plain_history E implies fine s -> plain implies fine s.
Proof.
  induction 1 as [first HF|s fuel a ans s' H IH Ha HC Hf]; [now apply plain_start|].
  destruct (keeps_top_or _ _ _ _ _ (strong_of _ _ _ _ _ (plain_keeper E implies fine)) fuel a s ans s' Ha IH HC) as [K|(e & s1 & -> & K & ->)]; [exact K|].
  destruct K as [P1 P2 P3 P4 P5 P6 P7]. constructor; auto; cbn [s_log log].
  - intros name i [K|K]; [discriminate|auto].
  - intros e' [<-|K]; auto.
  - intros F. now elim (Hf F e).
Qed.

Lemma recorded_beyond x fn opt w i : recorded fn opt w i -> beyond_top (n_name x) (node_is_pkg x) i ->
  leaves_top (n_name x) (node_is_pkg x) w /\ invalid_name i = dotted w.
Proof.
  intros (Hw & _) [A B]. assert (W : ii_level i = w_level w /\ in_name (ii_module i) = w_module w).
  { destruct w as [n a|m names lv]; cbn in Hw |- *; destruct Hw as (-> & -> & _); [auto|]. destruct m; auto. }
  destruct W as [W1 W2]. rewrite W1 in *. split; [now split|]. unfold invalid_name, dotted. now rewrite W1, W2.
Qed.
Lemma recorded_nm fn opt w i nm : recorded fn opt w i -> In nm (ii_names i) -> In (in_name nm, in_asname nm) (w_names w) /\ in_name nm <> "*".
Proof.
  intros (Hw & _) Hn. destruct w as [n a|m names lv]; cbn in Hw.
  - destruct Hw as (_ & _ & K & _). rewrite K in Hn. destruct Hn.
  - destruct Hw as (_ & _ & W3 & _ & _ & W6). split; [now apply W6|]. apply W3. now apply in_map.
Qed.

Lemma edges_explained E implies fine s x T : order_ok E -> plain_history E implies fine s ->
  gfind (s_graph s) (n_name x) = Some x ->
  (forall l i, In (EvAdd (n_name x) l) (s_log s) -> In i l -> exists fn opt w, T fn opt w /\ recorded fn opt w i) ->
  forall b d, has_edge (s_graph s) (n_name x) b d -> explained (s_graph s) implies x T b d.
Proof.
  intros HE HH Hx HT b d He.
  destruct (plain_is_user _ _ _ _ HH) as (first & HU). set (s0 := init first [] []) in HU. assert (H0 : start s0) by (now exists first, [], []).
  pose proof (user_is_reach _ _ _ HU) as HR.
  pose proof (plain_holds _ _ _ _ HH) as P.
  assert (R : forall name m, resolves s name m -> m = name) by (intros name m; apply (reach_resolves E s0 s name m HE H0 HR (pl_missing _ _ _ P))).
  assert (Sch : forall i, scheduled s (n_name x) i -> exists fn opt w, T fn opt w /\ recorded fn opt w i).
  { intros i (l & A & B). destruct (sched_from E s0 s _ _ HE H0 HR A) as [K|K]; [now apply (HT l)|]. now apply (pl_asked _ _ _ P) in K. }
  assert (Tg : forall fn opt w i m, recorded fn opt w i -> import_target s (n_name x) i m -> mentions (n_name x) (node_is_pkg x) w m).
  { intros fn opt w i m Hrec (b' & name & A & B & C). apply R in C as ->. apply (own_pkg_unique s x b' Hx) in A as ->.
    now apply (recorded_names s x fn opt w i name Hrec Hx). }
  assert (Src : forall fn opt w i m, recorded fn opt w i -> names_source s (n_name x) i m -> names_from (s_graph s) x w m).
  { intros fn opt w i m Hrec (m0 & A & B). exists m0. split; [eapply Tg; eassumption|]. destruct B as [->|B]; [now left|right].
    unfold kind_of in B. destruct (gfind (s_graph s) m0) as [y|]; [|discriminate]. exists y. split; [reflexivity|]. now injection B. }
  assert (Kd : forall k, kind_of s (n_name x) = Some k -> n_kind x = k).
  { intros k K. unfold kind_of in K. rewrite Hx in K. now injection K. }
  assert (Ds : forall fn opt w i bb a, recorded fn opt w i -> dep_states fn opt bb a (Dep (ii_in_function i || ii_in_conditional i || ii_in_tryexcept i) (negb (ii_in_function i)) bb a)).
  { intros fn opt w i bb a (_ & F1 & F2). unfold dep_states. cbn. now rewrite F2, F1. }
  assert (Ns : forall fn opt w i, recorded fn opt w i -> ii_star i = false -> ~ In "*" (map fst (w_names w))).
  { intros fn opt w i (K & _) Hs Hin. destruct w as [nn a|mo names lv]; [destruct Hin|]. destruct K as (_ & _ & _ & _ & K & _). apply K in Hin. congruence. }
  pose proof (C26_edges_justified E s0 s _ _ _ HE H0 HR He) as J.
  remember (n_name x) as n eqn:En in J.
  destruct J as [n i m A B|n i b0 A B C|n i m nm k t A B C Q D1 D2 D|n i m nm t A B C Q D1 D|n i m nm z t b1 k f ty A B C D F G
    |name c t p A B C|n i m nm k t A B C Q D1 D2 D|name refs ref t o A B C D|name al o A B|name al o A B
    |n b1 z k f ty o A B C|id d name o A B C|n name o A B|n o d A|n name o A B]; try subst n; try subst t; try subst name; try subst id.
  - destruct (Sch i A) as (fn & opt & w & Hw & Hrec). eapply ex_module; [exact Hw|eapply Tg; eassumption|].
    assert (W3 : in_asname (ii_module i) = w_asname w).
    { destruct Hrec as (K & _). destruct w as [nn a|mo names lv]; cbn in K |- *; destruct K as (-> & _); reflexivity. }
    rewrite <- W3. apply (Ds fn opt w i); exact Hrec.
  - destruct (Sch i A) as (fn & opt & w & Hw & Hrec). apply (own_pkg_unique s x b0 Hx) in B as ->.
    destruct (recorded_beyond x fn opt w i Hrec C) as [K1 K2]. eapply ex_beyond; [exact Hw|exact K1|exact K2|]. apply (Ds fn opt w i); exact Hrec.
  - destruct (Sch i A) as (fn & opt & w & Hw & Hrec). destruct (recorded_nm fn opt w i nm Hrec C) as [K1 K2]. apply R in D as ->.
    unfold kind_of in D1. destruct (gfind (s_graph s) m) as [nd|] eqn:Em; [|discriminate]. injection D1 as <-.
    eapply ex_name; [exact Hw|eapply Src; eassumption|exact K1|eapply Ns; eassumption|left; split; [reflexivity|exists nd; now split]|]. apply (Ds fn opt w i); exact Hrec.
  - destruct (Sch i A) as (fn & opt & w & Hw & Hrec). destruct (recorded_nm fn opt w i nm Hrec C) as [K1 K2].
    eapply ex_name; [exact Hw|eapply Src; eassumption|exact K1|eapply Ns; eassumption|right; split; [exact D|exact D1]|]. apply (Ds fn opt w i); exact Hrec.
  - destruct (Sch i A) as (fn & opt & w & Hw & Hrec). destruct (recorded_nm fn opt w i nm Hrec C) as [K1 K2]. apply R in G as ->.
    unfold kind_of in D. destruct (gfind (s_graph s) m) as [nd|] eqn:Em; [|discriminate].
    eapply (ex_six _ _ _ _ _ _ fn opt w m nd); try eassumption; try reflexivity.
    + eapply Src; eassumption.
    + injection D as D. rewrite D. reflexivity.
  - apply R in B, C. subst p. subst. inversion A; subst.
    + eapply ex_parent; [symmetry; match goal with K : _ = n_name x |- _ => exact K end|reflexivity].
    + eapply ex_dots; [reflexivity|symmetry; eassumption|reflexivity].
  - apply R in D. eapply ex_parent; [exact D|reflexivity].
  - apply R in C, D. subst. destruct (pl_implied _ _ _ P _ _ A) as [K|K]; [discriminate|]. eapply ex_implied; [exact K|exact B|reflexivity].
  - apply R in B as ->. apply ex_alias; [left; now apply Kd|reflexivity].
  - apply R in B as ->. apply ex_alias; [right; now apply Kd|reflexivity].
  - apply R in C as ->. eapply ex_nspkg; [apply Kd; exact A|exact B|reflexivity].
  - destruct A as (nd & A1 & A2 & A3). rewrite Hx in A1. injection A1 as <-. apply R in C as ->. eapply ex_dist; eauto.
  - now apply (pl_asked _ _ _ P) in A.
  - now apply (pl_asked _ _ _ P) in A.
  - now apply (pl_asked _ _ _ P) in A.
Qed.

(** Every edge of every node is there for a reason, and as long as no call raises
    every reason in the code has its edge. *)
Theorem C64_exact : forall E implies fine s,
  order_ok E -> set_order (e_names_order E) -> compiled_env E -> plain_history E implies fine s ->
  forall x, gfind (s_graph s) (n_name x) = Some x -> exists T, told_by E x T
    /\ (forall b d, has_edge (s_graph s) (n_name x) b d -> explained (s_graph s) implies x T b d)
    /\ (fine -> text_in_graph s x T).
Proof.
  intros E implies fine s HE HO HP HH x Hx.
  destruct (plain_is_user _ _ _ _ HH) as (first & HU). set (s0 := init first [] []) in HU. assert (H0 : start s0) by (now exists first, [], []).
  pose proof (user_is_reach _ _ _ HU) as HR.
  pose proof (plain_holds _ _ _ _ HH) as P. pose proof (sourced_reach E s0 s H0 HR) as (_ & So & Un).
  assert (Hk : n_kind x = Distribution \/ n_kind x <> Distribution) by (destruct (n_kind x); auto; right; discriminate).
  destruct Hk as [Hk|Hk].
  - exists (fun _ _ _ => False). split; [now apply no_text_dist|]. split; [|intros _ fn opt w []].
    apply (edges_explained E implies fine s x _ HE HH Hx). intros l i A B. exfalso.
    assert (Hc : code_kind x = None) by (unfold code_kind; now rewrite Hk).
    destruct (So _ _ _ A Hx) as [tree [t K _|sp fz text code file t mk _ _ _ _ _ _ K _] _|c wr rd [sp fz src mk _ _ _ K _] _|_ ->]; try congruence.
    destruct B.
  - assert (Hb : built s (n_name x)).
    { exists (n_kind x). unfold kind_of. rewrite Hx. split; [reflexivity|]. split; [exact Hk|]. intros K. now apply (pl_asked _ _ _ P) in K. }
    destruct (built_added E s0 s _ HE H0 HR Hb) as (l & A).
    destruct (added_covers E s0 s x l HO HP H0 HR Hx A) as (T & HT & Hc). exists T. split; [exact HT|]. split.
    + apply (edges_explained E implies fine s x _ HE HH Hx). intros l' i A' Hi. assert (l' = l) as -> by (eapply Un; eassumption).
      now apply (proj2 Hc).
    + intros F. apply (all_in_graph E s0 s x l T); try assumption; [now apply (pl_fine _ _ _ P)|exact (pl_missing _ _ _ P)].
Qed.

(** For modules with source. *)
Theorem C64_source : forall E implies fine s,
  order_ok E -> set_order (e_names_order E) -> compiled_env E -> plain_history E implies fine s ->
  forall x, gfind (s_graph s) (n_name x) = Some x -> has_source x -> exists tree, source_of E x tree
    /\ (forall b d, has_edge (s_graph s) (n_name x) b d -> explained (s_graph s) implies x (tree_says tree) b d)
    /\ (fine -> forall p w, In (p, w) (sites [] tree) -> exists fn opt, (fn = true <-> In KDef p)
          /\ (opt = true <-> In KDef p \/ In KIf p \/ In KTry p)
          /\ module_edge (s_graph s) x fn opt w /\ name_edges (s_graph s) x fn opt w).
Proof.
  intros E implies fine s HE HO HP HH x Hx Hsrc. destruct (C64_exact E implies fine s HE HO HP HH x Hx) as (T & HT & A & B).
  destruct (source_told E x T Hsrc HT) as (tree & Ht & ->).
  exists tree. split; [exact Ht|]. split; [exact A|]. intros F p w Hp.
  exists (existsb (fun k => match k with KDef => true | _ => false end) p),
    (existsb (fun k => match k with KDef | KIf | KTry => true | _ => false end) p).
  assert (X : forall q : edge -> bool, existsb q p = true <-> exists k, In k p /\ q k = true) by (intros q; apply existsb_exists).
  assert (X1 : existsb (fun k => match k with KDef => true | _ => false end) p = true <-> In KDef p).
  { rewrite X. split; [intros (k & K1 & K2); now destruct k|intros K; now exists KDef]. }
  assert (X2 : existsb (fun k => match k with KDef | KIf | KTry => true | _ => false end) p = true <-> In KDef p \/ In KIf p \/ In KTry p).
  { rewrite X. split; [intros (k & K1 & K2); destruct k; try discriminate; auto|intros [K|[K|K]]; eauto]. }
  split; [exact X1|]. split; [exact X2|]. apply (B F). exists p. auto.
Qed.

(** The same world: no hooks, one call, which returns normally. *)
Example C64_nonvacuous :
  plain_history source_world [] True source_end
  /\ (exists T, told_by source_world (source_node "p.q") T
      /\ (forall b d, has_edge (s_graph source_end) "p.q" b d -> explained (s_graph source_end) [] (source_node "p.q") T b d)
      /\ text_in_graph source_end (source_node "p.q") T)
  /\ map snd (filter (fun e => seqb (fst e) "p.q") (edge_pairs source_end))
     = ["p"; "simplejson"; "re"; "json"; ".......deep"; "p.r"; "p.s"]
  /\ map snd (filter (fun e => seqb (fst e) "b") (edge_pairs source_end)) = ["p"; "p.q"; "p.r"].
Proof.
  assert (P : plain_history source_world [] True source_end).
  { eapply (ph_call _ _ _ (init [] [] []) 60 (AAddScript "main.py")); [apply ph_init, incl_refl|exact Logic.I|vm_compute; reflexivity|discriminate]. }
  split; [exact P|]. split; [|split; vm_compute; reflexivity].
  destruct (C64_exact source_world [] True source_end (world_order _ _ _) (fun l => Permutation_refl l) source_compiled P (source_node "p.q") eq_refl)
    as (T & A & B & C). exists T. auto.
Qed.

Print Assumptions C63_refuted.
Print Assumptions C63_call_partial.
Print Assumptions C63_all_partial.
Print Assumptions C64_exact.
Print Assumptions C64_source.
