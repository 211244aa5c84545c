(** Invariants: where the attributes of nodes come from. *)
From Verif Require Export BuilderSource AttrSpec.

(** Nodes that the builder adds. *)
Inductive added (E : env) : node -> list iinfo -> Prop :=
| added_made n l : made E n l -> added E n l
| added_missing name : added E (plain_node MissingModule name) [].

(** Names of a node, by the log of the builder. *)
Inductive held (E : env) (s : st) : string -> string -> Prop :=
| hd_own id l y x n : In (EvAdd id l) (s_log s) -> added E y l -> gfind (s_graph s) id = Some x -> same_node y x ->
    In n (n_written y) -> held E s id n
| hd_given id n : In (EvGiven id) (s_log s) -> held E s id n
| hd_list id m i n : In (EvPop (DoNames id m i)) (s_log s) -> ii_star i = false -> In n (map in_name (ii_names i)) -> held E s id n
| hd_star id m i z n : In (EvPop (DoNames id m i)) (s_log s) -> ii_star i = true -> gfind (s_graph s) m = Some z ->
    is_package (n_kind z) || is_module (n_kind z) = true -> held E s m n -> held E s id n.

(** ** Nodes as [node_for_spec] makes them *)

Lemma wrap_cases E sp b src mk n l s n' l' s' : wrap_package E sp b src mk n l s = Some (ROk (n', l'), s') ->
  let text := match src with Some t => t | None => EmptyString end in
  let explicit := match src with Some _ => true | None => false end && memb "__import__" (n_read n)
                  && (has_sub "pkg_resources" text || has_sub "pkgutil" text) in
  (sp_ispkg sp = ROk false /\ n' = n) \/
  (sp_ispkg sp = ROk true /\ exists locs data,
     n' = Node (n_name n) (Package b (n_name n) mk (n_file n)
            (if explicit then Some (if has_sub "pkg_resources" text then "pkg_resources" else "pkgutil")%string else None))
            (n_written n) (n_read n) (n_dist n) (option_map (e_parent E) (n_file n)) locs data
     /\ (sp_search sp = Some locs \/ (explicit = true /\ exists t, e_import E t (n_name n) = ROk locs))
     /\ data_told E (option_map (e_parent E) (n_file n)) data).
Proof.
  intros H text explicit. unfold wrap_package in H. fold text in H. fold explicit in H.
  apply ok_bind in H as (p & s1 & H1 & H). unfold of_result in H1.
  assert (Hp : sp_ispkg sp = ROk p) by (destruct (sp_ispkg sp); [now injection H1 as ->|discriminate]).
  destruct p; cbn [negb] in H; [right; split; [exact Hp|]|left; split; [exact Hp|now injection H as <- <- <-]].
  apply ok_bind in H as (search & s2 & H2 & H). destruct search as [locs|]; [|discriminate].
  apply ok_bind in H as (data & s3 & H3 & H). injection H as <- <- <-. exists locs, data. split; [reflexivity|]. split.
  - clear H3. destruct explicit; [|left; now injection H2 as -> _].
    apply ok_bind in H2 as (r & s4 & H4 & H2). unfold attempt, askr in H4. injection H4 as H4 _.
    destruct r as [l0|e]; [injection H2 as -> _; right; split; [reflexivity|]; eauto|].
    left. destruct e; try discriminate H2; now injection H2 as -> _.
  - clear H2. destruct (option_map (e_parent E) (n_file n)) as [d|]; cbn [data_told]; [|now injection H3 as <- _].
    unfold askr in H3. injection H3 as H3 _. eauto.
Qed.

Lemma dist_of_told E o use s d s' : dist_of E o use s = Some (ROk d, s') -> dist_told E (file_of o use) d.
Proof.
  unfold dist_of, file_of. destruct o as [f|]; [|intros H; injection H as <- _; now destruct use].
  destruct use; cbn [dist_told]; intros H; [|now injection H as <- _]. unfold askr in H. injection H as H _. eauto.
Qed.

Lemma has_sub_occurs p text : has_sub p text = true <-> occurs p text.
Proof. apply has_sub_spec. Qed.

Lemma looks_source sp frozen src code rd : sp_loader sp = LInspect frozen (ROk src) code ->
  let text := match src with Some t => t | None => EmptyString end in
  let explicit := match src with Some _ => true | None => false end && memb "__import__" rd
                  && (has_sub "pkg_resources" text || has_sub "pkgutil" text) in
  looks_like sp rd (if explicit then Some (if has_sub "pkg_resources" text then "pkg_resources" else "pkgutil")%string else None).
Proof.
  intros El text explicit. unfold looks_like.
  assert (X : forall t, refers_to sp rd t <-> match src with Some _ => true | None => false end = true /\ memb "__import__" rd = true /\ has_sub t text = true).
  { intros t. split.
    - intros (fz & tx & co & K1 & K2 & K3). rewrite El in K1. injection K1 as _ -> _. split; [reflexivity|]. split; [now apply memb_In|now apply has_sub_occurs].
    - intros (K1 & K2 & K3). destruct src as [tx|]; [|discriminate]. exists frozen, tx, code. split; [exact El|]. split; [now apply memb_In|now apply has_sub_occurs]. }
  unfold explicit. destruct (match src with Some _ => true | None => false end) eqn:E1; cbn [andb];
    [|split; intros K; apply X in K as (K & _); discriminate].
  destruct (memb "__import__" rd) eqn:E2; cbn [andb]; [|split; intros K; apply X in K as (_ & K & _); discriminate].
  destruct (has_sub "pkg_resources" text) eqn:E3; cbn [orb].
  { split; [apply X; auto|now left]. }
  destruct (has_sub "pkgutil" text) eqn:E4.
  - split; [apply X; auto|]. right. split; [reflexivity|]. intros K. apply X in K as (_ & _ & K). congruence.
  - split; intros K; apply X in K as (_ & _ & K); congruence.
Qed.
Lemma looks_other sp rd : (forall f src code, sp_loader sp <> LInspect f src code) -> looks_like sp rd None.
Proof. intros H. split; intros (f & t & c & K & _); now apply H in K. Qed.

(** A node of a module, possibly wrapped, is as described. *)
Lemma wrap_described E sp src mk n l s n' l' s' : importable E sp ->
  wrap_package E sp (frozen_told sp) src mk n l s = Some (ROk (n', l'), s') ->
  n_kind n = Module mk -> n_name n = sp_name sp -> class_told sp mk -> n_file n = spec_file sp -> dist_told E (spec_file sp) (n_dist n) ->
  n_search n = [] -> n_data n = false ->
  (let text := match src with Some t => t | None => EmptyString end in
   let explicit := match src with Some _ => true | None => false end && memb "__import__" (n_read n)
                  && (has_sub "pkg_resources" text || has_sub "pkgutil" text) in
   looks_like sp (n_read n) (if explicit then Some (if has_sub "pkg_resources" text then "pkg_resources" else "pkgutil")%string else None)) ->
  described E n' /\ n_read n' = n_read n /\ n_written n' = n_written n /\ n_name n' = n_name n /\ code_kind n' = Some mk
  /\ forall i f ty, n_kind n' = Package false i MFrozen f ty -> i = n_name n.
Proof.
  intros Hi H Hk Hn Hc Hf Hd Hs Hda Hl. cbv zeta in Hl.
  apply wrap_cases in H as [(K & ->)|(K & locs & data & -> & K1 & K2)].
  - split; [|repeat split; auto; [unfold code_kind; now rewrite Hk|intros i f ty X; rewrite Hk in X; discriminate]].
    eapply (ds_module E n sp mk); auto.
  - split; [|repeat split; auto; cbn; intros i f ty X; now injection X].
    eapply ds_package with (sp := sp) (mk := mk); cbn [n_kind n_name n_file n_dist n_read n_search n_data]; auto.
    + rewrite Hf. reflexivity.
    + now rewrite Hf.
    + exact Hl.
    + destruct K1 as [K1|(K1 & K3)]; [now left|right]. split; [rewrite K1; discriminate|exact K3].
Qed.

(** The names of a node when it is made. *)
Inductive scanned (E : env) (n : node) : Prop :=
| sc_code c l : code_object_of E n c -> extract_bytecode_info (e_ge311 E) c = Some (ROk (l, n_written n, n_read n)) -> scanned E n
| sc_six f ty : n_kind n = Package false "@@SIX_MOVES@@" MFrozen f ty -> n_written n = SIX_MOVES_GLOBALS -> n_read n = [] -> scanned E n
| sc_none : no_names_of E n -> n_written n = [] -> n_read n = [] -> scanned E n.

Lemma nfs_attrs E : forall k sp s n l s', BuilderKeep.found E sp -> f_nfs (exec E k) sp s = Some (ROk (n, l), s') ->
  described E n /\ scanned E n.
Proof.
  induction k as [|k IH]; intros sp s n l s' Hf H; [discriminate|].
  change (nfs_body E (f_nfs (exec E k)) sp s = Some (ROk (n, l), s')) in H.
  assert (Moved : forall nm m s0 s1 s2 n l s', find_spec E nm s0 = Some (ROk (Some m), s1) ->
    (do assert (negb (seqb (sp_name sp) (sp_name m))) ;; f_nfs (exec E k) m) s2 = Some (ROk (n, l), s') -> described E n /\ scanned E n).
  { intros nm m t0 t1 t2 n' l' t' Hm H'. apply ok_bind in H' as (u & t3 & Ha & H'). eapply IH; [|exact H'].
    injection Hm as Hm _. unfold BuilderKeep.found. eauto. }
  assert (Plain : forall nm, described E (plain_node MissingModule nm) /\ scanned E (plain_node MissingModule nm)).
  { intros nm. split; [apply ds_place|apply sc_none; [apply nn_class| |]]; first [reflexivity|discriminate]. }
  unfold nfs_body in H. destruct (sp_loader sp) as [| | | |frozen gs gc| |[[root vendor]|]| |] eqn:El.
  - destruct (sp_search sp) as [locs|] eqn:Es; [|discriminate]. injection H as <- <- <-. split.
    + apply ds_namespace with (sp := sp); auto.
    + apply sc_none; [apply nn_class| |]; reflexivity.
  - destruct (sp_search sp) as [locs|] eqn:Es; [|discriminate]. injection H as <- <- <-. split.
    + apply ds_namespace with (sp := sp); auto.
    + apply sc_none; [apply nn_class| |]; reflexivity.
  - assert (Fr : frozen_told sp = false) by (unfold frozen_told; now rewrite El). rewrite <- Fr in H.
    apply wrap_described in H as (A & B & C & D & F & _); auto; cbn [n_kind n_name n_file n_dist n_read n_written] in *.
    + split; [exact A|]. apply sc_none; auto. apply nn_binary. rewrite F. auto.
    + unfold class_told. now rewrite El.
    + unfold spec_file. now rewrite El.
    + unfold spec_file. now rewrite El.
    + cbn. apply looks_other. intros f src code. rewrite El. discriminate.
  - apply ok_bind in H as (d & s1 & Hd & H). apply dist_of_told in Hd. cbn [file_of] in Hd.
    assert (Fr : frozen_told sp = false) by (unfold frozen_told; now rewrite El). rewrite <- Fr in H.
    assert (Sf : spec_file sp = sp_origin sp) by (unfold spec_file; now rewrite El).
    apply wrap_described in H as (A & B & C & D & F & _); auto; cbn [n_kind n_name n_file n_dist n_read n_written] in *.
    + split; [exact A|]. apply sc_none; auto. apply nn_binary. rewrite F. auto.
    + unfold class_told. now rewrite El.
    + now rewrite Sf.
    + cbn. apply looks_other. intros f src code. rewrite El. discriminate.
  - assert (Fr : frozen_told sp = frozen) by (unfold frozen_told; now rewrite El).
    assert (Sf : file_of (sp_origin sp) (negb frozen) = spec_file sp) by (unfold spec_file, file_of; rewrite El; now destruct frozen).
    rewrite Sf in H. destruct gs as [source|e].
    2:{ destruct e; try discriminate. apply ok_bind in H as (d & s1 & Hd & H). injection H as <- <- <-. apply dist_of_told in Hd. rewrite Sf in Hd. split.
        - apply ds_module with (sp := sp) (mk := MInvalid); auto; [unfold class_told; rewrite El; now left|right; eauto].
        - apply sc_none; [|reflexivity|reflexivity]. apply (nn_invalid E _ sp frozen (RErr ESyntax) gc); auto. }
    apply ok_bind in H as (si & s1 & H1 & H). apply ok_bind in H as (ci & s2 & H2 & H). apply ok_bind in H as (d & s3 & Hd & H).
    apply dist_of_told in Hd. rewrite Sf in Hd.
    destruct (match ci with Some x => x | None => ([], [], []) end) as [[bi wr] rd] eqn:Eci.
    set (mk := match si, ci with inl _, _ | _, None => _ | inr _, Some _ => _ end) in H.
    assert (Hmk : mk = MInvalid \/ mk = (if frozen then MFrozen else match source with Some _ => MSource | None => MBytecode end)).
    { unfold mk. destruct si as [u|o]; [now left|]. destruct ci; [now right|now left]. }
    assert (Hinv : ci = None -> mk = MInvalid) by (intros ->; unfold mk; now destruct si). clearbody mk. rewrite <- Fr in H.
    apply wrap_described in H as (A & B & C & D & F & _); auto; cbn [n_kind n_name n_file n_dist n_read n_written] in *.
    + split; [exact A|]. apply code_info_spec in H2 as [(-> & Hi)|(c & y & -> & Hy & ->)].
      * injection Eci as <- <- <-. apply sc_none; auto. rewrite (Hinv eq_refl) in F. apply (nn_invalid E n sp frozen (ROk source) gc); auto.
      * subst y. rewrite <- B, <- C in Hy. eapply (sc_code E n c); [|exact Hy]. eapply (cb_module E n c sp frozen source mk); eauto.
    + unfold class_told. rewrite El. destruct Hmk as [K|K]; [now left|right; eauto].
    + cbn. eapply looks_source. exact El.
  - unfold six_spec in H. destruct (ends_with ".moves" (sp_name sp)).
    { apply ok_bind in H as (d & s1 & _ & H). injection H as <- <- <-. split; [apply ds_six; auto; eauto|eapply sc_six; reflexivity]. }
    destruct (assoc (six_relative (sp_name sp)) SIX_MOVES_TO) as [actual|] eqn:Ea; [|injection H as <- <- <-; apply Plain].
    apply ok_bind in H as (m1 & s1 & H1 & H). destruct m1 as [m1|]; [|injection H as <- <- <-; apply Plain].
    apply ok_bind in H as (m2 & s2 & H2 & H). destruct m2 as [m2|]; [|injection H as <- <- <-; apply Plain].
    destruct (seqb (sp_name m1) (sp_name sp)).
    + apply ok_bind in H2 as (u & s3 & _ & H2). eapply Moved; [exact H2|exact H].
    + injection H2 as <- <-. eapply Moved; [exact H1|exact H].
  - unfold vendor_spec in H. set (full := (vendor ++ "." ++ _)%string) in H.
    apply ok_bind in H as (r & s1 & H1 & H). apply ok_bind in H as (m2 & s2 & H2 & H).
    destruct m2 as [m2|]; [|injection H as <- <- <-; apply Plain].
    destruct r as [x|e].
    + injection H2 as -> <-. unfold attempt in H1.
      destruct (bind _ _ s) as [[y t]|] eqn:Eb in H1; [|discriminate]. injection H1 as -> <-.
      apply ok_bind in Eb as (m & t1 & Hm & Eb). destruct m as [m|]; [|discriminate].
      destruct (seqb (sp_name m) (sp_name sp)).
      * apply ok_bind in Eb as (u & s3 & _ & Eb). eapply Moved; [exact Eb|exact H].
      * injection Eb as <- <-. eapply Moved; [exact Hm|exact H].
    + destruct e; try discriminate H2. eapply Moved; [exact H2|exact H].
  - discriminate.
  - unfold distutils_spec in H. apply ok_bind in H as (u & s1 & Ha & H). apply ok_bind in H as (u2 & s2 & _ & H).
    apply ok_bind in H as (m & s3 & Hm & H). destruct m as [m|]; [eapply Moved; [exact Hm|exact H]|].
    injection H as <- <- <-. apply Plain.
  - discriminate.
Qed.

Lemma added_attrs E n l : added E n l -> described E n /\ scanned E n.
Proof.
  intros [n0 l0 [k name Hk|t path tree l1 H1 H2|k sp s n1 l1 s' Hf H]|name].
  - split; [apply ds_place|apply sc_none; [apply nn_class| |]]; destruct k; try discriminate Hk; first [reflexivity|discriminate].
  - split; [apply ds_place|apply sc_none; [apply nn_class| |]]; first [reflexivity|discriminate].
  - eapply nfs_attrs; eassumption.
  - split; [apply ds_place|apply sc_none; [apply nn_class| |]]; first [reflexivity|discriminate].
Qed.

Lemma described_same E x y : same_node x y -> described E x -> described E y.
Proof.
  intros (A & B & C & D & F & G & K & _) H.
  assert (Ck : code_kind y = code_kind x) by (unfold code_kind; now rewrite B).
  destruct H as [H1 H2 H3 H4 H5 H6 H7|sp H1 H2 H3 H4 H5 H6 H7 H8|H1 H2 H3 H4 H5 H6|sp mk H1 H2 H3 H4 H5 H6 H7 H8 H9|sp mk ty H1 H2 H3 H4 H5 H6 H7 H8 H9 H10].
  - apply ds_place; try congruence. rewrite F, B, A. exact H4.
  - apply (ds_namespace E y sp); congruence.
  - apply ds_six; try congruence. now rewrite A.
  - apply (ds_module E y sp mk); congruence.
  - apply (ds_package E y sp mk ty); try congruence; rewrite ?A, ?B, ?C, ?D, ?F, ?G, ?K; auto.
Qed.

Lemma same_node_refl' n : same_node n n.
Proof. repeat split; auto. apply incl_refl. Qed.
Lemma same_node_trans' a b c : same_node a b -> same_node b c -> same_node a c.
Proof.
  intros (A1 & A2 & A3 & A4 & A5 & A6 & A7 & A8) (B1 & B2 & B3 & B4 & B5 & B6 & B7 & B8).
  repeat split; try congruence. eapply incl_tran; eassumption.
Qed.

Section attrs.
  Variable E : env.

  Record attrs (s : st) : Prop := {
    at_log : linv s;
    at_made : forall id l x, In (EvAdd id l) (s_log s) -> gfind (s_graph s) id = Some x -> exists y, added E y l /\ same_node y x;
    at_dist : forall id x, gfind (s_graph s) id = Some x -> n_kind x = Distribution -> In (EvGiven id) (s_log s) \/
      exists d, same_node (Node (dist_identifier d) Distribution [] [] (Some d) None [] false) x;
    at_names : forall id x n, gfind (s_graph s) id = Some x -> In n (n_written x) -> held E s id n
  }.

  Lemma held_more s s' : (forall id x, gfind (s_graph s) id = Some x -> exists x', gfind (s_graph s') id = Some x' /\ same_node x x') ->
    incl (s_log s) (s_log s') -> forall id n, held E s id n -> held E s' id n.
  Proof.
    intros G L id n H. induction H as [id l y x n A B C D F|id n A|id m i n A B C|id m i z n A B C D _ IH].
    - destruct (G id x C) as (x' & X1 & X2). eapply (hd_own E s' id l y x'); auto. eapply same_node_trans'; eassumption.
    - apply hd_given. auto.
    - eapply hd_list; eauto.
    - destruct (G m z C) as (z' & Z1 & (_ & Z2 & _)). eapply (hd_star E s' id m i z'); eauto. now rewrite Z2.
  Qed.

  (** Changes other than to the names of a node. *)
  Record quiet (s s' : st) : Prop := {
    q_node : forall id x, gfind (s_graph s) id = Some x -> gfind (s_graph s') id = Some x;
    q_new : forall id x, gfind (s_graph s') id = Some x -> gfind (s_graph s) id = Some x \/ (exists d, x = Node (dist_identifier d) Distribution [] [] (Some d) None [] false) \/ In (EvGiven id) (s_log s');
    q_log : incl (s_log s) (s_log s');
    q_add : samea s s'
  }.
  Lemma attrs_quiet s s' : quiet s s' -> attrs s -> attrs s'.
  Proof.
    intros [Q1 Q2 Q3 Q4] [A B D C].
    assert (G : forall id x, gfind (s_graph s) id = Some x -> exists x', gfind (s_graph s') id = Some x' /\ same_node x x').
    { intros id x H. exists x. split; [auto|apply same_node_refl']. }
    constructor.
    - intros id l H. apply Q4, A in H. unfold in_graph in *. destruct (gfind (s_graph s) id) as [x|] eqn:Ex; [|congruence].
      rewrite (Q1 _ _ Ex). discriminate.
    - intros id l x H Hx. apply Q4 in H. pose proof (A _ _ H) as K. unfold in_graph in K.
      destruct (gfind (s_graph s) id) as [x0|] eqn:Ex; [|congruence]. rewrite (Q1 _ _ Ex) in Hx. injection Hx as <-. eapply B; eassumption.
    - intros id x Hx Hk. destruct (Q2 _ _ Hx) as [K|[(d & ->)|K]].
      + destruct (D _ _ K Hk) as [L|L]; [left; auto|now right].
      + right. exists d. apply same_node_refl'.
      + now left.
    - intros id x n Hx Hn. destruct (Q2 _ _ Hx) as [K|[(d & ->)|K]].
      + apply (held_more s s' G Q3). eapply C; eassumption.
      + destruct Hn.
      + now apply hd_given.
  Qed.
  Lemma quiet_same s s' : s_graph s' = s_graph s -> s_log s' = s_log s -> quiet s s'.
  Proof. intros A B. constructor; rewrite ?A, ?B; auto; [apply incl_refl|now apply samea_log]. Qed.
  Lemma quiet_log s s' e : s_graph s' = s_graph s -> s_log s' = e :: s_log s -> (forall n l, e <> EvAdd n l) -> quiet s s'.
  Proof.
    intros A B C. constructor; rewrite ?A, ?B; auto.
    - apply incl_tl, incl_refl.
    - intros n l H. rewrite B in H. destruct H as [H|H]; [now elim (C n l)|exact H].
  Qed.
  Lemma quiet_trans a b c : quiet a b -> quiet b c -> quiet a c.
  Proof.
    intros [A1 A2 A3 A4] [B1 B2 B3 B4]. constructor; auto.
    - intros id x H. destruct (B2 _ _ H) as [K|[K|K]]; auto. destruct (A2 _ _ K) as [L|[L|L]]; auto.
    - eapply incl_tran; eassumption.
    - intros n l H. auto.
  Qed.
  Definition quietm {A} (m : M A) : Prop := forall s r s', m s = Some (r, s') -> quiet s s'.
  Lemma quietm_bind {A B} (m : M A) (f : A -> M B) : quietm m -> (forall a, quietm (f a)) -> quietm (bind m f).
  Proof.
    intros Hm Hf s r s' H. unfold bind in H. destruct (m s) as [[[a|e] s1]|] eqn:Em; [| |discriminate].
    - eapply quiet_trans; [eapply Hm; exact Em|eapply Hf; exact H].
    - injection H as <- <-. eapply Hm; exact Em.
  Qed.
  Lemma quietm_env {A} (m : M A) : envm m -> quietm m.
  Proof. intros H s r s' Ex. apply H in Ex as (f & c & ->). now apply quiet_same. Qed.
  Lemma quietm_edge a b d : quietm (add_edge a b d).
  Proof.
    intros s r s' Ex. unfold add_edge, lift_graph in Ex. destruct (gadd_edge (s_graph s) a b d) as [g|e] eqn:Eg; injection Ex as <- <-; [|now apply quiet_same].
    apply gadd_edge_spec in Eg as (_ & _ & ->). constructor; cbn [s_graph s_log set_graph]; auto; [apply incl_refl|now apply samea_log].
  Qed.
  Lemma quietm_root id : quietm (add_root id).
  Proof.
    intros s r s' Ex. unfold add_root, lift_graph in Ex. destruct (gadd_root (s_graph s) id) as [g|e] eqn:Eg; injection Ex as <- <-; [|now apply quiet_same].
    unfold gadd_root in Eg. destruct (ghas (s_graph s) id); [|discriminate]. injection Eg as <-.
    constructor; cbn [s_graph s_log set_graph]; auto; [apply incl_refl|now apply samea_log].
  Qed.
  Lemma quietm_note e : (forall n l, e <> EvAdd n l) -> quietm (note e).
  Proof. intros H s r s' Ex. injection Ex as <- <-. now apply (quiet_log s _ e). Qed.
  Lemma quietm_modify f : (forall s, quiet s (f s)) -> quietm (modify f).
  Proof. intros H s r s' Ex. injection Ex as <- <-. apply H. Qed.
  Lemma quietm_schedule n l : quietm (process_import_list n l).
  Proof. apply quietm_modify. intros s. apply (quiet_log s _ (EvSched n l)); [apply schedule_graph|apply schedule_log|discriminate]. Qed.
  Lemma quiet_node n s r s' : (exists d, n = Node (dist_identifier d) Distribution [] [] (Some d) None [] false) \/ In (EvGiven (n_name n)) (s_log s) -> user_add_node n s = Some (r, s') -> quiet s s'.
  Proof.
    intros Hn Ex. unfold user_add_node, lift_graph in Ex. destruct (gadd_node (s_graph s) n) as [g|e] eqn:Eg; injection Ex as <- <-; [|now apply quiet_same].
    apply gadd_node_spec in Eg as (E1 & ->). constructor; cbn [s_graph s_log set_graph]; [| |apply incl_refl|now apply samea_log].
    - intros id x H. now rewrite gfind_app, H.
    - intros id x H. rewrite gfind_app in H. destruct (gfind (s_graph s) id) as [y|]; [now left|]. destruct (seqb (n_name n) id) eqn:Es; [|discriminate].
      injection H as <-. apply seqb_eq in Es as <-. right. exact Hn.
  Qed.
  Lemma quietm_given n : quietm (do note (EvGiven (n_name n)) ;; do user_add_node n ;; ret AnsUnit).
  Proof.
    intros s r s' Ex. unfold bind at 1 in Ex. change (note (EvGiven (n_name n)) s) with (Some (ROk tt, log s (EvGiven (n_name n)))) in Ex.
    cbv iota beta in Ex. eapply quiet_trans; [apply (quiet_log s (log s (EvGiven (n_name n))) (EvGiven (n_name n))); first [reflexivity|discriminate]|].
    unfold bind in Ex. destruct (user_add_node n (log s (EvGiven (n_name n)))) as [[[a|e] s1]|] eqn:Em; [| |discriminate];
      injection Ex as <- <-; (eapply quiet_node; [|exact Em]); right; now left.
  Qed.
  Lemma keeps_quiet {A} (m : M A) : quietm m -> keeps attrs m.
  Proof. intros H s r s' Ex. apply attrs_quiet. eapply H; exact Ex. Qed.
  Ltac qt := repeat match goal with
    | |- quietm (do note (EvGiven _) ;; _) => apply quietm_given
    | |- quietm (bind _ _) => apply quietm_bind; [|intros ?]
    | |- quietm (add_edge _ _ _) => apply quietm_edge
    | |- quietm (add_root _) => apply quietm_root
    | |- quietm (process_import_list _ _) => apply quietm_schedule
    | |- quietm (note _) => apply quietm_note; discriminate
    | |- quietm (modify _) => apply quietm_modify; intros ?; first [now apply quiet_same|eapply quiet_log; [reflexivity|reflexivity|discriminate]]
    | |- quietm (match ?x with _ => _ end) => destruct x
    | |- quietm (if ?x then _ else _) => destruct x
    | |- quietm _ => apply quietm_env; unfold get_node; envm_tac; fail
    end.

  Lemma attrs_new n l s x s' : add_node n l s = Some (x, s') -> added E n l -> attrs s -> attrs s'.
  Proof.
    intros Ex Hn [A B D C]. unfold add_node, bind, lift_graph in Ex. destruct (gadd_node (s_graph s) n) as [g|e] eqn:Eg.
    2:{ injection Ex as <- <-. now constructor. }
    injection Ex as <- <-. apply gadd_node_spec in Eg as (E1 & ->).
    set (s' := log _ _). assert (L : s_log s' = EvAdd (n_name n) l :: s_log s) by reflexivity.
    assert (Gx : forall id, gfind (s_graph s') id = match gfind (s_graph s) id with Some x => Some x | None => if seqb (n_name n) id then Some n else None end)
      by (intros id; apply gfind_app).
    assert (Gn : gfind (s_graph s') (n_name n) = Some n) by (rewrite Gx, E1; unfold seqb; now rewrite String.eqb_refl).
    assert (Hd : forall id n0, held E s id n0 -> held E s' id n0).
    { apply held_more; [|rewrite L; apply incl_tl, incl_refl]. intros id y Hy. exists y. split; [rewrite Gx; now rewrite Hy|apply same_node_refl']. }
    assert (Fresh : forall l', ~ In (EvAdd (n_name n) l') (s_log s)) by (intros l' K; apply A in K; now elim K).
    clearbody s'. constructor.
    - intros id l' K. rewrite L in K. unfold in_graph. destruct K as [K|K]; [injection K as <- <-; rewrite Gn; discriminate|].
      apply A in K. unfold in_graph in K. rewrite Gx. destruct (gfind (s_graph s) id); congruence.
    - intros id l' y K Hy. rewrite L in K. destruct K as [K|K].
      + injection K as <- <-. rewrite Gn in Hy. injection Hy as <-. exists n. split; [exact Hn|apply same_node_refl'].
      + pose proof (A _ _ K) as K'. unfold in_graph in K'. rewrite Gx in Hy. destruct (gfind (s_graph s) id) as [z|] eqn:Ez; [|congruence].
        injection Hy as <-. eapply B; eassumption.
    - intros id y Hy Hk. rewrite Gx in Hy. destruct (gfind (s_graph s) id) as [z|] eqn:Ez.
      + injection Hy as <-. destruct (D _ _ Ez Hk) as [K|K]; [left; rewrite L; now right|now right].
      + destruct (seqb (n_name n) id); [|discriminate]. injection Hy as <-. exfalso.
        destruct (added_attrs E n l Hn) as ([H1 H2 H3 _ _ _ _|sp H1 _ _ _ _ _ _ _|H1 _ _ _ _ _|sp mk H1 _ _ _ _ _ _ _ _|sp mk ty H1 _ _ _ _ _ _ _ _ _] & _); congruence.
    - intros id y n0 Hy Hn0. rewrite Gx in Hy. destruct (gfind (s_graph s) id) as [z|] eqn:Ez.
      + injection Hy as <-. apply Hd. eapply C; eassumption.
      + destruct (seqb (n_name n) id) eqn:Es; [|discriminate]. injection Hy as <-. apply seqb_eq in Es as <-.
        eapply (hd_own E s' (n_name n) l n n); auto; [rewrite L; now left|apply same_node_refl'].
  Qed.

  Lemma written_gfind g id l x : gfind (gadd_written g id l) x = option_map (upd_written id l) (gfind g x).
  Proof.
    unfold gfind, gadd_written. cbn [g_nodes]. induction (g_nodes g) as [|y r IH]; [reflexivity|]. cbn.
    assert (Hy : n_name (upd_written id l y) = n_name y) by (unfold upd_written; now destruct (seqb (n_name y) id)).
    rewrite Hy. destruct (seqb (n_name y) x); [reflexivity|exact IH].
  Qed.
  Lemma upd_same id l y : same_node y (upd_written id l y).
  Proof.
    unfold upd_written. destruct (seqb (n_name y) id); [|apply same_node_refl']. repeat split; auto. intros n Hn. apply set_union_In. now left.
  Qed.
  Lemma attrs_written n m i l s : In (EvPop (DoNames n m i)) (s_log s) -> names_for s m i l -> attrs s ->
    attrs (set_graph s (gadd_written (s_graph s) n l)).
  Proof.
    intros Hp Hl [A B D C]. set (s' := set_graph _ _).
    assert (Gx : forall id, gfind (s_graph s') id = option_map (upd_written n l) (gfind (s_graph s) id)) by (intros id; apply written_gfind).
    assert (L : s_log s' = s_log s) by reflexivity.
    assert (G : forall id x, gfind (s_graph s) id = Some x -> exists x', gfind (s_graph s') id = Some x' /\ same_node x x').
    { intros id x H. exists (upd_written n l x). rewrite Gx, H. split; [reflexivity|apply upd_same]. }
    assert (Hd : forall id n0, held E s id n0 -> held E s' id n0) by (apply held_more; [exact G|rewrite L; apply incl_refl]).
    clearbody s'. constructor.
    - intros id l' K. rewrite L in K. apply A in K. unfold in_graph in *. rewrite Gx. now destruct (gfind (s_graph s) id).
    - intros id l' y K Hy. rewrite L in K. rewrite Gx in Hy. destruct (gfind (s_graph s) id) as [z|] eqn:Ez; [|discriminate]. injection Hy as <-.
      destruct (B _ _ _ K Ez) as (y & Y1 & Y2). exists y. split; [exact Y1|]. eapply same_node_trans'; [exact Y2|apply upd_same].
    - intros id y Hy Hk. rewrite Gx in Hy. destruct (gfind (s_graph s) id) as [z|] eqn:Ez; [|discriminate]. injection Hy as <-.
      assert (Hz : n_kind z = Distribution) by (destruct (upd_same n l z) as (_ & K & _); congruence).
      destruct (D _ _ Ez Hz) as [K|(d & K)]; [left; now rewrite L|right]. exists d. eapply same_node_trans'; [exact K|apply upd_same].
    - intros id y n0 Hy Hn0. rewrite Gx in Hy. destruct (gfind (s_graph s) id) as [z|] eqn:Ez; [|discriminate]. injection Hy as <-.
      unfold upd_written in Hn0. destruct (seqb (n_name z) n) eqn:Es; [|apply Hd; eapply C; eassumption].
      cbn [n_written] in Hn0. apply set_union_In in Hn0 as [Hn0|Hn0]; [apply Hd; eapply C; eassumption|].
      assert (id = n) as -> by (apply gfind_name in Ez; apply seqb_eq in Es; congruence).
      unfold names_for in Hl. destruct (ii_star i) eqn:Est.
      + destruct Hl as (w & W1 & -> & W3). destruct (G _ _ W1) as (w' & W4 & (_ & W5 & _)).
        apply (hd_star E s' n m i w'); [now rewrite L|exact Est|exact W4|now rewrite W5|]. apply Hd. eapply C; eassumption.
      + subst l. apply (hd_list E s' n m i); [now rewrite L|exact Est|exact Hn0].
  Qed.

  Lemma attrs_keeper : keeper E attrs (fun _ => True) (fun _ => True).
  Proof.
    constructor; auto.
    - intros s s' (f & c & ->). apply attrs_quiet. now apply quiet_same.
    - intros n l H s1 r s2 Ex. apply (attrs_new n l _ _ _ Ex). now apply added_made.
    - intros k im name s s1 Js Hm J1 x s2 H. apply (attrs_new _ _ _ _ _ H); [apply added_missing|exact J1].
    - intros a b d. apply keeps_quiet. qt.
    - exact attrs_written.
    - intros n l. apply keeps_quiet. qt.
    - intros n p _. apply keeps_quiet. unfold push_package. qt.
    - intros name s r s' Ex. unfold pop_lazy in Ex. destruct (assoc name (s_lazy s)) as [i|]; injection Ex as <- <-; [|auto].
      apply attrs_quiet. eapply quiet_log; [reflexivity|reflexivity|discriminate].
    - intros k w _ s r s' Ex. injection Ex as <- <-. apply attrs_quiet. now apply quiet_same.
    - intros s e He. apply attrs_quiet. apply (quiet_log s _ e); [reflexivity|reflexivity|]. intros; destruct e; discriminate.
    - intros s _. apply attrs_quiet. eapply quiet_log; [reflexivity|reflexivity|discriminate].
    - intros s id pkg stem _. apply attrs_quiet. eapply quiet_log; [reflexivity|reflexivity|discriminate].
    - intros s. apply attrs_quiet. now apply quiet_same.
    - intros s0 s _. apply attrs_quiet. now apply quiet_same.
    - intros s w rest Hs. apply attrs_quiet. eapply quiet_log; [reflexivity|reflexivity|discriminate].
    - intros k w s u s' _ _. apply attrs_quiet. eapply quiet_log; [reflexivity|reflexivity|discriminate].
    - intros w s. apply attrs_quiet. eapply quiet_log; [reflexivity|reflexivity|discriminate].
    - intros a id _ _. apply keeps_quiet. qt.
    - intros a d _ _. intros s r s' Ex. apply attrs_quiet. eapply quiet_node; [|exact Ex]. left. now exists d.
    - intros s n name _. apply attrs_quiet. eapply quiet_log; [reflexivity|reflexivity|discriminate].
    - intros r a _ Hp. assert (Ea : forall s, do_action E r a s = do_action E no_fuel a s) by (intros s; now destruct a).
      assert (X : keeps attrs (do_action E no_fuel a)).
      2:{ intros s x s' Ex. rewrite Ea in Ex. now apply X in Ex. }
      apply keeps_quiet. clear Ea. destruct a; try discriminate Hp; cbn [do_action]; qt.
  Qed.

  Lemma attrs_start s : start s -> attrs s.
  Proof. intros (implies & post & missing & ->). constructor; [intros n l []|intros id l x []|intros id x H; discriminate|intros id x n H; discriminate]. Qed.
  Lemma attrs_reach s0 s : start s0 -> reach E s0 s -> attrs s.
  Proof.
    intros H0 H. induction H as [|s fuel a ans s' H IH HC]; [now apply attrs_start|].
    eapply (keeps_top _ _ _ _ attrs_keeper); [exact Logic.I|exact IH|exact HC].
  Qed.
End attrs.
