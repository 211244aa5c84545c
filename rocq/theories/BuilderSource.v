(** Invariant: the import statements that were taken from a node are those of
    its source or code object. *)
From Verif Require Export BuilderHooks SourceSpec.

(** Where the import statements [l] of node [x] come from. *)
Inductive origin (E : env) (x : node) (l : list iinfo) : Prop :=
| og_tree tree : source_of E x tree -> extract_ast_info (e_names_order E) tree = Some l -> origin E x l
| og_code c wr rd : bytecode_of E x c -> extract_bytecode_info (e_ge311 E) c = Some (ROk (l, wr, rd)) -> origin E x l
| og_none : no_code_of E x -> l = [] -> origin E x l.

Lemma origin_same E x y l : same_node x y -> origin E x l -> origin E y l.
Proof.
  intros (A & B & C & D & F & _) H.
  assert (K : code_kind y = code_kind x) by (unfold code_kind; now rewrite B).
  assert (L : code_file y = code_file x) by (unfold code_file; now rewrite B, F).
  destruct H as [tree H1 H2|c wr rd H1 H2|H1 H2].
  - apply (og_tree E y l tree); [|exact H2]. destruct H1 as [t K1 K2|sp frozen text code file t mk K1 K2 K3 K4 K5 K6 K7 K8].
    + apply (so_script E y tree t); congruence.
    + apply (so_module E y tree sp frozen text code file t mk); congruence.
  - apply (og_code E y l c wr rd); [|exact H2]. destruct H1 as [sp frozen src mk K1 K2 K3 K4 K5].
    apply (co_module E y c sp frozen src mk); congruence.
  - apply og_none; [|exact H2]. destruct H1 as [K1 K2|K1|f ty K1|sp frozen src code K1 K2 K3 K4 K5].
    + apply nc_class; congruence.
    + apply nc_binary. now rewrite K.
    + apply (nc_six E y f ty). congruence.
    + apply (nc_invalid E y sp frozen src code); congruence.
Qed.

Lemma wrap_origin E sp b src mk n l s n' l' s' : n_kind n = Module mk ->
  wrap_package E sp b src mk n l s = Some (ROk (n', l'), s') ->
  n_name n' = n_name n /\ code_kind n' = code_kind n /\ code_file n' = code_file n /\ l' = l /\ n_kind n' <> Script.
Proof.
  unfold wrap_package. intros Hk H. apply ok_bind in H as (p & s1 & H1 & H). destruct p; cbn [negb] in H.
  2:{ injection H as <- <- <-. rewrite Hk. repeat split; auto. discriminate. }
  apply ok_bind in H as (search & s2 & _ & H). destruct search; [|discriminate].
  apply ok_bind in H as (d & s3 & _ & H). injection H as <- <- <-. unfold code_kind, code_file. rewrite Hk. cbn. repeat split; auto. discriminate.
Qed.

Lemma source_imports_spec E sp source s x s' : source_imports E sp source s = Some (ROk x, s') ->
  (source = None /\ x = inr None) \/ (exists text file t, source = Some text /\ sp_origin sp = Some file
     /\ ((x = inl tt /\ e_parse E t file text = RErr ESyntax)
        \/ (exists tree l, e_parse E t file text = ROk tree /\ extract_ast_info (e_names_order E) tree = Some l /\ x = inr (Some l)))).
Proof.
  unfold source_imports. destruct source as [text|]; intros H; [right|left; injection H as <- <-; auto].
  destruct (sp_origin sp) as [file|]; [|discriminate]. apply ok_bind in H as (r & s4 & H1 & H3).
  unfold attempt in H1. destruct (askr _ s) as [[y t]|] eqn:Ea; [|discriminate]. injection H1 as -> <-. unfold askr in Ea.
  injection Ea as Ea <-. exists text, file, (s_clock s). split; [reflexivity|]. split; [reflexivity|]. destruct r as [tree|e].
  - destruct (extract_ast_info (e_names_order E) tree) as [out|] eqn:Ex; [|discriminate]. injection H3 as <- <-. right. exists tree, out. auto.
  - destruct e; try discriminate. injection H3 as <- <-. now left.
Qed.
Lemma code_info_spec E gc s x s' : code_info E gc s = Some (ROk x, s') ->
  (x = None /\ code_invalid E gc) \/ exists c y, gc = ROk (Some c) /\ extract_bytecode_info (e_ge311 E) c = Some (ROk y) /\ x = Some y.
Proof.
  unfold code_info, code_invalid. destruct gc as [[c|]|e]; [|discriminate|].
  - destruct (extract_bytecode_info (e_ge311 E) c) as [[y|e]|] eqn:Ex; [| |discriminate].
    + intros H. injection H as <- <-. right. exists c, y. auto.
    + destruct e; try discriminate. intros H. injection H as <- <-. left. split; [reflexivity|right; eauto].
  - destruct e; try discriminate. intros H. injection H as <- <-. left. auto.
Qed.

Lemma nfs_origin E : forall k sp s n l s', BuilderKeep.found E sp -> f_nfs (exec E k) sp s = Some (ROk (n, l), s') -> origin E n l.
Proof.
  induction k as [|k IH]; intros sp s n l s' Hf H; [discriminate|].
  change (nfs_body E (f_nfs (exec E k)) sp s = Some (ROk (n, l), s')) in H.
  assert (Moved : forall nm m s0 s1 s2 n l s', find_spec E nm s0 = Some (ROk (Some m), s1) ->
    (do assert (negb (seqb (sp_name sp) (sp_name m))) ;; f_nfs (exec E k) m) s2 = Some (ROk (n, l), s') -> origin E n l).
  { intros nm m t0 t1 t2 n' l' t' Hm H'. apply ok_bind in H' as (u & t3 & Ha & H'). eapply IH; [|exact H'].
    injection Hm as Hm _. unfold BuilderKeep.found. eauto. }
  assert (Plain : forall nm, origin E (plain_node MissingModule nm) []) by (intros nm; apply og_none; [apply nc_class; first [reflexivity|discriminate]|reflexivity]).
  unfold nfs_body in H. destruct (sp_loader sp) as [| | | |frozen gs gc| |[[root vendor]|]| |] eqn:El.
  - destruct (sp_search sp); [|discriminate]. injection H as <- <- <-. apply og_none; [apply nc_class; first [reflexivity|discriminate]|reflexivity].
  - destruct (sp_search sp); [|discriminate]. injection H as <- <- <-. apply og_none; [apply nc_class; first [reflexivity|discriminate]|reflexivity].
  - apply wrap_origin in H as (A & B & C & D & F); [|reflexivity]. apply og_none; [|exact D]. apply nc_binary. rewrite B. auto.
  - apply ok_bind in H as (d & s1 & _ & H). apply wrap_origin in H as (A & B & C & D & F); [|reflexivity].
    apply og_none; [|exact D]. apply nc_binary. rewrite B. auto.
  - destruct gs as [source|e].
    2:{ destruct e; try discriminate. apply ok_bind in H as (d & s1 & _ & H). injection H as <- <- <-. apply og_none; [|reflexivity].
        apply (nc_invalid E _ sp frozen (RErr ESyntax) gc); auto. }
    apply ok_bind in H as (si & s1 & H1 & H). apply ok_bind in H as (ci & s2 & H2 & H). apply ok_bind in H as (d & s3 & _ & H).
    destruct (match ci with Some x => x | None => ([], [], []) end) as [[bi wr] rd] eqn:Eci.
    apply wrap_origin in H as (A & B & C & D & _); [|reflexivity]. cbn [n_name] in A. unfold code_kind at 2 in B. unfold code_file at 2 in C.
    cbn [n_kind n_file] in B, C. symmetry in A. subst l.
    apply source_imports_spec in H1 as [(-> & ->)|(text & file & t & -> & Ho & [(-> & Hp)|(tree & l & Hp & Hx & ->)])];
      apply code_info_spec in H2 as [(-> & Hi)|(c & y & -> & Hy & ->)].
    + injection Eci as <- <- <-. apply og_none; [|reflexivity].
      apply (nc_invalid E n sp frozen (ROk None) gc); auto. right. split; [exact Hi|discriminate].
    + subst y. apply (og_code E n bi c wr rd); [|exact Hy]. eapply (co_module E n c sp frozen None); eauto.
    + injection Eci as <- <- <-. apply og_none; [|reflexivity].
      apply (nc_invalid E n sp frozen (ROk (Some text)) gc); auto. right. split; [exact Hi|]. intros x K. injection K as <-. eauto.
    + subst y. apply (og_code E n bi c wr rd); [|exact Hy]. eapply (co_module E n c sp frozen (Some text)); eauto.
      right. exists text, file, t. auto.
    + apply (og_tree E n l tree); [|exact Hx]. apply (so_module E n tree sp frozen text gc file t MInvalid); auto.
      rewrite C. unfold file_of. destruct frozen; auto.
    + apply (og_tree E n l tree); [|exact Hx]. eapply (so_module E n tree sp frozen text _ file t); eauto.
      rewrite C. unfold file_of. destruct frozen; auto.
  - unfold six_spec in H. destruct (ends_with ".moves" (sp_name sp)).
    { apply ok_bind in H as (d & s1 & _ & H). injection H as <- <- <-. apply og_none; [|reflexivity]. now eapply nc_six. }
    destruct (assoc (six_relative (sp_name sp)) SIX_MOVES_TO) as [actual|] eqn:Ea; [|injection H as <- <- <-; apply Plain].
    apply ok_bind in H as (m1 & s1 & H1 & H). destruct m1 as [m1|]; [|injection H as <- <- <-; apply Plain].
    apply ok_bind in H as (m2 & s2 & H2 & H). destruct m2 as [m2|]; [|injection H as <- <- <-; apply Plain].
    destruct (seqb (sp_name m1) (sp_name sp)).
    + apply ok_bind in H2 as (u & s3 & _ & H2). eapply Moved; [exact H2|exact H].
    + injection H2 as <- <-. eapply Moved; [exact H1|exact H].
  - unfold vendor_spec in H. set (full := (vendor ++ "." ++ _)%string) in H.
    apply ok_bind in H as (r & s1 & H1 & H). apply ok_bind in H as (m2 & s2 & H2 & H).
    destruct m2 as [m2|]; [|injection H as <- <- <-; apply Plain].
    destruct r as [x|e].
    + injection H2 as -> <-. unfold attempt in H1.
      destruct (bind _ _ s) as [[y t]|] eqn:Eb in H1; [|discriminate]. injection H1 as -> <-.
      apply ok_bind in Eb as (m & t1 & Hm & Eb). destruct m as [m|]; [|discriminate].
      destruct (seqb (sp_name m) (sp_name sp)).
      * apply ok_bind in Eb as (u & s3 & _ & Eb). eapply Moved; [exact Eb|exact H].
      * injection Eb as <- <-. eapply Moved; [exact Hm|exact H].
    + destruct e; try discriminate H2. eapply Moved; [exact H2|exact H].
  - discriminate.
  - unfold distutils_spec in H. apply ok_bind in H as (u & s1 & Ha & H). apply ok_bind in H as (u2 & s2 & _ & H).
    apply ok_bind in H as (m & s3 & Hm & H). destruct m as [m|]; [eapply Moved; [exact Hm|exact H]|].
    injection H as <- <- <-. apply Plain.
  - discriminate.
Qed.

Lemma made_origin E n l : made E n l -> origin E n l.
Proof.
  intros [k name Hk|t path tree l0 H1 H2|k sp s n0 l0 s' Hf H].
  - apply og_none; [|reflexivity]. destruct k; try discriminate Hk; apply nc_class; first [reflexivity|discriminate].
  - apply (og_tree E _ _ tree); [|exact H2]. now apply (so_script E _ tree t).
  - eapply nfs_origin; eassumption.
Qed.

Section sourced.
  Variable E : env.

  Definition sourced (s : st) : Prop :=
    linv s /\ (forall id l x, In (EvAdd id l) (s_log s) -> gfind (s_graph s) id = Some x -> origin E x l)
    /\ forall id l l', In (EvAdd id l) (s_log s) -> In (EvAdd id l') (s_log s) -> l = l'.

  Lemma sourced_more s s' : grows s s' -> linv s' ->
    (forall id l, In (EvAdd id l) (s_log s') -> In (EvAdd id l) (s_log s) \/
       ((forall x, gfind (s_graph s') id = Some x -> origin E x l) /\ ~ in_graph s id
        /\ forall l', In (EvAdd id l') (s_log s') -> l' = l)) ->
    sourced s -> sourced s'.
  Proof.
    intros G L' D (L & K & U). split; [exact L'|]. split.
    - intros id l x Ha Hx. destruct (D id l Ha) as [A|(A & _)]; [|now apply A].
      destruct (node_back s s' id x G (L id l A) Hx) as (y & Y1 & Y2). eapply origin_same; [exact Y2|]. eapply K; eassumption.
    - intros id l l' A B. destruct (D id l A) as [A'|(_ & _ & A')]; [|symmetry; now apply A'].
      destruct (D id l' B) as [B'|(_ & B1 & B')]; [eapply U; eassumption|now apply B'].
  Qed.

  Definition samea (s s' : st) : Prop := forall id l, In (EvAdd id l) (s_log s') -> In (EvAdd id l) (s_log s).
  Definition samev {A} (m : M A) : Prop := forall s r s', m s = Some (r, s') -> samea s s'.
  Lemma samev_bind {A B} (m : M A) (f : A -> M B) : samev m -> (forall a, samev (f a)) -> samev (bind m f).
  Proof.
    intros Hm Hf s r s' H. unfold bind in H. destruct (m s) as [[[a|e] s1]|] eqn:Em; [| |discriminate].
    - intros id l K. eapply Hm; [exact Em|]. eapply Hf; eassumption.
    - injection H as <- <-. eapply Hm; exact Em.
  Qed.
  Lemma samea_log s s' : s_log s' = s_log s -> samea s s'.
  Proof. intros H id l. now rewrite H. Qed.
  Lemma samev_env {A} (m : M A) : envm m -> samev m.
  Proof. intros H s r s' Ex. apply H in Ex as (f & c & ->). now apply samea_log. Qed.
  Lemma samev_modify f : (forall s, samea s (f s)) -> samev (modify f).
  Proof. intros H s r s' Ex. injection Ex as <- <-. apply H. Qed.
  Lemma samev_lift f : samev (lift_graph f).
  Proof.
    intros s r s' Ex. unfold lift_graph in Ex. destruct (f (s_graph s)) as [g|e]; injection Ex as <- <-; now apply samea_log.
  Qed.
  Lemma samev_schedule n l : samev (process_import_list n l).
  Proof. apply samev_modify. intros s id l'. rewrite schedule_log. intros [K|K]; [discriminate|exact K]. Qed.
  Ltac sv := repeat match goal with
    | |- samev (bind _ _) => apply samev_bind; [|intros ?]
    | |- samev (user_add_node _) => apply samev_lift
    | |- samev (add_edge _ _ _) => apply samev_lift
    | |- samev (add_root _) => apply samev_lift
    | |- samev (process_import_list _ _) => apply samev_schedule
    | |- samev (note _) => apply samev_modify; intros ? ? ? [K|K]; [discriminate|exact K]
    | |- samev (modify _) => apply samev_modify; intros ?; first [now apply samea_log|intros ? ? [K|K]; [discriminate|exact K]]
    | |- samev (match ?x with _ => _ end) => destruct x
    | |- samev (if ?x then _ else _) => destruct x
    | |- samev _ => apply samev_env; unfold get_node; envm_tac; fail
    end.
  Lemma sourced_keeps {A} (m : M A) : (forall s, cwp anyone m s (fun _ _ => True)) -> samev m -> keeps sourced m.
  Proof.
    intros H D s r s' Ex Js. destruct (H s (proj1 Js) r s' Ex) as (G & L & _).
    revert Js. apply sourced_more; [exact G|exact L|]. intros id l K. left. eapply D; eassumption.
  Qed.
  Lemma sourced_same s s' : s_graph s' = s_graph s -> s_log s' = s_log s -> s_seen s' = s_seen s -> s_post s' = s_post s ->
    s_missing s' = s_missing s -> sourced s -> sourced s'.
  Proof.
    intros A B C D F0 Js. assert (L : linv s) by apply Js. revert Js. apply sourced_more.
    - constructor; rewrite ?A, ?B, ?C, ?D, ?F0; first [apply grows_graph_refl|apply incl_refl|now exists []].
    - intros n l; rewrite B; unfold in_graph; rewrite A; now apply L.
    - intros id l K. left. now rewrite B in K.
  Qed.
  Lemma sourced_log s e : (forall n l, e <> EvAdd n l) -> sourced s -> sourced (log s e).
  Proof.
    intros A Js. assert (L : linv s) by apply Js. revert Js. apply sourced_more; [apply log_grows| |].
    - intros n l [X|X]; [now elim (A n l)|now apply (L n l)].
    - intros id l [X|X]; [now elim (A id l)|now left].
  Qed.
  Lemma sourced_new n l s x s' : add_node n l s = Some (x, s') -> origin E n l -> sourced s -> sourced s'.
  Proof.
    intros Ex Hn Js. assert (C : cwp anyone (add_node n l) s (fun _ _ => True)) by (apply cwp_add_node; [intros o _; exact Logic.I|auto]).
    destruct (C (proj1 Js) _ _ Ex) as (G & L & _). refine (sourced_more s s' G L _ Js).
    unfold add_node, bind, lift_graph in Ex. destruct (gadd_node (s_graph s) n) as [g|e] eqn:Eg.
    2:{ injection Ex as <- <-. intros id l' K. now left. }
    injection Ex as <- <-. apply gadd_node_spec in Eg as (E1 & ->). intros id l' [K|K]; [|now left]. injection K as <- <-.
    assert (Hn' : ~ in_graph s (n_name n)) by (unfold in_graph; congruence).
    right. split; [|split; [exact Hn'|]].
    2:{ intros l' [K|K]; [now injection K|]. elim Hn'. now apply (proj1 Js) in K. }
    intros y. cbn [s_graph set_graph log]. rewrite gfind_app, E1. unfold seqb. rewrite String.eqb_refl. intros K. now injection K as <-.
  Qed.

  Lemma sourced_keeper : keeper E sourced (fun _ => True) (fun _ => True).
  Proof.
    constructor; auto.
    - intros s s' (f & c & ->) Js. revert Js. now apply sourced_same.
    - intros n l M s1 r s2 Ex. apply (sourced_new n l _ _ _ Ex). now apply made_origin.
    - intros k im name s s1 Js Hm J1 x s2 H. apply (sourced_new _ _ _ _ _ H); [|exact J1]. apply og_none; [apply nc_class; first [reflexivity|discriminate]|reflexivity].
    - intros a b d. apply sourced_keeps; [|apply samev_lift]. intros s. eapply cwp_anyone, (cwp_edge none). auto.
    - apply written_any. intros n l. apply sourced_keeps; [intros s; eapply cwp_anyone, (cwp_written none); auto|]. unfold add_written. sv.
    - intros n l. apply sourced_keeps; [intros s; eapply cwp_anyone, (cwp_sched none); auto|]. sv.
    - intros n p _. apply sourced_keeps; [intros s; eapply cwp_anyone, cwp_push; auto|]. unfold push_package. sv.
    - intros name s r s' Ex Js. unfold pop_lazy in Ex. destruct (assoc name (s_lazy s)) as [i|]; injection Ex as <- <-; [|exact Js].
      apply sourced_log; [discriminate|]. revert Js. now apply sourced_same.
    - intros k w _ s r s' Ex Js. injection Ex as <- <-. revert Js. now apply sourced_same.
    - intros s e He Js. apply sourced_log; [intros; destruct e; discriminate|exact Js].
    - intros s _ Js. apply sourced_log; [discriminate|exact Js].
    - intros s id pkg stem _. apply sourced_log. discriminate.
    - intros s w rest Hs Js. apply sourced_log; [discriminate|]. revert Js. now apply sourced_same.
    - intros k w s u s' _ _ Js. apply sourced_log; [discriminate|]. revert Js. now apply sourced_same.
    - intros w s Js. apply sourced_log; [discriminate|]. revert Js. now apply sourced_same.
    - intros a id _ _. apply keeps_bind.
      + intros s r s' Ex Js. injection Ex as <- <-. apply sourced_log; [discriminate|exact Js].
      + intros _. apply sourced_keeps; [|apply samev_lift]. intros s. eapply cwp_anyone, (cwp_root none). auto.
    - intros a d _ _. apply sourced_keeps; [intros s; eapply cwp_anyone, (cwp_user_node none); auto|]. apply samev_lift.
    - intros s n name _ Js. apply sourced_log; [discriminate|exact Js].
    - intros r a _ Hp. assert (Ea : forall s, do_action E r a s = do_action E no_fuel a s) by (intros s; now destruct a).
      assert (X : keeps sourced (do_action E no_fuel a)).
      2:{ intros s x s' Ex. rewrite Ea in Ex. now apply X in Ex. }
      apply sourced_keeps; [intros s; eapply cwp_anyone; apply cwp_do_action, closes_no_fuel|].
      clear Ea. destruct a; try discriminate Hp; cbn [do_action]; sv.
  Qed.
End sourced.

(** ** Plain use: no hooks, and only calls that add modules, scripts and
    distributions or exclude modules *)

Section plain.
  Variable E : env.
  Variable implies : list (string * implied).
  (** No call has raised. *)
  Variable fine : Prop.

  Definition asked_for (e : event) : bool :=
    match e with EvProc _ _ | EvReq _ _ | EvEdge _ _ _ | EvList _ _ | EvGiven _ => true | _ => false end.
  Definition configured (name : string) (i : implied) : Prop := i = ImpNone \/ In (name, i) implies.
  Record plain (s : st) : Prop := {
    pl_post : s_post s = [];
    pl_missing : s_missing s = [];
    pl_stack : forall n p, ~ In (DoPackage n p) (s_stack s);
    pl_lazy : forall name i, In (name, i) (s_lazy s) -> configured name i;
    pl_implied : forall name i, In (EvImplied name i) (s_log s) -> configured name i;
    pl_asked : forall e, In e (s_log s) -> asked_for e = false;
    pl_fine : fine -> ~ In EvErr (s_log s)
  }.

  Definition newev (e : event) : bool := negb (asked_for e) && match e with EvImplied _ _ | EvErr => false | _ => true end.
  (** Changes that matter to none of this. *)
  Record calmly (s s' : st) : Prop := {
    cl_post : s_post s' = s_post s;
    cl_missing : s_missing s' = s_missing s;
    cl_stack : forall n p, In (DoPackage n p) (s_stack s') -> In (DoPackage n p) (s_stack s);
    cl_lazy : s_lazy s' = s_lazy s;
    cl_log : forall e, In e (s_log s') -> In e (s_log s) \/ newev e = true
  }.
  Lemma plain_calmly s s' : calmly s s' -> plain s -> plain s'.
  Proof.
    intros [A B C D F] [P1 P2 P3 P4 P5 P6 P7]. constructor; rewrite ?A, ?B, ?D; auto.
    - intros n p K. eapply P3. apply C. exact K.
    - intros name i K. apply F in K as [K|K]; [auto|discriminate].
    - intros e K. apply F in K as [K|K]; [auto|]. unfold newev in K. destruct (asked_for e); [discriminate|reflexivity].
    - intros Hf K. apply F in K as [K|K]; [now apply P7|discriminate].
  Qed.
  Lemma calmly_refl s s' : s_post s' = s_post s -> s_missing s' = s_missing s -> s_stack s' = s_stack s -> s_lazy s' = s_lazy s ->
    s_log s' = s_log s -> calmly s s'.
  Proof. intros A B C D F. constructor; auto; rewrite ?C, ?F; auto. Qed.
  Lemma calmly_log s s' e : s_post s' = s_post s -> s_missing s' = s_missing s -> s_stack s' = s_stack s -> s_lazy s' = s_lazy s ->
    s_log s' = e :: s_log s -> newev e = true -> calmly s s'.
  Proof. intros A B C D F G. constructor; auto; rewrite ?C, ?F; auto. intros e' [<-|K]; auto. Qed.
  Definition calmlym {A} (m : M A) : Prop := forall s r s', m s = Some (r, s') -> calmly s s'.
  Lemma calmly_trans a b c : calmly a b -> calmly b c -> calmly a c.
  Proof.
    intros [A1 A2 A3 A4 A5] [B1 B2 B3 B4 B5]. constructor; try congruence; auto.
    intros e K. apply B5 in K as [K|K]; auto.
  Qed.
  Lemma calmlym_bind {A B} (m : M A) (f : A -> M B) : calmlym m -> (forall a, calmlym (f a)) -> calmlym (bind m f).
  Proof.
    intros Hm Hf s r s' H. unfold bind in H. destruct (m s) as [[[a|e] s1]|] eqn:Em; [| |discriminate].
    - eapply calmly_trans; [eapply Hm; exact Em|eapply Hf; exact H].
    - injection H as <- <-. eapply Hm; exact Em.
  Qed.
  Lemma calmlym_lift f : calmlym (lift_graph f).
  Proof. intros s r s' H. unfold lift_graph in H. destruct (f (s_graph s)); injection H as <- <-; now apply calmly_refl. Qed.
  Lemma calmlym_note e : newev e = true -> calmlym (note e).
  Proof. intros He s r s' H. injection H as <- <-. now apply (calmly_log s _ e). Qed.
  Lemma calmlym_keeps {A} (m : M A) : calmlym m -> keeps plain m.
  Proof. intros H s r s' Ex. apply plain_calmly. eapply H; exact Ex. Qed.

  Lemma lazy_set_In nm i name j l : In (name, j) (lazy_set nm i l) -> In (name, j) l \/ (name = nm /\ j = i).
  Proof.
    unfold lazy_set. destruct (existsb _ l).
    - intros H. apply in_map_iff in H as ((a & b) & K & H). cbn [fst] in K. destruct (seqb a nm) eqn:Es.
      + injection K as <- <-. apply seqb_eq in Es as ->. now right.
      + injection K as <- <-. now left.
    - intros H. apply in_app_or in H as [H|[H|[]]]; [now left|]. injection H as <- <-. now right.
  Qed.
  Lemma excludes_In names : forall l name j, In (name, j) (add_excludes names l) -> In (name, j) l \/ j = ImpNone.
  Proof.
    unfold add_excludes. induction names as [|nm names IH]; intros l name j H; [now left|]. cbn in H.
    apply IH in H as [H|H]; [|now right]. apply lazy_set_In in H as [H|[_ H]]; auto.
  Qed.
  Lemma implies_In imps : forall l name j, In (name, j) (add_implies imps l) -> In (name, j) l \/ In (name, j) imps.
  Proof.
    unfold add_implies. induction imps as [|[nm i] imps IH]; intros l name j H; [now left|]. cbn [fold_left fst snd] in H.
    apply IH in H as [H|H]; [|right; now right].
    destruct (assoc nm l) as [[]|]; try (apply lazy_set_In in H as [H|[-> ->]]; [now left|right; now left]). now left.
  Qed.
  Lemma plain_start first : incl first implies -> plain (init first [] []).
  Proof.
    intros HI. constructor; auto; cbn; try contradiction. intros name i H. apply implies_In in H as [[H|[]]|H]; [|right; now apply HI].
    injection H as <- <-. now left.
  Qed.

  Lemma plain_keeper : keeper_with E plain (fun _ => False) (plain_action implies) False.
  Proof.
    constructor.
    - intros s s' (f & c & ->). apply plain_calmly. now apply calmly_refl.
    - intros n l _. apply calmlym_keeps. unfold add_node. apply calmlym_bind; [apply calmlym_lift|intros _]. now apply calmlym_note.
    - intros k im name s s1 _ _ J1 x s2 H. revert H J1. apply calmlym_keeps. unfold add_node. apply calmlym_bind; [apply calmlym_lift|intros _].
      now apply calmlym_note.
    - intros a b d. apply calmlym_keeps, calmlym_lift.
    - apply written_any. intros n l s r s' H. injection H as <- <-. apply plain_calmly. now apply calmly_refl.
    - intros n l s r s' H. injection H as <- <-. apply plain_calmly. unfold schedule. constructor; cbn.
      + now destruct (memb n (s_seen s)).
      + now destruct (memb n (s_seen s)).
      + intros m p K. apply in_app_or in K as [K|K].
        * apply in_rev, in_map_iff in K as (i & K & _). discriminate.
        * destruct (memb n (s_seen s)); [exact K|]. destruct K as [K|K]; [discriminate|exact K].
      + now destruct (memb n (s_seen s)).
      + assert (X : forall e, In e (EvSched n l :: s_log s) -> In e (s_log s) \/ newev e = true) by (intros e [<-|K]; auto).
        destruct (memb n (s_seen s)); exact X.
    - intros n p [].
    - intros name s r s' H P. unfold pop_lazy in H. destruct (assoc name (s_lazy s)) as [i|] eqn:Ea; injection H as <- <-; [|exact P].
      destruct P as [P1 P2 P3 P4 P5 P6 P7]. constructor; cbn; auto.
      + intros nm j K. apply filter_In in K as [K _]. auto.
      + intros nm j [K|K]; [|auto]. injection K as <- <-. apply P4. now apply assoc_In.
      + intros e [<-|K]; auto.
      + intros Hf [K|K]; [discriminate|now apply P7].
    - intros k w Hw s r s' H. injection H as <- <-. apply plain_calmly. constructor; auto. cbn. intros n p K.
      apply in_app_or in K as [K|[K|K]].
      + rewrite <- (firstn_skipn (List.length (s_stack s) - k) (s_stack s)). apply in_or_app. now left.
      + now elim (Hw n p).
      + rewrite <- (firstn_skipn (List.length (s_stack s) - k) (s_stack s)). apply in_or_app. now right.
    - intros s e He. apply plain_calmly. apply (calmly_log s _ e); auto. destruct e; try discriminate He; reflexivity.
    - intros s [[]|[(a & k & [])|(k & im & name & e & s0 & P & Hg & Hc)]] Js. exfalso. unfold create_missing, bind at 1 in Hc.
      destruct k as [|k]; [discriminate|]. cbn [exec f_miss] in Hc. unfold miss_body, bind at 1, gets in Hc.
      rewrite (pl_missing _ P) in Hc. cbn [nth_error ret] in Hc. unfold bind, add_node, lift_graph, bind in Hc.
      destruct (gadd_node (s_graph s0) (plain_node MissingModule name)) as [g|e'] eqn:Eg; [discriminate|].
      unfold gadd_node in Eg. unfold ghas in Eg. cbn [n_name plain_node] in Eg. now rewrite Hg in Eg.
    - intros s id pkg stem [_ []].
    - intros s. apply plain_calmly. constructor; auto. intros n p [].
    - intros s0 s P0 [P1 P2 P3 P4 P5 P6 P7]. constructor; auto. cbn. intros n p K. apply in_app_or in K as [K|K]; [now apply (P3 n p)|].
      now apply (pl_stack _ P0 n p).
    - intros s w rest Hs. apply plain_calmly. constructor; auto; cbn.
      + rewrite Hs. intros n p K. now right.
      + intros e [<-|K]; auto.
    - intros k w s u s' _ _. apply plain_calmly. now apply (calmly_log _ _ (EvDone w)).
    - intros w s. apply plain_calmly. now apply (calmly_log _ _ (EvFail w)).
    - intros s h n P Hh. rewrite (pl_post _ P) in Hh. destruct Hh.
    - intros s h i n P Hh. rewrite (pl_missing _ P) in Hh. destruct Hh.
    - intros a k [].
    - intros p [].
    - intros a id _ _. apply calmlym_keeps. apply calmlym_bind; [now apply calmlym_note|intros _; apply calmlym_lift].
    - intros a d _ _. apply calmlym_keeps, calmlym_lift.
    - intros s n name [[]|[]].
    - intros r a Ha Hp. destruct a; try (destruct Ha; fail); try discriminate Hp; cbn [do_action]; cbn in Ha.
      + intros s x s' H. injection H as <- <-. auto.
      + intros s x s' H [P1 P2 P3 P4 P5 P6 P7]. injection H as <- <-. constructor; cbn; auto.
        * intros nm j K. apply excludes_In in K as [K|K]; [auto|now left].
        * intros nm j [K|K]; [discriminate|auto].
        * intros e [<-|K]; auto.
        * intros Hf [K|K]; [discriminate|now apply P7].
      + intros s x s' H [P1 P2 P3 P4 P5 P6 P7]. injection H as <- <-. constructor; cbn; auto.
        * intros nm j K. apply implies_In in K as [K|K]; [auto|right; now apply Ha].
        * intros nm j [K|K]; [discriminate|auto].
        * intros e [<-|K]; auto.
        * intros Hf [K|K]; [discriminate|now apply P7].
    - intros s n pkg rest Hs P. eapply (pl_stack _ P). rewrite Hs. now left.
    - intros n pkg [].
  Qed.
End plain.

(** Every list of statements handed to the work stack was found for the node or
    given by a hook. *)
Lemma step_sched mrun q s s' x k : step mrun q s s' -> In (EvSched x k) (s_log s') ->
  In (EvSched x k) (s_log s) \/ In (EvAdd x k) (s_log s) \/ In (EvProc x k) (s_log s).
Proof.
  intros H K. step_cases H; [destruct H as (f' & c & ->)|..];
    cbn [s_log log set_graph set_lazy set_stack set_seen set_post set_missing set_fakes set_mem set_run set_saved] in K;
    try (now left); try (destruct K as [K|K]; [discriminate|now left]).
  - destruct K as [K|K]; [subst e; discriminate|now left].
  - destruct K as [K|[K|K]]; try discriminate. now left.
  - rewrite schedule_log in K. destruct K as [K|K]; [injection K as <- <-; now right|now left].
Qed.
Lemma sched_from E s0 s n l : order_ok E -> start s0 -> reach E s0 s -> In (EvSched n l) (s_log s) ->
  In (EvAdd n l) (s_log s) \/ In (EvProc n l) (s_log s).
Proof.
  intros HE H0 HR. pose proof (reach_history E s0 s HE H0 HR) as H. revert n l.
  apply (chain_ind_inv true true (fun s => forall n l, In (EvSched n l) (s_log s) -> In (EvAdd n l) (s_log s) \/ In (EvProc n l) (s_log s)) s0 s (h_chain _ _ H)).
  2:{ destruct H0 as (i & p & q & ->). intros n l []. }
  intros s1 s2 St IH n l K. pose proof (step_grows _ _ _ _ St) as G.
  destruct (step_sched _ _ _ _ n l St K) as [D|D]; [apply IH in D|]; (destruct D as [D|D]; [left|right]; eapply grows_log; eassumption).
Qed.
