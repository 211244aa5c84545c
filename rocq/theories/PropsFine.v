(** C81: calls as they are meant do not fail in an environment that works. *)
From Verif Require Import World BuilderSource BuilderPass PyStrFacts PropsSource BuilderAttr BuilderWhy BuilderNames PropsImports PropsLoad PropsAbsent BuiltinHooks PropsEnd FineSpec BuilderFine.
Open Scope string_scope.

(** Python's import system works, files can be read, names are names of modules: then
    no call raises an exception. *)
Definition C81_statement : Prop := forall E implies fuel s a ans s', working E -> (forall k i, In (k, i) implies -> named i) ->
  meant_history E (fun _ _ => True) (init implies [] []) s -> meant E (fun _ _ => True) s a -> top_call E fuel a s = Some (ans, s') -> forall e, ans <> AnsErr e.

(** ** Worlds that work *)

Definition proper_b (w : what) : bool :=
  let m := w_module w in
  (mnb 9 m || (negb (w_level w =? 0)%nat && seqb m "")) && forallb (fun x => part_b (fst x) && negb (has_char dot (fst x))) (w_names w).
Lemma proper_sound w : proper_b w = true -> proper w.
Proof.
  unfold proper_b. intros H. apply andb_true_iff in H as [H1 H2]. rewrite forallb_forall in H2. split; [|split].
  - intros L. rewrite L in H1. cbn [Nat.eqb negb andb] in H1. rewrite orb_false_r in H1. now apply (mnb_sound 9).
  - intros _. apply orb_true_iff in H1 as [H1|H1]; [right; now apply (mnb_sound 9)|left]. apply andb_true_iff in H1 as [_ H1]. now apply seqb_eq in H1.
  - intros x Hx. apply in_map_iff in Hx as (y & <- & Hy). specialize (H2 y Hy). apply andb_true_iff in H2 as [A B]. apply negb_true_iff in B. split; [now apply part_sound|exact B].
Qed.
Definition body_b (l : list ast) : bool := forallb (fun x => proper_b (snd x)) (sites [] (AOther l)).
Lemma body_sound l : body_b l = true -> forall p w, In (p, w) (sites [] (AOther l)) -> proper w.
Proof. unfold body_b. intros H p w K. rewrite forallb_forall in H. now apply proper_sound, (H (p, w)). Qed.

Definition plain_code (c : code) : bool := match extract_bytecode_info true c with Some (ROk ([], _, _)) => true | _ => false end.
Definition six_b (w : list (string * entry)) (name : string) : bool :=
  match assoc (six_relative name) SIX_MOVES_TO with
  | None => true
  | Some t => negb (seqb t name) && negb (seqb t "__main__") && match assoc t w with Some (ESpec _) | Some (EFail _) => false | _ => true end
  end.
Definition entry_b (w : list (string * entry)) (p : string * entry) : bool :=
  mnb 9 (fst p) && match snd p with
  | ESource _ body writes => body_b body && plain_code (code_of [] writes)
  | EText _ _ body reads writes => body_b body && plain_code (code_of reads writes)
  | EExtension | ENamespace => true
  | ESpec (Spec name LSix None None false (ROk false)) => seqb name (fst p) && six_b w name
  | ESpec _ => false
  | EFail EAttrPath | EFail (ENotFound false) => true
  | EFail _ => false
  end.
Definition world_b (w : list (string * entry)) (scripts : list (string * list ast)) : bool :=
  forallb (entry_b w) w && forallb (fun p => body_b (snd p)) scripts.

Lemma text_body w l body : text_of w l = Some body -> exists k e, In (k, e) w
  /\ match e with ESource _ b _ | EText _ _ b _ _ => b = body | _ => False end.
Proof.
  induction w as [|[k e] w IH]; [discriminate|]. cbn [text_of]. intros H.
  assert (R : text_of w l = Some body -> exists k0 e0, In (k0, e0) ((k, e) :: w) /\ match e0 with ESource _ b _ | EText _ _ b _ _ => b = body | _ => False end).
  { intros K. destruct (IH K) as (k0 & e0 & A & B). exists k0, e0. split; [now right|exact B]. }
  destruct e; auto.
  - destruct (seqb k l); [|auto]. injection H as <-. eexists k, _. split; [now left|reflexivity].
  - destruct (seqb text l); [|auto]. injection H as <-. eexists k, _. split; [now left|reflexivity].
Qed.

Lemma plain_compiled w scripts files : world_b w scripts = true -> compiled_env (world w scripts files).
Proof.
  intros H. apply andb_true_iff in H as [H _]. rewrite forallb_forall in H. apply world_compiled. intros n sp fz src c K L.
  specialize (H _ K). unfold entry_b in H. cbn [fst snd] in H. apply andb_true_iff in H as [_ H].
  destruct sp as [nm ld o se i pk]. cbn in L. subst ld. discriminate.
Qed.

(** The specs of such a world. *)
Lemma world_spec w name sp e : entry_b w (name, e) = true -> spec_of name e = ROk (Some sp) -> sp_name sp = name
  /\ (sp_loader sp = LSix /\ six_b w name = true \/ sp_loader sp = LExtension \/ sp_loader sp = LNamespace
      \/ exists text c, sp_loader sp = LInspect false (ROk (Some text)) (ROk (Some c)) /\ plain_code c = true).
Proof.
  unfold entry_b. intros H. apply andb_true_iff in H as [_ H]. cbn [fst snd] in H. destruct e as [p body wr|p text body rd wr| | |sp0|e0]; cbn [spec_of]; intros K; try injection K as <-; try discriminate K.
  - apply andb_true_iff in H as [_ H]. split; [reflexivity|]. right. right. right. now exists name, (code_of [] wr).
  - apply andb_true_iff in H as [_ H]. split; [reflexivity|]. right. right. right. now exists text, (code_of rd wr).
  - split; [reflexivity|]. right. now left.
  - split; [reflexivity|]. right. right. now left.
  - destruct sp0 as [nm ld o se i pk]. destruct ld; try discriminate H. destruct o, se, i, pk as [[]|]; try discriminate H.
    apply andb_true_iff in H as [A B]. apply seqb_eq in A. subst nm. split; [reflexivity|]. now left.
Qed.
Lemma world_complete w scripts files name sp e : world_b w scripts = true -> In (name, e) w -> spec_of name e = ROk (Some sp) ->
  complete_spec (world w scripts files) sp.
Proof.
  intros Hw Hi K. pose proof Hw as H. apply andb_true_iff in H as [H _]. rewrite forallb_forall in H. specialize (H _ Hi).
  destruct (world_spec w name sp e H K) as [Hn Hl].
  assert (Nm : module_name name) by (unfold entry_b in H; apply andb_true_iff in H as [H _]; now apply (mnb_sound 9)).
  constructor.
  - now rewrite Hn.
  - intros f gs gc L. destruct Hl as [[Q _]|[Q|[Q|(text & c & Q & _)]]]; rewrite Q in L; try discriminate. injection L as <- <- <-.
    destruct e as [p body wr|p tx body rd wr| | |sp0|e0]; cbn in K; try (injection K as <-); try discriminate.
    unfold entry_b in H. apply andb_true_iff in H as [_ H]. destruct sp0 as [nm ld o se i pk]. cbn in Q. subst ld. discriminate.
  - intros f gs gc L. destruct Hl as [[Q _]|[Q|[Q|(text & c & Q & P)]]]; rewrite Q in L; try discriminate. injection L as <- <- <-.
    cbn [e_ge311 world]. unfold plain_code in P. destruct (extract_bytecode_info true c) as [[[[[|] ?] ?]|]|]; discriminate.
  - unfold entry_b in H. apply andb_true_iff in H as [_ H]. cbn [snd fst] in H. destruct e as [p body wr|p tx body rd wr| | |sp0|e0]; cbn in K; try (injection K as <-); try discriminate.
    + exists p. split; [reflexivity|]. intros ->. discriminate.
    + exists p. split; [reflexivity|]. intros ->. discriminate.
    + exists false. split; [reflexivity|discriminate].
    + exists true. split; [reflexivity|discriminate].
    + destruct sp0 as [nm ld o se i pk]. destruct ld; try discriminate H. destruct o, se, i, pk as [[]|]; try discriminate H.
      exists false. split; [reflexivity|discriminate].
  - intros L. destruct e as [p body wr|p tx body rd wr| | |sp0|e0]; cbn in K; try (injection K as <-); try discriminate; try (destruct L; discriminate).
    destruct Hl as [[Q _]|[Q|[Q|(text & c & Q & P)]]]; try (rewrite Q in L; destruct L; discriminate).
    unfold entry_b in H. apply andb_true_iff in H as [_ H]. destruct sp0 as [nm ld o se i pk]. cbn in Q. subst ld. discriminate.
  - destruct Hl as [[Q _]|[Q|[Q|(text & c & Q & P)]]]; rewrite Q; split; discriminate.
  - intros L. destruct Hl as [[Q _]|[Q|[Q|(text & c & Q & P)]]]; rewrite Q in L; discriminate.
  - intros t T. unfold target in T. destruct Hl as [[Q S]|[Q|[Q|(text & c & Q & P)]]]; rewrite Q in T; try contradiction.
    rewrite Hn in T. unfold six_b in S. rewrite T in S. apply andb_true_iff in S as [S1 S3]. apply andb_true_iff in S1 as [S1 S2].
    apply negb_true_iff in S1, S2. split; [eapply six_target; exact T|]. split.
    + intros ->. discriminate.
    + intros tm fakes. cbn [e_find_spec world]. destruct (assoc t w) as [e1|] eqn:Ea; [|exact I].
      assert (X : t <> name) by (intros ->; rewrite (proj2 (seqb_eq _ _) eq_refl) in S1; discriminate).
      destruct e1; cbn [spec_of]; try discriminate; cbn [sp_name]; rewrite Hn; exact X.
Qed.

Lemma world_working w scripts files : world_b w scripts = true -> working (world w scripts files).
Proof.
  intros H. constructor.
  - intros l. apply Permutation.Permutation_refl.
  - now apply plain_compiled with (1 := H).
  - intros t fakes name N Nm. cbn [e_find_spec world]. destruct (assoc name w) as [e|] eqn:Ea; [|exact I]. apply assoc_In in Ea.
    destruct (spec_of name e) as [[sp|]|er] eqn:Es; [|exact I|].
    + eapply world_complete; eassumption.
    + pose proof H as H'. apply andb_true_iff in H' as [H' _]. rewrite forallb_forall in H'. specialize (H' _ Ea). unfold entry_b in H'. apply andb_true_iff in H' as [_ H'].
      cbn [snd fst] in H'. destruct e as [p body wr|p tx body rd wr| | |sp0|e0]; try discriminate Es. injection Es as <-.
      destruct e0 as [| | | | | | | | | |[]| | | |]; try discriminate H'; auto.
  - intros t f text. cbn [e_parse world]. destruct (text_of w text) as [l|] eqn:Et.
    + apply body_sound. apply text_body in Et as (k & e & Hi & Hb). apply andb_true_iff in H as [H _]. rewrite forallb_forall in H. specialize (H _ Hi).
      unfold entry_b in H. apply andb_true_iff in H as [_ H]. cbn [snd] in H. destruct e; try contradiction; subst; apply andb_true_iff in H; apply H.
    + destruct (assoc text scripts) as [l|] eqn:Ea; [|reflexivity]. apply assoc_In in Ea. apply body_sound. apply andb_true_iff in H as [_ H]. rewrite forallb_forall in H. exact (H _ Ea).
  - intros sp f gs c fn opt wh Hi L S. pose proof (plain_compiled w scripts files H sp f gs c Hi L) as C. destruct Hi as (t & fk & name & Hf). cbn [e_find_spec world] in Hf.
    destruct (assoc name w) as [e|] eqn:Ea; [|discriminate]. apply assoc_In in Ea. pose proof H as H'. apply andb_true_iff in H' as [H' _]. rewrite forallb_forall in H'.
    destruct (world_spec w name sp e (H' _ Ea) Hf) as [_ [[Q _]|[Q|[Q|(text & c' & Q & P)]]]]; rewrite Q in L; try discriminate. injection L as <- <- <-.
    unfold plain_code in P. destruct (extract_bytecode_info true c') as [[[[l wr] rd]|]|] eqn:Ex; try discriminate P. destruct l; [|discriminate P].
    destruct (code_covers _ _ _ _ _ C Ex) as [K _]. destruct (K _ _ _ S) as (i & [] & _).
  - intros t f. now exists None.
  - intros t name e [= <-]. now left.
  - intros t d. exists false. reflexivity.
Qed.

(** ** The calls that fail *)

(** A missing package with a configured reference to one of its own modules. *)
Theorem C81_refuted : ~ C81_statement.
Proof.
  intros H. destruct (top_call (world [] [] []) 60 (AAddModule "turtledemo.clock") (init [("turtledemo", ImpRefs ["turtledemo.clock"])] [] [])) as [[ans s']|] eqn:K; [|discriminate K].
  refine (H (world [] [] []) _ 60 _ _ ans s' (world_working [] [] [] eq_refl) _ (mh_start _ _ _) _ K EValue _).
  - intros k i [[= <- <-]|[]] t [<-|[]]. now apply (mnb_sound 9).
  - constructor. now apply (mnb_sound 9).
  - vm_compute in K. now injection K as <- _.
Qed.
Print Assumptions C81_refuted.

(** The claim does not hold without any configuration either: a script with a
    path that starts with a dot is taken for a module outside of any package. *)
Definition C81_unconfigured_statement : Prop := forall E fuel s a ans s', working E ->
  meant_history E (fun _ a => forall l, a <> AImplies l) new s -> meant E (fun _ a => forall l, a <> AImplies l) s a -> top_call E fuel a s = Some (ans, s') -> forall e, ans <> AnsErr e.
Theorem C81_unconfigured_refuted : ~ C81_unconfigured_statement.
Proof.
  intros H. pose (E := world [] [("./main.py", [World.from "x" ["y"] 1])] []).
  destruct (top_call E 60 (AAddScript "./main.py") new) as [[ans s']|] eqn:K; [|discriminate K].
  refine (H E 60 _ _ ans s' (world_working [] [("./main.py", [World.from "x" ["y"] 1])] [] eq_refl) (mh_start _ _ _) _ K EAssert _).
  - constructor; [intros C; now apply C|]. intros t. eexists. split; [reflexivity|]. now apply body_sound.
  - vm_compute in K. now injection K as <- _.
Qed.
Print Assumptions C81_unconfigured_refuted.

(** ** The calls that do not fail *)

Lemma confined_all E firm rank : confined E firm rank (tame E firm rank) (fun _ => True).
Proof. constructor; auto. Qed.

Lemma tame_history E firm rank implies post missing s : working E -> certain E firm -> ranked E firm rank -> ~ firm "__main__" ->
  (forall k i, In (k, i) implies -> named i /\ ranked_conf firm rank k i) ->
  (forall h, In h post -> post_fine E (tame E firm rank) h) -> (forall h, In h missing -> missing_fine E h) ->
  meant_history E (tame E firm rank) (init implies post missing) s -> Inv E firm rank (tame E firm rank) (fun _ => True) s /\ settled s.
Proof.
  intros W C R F Hi HP HM H. induction H as [|s fuel a ans s' _ [I1 I2] Hm Ht K]; [now apply init_fine|].
  destruct (top_fine E firm rank W C R _ _ (confined_all E firm rank) fuel a s ans s' I1 I2 Hm Ht K) as (_ & A & B). now split.
Qed.

(** No call fails if the names can be ranked.  Hooks are those of the package, or make
    such calls only. *)
Theorem C81_hooks_partial E firm rank implies post missing fuel s a ans s' : working E -> certain E firm -> ranked E firm rank -> ~ firm "__main__" ->
  (forall k i, In (k, i) implies -> named i /\ ranked_conf firm rank k i) ->
  (forall h, In h post -> post_fine E (tame E firm rank) h) -> (forall h, In h missing -> missing_fine E h) ->
  meant_history E (tame E firm rank) (init implies post missing) s -> meant E (tame E firm rank) s a -> tame E firm rank s a ->
  top_call E fuel a s = Some (ans, s') -> forall e, ans <> AnsErr e.
Proof.
  intros W C R F Hi HP HM H Hm Ht K. destruct (tame_history E firm rank implies post missing s W C R F Hi HP HM H) as [I1 I2].
  now destruct (top_fine E firm rank W C R _ _ (confined_all E firm rank) fuel a s ans s' I1 I2 Hm Ht K) as (A & _).
Qed.
Print Assumptions C81_hooks_partial.

(** A graph without hooks. *)
Theorem C81_partial E firm rank implies fuel s a ans s' : working E -> certain E firm -> ranked E firm rank -> ~ firm "__main__" ->
  (forall k i, In (k, i) implies -> named i /\ ranked_conf firm rank k i) ->
  meant_history E (tame E firm rank) (init implies [] []) s -> meant E (tame E firm rank) s a -> tame E firm rank s a ->
  top_call E fuel a s = Some (ans, s') -> forall e, ans <> AnsErr e.
Proof. intros W C R F Hi. apply C81_hooks_partial; auto; intros h []. Qed.
Print Assumptions C81_partial.

(** With finitely many modules the calls also end. *)
Lemma meant_good E V (ok : st -> action -> Prop) s0 s : (forall s a, ok s a -> good_call V a) -> meant_history E ok s0 s -> good_history E V s0 s.
Proof.
  intros Hg H. induction H as [|s fuel a ans s' _ IH _ Ho K]; [apply gh_start|]. eapply gh_call; [exact IH|eapply Hg; exact Ho|exact K].
Qed.
(** Fewer restrictions. *)
Lemma meant_weak E (ok ok' : st -> action -> Prop) : (forall s a, ok s a -> ok' s a) -> forall s a, meant E ok s a -> meant E ok' s a
with polite_weak E (ok ok' : st -> action -> Prop) : (forall s a, ok s a -> ok' s a) -> forall s p, polite E ok s p -> polite E ok' s p.
Proof.
  - intros H s a M. destruct M; try (constructor; assumption).
    + apply me_context. eapply polite_weak; eassumption.
    + apply me_post. intros n s' K. eapply polite_weak; [exact H|auto].
  - intros H s p M. destruct M as [s o|s a k Ma Oa Mk]; [constructor|]. apply po_do; [eapply meant_weak; eassumption|now apply H|].
    intros ans s' A B. eapply polite_weak; [exact H|now apply Mk].
Qed.
Lemma history_weak E (ok ok' : st -> action -> Prop) : (forall s a, ok s a -> ok' s a) -> forall s0 s, meant_history E ok s0 s -> meant_history E ok' s0 s.
Proof.
  intros H s0 s M. induction M as [|s fuel a ans s' _ IH Hm Ho K]; [apply mh_start|]. eapply mh_call; [exact IH|eapply meant_weak; eassumption|now apply H|exact K].
Qed.
(** [good_call]: the programs of hook contexts are such that C27 applies; other calls are. *)
Theorem C81_answer_partial E V firm rank implies s a : working E -> certain E firm -> ranked E firm rank -> ~ firm "__main__" ->
  (forall k i, In (k, i) implies -> named i /\ ranked_conf firm rank k i) ->
  finite_universe E V -> redirects_end E ->
  meant_history E (fun s a => tame E firm rank s a /\ good_call V a) (init implies [] []) s -> meant E (tame E firm rank) s a -> tame E firm rank s a -> good_call V a ->
  exists fuel ans s', (forall more, fuel <= more -> top_call E more a s = Some (ans, s')) /\ forall e, ans <> AnsErr e.
Proof.
  intros W C R F Hi FU RE H Hm Ht Hg. destruct (C27_ends_partial E V (init implies [] []) s a FU RE) as (fuel & ans & s' & K).
  - exists implies, [], []. split; [reflexivity|]. split; intros h [].
  - eapply meant_good; [|exact H]. now intros s1 a1 [_ G].
  - exact Hg.
  - exists fuel, ans, s'. split; [exact K|]. apply (C81_partial E firm rank implies fuel s a ans s'); auto. eapply history_weak; [|exact H]. now intros s1 a1 [T _].
Qed.
Print Assumptions C81_answer_partial.

(** ** Ranks *)

(** The first part of a name, and dots; packages in [F] are certain to be found and
    their modules do not come after them. *)
Fixpoint head (s : string) : string := match s with
  | EmptyString => EmptyString
  | String c r => if Ascii.eqb c dot then EmptyString else String c (head r)
  end.
Lemma head_app p x : head (p ++ "." ++ x) = head p.
Proof. induction p as [|c p IH]; [reflexivity|]. cbn. destruct (Ascii.eqb c dot); [reflexivity|]. f_equal. exact IH. Qed.
Lemma head_dots p : dots p = 0 -> head p = p.
Proof. induction p as [|c p IH]; [reflexivity|]. cbn. destruct (Ascii.eqb c dot); [discriminate|]. intros H. f_equal. now apply IH. Qed.
Definition by_dots (F : list string) (bonus : string -> nat) (n : string) : nat :=
  bonus (head n) + if memb (head n) F then dots n - 1 else dots n.
Lemma by_dots_package F bonus p x : dotless x ->
  by_dots F bonus p < by_dots F bonus (p ++ "." ++ x) \/ (In p F /\ by_dots F bonus p <= by_dots F bonus (p ++ "." ++ x)).
Proof.
  intros D. unfold by_dots. rewrite head_app. assert (X : dots (p ++ "." ++ x) = S (dots p)).
  { rewrite dots_app. cbn [append dots]. cbn. rewrite (dotless_dots x D). lia. }
  rewrite X. destruct (memb (head p) F) eqn:Em; [|left; lia]. destruct (dots p) as [|k] eqn:Ek; [|left; lia]. right. split; [|lia].
  apply memb_In. now rewrite <- (head_dots p Ek).
Qed.

(** Nothing is configured: no ranks are needed, except that loaders that redirect
    do not lead into other packages' depths. *)
Definition unconfigured (E : env) (s : st) (a : action) : Prop := match a with AAddScript f => script_fine E f | AImplies _ => False | _ => True end.
Theorem C81_unconfigured_partial E fuel s a ans s' : working E ->
  (forall t fakes name sp, e_find_spec E t fakes name = ROk (Some sp) -> dots (sp_name sp) <= dots name) ->
  (forall sp name, importable E sp -> target sp name -> dots name <= dots (sp_name sp)) ->
  meant_history E (unconfigured E) new s -> meant E (unconfigured E) s a -> unconfigured E s a ->
  top_call E fuel a s = Some (ans, s') -> forall e, ans <> AnsErr e.
Proof.
  intros W Hf Ht H Hm Ha K.
  assert (D : forall n, by_dots [] (fun _ => 0) n = dots n) by reflexivity.
  assert (Weak : forall s a, unconfigured E s a -> tame E (fun n => In n []) (by_dots [] (fun _ => 0)) s a).
  { intros s0 a0 U. destruct a0; cbn in *; auto; try contradiction; try (intros k _ []). }
  refine (C81_partial E (fun n => In n []) (by_dots [] (fun _ => 0)) [] fuel s a ans s' W _ _ _ _ _ (meant_weak _ _ _ Weak _ _ Hm) (Weak _ _ Ha) K).
  - constructor; contradiction.
  - constructor.
    + intros p x _ Dx. now apply by_dots_package.
    + intros t fakes name sp. rewrite !D. apply Hf.
    + intros sp name. rewrite !D. apply Ht.
    + intros sp fz text code tool _ _ _ [-> | ->] _; rewrite !D; cbn; lia.
  - cbn; tauto.
  - cbn; tauto.
  - exact (history_weak _ _ _ Weak _ _ H).
Qed.
Print Assumptions C81_unconfigured_partial.

(** ** The configuration that comes with the package *)

Definition std_bonus (n : string) : nat :=
  match assoc n [("_asyncio", 1); ("_elementtree", 2); ("_json", 1); ("zipimport", 1); ("ctypes", 2)] with Some k => k | None => 0 end.
Definition std_firm : list string := ["dbm"; "turtledemo"].
Definition std_rank : string -> nat := by_dots std_firm std_bonus.
Definition conf_b (p : string * implied) : bool := match snd p with
  | ImpNone => negb (memb (fst p) std_firm)
  | ImpAlias t | ImpVirtual t => mnb 9 t && (std_rank t <=? std_rank (fst p))%nat
  | ImpRefs l => forallb (fun t => mnb 9 t && (std_rank t <=? std_rank (fst p))%nat) l
  end.
Lemma conf_sound k i : conf_b (k, i) = true -> named i /\ ranked_conf (fun n => In n std_firm) std_rank k i.
Proof.
  unfold conf_b. cbn [fst snd]. assert (X : forall t, mnb 9 t && (std_rank t <=? std_rank k)%nat = true -> module_name t /\ std_rank t <= std_rank k).
  { intros t H. apply andb_true_iff in H as [A B]. split; [now apply (mnb_sound 9)|now apply Nat.leb_le]. }
  destruct i; cbn [named ranked_conf]; auto.
  - intros H. split; [exact I|]. apply negb_true_iff in H. intros K. apply memb_In in K. congruence.
  - rewrite forallb_forall. intros H. split; intros t Ht; now apply X, H.
Qed.
Lemma std_conf win32 ospath sysconfigdata : module_name ospath -> std_rank ospath <= 1 -> module_name sysconfigdata -> std_rank sysconfigdata = 0 ->
  forall k i, In (k, i) (STDLIB_IMPLIES win32 ospath sysconfigdata) -> named i /\ ranked_conf (fun n => In n std_firm) std_rank k i.
Proof.
  intros N1 R1 N2 R2 k i H. assert (X : In (k, i) (STDLIB_IMPLIES win32 "posixpath" "_sysconfigdata") \/ (k, i) = ("os.path", ImpAlias ospath) \/ (k, i) = ("sysconfig", ImpRefs [sysconfigdata])).
  { destruct win32; vm_compute in H |- *; intuition. }
  destruct X as [X|[X|X]].
  - apply conf_sound. assert (F : forallb conf_b (STDLIB_IMPLIES win32 "posixpath" "_sysconfigdata") = true) by (destruct win32; vm_compute; reflexivity).
    rewrite forallb_forall in F. now apply F.
  - injection X as -> ->. split; [exact N1|]. exact R1.
  - injection X as -> ->. split; intros t [<-|[]]; [exact N2|]. now rewrite R2.
Qed.

(** A new graph with the default configuration and without hooks, where [dbm] and
    [turtledemo] are installed. *)
Theorem C81_stdlib_partial E win32 ospath sysconfigdata fuel s a ans s' : working E -> certain E (fun n => In n std_firm) ->
  (forall t fakes name sp, e_find_spec E t fakes name = ROk (Some sp) -> std_rank (sp_name sp) <= std_rank name) ->
  (forall sp name, importable E sp -> target sp name -> std_rank name <= std_rank (sp_name sp)) ->
  module_name ospath -> std_rank ospath <= 1 -> module_name sysconfigdata -> std_rank sysconfigdata = 0 ->
  meant_history E (tame E (fun n => In n std_firm) std_rank) (init (STDLIB_IMPLIES win32 ospath sysconfigdata) [] []) s ->
  meant E (tame E (fun n => In n std_firm) std_rank) s a -> tame E (fun n => In n std_firm) std_rank s a ->
  top_call E fuel a s = Some (ans, s') -> forall e, ans <> AnsErr e.
Proof.
  intros W C Hf Ht N1 R1 N2 R2 H Hm Ha K. refine (C81_partial E _ std_rank _ fuel s a ans s' W C _ _ _ H Hm Ha K).
  - constructor; [|exact Hf|exact Ht|].
    + intros p x _ Dx. now apply by_dots_package.
    + intros sp fz text code tool _ _ _ [-> | ->] _; cbn; lia.
  - cbn. intuition discriminate.
  - now apply std_conf.
Qed.
Print Assumptions C81_stdlib_partial.

(** ** A concrete case *)

Definition app_modules : list (string * entry) := [
  ("dbm", ESource true [] []); ("dbm.dumb", ESource false [imp "io"] []); ("turtledemo", ESource true [] []);
  ("app", ESource true [World.from "core" ["run"] 1; imp "os.path"; imp "gone.sub"; World.from "dbm" ["dumb"; "gnu"] 0] ["run"]);
  ("app.core", ESource false [imp "six.moves.cPickle"; imp "_json"; imp "typing.io"; World.from "x" ["y"] 3; imp "broken.part"; imp "tkinter.ttk"; imp "app.plugin"] ["run"]);
  ("six", ESource false [] []); ("six.moves", ENamespace);
  ("six.moves.cPickle", ESpec (Spec "six.moves.cPickle" LSix None None false (ROk false)));
  ("pickle", ESource false [] []); ("_json", EExtension); ("json", EText true "import pkgutil" [imp "json.decoder"] [] []);
  ("json.decoder", ESource false [imp "json"] []); ("os", ESource false [imp "posixpath"] []); ("posixpath", ESource false [] []);
  ("typing", ESource false [] []); ("broken", EFail EAttrPath); ("tkinter", ESource true [] []); ("tkinter.ttk", ESource false [] [])].
Definition app_scripts : list (string * list ast) := [("main.py", [imp "app.core"; World.from "" ["z"] 1]); ("import app, zlib.x", [imp "app"; imp "zlib.x"])].
Definition app_world : env := world app_modules app_scripts [].
Definition app_implies : list (string * implied) := STDLIB_IMPLIES true "posixpath" "_sysconfigdata".
Definition app_step (a : action) (s : st) : st := match top_call app_world 200 a s with Some x => snd x | None => new end.
Definition app_0 : st := Eval vm_compute in init app_implies [] [].
Definition app_1 : st := Eval vm_compute in app_step (AExcludes ["tkinter"]) app_0.
Definition app_2 : st := Eval vm_compute in app_step (AImplies [("app.plugin", ImpAlias "json.decoder")]) app_1.
Definition app_3 : st := Eval vm_compute in app_step (AAddScript "main.py") app_2.
Definition app_4 : st := Eval vm_compute in app_step (AAddModule "dbm") app_3.
Definition app_5 : st := Eval vm_compute in app_step (AImportModule "app" "gone.x") app_4.

Lemma app_targets sp name : importable app_world sp -> target sp name -> sp = Spec "six.moves.cPickle" LSix None None false (ROk false) /\ name = "pickle".
Proof.
  intros (t & f & nm & Hf) T. cbn [e_find_spec app_world world] in Hf. destruct (assoc nm app_modules) as [e|] eqn:Ea; [|discriminate]. apply assoc_In in Ea.
  repeat (destruct Ea as [Ea|Ea]; [injection Ea as <- <-; first [discriminate Hf|injection Hf as <-; first [contradiction T|split; [reflexivity|]; vm_compute in T; now injection T as <-]]|]).
  contradiction.
Qed.
Lemma app_found t fakes name sp : e_find_spec app_world t fakes name = ROk (Some sp) -> sp_name sp = name.
Proof.
  cbn [e_find_spec app_world world]. destruct (assoc name app_modules) as [e|] eqn:Ea; [|discriminate]. apply assoc_In in Ea. intros H.
  assert (W : world_b app_modules app_scripts = true) by (vm_compute; reflexivity). apply andb_true_iff in W as [W _]. rewrite forallb_forall in W.
  now destruct (world_spec app_modules name sp e (W _ Ea) H).
Qed.
Lemma app_certain : certain app_world (fun n => In n std_firm).
Proof.
  constructor.
  - intros p x H Dx. exfalso. assert (X : dots (p ++ "." ++ x) = 0) by (destruct H as [<-|[<-|[]]]; reflexivity).
    rewrite !dots_app in X. cbn in X. lia.
  - intros t fakes name [<-|[<-|[]]]; eexists; split; reflexivity.
  - intros t fakes name sp H F. destruct (sp_loader sp) eqn:L; auto; pose proof (app_found _ _ _ _ H) as N; rewrite N in F; destruct F as [<-|[<-|[]]]; injection H as <-; discriminate L.
Qed.
Lemma app_history : meant_history app_world (tame app_world (fun n => In n std_firm) std_rank) app_0 app_5.
Proof.
  refine (mh_call _ _ _ app_4 200 (AImportModule "app" "gone.x") (AnsId "gone.x") app_5 _ _ I _); [|constructor; [discriminate|now apply (mnb_sound 9)]|vm_compute; reflexivity].
  refine (mh_call _ _ _ app_3 200 (AAddModule "dbm") (AnsId "dbm") app_4 _ _ I _); [|constructor; now apply (mnb_sound 9)|vm_compute; reflexivity].
  refine (mh_call _ _ _ app_2 200 (AAddScript "main.py") (AnsId "main.py") app_3 _ _ _ _); [|constructor| |vm_compute; reflexivity].
  - refine (mh_call _ _ _ app_1 200 (AImplies [("app.plugin", ImpAlias "json.decoder")]) AnsUnit app_2 _ _ _ _); [|constructor| |vm_compute; reflexivity].
    + refine (mh_call _ _ _ app_0 200 (AExcludes ["tkinter"]) AnsUnit app_1 _ _ _ _); [|constructor| |vm_compute; reflexivity].
      * exact (mh_start _ _ app_0).
      * intros x [<-|[]]. cbn. intuition discriminate.
    + intros x i [[= <- <-]|[]]. now apply (mnb_sound 9).
    + intros x i [[= <- <-]|[]]. vm_compute. lia.
  - intros C. now apply C.
  - intros t. exists (AOther [imp "app.core"; World.from "" ["z"] 1]). split; [reflexivity|]. now apply body_sound.
  - left. now apply (mnb_sound 9).
Qed.

Example C81_nonvacuous :
  working app_world /\ certain app_world (fun n => In n std_firm)
  /\ (forall t fakes name sp, e_find_spec app_world t fakes name = ROk (Some sp) -> std_rank (sp_name sp) <= std_rank name)
  /\ (forall sp name, importable app_world sp -> target sp name -> std_rank name <= std_rank (sp_name sp))
  /\ meant_history app_world (tame app_world (fun n => In n std_firm) std_rank) app_0 app_5
  /\ meant app_world (tame app_world (fun n => In n std_firm) std_rank) app_5 (AAddSource "import app, zlib.x")
  /\ finite_universe app_world (map fst app_modules)
  /\ map fst (node_list app_5) = ["main.py"; "main"; "app"; "app.core"; "app.plugin"; "json"; "json.decoder"; "tkinter"; "tkinter.ttk"; "broken"; "broken.part";
       "...x"; "typing"; "typing.io"; "_json"; "six"; "six.moves"; "six.moves.cPickle"; "pickle"; "dbm"; "dbm.gnu"; "dbm.ndbm"; "dbm.dumb"; "io"; "gone"; "gone.sub"; "os"; "os.path"; "posixpath"; "gone.x"]
  /\ (forall fuel ans s', top_call app_world fuel (AAddSource "import app, zlib.x") app_5 = Some (ans, s') -> forall e, ans <> AnsErr e)
  /\ exists s', top_call app_world 200 (AAddSource "import app, zlib.x") app_5 = Some (AnsUnit, s') /\ in_graph s' "zlib.x".
Proof.
  assert (W : working app_world) by (apply world_working; vm_compute; reflexivity).
  assert (F : forall t fakes name sp, e_find_spec app_world t fakes name = ROk (Some sp) -> std_rank (sp_name sp) <= std_rank name).
  { intros t fakes name sp H. now rewrite (app_found _ _ _ _ H). }
  assert (T : forall sp name, importable app_world sp -> target sp name -> std_rank name <= std_rank (sp_name sp)).
  { intros sp name H K. destruct (app_targets sp name H K) as [-> ->]. vm_compute. lia. }
  assert (M : meant app_world (tame app_world (fun n => In n std_firm) std_rank) app_5 (AAddSource "import app, zlib.x")).
  { constructor. intros t. eexists. split; [reflexivity|]. intros p w H. repeat (destruct H as [H|H]; [injection H as <- <-; reflexivity|]). contradiction. }
  repeat match goal with |- _ /\ _ => split end; try assumption.
  - exact app_certain.
  - exact app_history.
  - apply world_finite.
  - vm_compute. reflexivity.
  - intros fuel ans s' K. apply (C81_stdlib_partial app_world true "posixpath" "_sysconfigdata" fuel app_5 (AAddSource "import app, zlib.x") ans s'); [exact W|exact app_certain|exact F|exact T| | | | |exact app_history|exact M|exact I|exact K].
    + now apply (mnb_sound 9).
    + vm_compute. lia.
    + now apply (mnb_sound 9).
    + reflexivity.
  - exists (app_step (AAddSource "import app, zlib.x") app_5). split; vm_compute; [reflexivity|discriminate].
Qed.

(** An entry of [sys.modules] without a spec at first. *)
Definition odd_world : env := world [("odd", ESource false [] [])] [] [].
Definition odd_env : env := Env
  (fun t fakes name => if (t =? 0)%nat && seqb name "odd" then RErr ESpecValue else e_find_spec odd_world t fakes name)
  (fun t _ => (t =? 1)%nat) (e_dist_for_file odd_world) (e_dist_named odd_world) (e_parse odd_world) (e_script odd_world)
  (e_import odd_world) (e_location odd_world) (e_suffixes odd_world) (e_glob_py odd_world) (e_subdirs odd_world) (e_is_file odd_world) (e_read odd_world)
  (e_parent odd_world) (e_isidentifier odd_world) (e_names_order odd_world) (e_order odd_world) (e_ge311 odd_world).
Lemma odd_found t fakes name sp : e_find_spec odd_env t fakes name = ROk (Some sp) -> e_find_spec odd_world t fakes name = ROk (Some sp) /\ sp_name sp = name
  /\ exists text c, sp_loader sp = LInspect false (ROk (Some text)) (ROk (Some c)).
Proof.
  cbn [odd_env e_find_spec]. destruct ((t =? 0)%nat && seqb name "odd"); [discriminate|]. intros H. split; [exact H|].
  cbn [odd_world world e_find_spec assoc] in H. destruct (seqb name "odd") eqn:Es; [|discriminate]. injection H as <-. split; [reflexivity|]. eexists _, _. reflexivity.
Qed.
Example C81_no_spec_nonvacuous : working odd_env
  /\ (forall t fakes name sp, e_find_spec odd_env t fakes name = ROk (Some sp) -> dots (sp_name sp) <= dots name)
  /\ (forall sp name, importable odd_env sp -> target sp name -> dots name <= dots (sp_name sp))
  /\ e_find_spec odd_env (s_clock new) (s_fakes new) "odd" = RErr ESpecValue
  /\ exists s', top_call odd_env 60 (AAddModule "odd") new = Some (AnsId "odd", s') /\ node_list s' = [("odd", Module MSource)].
Proof.
  assert (W : working odd_world) by (apply world_working; vm_compute; reflexivity).
  assert (I : forall sp, importable odd_env sp -> importable odd_world sp).
  { intros sp (t & f & n & H). exists t, f, n. now apply odd_found in H as [H _]. }
  assert (N : forall sp name, importable odd_env sp -> ~ target sp name).
  { intros sp name (t & f & n & H) T. apply odd_found in H as (_ & _ & text & c & L). unfold target in T. now rewrite L in T. }
  assert (C : forall t f n sp, module_name n -> n <> "__main__" -> e_find_spec odd_env t f n = ROk (Some sp) -> complete_spec odd_env sp).
  { intros t f n sp Hn Nm H. pose proof (N sp) as Ht. pose proof H as H'. apply odd_found in H as (H & _ & text & c & L). pose proof (wk_find odd_world W t f n Hn Nm) as K. rewrite H in K.
    destruct K as [A1 A2 A3 A4 A5 A6 A7 A8]. constructor; auto.
    - intros Q. now rewrite Q in L.
    - intros name T. elim (Ht name); [now exists t, f, n|exact T]. }
  split; [|split; [|split; [|split]]].
  - destruct W as [B1 B2 B3 B4 B5 B6 B7 B8]. constructor; auto.
    + intros sp fz src c Hi. apply B2. now apply I.
    + intros t f n Hn Nm. destruct (e_find_spec odd_env t f n) as [[sp|]|e] eqn:Ef; [now apply (C t f n)|exact Logic.I|].
      cbn [odd_env e_find_spec] in Ef. destruct ((t =? 0)%nat && seqb n "odd") eqn:Eo.
      * injection Ef as <-. right. right. right. split; [reflexivity|]. apply andb_true_iff in Eo as [E1 E2]. apply Nat.eqb_eq in E1. apply seqb_eq in E2. subst.
        split; [now right|]. split; [reflexivity|]. destruct (e_find_spec odd_env (2 + 0) (remove_name "odd" f) "odd") as [[sp|]|e] eqn:Ef; [now apply (C _ _ _ sp Hn Nm Ef)|exact Logic.I|].
        cbn in Ef. discriminate.
      * specialize (B3 t f n Hn Nm). rewrite Ef in B3. cbn [odd_world world e_find_spec assoc] in Ef. destruct (seqb n "odd"); discriminate.
    + intros sp fz gs c fn opt w Hi. apply B5. now apply I.
  - intros t f n sp H. apply odd_found in H as (_ & -> & _). apply le_n.
  - intros sp name Hi T. now elim (N sp name Hi).
  - reflexivity.
  - eexists. split; [vm_compute; reflexivity|vm_compute; reflexivity].
Qed.

(** All of a package, in a hook context. *)
Definition folder_modules : list (string * entry) := [("main", ESource false [] []); ("pkg", ESource true [imp "pkg.a"] []); ("pkg.a", ESource false [World.from "" ["b"] 1] []);
  ("pkg.b", ESource false [imp "gone"] []); ("pkg.sub", ESource true [] []); ("pkg.sub.c", EExtension)].
Definition folder_world : env := world folder_modules [] [("pkg", (["__init__"; "a"; "b"; ""], ["sub"; "data"])); ("pkg.sub", (["__init__"; "c"], []))].
Definition folder_prog : prog := PDo (AAddModule "main") (fun _ => PDo (AImportModule "main" "pkg.b") (fun _ => PRet None)).
Lemma folder_listing : listing_fine folder_world.
Proof.
  constructor.
  - intros sp (t & f & nm & Hf) t' f'. cbn [e_find_spec folder_world world] in *. destruct (assoc nm folder_modules) as [e|] eqn:Ea; [|discriminate]. apply assoc_In in Ea.
    repeat (destruct Ea as [Ea|Ea]; [injection Ea as <- <-; injection Hf as <-; eexists; reflexivity|]). contradiction.
  - intros t path. cbn [e_glob_py folder_world world assoc]. destruct (seqb path "pkg"); [|destruct (seqb path "pkg.sub")];
      eexists; (split; [reflexivity|]); intros x Hx; repeat (destruct Hx as [<-|Hx]; [first [discriminate|intros _; now split; [now apply part_sound|]]|]); contradiction.
  - intros t path. cbn [e_subdirs folder_world world assoc]. destruct (seqb path "pkg"); [|destruct (seqb path "pkg.sub")];
      eexists; (split; [reflexivity|]); intros x Hx; repeat (destruct Hx as [<-|Hx]; [intros _; now split; [now apply part_sound|]|]); contradiction.
Qed.
Example C81_package_nonvacuous : let s := snd (the_calls folder_world [AAddModule "main"] new) in
  working folder_world /\ listing_fine folder_world
  /\ meant folder_world (unconfigured folder_world) s (AHookContext folder_prog)
  /\ meant folder_world (unconfigured folder_world) s (AImportPackage "main" "pkg")
  /\ let r := the_calls folder_world [AImportPackage "main" "pkg"; AHookContext folder_prog] s in
     fst r = [AnsId "pkg"; AnsUnit]
     /\ map fst (node_list (snd r)) = ["main"; "pkg"; "pkg.a"; "pkg.b"; "gone"; "pkg.__init__"; "pkg.data"; "pkg.sub"; "pkg.sub.__init__"; "pkg.sub.c"].
Proof.
  intros s. split; [apply world_working; vm_compute; reflexivity|]. split; [exact folder_listing|]. split; [|split].
  - apply me_context. apply po_do; [constructor; now apply (mnb_sound 9)|exact I|]. intros ans s1 _ L. apply po_do; [|exact I|constructor].
    assert (K : exists x, gfind (s_graph s) "main" = Some x) by (vm_compute; eexists; reflexivity). destruct K as [x K]. destruct (L _ _ K) as (y & Ky & _).
    constructor; [unfold in_graph; rewrite Ky; discriminate|now apply (mnb_sound 9)].
  - constructor; [vm_compute; discriminate|now apply (mnb_sound 9)|exact folder_listing].
  - vm_compute. split; reflexivity.
Qed.
