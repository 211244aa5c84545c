(** Proofs about compiled modules (C71). *)
From Verif Require Import CompileSpec AstProofs PyStrFacts BytecodeProofs BytecodeChunks BytecodeTree PropsAst PropsBytecode PropsSource.

(** ** Import statements of trees, and whether they are in a function *)

Definition is_def (k : AstSpec.edge) : bool := match k with KDef => true | _ => false end.
Definition has_def (p : list AstSpec.edge) : bool := existsb is_def p.
Lemma has_def_in p : has_def p = true <-> In KDef p.
Proof.
  unfold has_def. rewrite existsb_exists. split; [intros (k & A & B); now destruct k|].
  intros A. now exists KDef.
Qed.

Fixpoint tells (fn : bool) (t : ast) : list (bool * what) :=
  match t with
  | AImport names => map (fun n => (fn, WImport (fst n) (snd n))) names
  | AImportFrom m names level => [(fn, WFrom m names level)]
  | AFunctionDef cs | AAsyncFunctionDef cs => flat_map (tells true) cs
  | AIf cs | AOther cs => flat_map (tells fn) cs
  | ATry b h e f | ATryStar b h e f =>
      flat_map (tells fn) b ++ flat_map (tells fn) h ++ flat_map (tells fn) e ++ flat_map (tells fn) f
  end.
Notation told ts := (flat_map (tells false) ts).

Lemma flat_map_map_in {A B C} (f : A -> list B) (g : B -> C) (h : A -> list C) l :
  (forall x, In x l -> map g (f x) = h x) -> map g (flat_map f l) = flat_map h l.
Proof.
  induction l as [|x l IH]; intros H; [reflexivity|]. cbn [flat_map]. rewrite map_app, H by now left.
  now rewrite IH by (intros; apply H; now right).
Qed.

Definition flagged (s : list AstSpec.edge * what) : bool * what := (has_def (fst s), snd s).

Lemma tells_sites t : forall p, map flagged (sites p t) = tells (has_def p) t.
Proof.
  induction t as [t IH] using ast_kids_ind. intros p.
  assert (K : forall k c, In (k, c) (kids t) -> map flagged (sites (k :: p) c) = tells (is_def k || has_def p) c).
  { intros k c Hc. now rewrite (IH k c Hc (k :: p)). }
  assert (L : forall k cs, (forall c, In c cs -> In (k, c) (kids t)) ->
    map flagged (flat_map (sites (k :: p)) cs) = flat_map (tells (is_def k || has_def p)) cs).
  { intros k cs Hc. apply flat_map_map_in. intros c Hi. now apply K, Hc. }
  destruct t; cbn [sites tells kids] in *; try (rewrite L; [reflexivity|intros; now apply in_map]).
  - rewrite map_map. reflexivity.
  - reflexivity.
  - rewrite !map_app, !L; [reflexivity|..]; intros; rewrite !map_app, !in_app_iff; auto using in_map.
  - rewrite !map_app, !L; [reflexivity|..]; intros; rewrite !map_app, !in_app_iff; auto using in_map.
Qed.

Lemma told_sites fn w t : In (fn, w) (tells false t) <-> exists p, In (p, w) (sites [] t) /\ (fn = true <-> In KDef p).
Proof.
  pose proof (tells_sites t []) as H. cbn in H. rewrite <- H, in_map_iff. split.
  - intros ([p w'] & A & B). injection A as <- ->. exists p. split; [exact B|]. apply has_def_in.
  - intros (p & A & B). exists (p, w). split; [|exact A]. unfold flagged. cbn. f_equal.
    eapply iff_true_eq; [apply has_def_in|exact B].
Qed.

(** Without imports nothing is told, in whatever context. *)
Lemma tells_fn t : forall fn, tells fn t = map (fun s => (fn || fst s, snd s)) (tells false t).
Proof.
  induction t as [t IH] using ast_kids_ind. intros fn.
  assert (L : forall k cs g, (forall c, In c cs -> In (k, c) (kids t)) ->
    flat_map (tells g) cs = map (fun s => (g || fst s, snd s)) (flat_map (tells false) cs)).
  { intros k cs g Hc. symmetry. apply flat_map_map_in. intros c Hi. symmetry. eapply IH, Hc, Hi. }
  assert (T : forall k cs, (forall c, In c cs -> In (k, c) (kids t)) ->
    flat_map (tells true) cs = map (fun s => (fn || fst s, snd s)) (flat_map (tells true) cs)).
  { intros k cs Hc. rewrite (L k cs true Hc), map_map. apply map_ext. intros [g w]. cbn. now rewrite Bool.orb_true_r. }
  destruct t; cbn [tells kids] in *; try (eapply L; intros; now apply in_map); try (eapply T; intros; now apply in_map).
  - rewrite map_map. apply map_ext. intros. cbn [fst snd]. now rewrite Bool.orb_false_r.
  - cbn [map fst snd]. now rewrite Bool.orb_false_r.
  - rewrite !map_app. repeat f_equal; [apply (L KTry)|apply (L KTry)|apply (L KTry)|apply (L KFinally)]; intros; rewrite !map_app, !in_app_iff; auto using in_map.
  - rewrite !map_app. repeat f_equal; [apply (L KTryStar)|apply (L KTryStar)|apply (L KTryStar)|apply (L KFinally)]; intros; rewrite !map_app, !in_app_iff; auto using in_map.
Qed.
Lemma tells_fn_list ts fn : flat_map (tells fn) ts = map (fun s => (fn || fst s, snd s)) (told ts).
Proof. symmetry. apply flat_map_map_in. intros. symmetry. apply tells_fn. Qed.

Lemma free_told ts fn : import_free ts -> flat_map (tells fn) ts = [].
Proof.
  intros H. rewrite tells_fn_list. assert (told ts = []) as ->; [|reflexivity].
  rewrite <- (flat_map_map_in (sites []) flagged (tells false)) by (intros; apply tells_sites).
  unfold import_free in H. now rewrite H.
Qed.
Lemma told_perm ts ts' fn x : Permutation ts ts' -> In x (flat_map (tells fn) ts) <-> In x (flat_map (tells fn) ts').
Proof.
  intros H. rewrite !in_flat_map. split; intros (t & A & B); exists t; (split; [|exact B]).
  - eapply Permutation_in; eassumption.
  - eapply Permutation_in; [apply Permutation_sym|]; eassumption.
Qed.

(** ** Code objects and the trees they are made from *)

Section compiler.
  Variables (v : bool) (dead : ast -> Prop) (generic : bool).
  Let emits := emits v dead generic.
  Let body := body v dead generic.

  (** The pieces of a code object. *)
  Definition pieces (c : code) (ts : list ast) (hs : list chunk) : Prop :=
    co_ins c = flat_map (enc v) hs /\ Forall (chunk_ok v c) hs /\ kept_apart c hs
    /\ (forall e, In e (child_codes c) -> exists h, In h hs /\ made_by c h e) /\ emits c ts hs.

  Definition stands_for (c : code) (hs : list chunk) (w : what) : Prop :=
    exists st n from, In (ChImport st) hs /\ stmt_is c st n from /\ alike (code_what n (st_level st) from) w.

  (** [fn]: in a function as seen from the code, [fn']: as seen from the tree. *)
  Definition contexts (fn' : bool) (fn : Prop) : Prop :=
    (fn' = true -> fn) /\ (generic = false -> fn -> fn' = true).

  (** What is shown of a code object for [ts]. *)
  Definition shown (c : code) (ts : list ast) : Prop :=
    (forall p d, descends p c d -> exists ts' hs, pieces d ts' hs
       /\ forall fn w, In (fn, w) (told ts') -> exists fn', In (fn', w) (told ts)
         /\ contexts fn' (fn = true \/ in_function v p c d))
    /\ ((forall t, dead t -> import_free [t]) -> forall fn' w, In (fn', w) (told ts) ->
         exists p d ts' hs, descends p c d /\ pieces d ts' hs /\ stands_for d hs w
           /\ contexts fn' (in_function v p c d)).

  Definition is_fun (h : chunk) : bool := match h with ChFunction _ _ _ => true | _ => false end.

  (** What is shown of the pieces of [c]. *)
  Definition shown_in (c : code) (ts : list ast) (hs : list chunk) : Prop :=
    (forall st, In (ChImport st) hs -> exists n from w, stmt_is c st n from
       /\ alike (code_what n (st_level st) from) w /\ In (false, w) (told ts))
    /\ (forall h e, In h hs -> made_by c h e -> exists ts', shown e ts' /\ forall fn w, In (fn, w) (told ts') ->
         exists fn', In (fn', w) (told ts) /\ contexts fn' (fn = true \/ is_fun h = true))
    /\ ((forall t, dead t -> import_free [t]) -> forall fn' w, In (fn', w) (told ts) ->
         fn' = false /\ stands_for c hs w
         \/ exists h e ts' fn, In h hs /\ made_by c h e /\ shown e ts' /\ In (fn, w) (told ts')
             /\ contexts fn' (fn = true \/ is_fun h = true)).

  Lemma made_child c h e : made_by c h e -> In e (child_codes c).
  Proof.
    destruct h; cbn; try contradiction; intros H; unfold child_codes; apply in_flat_map; exists (CCode e);
      (split; [eapply nth_error_In; exact H|now left]).
  Qed.

  Lemma made_function c ts hs e : pieces c ts hs ->
    makes_function v c (key e) -> exists i es q e', In (ChFunction i es q) hs /\ nth_error (co_consts c) i = Some (CCode e') /\ key e' = key e.
  Proof.
    intros (A & B & _) H. destruct (chunks_single v c false false hs A B) as (f & F1 & _ & F2 & _).
    apply (single_funcs _ _ _ _ _ F1 (chunks_operands _ _ _ A B)) in H. rewrite F2 in H.
    apply in_flat_map in H as (h & Hh & H). destruct h as [s|i es q|i nl q|x]; cbn in H; try contradiction.
    destruct (nth_error (co_consts c) i) as [[| | |e'|]|] eqn:Ei; cbn in H; try contradiction. destruct H as [H|[]]. eauto 10.
  Qed.
  Lemma function_made c ts hs i es q e : pieces c ts hs -> In (ChFunction i es q) hs ->
    nth_error (co_consts c) i = Some (CCode e) -> makes_function v c (key e).
  Proof.
    intros (A & B & _) Hh Hi. destruct (chunks_single v c false false hs A B) as (f & F1 & _ & F2 & _).
    apply (single_funcs _ _ _ _ _ F1 (chunks_operands _ _ _ A B)). rewrite F2. apply in_flat_map.
    exists (ChFunction i es q). split; [exact Hh|]. cbn. rewrite Hi. now left.
  Qed.

  Lemma function_step c ts hs h e p d : pieces c ts hs -> In h hs -> made_by c h e -> descends p e d ->
    in_function v (e :: p) c d <-> is_fun h = true \/ in_function v p e d.
  Proof.
    intros Hp Hh Hm Hd. split.
    - intros H. inversion H as [? ? ? ? Hc Hf|]; subst; [|now right]. left.
      destruct (made_function _ _ _ _ Hp Hf) as (i & es & q & e' & F1 & F2 & F3).
      destruct h as [s|i' es' q'|i' nl q'|x]; cbn in Hm; try contradiction; [reflexivity|].
      exfalso. destruct Hp as (_ & _ & Hk & _). eapply Hk; eassumption.
    - intros [H|H].
      + destruct h as [s|i es q|i nl q|x]; try discriminate. cbn in Hm. eapply inf_here; [now apply (made_child c (ChFunction i es q))| |exact Hd].
        eapply function_made; eassumption.
      + eapply inf_below; [eapply made_child; exact Hm|exact H].
  Qed.

  Lemma contexts_iff b (P Q : Prop) : (P <-> Q) -> contexts b P -> contexts b Q.
  Proof. intros H [A B]. split; [tauto|]. intros G HQ. apply (B G). tauto. Qed.

  (** A code object, given its pieces. *)
  Lemma shown_body c ts hs : pieces c ts hs -> shown_in c ts hs -> shown c ts.
  Proof.
    intros Hp (H1 & H2 & H3). split.
    - intros p d Hd. inversion Hd as [|? e ? p' He Hd']; subst.
      + exists ts, hs. split; [exact Hp|]. intros fn w Hw. exists fn. split; [exact Hw|]. split; [now left|].
        intros _ [F|F]; [exact F|]. inversion F.
      + destruct (proj1 (proj2 (proj2 (proj2 Hp))) e He) as (h & Hh & Hm). destruct (H2 h e Hh Hm) as (ts' & [S1 _] & S2).
        destruct (S1 p' d Hd') as (ts2 & hs2 & P2 & W). exists ts2, hs2. split; [exact P2|]. intros fn w Hw.
        destruct (W fn w Hw) as (fn1 & W1 & C1 & C2). destruct (S2 fn1 w W1) as (fn2 & W2 & D1 & D2).
        exists fn2. split; [exact W2|]. pose proof (function_step _ _ _ _ _ _ _ Hp Hh Hm Hd') as F. split.
        * intros E. rewrite F. destruct (D1 E) as [X|X]; [|tauto]. destruct (C1 X); tauto.
        * intros G X. apply (D2 G). rewrite F in X. destruct X as [X|[X|X]]; [left|now right|left]; apply (C2 G); tauto.
    - intros Hf fn' w Hw. destruct (H3 Hf fn' w Hw) as [[-> S]|(h & e & ts' & fn & Hh & Hm & [_ S2] & Hw' & D1 & D2)].
      + exists [], c, ts, hs. split; [constructor|]. split; [exact Hp|]. split; [exact S|].
        split; [discriminate|]. intros _ X. inversion X.
      + destruct (S2 Hf fn w Hw') as (p & d & ts2 & hs2 & Hd & P2 & S3 & C1 & C2).
        exists (e :: p), d, ts2, hs2. split; [econstructor; [eapply made_child; exact Hm|exact Hd]|]. split; [exact P2|]. split; [exact S3|].
        pose proof (function_step _ _ _ _ _ _ _ Hp Hh Hm Hd) as F. split.
        * intros E. rewrite F. destruct (D1 E) as [X|X]; [|tauto]. right. tauto.
        * intros G X. apply (D2 G). rewrite F in X. destruct X as [X|X]; [now right|]. left. now apply (C2 G).
  Qed.

  Lemma shown_same c ts ts' hs : (forall x, In x (told ts) <-> In x (told ts')) -> shown_in c ts hs -> shown_in c ts' hs.
  Proof.
    intros H (H1 & H2 & H3). split; [|split].
    - intros st Hst. destruct (H1 st Hst) as (n & from & w & A & B & C). exists n, from, w. rewrite <- H. auto.
    - intros h e Hh Hm. destruct (H2 h e Hh Hm) as (t2 & A & B). exists t2. split; [exact A|]. intros fn w Hw.
      destruct (B fn w Hw) as (fn' & C & D). exists fn'. rewrite <- H. auto.
    - intros Hf fn' w Hw. rewrite <- H in Hw. exact (H3 Hf fn' w Hw).
  Qed.

  (** One more piece. *)
  Lemma shown_add c ts0 ts hs1 h hs2 : shown_in c ts0 (hs1 ++ hs2) ->
    (forall x, In x (told ts0) -> In x (told ts)) ->
    (forall st, h = ChImport st -> exists n from w, stmt_is c st n from
       /\ alike (code_what n (st_level st) from) w /\ In (false, w) (told ts)) ->
    (forall e, made_by c h e -> exists ts', shown e ts' /\ forall fn w, In (fn, w) (told ts') ->
         exists fn', In (fn', w) (told ts) /\ contexts fn' (fn = true \/ is_fun h = true)) ->
    (forall fn' w, In (fn', w) (told ts) -> In (fn', w) (told ts0) \/ fn' = false /\ stands_for c [h] w
         \/ exists e ts' fn, made_by c h e /\ shown e ts' /\ In (fn, w) (told ts')
             /\ contexts fn' (fn = true \/ is_fun h = true)) ->
    shown_in c ts (hs1 ++ h :: hs2).
  Proof.
    intros (H1 & H2 & H3) Hi A B C.
    assert (K : forall x, In x (hs1 ++ h :: hs2) <-> x = h \/ In x (hs1 ++ hs2)).
    { intros x. rewrite !in_app_iff. cbn. intuition congruence. }
    split; [|split].
    - intros st Hst. apply K in Hst as [Hst|Hst]; [now apply A|]. destruct (H1 st Hst) as (n & from & w & D & E & F). exists n, from, w. auto.
    - intros h' e Hh Hm. apply K in Hh as [->|Hh]; [now apply B|]. destruct (H2 h' e Hh Hm) as (t2 & D & E). exists t2. split; [exact D|].
      intros fn w Hw. destruct (E fn w Hw) as (fn' & F & G). exists fn'. auto.
    - intros Hf fn' w Hw. destruct (C fn' w Hw) as [D|[(-> & st & n & from & D & E)|(e & t2 & fn & D)]].
      + destruct (H3 Hf fn' w D) as [(E & st & n & from & F & G)|(h' & e & t2 & fn & E & F)].
        * left. split; [exact E|]. exists st, n, from. split; [|exact G]. apply K. now right.
        * right. exists h', e, t2, fn. split; [|exact F]. apply K. now right.
      + left. split; [reflexivity|]. exists st, n, from. split; [|exact E]. destruct D as [<-|[]]. apply K. now left.
      + right. exists h, e, t2, fn. split; [|exact D]. apply K. now left.
  Qed.

  (** One more code object. *)
  Lemma shown_scope c ts0 ts hs1 h hs2 d inner : shown_in c ts0 (hs1 ++ hs2) ->
    (forall x, In x (told ts0) -> In x (told ts)) -> shown d inner -> (forall e, made_by c h e -> e = d) -> made_by c h d ->
    (forall fn w, In (fn, w) (told inner) -> exists fn', In (fn', w) (told ts) /\ contexts fn' (fn = true \/ is_fun h = true)) ->
    (forall fn' w, In (fn', w) (told ts) -> In (fn', w) (told ts0)
       \/ exists fn, In (fn, w) (told inner) /\ contexts fn' (fn = true \/ is_fun h = true)) ->
    shown_in c ts (hs1 ++ h :: hs2).
  Proof.
    intros H A S Hu Hm B C. eapply shown_add; [exact H|exact A|..].
    - intros st ->. destruct Hm.
    - intros e He. apply Hu in He as ->. now exists inner.
    - intros fn' w Hw. destruct (C fn' w Hw) as [D|(fn & D)]; [now left|]. right. right. exists d, inner, fn. tauto.
  Qed.

  Lemma told_app ts ts' x : In x (told (ts ++ ts')) <-> In x (told ts) \/ In x (told ts').
  Proof. rewrite flat_map_app. apply in_app_iff. Qed.
  Lemma told_cons t ts x : In x (told (t :: ts)) <-> In x (tells false t) \/ In x (told ts).
  Proof. cbn [flat_map]. apply in_app_iff. Qed.
  Lemma in_tells_fn fn ts b w : In (b, w) (flat_map (tells fn) ts) <-> exists b', In (b', w) (told ts) /\ b = (fn || b').
  Proof.
    rewrite tells_fn_list, in_map_iff. split.
    - intros ([b' w'] & A & B). cbn in A. injection A as <- <-. eauto.
    - intros (b' & A & ->). exists (b', w). auto.
  Qed.

  (** The inner trees of a function or class, when the others have no imports. *)
  Lemma told_inner fn cs outer inner b w : Permutation cs (outer ++ inner) -> import_free outer ->
    In (b, w) (flat_map (tells fn) cs) <-> exists b', In (b', w) (told inner) /\ b = (fn || b').
  Proof.
    intros H F. rewrite (told_perm _ _ fn (b, w) H), flat_map_app, (free_told _ _ F). cbn [app]. apply in_tells_fn.
  Qed.

  Lemma function_told cs t b w : t = AFunctionDef cs \/ t = AAsyncFunctionDef cs -> In (b, w) (tells false t) -> b = true.
  Proof. intros [->| ->] H; cbn [tells] in H; apply in_tells_fn in H as (b' & _ & ->); reflexivity. Qed.

  Theorem all_shown : forall c ts hs, emits c ts hs -> shown_in c ts hs.
  Proof.
    apply (emits_mut v dead generic (fun c ts hs _ => shown_in c ts hs) (fun c ts _ => shown c ts)); intros.
    - split; [|split]; [intros ? []|intros ? ? []|intros ? ? ? []].
    - (* noise *) eapply shown_add; [exact H|auto|discriminate|intros e0 []|auto].
    - (* dead *) destruct H as (H1 & H2 & H3). split; [|split].
      + intros st Hst. destruct (H1 st Hst) as (n & from & w & A & B & C). exists n, from, w. rewrite told_cons. auto.
      + intros h e0 Hh Hm. destruct (H2 h e0 Hh Hm) as (t2 & A & B). exists t2. split; [exact A|]. intros fn w Hw.
        destruct (B fn w Hw) as (fn' & C & D). exists fn'. rewrite told_cons. auto.
      + intros Hf fn' w Hw. apply (H3 Hf). rewrite told_cons in Hw. destruct Hw as [Hw|Hw]; [|exact Hw].
        specialize (Hf t d). apply (free_told _ false) in Hf. cbn in Hf. rewrite app_nil_r in Hf. rewrite Hf in Hw. destruct Hw.
    - (* again *) eapply shown_same; [|exact H]. intros x. rewrite !told_cons. tauto.
    - eapply shown_same; [|exact H]. intros x. rewrite told_cons. cbn. tauto.
    - (* import *) eapply shown_add; [exact H|..].
      + intros x. rewrite !told_cons. cbn [tells map]. cbn [In]. tauto.
      + intros st0 E0. injection E0 as <-. exists n, None, (WImport n a). split; [assumption|]. rewrite e. split; [reflexivity|].
        rewrite told_cons. left. now left.
      + intros e1 [].
      + intros fn' w. rewrite !told_cons. cbn [tells map]. cbn [In fst snd]. intros [[Hw|Hw]|Hw]; [|left; now left|left; now right].
        right. left. injection Hw as <- <-. split; [reflexivity|]. exists st, n, None. split; [now left|]. split; [assumption|]. now rewrite e.
    - (* from *) assert (K : alike (code_what (or_empty m) (st_level st) (Some (map fst names))) (WFrom m names lv)).
      { cbn. split; [reflexivity|]. split; [|assumption]. rewrite map_map. now rewrite map_id. }
      eapply shown_add; [exact H|..].
      + intros x Hx. rewrite told_cons. now right.
      + intros st0 E0. injection E0 as <-. exists (or_empty m), (Some (map fst names)), (WFrom m names lv).
        split; [assumption|]. split; [exact K|]. rewrite told_cons. left. now left.
      + intros e1 [].
      + intros fn' w. rewrite told_cons. cbn [tells In]. intros [[Hw|[]]|Hw]; [|now left].
        right. left. injection Hw as <- <-. split; [reflexivity|]. exists st, (or_empty m), (Some (map fst names)). split; [now left|]. now split.
    - eapply shown_same; [|exact H]. intros x. rewrite told_cons, told_app. reflexivity.
    - eapply shown_same; [|exact H]. intros x. rewrite told_cons, !told_app. cbn [tells]. rewrite !in_app_iff. tauto.
    - eapply shown_same; [|exact H]. intros x. rewrite told_cons, !told_app. cbn [tells]. rewrite !in_app_iff. tauto.
    - eapply shown_same; [|exact H]. intros x. rewrite told_cons, told_app. reflexivity.
    - (* def *) eapply shown_scope; [exact H0|..].
      + intros x. rewrite told_app, told_cons, (free_told outer false i0). cbn [In]. tauto.
      + exact H.
      + intros e1 He. cbn in He. congruence.
      + cbn. assumption.
      + intros fn w Hw. exists true. split; [|split; [now right|reflexivity]]. rewrite told_cons. left. cbn [tells].
        apply (told_inner true cs outer inner); auto. exists fn. auto.
      + intros fn' w. rewrite told_cons, told_app. intros [Hw|Hw]; [|left; now right]. right. cbn [tells] in Hw.
        apply (told_inner true cs outer inner) in Hw as (fn & A & ->); auto. exists fn. split; [exact A|]. split; [now right|reflexivity].
    - (* async *) eapply shown_scope; [exact H0|..].
      + intros x. rewrite told_app, told_cons, (free_told outer false i0). cbn [In]. tauto.
      + exact H.
      + intros e1 He. cbn in He. congruence.
      + cbn. assumption.
      + intros fn w Hw. exists true. split; [|split; [now right|reflexivity]]. rewrite told_cons. left. cbn [tells].
        apply (told_inner true cs outer inner); auto. exists fn. auto.
      + intros fn' w. rewrite told_cons, told_app. intros [Hw|Hw]; [|left; now right]. right. cbn [tells] in Hw.
        apply (told_inner true cs outer inner) in Hw as (fn & A & ->); auto. exists fn. split; [exact A|]. split; [now right|reflexivity].
    - (* class *) eapply shown_scope; [exact H0|..].
      + intros x. rewrite told_app, told_cons, (free_told outer false i0). cbn [In]. tauto.
      + exact H.
      + intros e1 He. cbn in He. congruence.
      + cbn. assumption.
      + intros fn w Hw. exists fn. split; [|split; [now left|intros _ [X|X]; [exact X|discriminate]]]. rewrite told_cons. left. cbn [tells].
        apply (told_inner false cs outer inner); auto. exists fn. auto.
      + intros fn' w. rewrite told_cons, told_app. intros [Hw|Hw]; [|left; now right]. right. cbn [tells] in Hw.
        apply (told_inner false cs outer inner) in Hw as (fn & A & ->); auto. exists fn. split; [exact A|].
        split; [now left|intros _ [X|X]; [exact X|discriminate]].
    - (* lambda *) assert (K : forall x, In x (told (outer ++ inner)) -> False).
      { intros x Hx. apply (told_perm _ _ false x p) in Hx. rewrite (free_told cs false i0) in Hx. destruct Hx. }
      eapply shown_scope; [exact H0|..].
      + intros x. rewrite told_app, told_cons. intros [Hx|Hx]; [|now right]. destruct (K x). rewrite told_app. now left.
      + exact H.
      + intros e1 He. cbn in He. congruence.
      + cbn. assumption.
      + intros fn w Hw. destruct (K (fn, w)). rewrite told_app. now right.
      + intros fn' w. rewrite told_cons, told_app. intros [Hw|Hw]; [|left; now right]. cbn [tells] in Hw.
        rewrite (free_told cs false i0) in Hw. destruct Hw.
    - (* def with type parameters *) assert (K : forall b w, In (b, w) (tells false t) -> b = true).
      { intros b0 w0 Hw. destruct t; try contradiction; (eapply function_told; [|exact Hw]); [left|right]; reflexivity. }
      eapply shown_scope; [exact H0|..].
      + intros x Hx. rewrite told_cons. now right.
      + exact H.
      + intros e1 He. cbn in He. congruence.
      + cbn. assumption.
      + intros fn w Hw. rewrite told_cons in Hw. destruct Hw as [Hw|[]]. exists fn. rewrite told_cons. split; [now left|].
        rewrite (K fn w Hw). split; auto.
      + intros fn' w. rewrite told_cons. intros [Hw|Hw]; [|now left]. right. exists fn'. rewrite told_cons. split; [now left|].
        rewrite (K fn' w Hw). split; auto.
    - (* class with type parameters *) eapply shown_scope; [exact H0|..].
      + intros x Hx. rewrite told_cons. now right.
      + exact H.
      + intros e2 He. cbn in He. congruence.
      + cbn. assumption.
      + intros fn w Hw. rewrite told_cons in Hw. destruct Hw as [Hw|[]]. exists fn. rewrite told_cons. split; [now left|].
        split; [now left|congruence].
      + intros fn' w. rewrite told_cons. intros [Hw|Hw]; [|now left]. right. exists fn'. rewrite told_cons. split; [now left|].
        split; [now left|congruence].
    - eapply shown_body; [|exact H]. repeat (split; [eassumption|]). assumption.
  Qed.
End compiler.
