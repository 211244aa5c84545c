(** C98: all modules that a run loads are in the graph. *)
From Verif Require Import ReportSpec BuilderSource BuilderHist BuilderInv BuilderCalls World AstProofs PropsBuilder PropsCalls PropsHooks PropsRoots PropsSource PropsReach SeedSpec BuilderSame PropsLoad PropsNeed PropsSame PropsSeed MoreSpec PropsMore BuilderRest PropsRest PropsDefault PropsLoad PropsSame CompileSpec CompileProofs PropsCompile MustSpec PropsMust WithinSpec.
Open Scope string_scope.

(** ** Import statements of trees *)

Definition told (p : piece) : Prop := forall q w, In w (imports p) -> exists r, In (r, w) (sites q (tree p)).
Lemma told_list l q w : Forall told l -> In w (flat_map imports l) -> exists r, In (r, w) (flat_map (sites q) (map tree l)).
Proof.
  intros F H. apply in_flat_map in H as (p & Hp & H). rewrite Forall_forall in F. destruct (F p Hp q w H) as (r & K). exists r.
  apply in_flat_map. exists (tree p). split; [now apply in_map|exact K].
Qed.
Lemma told_lists l q w : Forall (Forall told) l -> In w (flat_map (flat_map imports) l) ->
  exists r, In (r, w) (flat_map (sites q) (map (fun c => AOther (map tree c)) l)).
Proof.
  intros F H. apply in_flat_map in H as (c & Hc & H). rewrite Forall_forall in F. destruct (told_list c (KOther :: q) w (F c Hc) H) as (r & K). exists r.
  apply in_flat_map. exists (AOther (map tree c)). split; [apply in_map_iff; now exists c|]. exact K.
Qed.
Lemma told_all p : told p.
Proof.
  induction p using piece_all; intros q w Hw; cbn [tree imports] in *.
  - apply in_map_iff in Hw as (x & <- & Hx). exists q. cbn. apply in_map_iff. now exists x.
  - destruct Hw as [<-|[]]. exists q. now left.
  - destruct Hw.
  - destruct Hw.
  - cbn [sites flat_map app]. rewrite flat_map_app. apply in_app_or in Hw as [Hw|Hw]; (eapply told_list in Hw as (r & Hr); [|eassumption]); exists r; apply in_or_app; eauto.
  - cbn [sites]. rewrite flat_map_app. apply in_app_or in Hw as [Hw|Hw]; (eapply told_list in Hw as (r & Hr); [|eassumption]); exists r; apply in_or_app; eauto.
  - cbn [sites]. now apply told_list.
  - cbn [sites]. now apply told_lists.
  - destruct b; cbn [sites]; now apply told_list.
  - cbn [sites]. now apply told_list.
  - destruct st; cbn [sites]; (apply in_app_or in Hw as [Hw|Hw]; [|apply in_app_or in Hw as [Hw|Hw]; [|apply in_app_or in Hw as [Hw|Hw]]]);
      first [eapply told_list in Hw as (r & Hr); [|eassumption]|eapply told_lists in Hw as (r & Hr); [|eassumption]]; exists r; rewrite !in_app_iff; eauto.
Qed.
Lemma imports_says l w : In w (flat_map imports l) -> exists fn opt, tree_says (module_tree l) fn opt w.
Proof.
  intros H. destruct (told_list l [KOther] w) as (p & K); [apply Forall_forall; intros; apply told_all|exact H|].
  assert (D : forall e, {In e p} + {~ In e p}) by (intros e; apply in_dec; decide equality).
  exists (if D KDef then true else false), (if D KDef then true else if D KIf then true else if D KTry then true else false), p.
  split; [exact K|]. destruct (D KDef), (D KIf), (D KTry); split; split; intros X; intuition congruence.
Qed.

(** Code objects tell about all import statements of what they were compiled from. *)
Lemma compiled_says v (dead : ast -> Prop) l c w : (forall t, dead t -> import_free [t]) -> compiles v dead false (module_tree l) c -> In w (flat_map imports l) ->
  exists fn opt w', code_says v c fn opt w' /\ CompileSpec.alike w' w.
Proof.
  intros HD [Ht _] H. apply body_shown in Ht as [_ Ht]. destruct (told_list l [KOther] w) as (p & K); [apply Forall_forall; intros; apply told_all|exact H|].
  assert (X : In (has_def p, w) (flat_map (tells false) [module_tree l])).
  { apply told_one, told_sites. exists p. split; [exact K|apply has_def_in]. }
  destruct (Ht HD _ _ X) as (q & d & ts & hs & Hd & (P1 & P2 & _) & (st & n & from & S1 & S2 & S3) & C1 & C2).
  exists (has_def p), (has_def p), (code_what n (st_level st) from). split; [|exact S3].
  exists q, d, hs, st, n, from. rewrite in_stmts. repeat (split; [assumption|]). split; [reflexivity|]. split; [|reflexivity]. split; [exact C1|now apply C2].
Qed.
Lemma alike_requests find conf n b w w' x : CompileSpec.alike w' w -> requests find conf n b w x -> requests find conf n b w' x.
Proof.
  intros H. assert (L : w_level w' = w_level w /\ w_module w' = w_module w /\ map fst (w_names w') = map fst (w_names w)).
  { destruct w as [m a|m l k], w' as [m' a'|m' l' k']; cbn in H; try contradiction; [now subst|]. destruct H as (A & B & ->). repeat split; assumption. }
  destruct L as (L1 & L2 & L3). assert (M : forall m, mentions n b w m -> mentions n b w' m).
  { intros m [K|q K1 K2 K3|q K1 K2 K3].
    - rewrite <- L2. apply mentions_absolute. congruence.
    - apply mentions_package; rewrite ?L1, ?L2; assumption.
    - rewrite <- L2. apply mentions_relative; rewrite ?L1, ?L2; assumption. }
  intros [m K|m sp y K1 K2 K3 K4 K5 K6 K7]; [apply rq_module; auto|]. eapply rq_name; rewrite ?L3; eauto.
Qed.
Lemma sources_coded E find code : sources E find code -> coded E find code.
Proof.
  intros H x sp K. specialize (H x sp K). destruct (sp_loader sp) as [| | | |fr src cd| | | |]; try exact H.
  destruct H as (text & file & b & -> & A & B & C). now exists file, b.
Qed.
Lemma written_assembled E find code f l : written E find code f l -> assembled E find code f l.
Proof. intros [A B]. split; [exact A|now apply sources_coded]. Qed.

(** ** Runs *)

Section runs.
  Variable E : env.
  Variable find : string -> option spec.
  Variable conf : list (string * implied).
  Variable code : string -> option (list piece).
  Variable f : string.
  Variable l : list piece.
  Variable z0 : mods.
  Variable start : LoadSpec.program.
  (** The program is script [f], or it has no script. *)
  Hypothesis HP : forall w, In w (flat_map imports l) -> start = RunScript f /\ forall t, e_script E t f = ROk (module_tree l).
  Hypothesis W : coded E find code.
  Hypothesis RZ : at_rest (kept find conf) code z0.

  (** Modules are found by [F1], which may know fewer of them. *)
  Variable F1 : string -> option spec.
  Hypothesis HK : forall x sp, F1 x = Some sp -> kept find conf x = Some sp.
  Let can := can_import find conf.
  Let fine (x : string) : Prop := loads E find conf start x.
  Definition asked (x : string) : Prop := exists name, asks E find conf start name /\ within x name.
  Definition there (z : mods) (x : string) : Prop := In x (loaded z) \/ In x (loading z) \/ In x (failed z).
  Definition within_program (z : mods) : Prop := forall x, there z x -> In x (loaded z0) \/ fine x.

  Lemma kept_some x sp : kept find conf x = Some sp -> find x = Some sp /\ forall i, assoc x conf = Some i -> exists refs, i = ImpRefs refs.
  Proof. unfold kept. destruct (assoc x conf) as [[]|]; intros H; try discriminate; split; try assumption; intros i K; first [discriminate K|injection K as <-; eauto]. Qed.
  Lemma readable x sp : find x = Some sp -> ~ unreadable sp.
  Proof.
    intros H (fr & c & K). pose proof (W x sp H) as X. rewrite K in X. exact X.
  Qed.
  Lemma kept_can x sp : kept find conf x = Some sp -> starts_with "." x = false -> (forall p, child_of p x -> can p) -> can x.
  Proof. intros H D P. apply kept_some in H as [H C]. eapply can_intro; try eassumption. now apply (readable x). Qed.
  Lemma child_dots p x : child_of p x -> starts_with "." x = false -> starts_with "." p = false.
  Proof.
    intros H D. destruct (starts_with "." p) eqn:Ep; [|reflexivity]. apply starts_with_spec in Ep as (r & ->). rewrite <- D. symmetry. apply starts_with_spec.
    destruct H as [y _ _|k y _ _]; [exists (r ++ "." ++ y)|exists (r ++ y)]; now rewrite <- app_assoc_s.
  Qed.
  Lemma old_can x : In x (loaded z0) -> starts_with "." x = false -> can x.
  Proof.
    induction x as [x IH] using (well_founded_induction (Wf_nat.well_founded_ltof _ String.length)). intros H D.
    destruct (kept find conf x) as [sp|] eqn:Es; [|now elim (ar_found _ _ _ RZ x H)]. eapply kept_can; [exact Es|exact D|].
    intros p Hp. apply IH; [now apply child_shorter|apply (ar_closed _ _ _ RZ x); [exact H|now apply rq_package]|eapply child_dots; eassumption].
  Qed.
  Lemma there_can z x : within_program z -> there z x -> starts_with "." x = false -> can x.
  Proof. intros V H D. destruct (V x H) as [K|(name & _ & _ & K)]; [now apply old_can|exact K]. Qed.

  Definition of_code (n : string) (k : option bool) (w : what) : Prop :=
    match k with
    | None => n = f /\ In w (flat_map imports l)
    | Some b => exists sp body, fine n /\ find n = Some sp /\ b = spec_pkg sp /\ code n = Some body /\ In w (flat_map imports body)
    end.
  Lemma script_asked w x : In w (flat_map imports l) -> w_level w = 0 -> requests find conf f false w x -> asked x.
  Proof.
    intros H L R. destruct (imports_says l w H) as (fn & opt & S). exists x. split; [|apply wi_self].
    destruct (HP w H) as [-> HP']. eapply (ak_script _ _ _ _ f 0); [reflexivity|apply HP'|exact S|exact L|exact R].
  Qed.
  Lemma module_asked n sp body w x : fine n -> find n = Some sp -> code n = Some body -> In w (flat_map imports body) -> requests find conf n (spec_pkg sp) w x -> asked x.
  Proof.
    intros (name & A & B & C) F K H R. exists x. split; [|apply wi_self].
    pose proof (W n sp F) as X. destruct (sp_loader sp) as [| | | |fr src cd| | | |] eqn:El; try congruence. destruct src as [[text|]|e].
    - destruct X as (file & b & Ho & Hb & Hp). assert (b = body) as -> by congruence. destruct (imports_says body w H) as (fn & opt & S).
      eapply (ak_module _ _ _ _ name n sp); [exact A|exact B|exact C|exact F| |exact S|exact R].
      eapply (cd_source _ _ _ sp fr text cd file 0); [exact F|exact El|exact Ho|apply Hp].
    - destruct cd as [[c|]|e]; try congruence. destruct X as (dead & b & Hd & Hb & Hc). assert (b = body) as -> by congruence.
      destruct (compiled_says (e_ge311 E) dead body c w Hd Hc H) as (fn & opt & w' & S & L).
      eapply (ak_module _ _ _ _ name n sp); [exact A|exact B|exact C|exact F| |exact S|exact (alike_requests _ _ _ _ _ _ _ L R)].
      eapply (cd_code _ _ _ sp fr None c); [exact F|exact El|now left].
    - destruct e; try congruence. destruct X.
  Qed.
  Lemma target_asked n k w t : of_code n k w -> target n k w t -> asked t.
  Proof.
    destruct k as [b|]; cbn.
    - intros (sp & body & A & B & -> & C & D) T. eapply module_asked; try eassumption. now apply rq_module.
    - intros (-> & H) (L & ->). eapply script_asked; [exact H|exact L|]. apply rq_module. now apply mentions_absolute.
  Qed.
  Lemma import_asked n k x a : of_code n k (WImport x a) -> asked x.
  Proof. intros H. eapply target_asked; [exact H|]. destruct k; cbn; [apply (mentions_absolute _ _ (WImport x a)); reflexivity|now split]. Qed.
  Lemma call_asked z x : within_program z -> by_statement find conf code f l z0 z x -> asked x.
  Proof.
    intros V [w A B C|n sp b w [N T] F K H R]; [eapply script_asked; eassumption|]. eapply module_asked; try eassumption.
    destruct (V n T) as [X|X]; [contradiction|exact X].
  Qed.

  Definition ready (t : task) : Prop :=
    match t with
    | Lines n k b => forall w, In w (flat_map imports b) -> of_code n k w
    | Line n k p => forall w, In w (imports p) -> of_code n k w
    | Turns n k a b => forall w, In w (flat_map imports a) \/ In w (flat_map imports b) -> of_code n k w
    | Guarded n k b h e => forall w, In w (flat_map imports b) \/ In w (flat_map (flat_map imports) h) \/ In w (flat_map imports e) -> of_code n k w
    | Calls => True
    | Import x => asked x
    | Loads x => asked x /\ starts_with "." x = false /\ forall p, child_of p x -> can p
    end.
  Definition reached (t : task) (z : mods) : Prop := match t with Import x | Loads x => known x z | _ => True end.

  Lemma program_begin x z : within_program z -> fine x -> within_program (begin x z).
  Proof. intros V H y [K|[[<-|K]|K]]; [apply V; left; exact K|now right|apply V; right; left; exact K|apply V; right; right; exact K]. Qed.
  Lemma tl_in (A : Type) (x : A) m : In x (tl m) -> In x m.
  Proof. destruct m; [auto|now right]. Qed.
  Lemma program_end x z o : within_program z -> fine x -> within_program (match o with Next => finish x z | _ => abandon x z end).
  Proof.
    intros V H y K. assert (X : y = x \/ there z y).
    { destruct o; destruct K as [K|[K|K]]; cbn in K; try (destruct K as [<-|K]; [now left|]); try apply tl_in in K; right; unfold there; auto. }
    destruct X as [->|X]; [now right|now apply V].
  Qed.
  Lemma program_circle x z : In x (loading z) -> within_program z -> within_program (circle x z).
  Proof. intros H V y K. apply V. exact K. Qed.
  Lemma asked_up p x : asked x -> child_of p x -> asked p.
  Proof.
    intros (name & A & B) H. exists name. split; [exact A|]. clear A. induction B as [x|c q name K B IH]; [eapply wi_up; [exact H|apply wi_self]|].
    eapply wi_up; [exact K|auto].
  Qed.
  Lemma load_fine x sp : asked x -> kept find conf x = Some sp -> starts_with "." x = false -> (forall p, child_of p x -> can p) -> fine x.
  Proof. intros (name & A & B) H D P. exists name. split; [exact A|]. split; [exact B|]. eapply kept_can; eassumption. Qed.
  Lemma run_within t z o z' : run F1 code (by_statement find conf code f l z0) t z o z' -> within_program z -> ready t ->
    within_program z' /\ (o = Next -> reached t z').
  Proof.
    induction 1; intros V P; cbn [ready reached imports flat_map map] in *.
    all: try (split; [|intros; exact Logic.I]).
    all: try (split; [assumption|]; intros; first [discriminate|left; assumption|right; assumption]).
    all: try assumption.
    all: try (repeat match goal with
      | IH : within_program ?y -> ?X -> _, K : within_program ?y |- _ =>
          let B := fresh "B" in assert (B : X);
          [clear IH; first [exact Logic.I
             |intros ? ?; apply P; rewrite ?in_app_iff; now auto
             |intros ? [?|?]; apply P; rewrite ?in_app_iff; now auto
             |intros ? [?|[?|?]]; apply P; rewrite ?in_app_iff; now auto
             |eapply import_asked; apply P; now left
             |eapply target_asked; [apply P; now left|eassumption]
             |eapply call_asked; eassumption]
          |destruct (IH K B) as [? ?]; clear IH B]
      end; first [assumption]).
    - destruct IHrun1 as [V1 _]; [exact V|eapply import_asked; apply P; now left|]. apply IHrun2; [exact V1|]. intros w Hw. apply P. now right.
    - destruct IHrun1 as [V1 _]; [exact V|exact Logic.I|]. apply IHrun2; [exact V1|]. intros w Hw. apply P. apply in_or_app. destruct H0 as [-> | ->]; auto.
    - destruct IHrun1 as [V1 _]; [exact V|exact Logic.I|]. apply IHrun2; [exact V1|]. intros w Hw. apply P. apply in_flat_map. eauto.
    - destruct IHrun1 as [V1 _]; [exact V|intros w Hw; apply P; auto|]. apply IHrun2; [exact V1|]. intros w Hw. apply P. right. left. apply in_flat_map. eauto.
    - apply IHrun; [exact V|]. split; [exact P|]. split; [assumption|]. intros p Hp. now elim (H0 p).
    - destruct IHrun1 as [V1 K1]; [exact V|now apply (asked_up p x)|]. apply IHrun2; [exact V1|]. split; [exact P|]. split; [assumption|].
      intros q Hq. assert (q = p) as -> by (eapply child_one; eassumption). apply (there_can z1); [exact V1|destruct (K1 eq_refl); unfold there; auto|].
      eapply child_dots; eassumption.
    - destruct IHrun as [V1 _]; [exact V|now apply (asked_up p x)|]. split; [exact V1|discriminate].
    - apply HK in H0. destruct P as (P1 & P2 & P3). assert (F0 : fine x) by (eapply load_fine; eassumption). destruct IHrun as [V1 _].
      + now apply program_begin.
      + intros w Hw. apply kept_some in H0 as [H0 _]. exists sp, l0. now repeat split.
      + split; [now apply program_end|]. destruct o; intros K; try discriminate K. left. now left.
    - apply HK in H0. destruct P as (P1 & P2 & P3). assert (F0 : fine x) by (eapply load_fine; eassumption). destruct IHrun as [V1 _].
      + now apply program_begin.
      + exact Logic.I.
      + split; [now apply program_end|]. destruct o; intros K; try discriminate K. left. now left.
  Qed.
  (** Another way to find modules, which agrees where it matters. *)
  Variable F2 : string -> option spec.
  Hypothesis HA : forall x, asked x -> starts_with "." x = false -> (forall p, child_of p x -> can p) -> F1 x = F2 x.
  Variable may2 : mods -> string -> Prop.
  Notation may := (by_statement find conf code f l z0).
  Hypothesis HM : forall z x, within_program z -> may z x -> may2 z x.
  Lemma run_same t z o z' : run F1 code may t z o z' -> within_program z -> ready t -> run F2 code may2 t z o z'.
  Proof.
    induction 1; intros V P; cbn [ready imports flat_map map] in *.
    all: repeat match goal with
      | H : run F1 code may ?t ?y ?o ?y', IH : within_program ?y -> ?X -> run F2 code may2 ?t ?y ?o ?y', K : within_program ?y |- _ =>
          let B := fresh "B" in assert (B : X);
          [clear IH; first [exact Logic.I
             |intros ? ?; apply P; rewrite ?in_app_iff; now auto
             |intros ? ?; apply P; now right
             |intros ? [?|?]; apply P; rewrite ?in_app_iff; now auto
             |intros ? [?|[?|?]]; apply P; rewrite ?in_app_iff; now auto
             |eapply import_asked; apply P; now left
             |eapply target_asked; [apply P; now left|eassumption]
             |eapply call_asked; eassumption]
          |pose proof (proj1 (run_within _ _ _ _ H K B)); pose proof (IH K B); clear IH B]
      end.
    all: try solve [econstructor; first [eassumption|apply HM; eassumption]].
    - eapply rn_if; [eassumption|eassumption|]. apply IHrun2; [assumption|]. intros w Hw. apply P. apply in_or_app. destruct H0 as [-> | ->]; auto.
    - eapply rn_match; [eassumption|eassumption|]. apply IHrun2; [assumption|]. intros w Hw. apply P. apply in_flat_map. eauto.
    - eapply rn_except; [eassumption|eassumption|]. apply IHrun2; [assumption|]. intros w Hw. apply P. right. left. apply in_flat_map. eauto.
    - apply rn_top; try assumption. apply IHrun; [exact V|]. split; [exact P|]. split; [assumption|]. intros p Hp. now elim (H0 p).
    - assert (B : ready (Import p)) by (now apply (asked_up p x)). destruct (run_within _ _ _ _ H2 V B) as [V1 K1].
      eapply rn_child; [assumption|assumption|eassumption|apply IHrun1; assumption|]. apply IHrun2; [exact V1|]. split; [exact P|]. split; [assumption|].
      intros q Hq. assert (q = p) as -> by (eapply child_one; eassumption). apply (there_can z1); [exact V1|destruct (K1 eq_refl); unfold there; auto|].
      eapply child_dots; eassumption.
    - eapply rn_orphan; [assumption|eassumption|]. apply IHrun; [exact V|]. now apply (asked_up p x).
    - destruct P as (P1 & P2 & P3). apply rn_missing. now rewrite <- (HA x P1 P2 P3).
    - destruct P as (P1 & P2 & P3). assert (F0 : fine x) by (exact (load_fine x sp P1 (HK x sp H0) P2 P3)).
      eapply rn_load; [assumption|rewrite <- (HA x P1 P2 P3); eassumption|eassumption|]. apply IHrun; [now apply program_begin|].
      intros w Hw. apply HK, kept_some in H0 as [H0 _]. exists sp, l0. now repeat split.
    - destruct P as (P1 & P2 & P3). assert (F0 : fine x) by (exact (load_fine x sp P1 (HK x sp H0) P2 P3)).
      eapply rn_load_other; [assumption|rewrite <- (HA x P1 P2 P3); eassumption|eassumption|]. apply IHrun; [now apply program_begin|exact Logic.I].
  Qed.
  Lemma run_loads t o z' : run F1 code (by_statement find conf code f l z0) t z0 o z' -> ready t ->
    forall x, In x (loaded z') \/ In x (failed z') -> In x (loaded z0) \/ loads E find conf start x.
  Proof.
    intros H B x Hx. destruct (run_within _ _ _ _ H) as [V _].
    - intros y [K|[K|K]]; [now left| |]; [rewrite (ar_loading _ _ _ RZ) in K|rewrite (ar_failed _ _ _ RZ) in K]; destruct K.
    - exact B.
    - apply V. unfold there. tauto.
  Qed.
End runs.
Lemma script_loads E find conf code f l z0 o z' : assembled E find code f l -> at_rest (kept find conf) code z0 ->
  run (kept find conf) code (by_statement find conf code f l z0) (Lines f None l) z0 o z' ->
  forall x, In x (loaded z') \/ In x (failed z') -> In x (loaded z0) \/ loads E find conf (RunScript f) x.
Proof.
  intros [W1 W2] R H. refine (run_loads E find conf code f l z0 (RunScript f) _ W2 R _ _ _ o z' H _); [now split|auto|]. intros w Hw. now split.
Qed.
Lemma module_loads E find conf code name z0 o z' : coded E find code -> at_rest (kept find conf) code z0 ->
  run (kept find conf) code (by_statement find conf code name [] z0) (Import name) z0 o z' ->
  forall x, In x (loaded z') \/ In x (failed z') -> In x (loaded z0) \/ loads E find conf (RunModule name) x.
Proof.
  intros W R H. refine (run_loads E find conf code name [] z0 (RunModule name) _ W R _ _ _ o z' H _); [intros w []|auto|].
  exists name. split; [now apply ak_start|apply wi_self].
Qed.

(** ** Theorems *)

(** The graph of a script, which is a program with this code. *)
Record executed (E : env) (find : string -> option spec) (conf : list (string * implied)) (code : string -> option (list piece)) (DS : dist -> Prop) (f : string) (l : list piece) (s : st) : Prop := {
  ex_running : running E find conf;
  ex_session : exists implies, dsession E DS implies conf s;
  ex_begun : kind_of s f = Some Script;
  ex_written : assembled E find code f l
}.
(** Whatever a run of the script does, the modules that it loads or tries to load are in
    the graph, if calls import by import statements only. *)
Definition C98_statement : Prop := forall E find conf code DS f l s z o z', executed E find conf code DS f l s -> at_rest (kept find conf) code z ->
  run (kept find conf) code (by_statement find conf code f l z) (Lines f None l) z o z' ->
  forall t, In t (loaded z') \/ In t (failed z') -> In t (loaded z) \/ covered s (RunScript f) t.

Theorem C98_partial : forall E find conf code DS f l s z o z', executed E find conf code DS f l s -> at_rest (kept find conf) code z ->
  orderly find conf s (RunScript f) ->
  run (kept find conf) code (by_statement find conf code f l z) (Lines f None l) z o z' ->
  forall t, In t (loaded z') \/ In t (failed z') -> In t (loaded z) \/ covered s (RunScript f) t.
Proof.
  intros E find conf code DS f l s z o z' [A (i & B) C D] R O H t Ht. destruct (script_loads E find conf code f l z o z' D R H t Ht) as [K|K]; [now left|right].
  exact (C75_partial E find DS i conf s (RunScript f) t A B C O K).
Qed.
Theorem C98_default_partial : forall E P find conf code DS implies f l s z o z', order_of_set P -> running E find conf -> default_session E P DS implies conf s ->
  ordinary (s_graph s) -> kind_of s f = Some Script -> assembled E find code f l -> at_rest (kept find conf) code z -> orderly find conf s (RunScript f) ->
  run (kept find conf) code (by_statement find conf code f l z) (Lines f None l) z o z' ->
  forall t, In t (loaded z') \/ In t (failed z') -> In t (loaded z) \/ covered s (RunScript f) t.
Proof.
  intros E P find conf code DS i f l s z o z' OP A B G C D R O H t Ht. destruct (script_loads E find conf code f l z o z' D R H t Ht) as [K|K]; [now left|right].
  exact (C75_default_partial E P find DS i conf s (RunScript f) t OP A B G C O K).
Qed.

(** The same for modules: [python -m name] imports the packages of the module and runs it. *)
Theorem C98_module_partial : forall E find conf code DS implies name s z o z', running E find conf -> dsession E DS implies conf s ->
  in_graph s name -> modular s name -> coded E find code -> at_rest (kept find conf) code z -> orderly find conf s (RunModule name) ->
  run (kept find conf) code (by_statement find conf code name [] z) (Import name) z o z' ->
  forall t, In t (loaded z') \/ In t (failed z') -> In t (loaded z) \/ covered s (RunModule name) t.
Proof.
  intros E find conf code DS i name s z o z' A B C C' D R O H t Ht. destruct (module_loads E find conf code name z o z' D R H t Ht) as [K|K]; [now left|right].
  exact (C75_partial E find DS i conf s (RunModule name) t A B (conj C C') O K).
Qed.
Theorem C98_default_module_partial : forall E P find conf code DS implies name s z o z', order_of_set P -> running E find conf -> default_session E P DS implies conf s ->
  ordinary (s_graph s) -> in_graph s name -> modular s name -> coded E find code -> at_rest (kept find conf) code z -> orderly find conf s (RunModule name) ->
  run (kept find conf) code (by_statement find conf code name [] z) (Import name) z o z' ->
  forall t, In t (loaded z') \/ In t (failed z') -> In t (loaded z) \/ covered s (RunModule name) t.
Proof.
  intros E P find conf code DS i name s z o z' OP A B G C C' D R O H t Ht. destruct (module_loads E find conf code name z o z' D R H t Ht) as [K|K]; [now left|right].
  exact (C75_default_partial E P find DS i conf s (RunModule name) t OP A B G (conj C C') O K).
Qed.

(** ** Examples *)

Lemma program_running w l : assoc "@@SIX_MOVES@@" w = None -> running (program_world w l) (found_in (entries w)) main_conf.
Proof.
  intros H. apply world_running; [|now rewrite entries_assoc, H|reflexivity]. apply forallb_forall. intros y Hy. apply in_map_iff in Hy as (v & <- & _). reflexivity.
Qed.
Lemma program_executed w l s anss : assoc "@@SIX_MOVES@@" w = None -> calls (program_world w l) 60 [AAddScript "main.py"] new = Some (anss, s) -> forallb fine_answer anss = true ->
  kind_of s "main.py" = Some Script -> executed (program_world w l) (found_in (entries w)) main_conf (code_in w) (fun _ => False) "main.py" l s.
Proof.
  intros H6 C F K. constructor.
  - now apply program_running.
  - eexists. eapply (calls_session _ _ _ 60 [AAddScript "main.py"]); [apply new_session|reflexivity|exact C|exact F].
  - exact K.
  - apply written_assembled, program_written.
Qed.

(** Package q does "import json as name" under a condition, and there is a module q.name. *)
Definition cond_program : PropsMust.program := [("q", (true, [PIf [PImport [("json", Some "name")]] []])); ("q.name", (false, [])); ("json", (false, []))].
Definition cond_script : list piece := [PFrom (Some "q") [("name", None)] 0].
Definition cond_graph : st := Eval vm_compute in program_graph cond_program cond_script.
Lemma name_child : child_of "q" "q.name".
Proof. apply (child_plain "q" "name"); [discriminate|reflexivity]. Qed.
Lemma cond_run : run (kept (found_in (entries cond_program)) main_conf) (code_in cond_program)
  (by_statement (found_in (entries cond_program)) main_conf (code_in cond_program) "main.py" cond_script (Mods [] [] [] []))
  (Lines "main.py" None cond_script) (Mods [] [] [] []) Next (Mods ["q.name"; "q"] [] [] []).
Proof.
  eapply rn_cons; [|apply rn_nil]. eapply (rn_from _ _ _ _ _ _ _ _ "q" _ (Mods ["q"] [] [] [])); [now split| |].
  + apply rn_top; [distinct|now apply no_child|reflexivity|]. refine (rn_load _ _ _ "q" _ _ _ (Mods [] ["q"] [] []) Next _ _ _ _); [distinct|reflexivity|reflexivity|].
    eapply rn_cons; [|apply rn_nil]. eapply rn_if; [apply rn_return|right; reflexivity|apply rn_nil].
  + eapply (rn_call _ _ _ "q.name"); [| |apply rn_return].
    * eapply bs_script; [now left|reflexivity|]. eapply (rq_name _ _ _ _ _ "q" _ "name"); [now apply mentions_absolute|now apply can_top|reflexivity|reflexivity|now left|reflexivity|].
      intros [K|[]]. discriminate K.
    * eapply rn_child; [distinct|reflexivity|exact name_child|apply rn_loaded; cbn; auto|].
      refine (rn_load _ _ _ "q.name" _ _ _ (Mods ["q"] ["q.name"] [] []) Next _ _ _ _); [distinct|reflexivity|reflexivity|apply rn_nil].
Qed.
Theorem C98_refuted : ~ C98_statement.
Proof.
  intros H. destruct (H (program_world cond_program cond_script) (found_in (entries cond_program)) main_conf (code_in cond_program) (fun _ => False) "main.py" cond_script cond_graph (Mods [] [] [] []) Next
    (Mods ["q.name"; "q"] [] [] [])) with (t := "q.name") as [[]|[(n & K & _) _]].
  - eapply program_executed; vm_compute; reflexivity.
  - apply rest_new.
  - exact cond_run.
  - left. now left.
  - discriminate K.
Qed.

(** A module that is named in a from list, with a function that imports another module
    when it is called; the latter fails. *)
Definition lazy_program : PropsMust.program :=
  [("pkg", (true, [PImport [("os", None)]])); ("pkg.sub", (false, [PDef false [PFrom (Some "late") [("run", None)] 1]])); ("pkg.late", (false, [PImport [("gone", None)]])); ("os", (false, [PSimple]))].
Definition lazy_script : list piece := [PFrom (Some "pkg") [("sub", None)] 0; PSimple].
Definition lazy_graph : st := Eval vm_compute in program_graph lazy_program lazy_script.
Lemma lazy_orderly p : orderly (found_in (entries lazy_program)) main_conf lazy_graph p.
Proof.
  constructor.
  - now apply tidy_bool.
  - intros m nd x t A B C K. exfalso. apply gfind_in in A as [A <-]. vm_compute in A.
    repeat (destruct A as [<-|A]; [cbn in B; repeat (destruct B as [<-|B]; [inversion C as [? ? C1]; discriminate C1|]); destruct B|]). destruct A.
  - intros m x id (nd & (a & i & y & _ & _ & _ & A & _) & B & _) _. apply gfind_in in A as [A _]. vm_compute in A.
    repeat (destruct A as [<-|A]; [destruct B as [G B]; try discriminate G; destruct B as [[]|(b & k & ff & ty & t & B & _)]; discriminate B|]). destruct A.
  - intros a f d (ds & K & _). vm_compute in K. repeat (destruct K as [K|K]; [injection K as <- <- <-; vm_compute; split; discriminate|]). destruct K.
Qed.
Lemma pkg_sub_child x : dotless x -> child_of "pkg" ("pkg." ++ x).
Proof. intros H. apply (child_plain "pkg" x); [discriminate|exact H]. Qed.
Lemma lazy_rest : at_rest (kept (found_in (entries lazy_program)) main_conf) (code_in lazy_program) (Mods ["os"] [] [] []).
Proof.
  constructor; try reflexivity; cbn [loaded].
  - intros x [<-|[]]. discriminate.
  - intros x sp b w [<-|[]] _ B C. injection B as <-. destruct C.
  - intros x c [<-|[]] H. exfalso. destruct H as [c H|sp b w c _ B C _]; [now apply no_child in H|]. injection B as <-. destruct C.
Qed.
Lemma lazy_pkg may : run (kept (found_in (entries lazy_program)) main_conf) (code_in lazy_program) may (Import "pkg") (Mods ["os"] [] [] []) Next (Mods ["pkg"; "os"] [] [] []).
Proof.
  apply rn_top; [distinct|now apply no_child|reflexivity|]. refine (rn_load _ _ _ "pkg" _ _ _ (Mods ["os"] ["pkg"] [] []) Next _ _ _ _); [distinct|reflexivity|reflexivity|].
  eapply rn_cons; [|apply rn_nil]. eapply rn_import; [|apply rn_import_nil]. apply rn_loaded. now left.
Qed.
Example C98_nonvacuous : exists z',
  executed (program_world lazy_program lazy_script) (found_in (entries lazy_program)) main_conf (code_in lazy_program) (fun _ => False) "main.py" lazy_script lazy_graph
  /\ at_rest (kept (found_in (entries lazy_program)) main_conf) (code_in lazy_program) (Mods ["os"] [] [] []) /\ orderly (found_in (entries lazy_program)) main_conf lazy_graph (RunScript "main.py")
  /\ run (kept (found_in (entries lazy_program)) main_conf) (code_in lazy_program) (by_statement (found_in (entries lazy_program)) main_conf (code_in lazy_program) "main.py" lazy_script (Mods ["os"] [] [] []))
       (Lines "main.py" None lazy_script) (Mods ["os"] [] [] []) Raise z'
  /\ loaded z' = ["pkg.sub"; "pkg"; "os"] /\ failed z' = ["pkg.late"].
Proof.
  exists (Mods ["pkg.sub"; "pkg"; "os"] [] ["pkg.late"] []). split; [|split; [|split; [|split; [|split; reflexivity]]]].
  - eapply program_executed; vm_compute; reflexivity.
  - exact lazy_rest.
  - apply lazy_orderly.
  - eapply rn_cons; [|eapply rn_stop; [|discriminate]].
    + eapply (rn_from _ _ _ _ _ _ _ _ "pkg" _ (Mods ["pkg"; "os"] [] [] [])); [now split| |].
      * apply lazy_pkg.
      * eapply (rn_call _ _ _ "pkg.sub" _ (Mods ["pkg.sub"; "pkg"; "os"] [] [] [])); [| |apply rn_return].
        -- eapply bs_script; [now left|reflexivity|]. eapply (rq_name _ _ _ _ _ "pkg" _ "sub"); [now apply mentions_absolute|now apply can_top|reflexivity|reflexivity|now left|reflexivity|].
           intros [K|[]]. discriminate K.
        -- eapply rn_child; [distinct|reflexivity|now apply pkg_sub_child|apply rn_loaded; cbn; auto|].
           refine (rn_load _ _ _ "pkg.sub" _ _ _ (Mods ["pkg"; "os"] ["pkg.sub"] [] []) Next _ _ _ _); [distinct|reflexivity|reflexivity|].
           eapply rn_cons; [apply rn_def, rn_return|apply rn_nil].
    + apply rn_simple. eapply (rn_call _ _ _ "pkg.late" _ (Mods ["pkg.sub"; "pkg"; "os"] [] ["pkg.late"] [])); [| |apply rn_raise].
      * eapply (bs_module _ _ _ _ _ _ _ _ "pkg.sub"); [split; [distinct|cbn; auto]|reflexivity|reflexivity|now left|]. apply rq_module.
        apply (mentions_relative _ _ (WFrom (Some "late") [("run", None)] 1) "pkg"); [discriminate| |discriminate]. apply (up_S 0 "pkg" "sub" "pkg"); [reflexivity|apply up_0].
      * eapply rn_child; [distinct|reflexivity|now apply pkg_sub_child|apply rn_loaded; cbn; auto|].
        refine (rn_load _ _ _ "pkg.late" _ _ _ (Mods ["pkg.sub"; "pkg"; "os"] ["pkg.late"] [] []) Raise _ _ _ _); [distinct|reflexivity|reflexivity|].
        eapply rn_stop; [|discriminate]. apply rn_import_fails. apply gone_fails; [reflexivity|distinct].
Qed.

Example C98_module_nonvacuous : exists implies z', running (program_world lazy_program lazy_script) (found_in (entries lazy_program)) main_conf
  /\ dsession (program_world lazy_program lazy_script) (fun _ => False) implies main_conf lazy_graph /\ in_graph lazy_graph "pkg.late" /\ modular lazy_graph "pkg.late"
  /\ coded (program_world lazy_program lazy_script) (found_in (entries lazy_program)) (code_in lazy_program)
  /\ at_rest (kept (found_in (entries lazy_program)) main_conf) (code_in lazy_program) (Mods ["os"] [] [] [])
  /\ orderly (found_in (entries lazy_program)) main_conf lazy_graph (RunModule "pkg.late")
  /\ run (kept (found_in (entries lazy_program)) main_conf) (code_in lazy_program) (by_statement (found_in (entries lazy_program)) main_conf (code_in lazy_program) "pkg.late" [] (Mods ["os"] [] [] []))
       (Import "pkg.late") (Mods ["os"] [] [] []) Raise z'
  /\ loaded z' = ["pkg"; "os"] /\ failed z' = ["pkg.late"].
Proof.
  destruct C98_nonvacuous as (_ & [A (i & B) C [_ D]] & _). exists i, (Mods ["pkg"; "os"] [] ["pkg.late"] []). split; [exact A|]. split; [exact B|]. split; [discriminate|].
  split; [split; discriminate|]. split; [exact D|]. split; [exact lazy_rest|]. split; [apply lazy_orderly|]. split; [|split; reflexivity].
  eapply rn_child; [distinct|reflexivity|now apply pkg_sub_child|apply lazy_pkg|].
  refine (rn_load _ _ _ "pkg.late" _ _ _ (Mods ["pkg"; "os"] ["pkg.late"] [] []) Raise _ _ _ _); [distinct|reflexivity|reflexivity|].
  eapply rn_stop; [|discriminate]. apply rn_import_fails. apply gone_fails; [reflexivity|distinct].
Qed.
Example C98_default_nonvacuous : exists s implies, default_session (program_world lazy_program lazy_script) flat_paths (fun _ => False) implies main_conf s /\ ordinary (s_graph s)
  /\ kind_of s "main.py" = Some Script /\ orderly (found_in (entries lazy_program)) main_conf s (RunScript "main.py") /\ s_post s <> [].
Proof.
  destruct C98_nonvacuous as (z' & [A (i & B) C D] & _ & O & _).
  assert (G : ordinary (s_graph lazy_graph)) by now apply ordinary_check.
  destruct (C93_session_back _ flat_paths _ _ _ _ flat_order B G) as [s [B' K]]. exists s, i.
  assert (X : s_post s <> []).
  { pose proof (default_sessions _ flat_paths flat_order _ _ _ _ B') as X. destruct X as [u [_ [p [m [_ [c [d [X _]]]]]]]]; [apply but_sym in K; destruct K as [p [m ->]]; exact G|].
    intros Y. rewrite Y in X. now destruct c. }
  apply but_sym in K. pose proof (but_orderly _ _ _ _ _ K O) as O'. destruct K as [p [m ->]]. split; [exact B'|]. split; [exact G|]. split; [exact C|]. split; [exact O'|exact X].
Qed.

(** Module b has no source, and its code does "import os". *)
Definition code_b : Bytecode.code := PropsCompile.code_of 1 ["os"] [CInt 0; CNone] [ChImport (im0 0); store 0].
Definition spec_b : spec := Spec "b" (LInspect false (ROk None) (ROk (Some code_b))) (Some "b.pyc") None true (ROk false).
Definition bare_world : env := world [("b", ESpec spec_b); ("os", ESource false [] [])] [] [].
Definition bare_find : string -> option spec := found_in [("b", ESpec spec_b); ("os", ESource false [] [])].
Definition bare_code (x : string) : option (list piece) := if seqb x "b" then Some [PImport [("os", None)]] else if seqb x "os" then Some [] else None.
Definition bare_graph : st := Eval vm_compute in snd (the_calls bare_world [AAddModule "b"] new).
Lemma bare_compiled : compiles true none_dead false (module_tree [PImport [("os", None)]]) code_b.
Proof.
  split; [|repeat constructor; cbn; intuition discriminate].
  apply (body_of true none_dead false code_b _ [ChImport (im0 0); store 0]); [reflexivity|chunks_fine|apart|children|].
  apply em_other. cbn [app map tree]. at_front em_import; [repeat split|reflexivity|]. cbn [app]. apply em_imported. noise. constructor.
Qed.
Lemma bare_coded : coded bare_world bare_find bare_code.
Proof.
  intros x sp. unfold bare_find, found_in, bare_code. cbn [assoc]. destruct (seqb x "b") eqn:X; [|destruct (seqb x "os") eqn:Y; [|discriminate]].
  - intros K. injection K as <-. cbn. exists none_dead. eexists. split; [intros t []|]. split; [reflexivity|exact bare_compiled].
  - apply seqb_eq in Y as ->. intros K. injection K as <-. cbn. eexists _, _. split; [reflexivity|]. split; [reflexivity|]. reflexivity.
Qed.
Lemma bare_running : running bare_world bare_find main_conf.
Proof.
  constructor.
  - apply world_order.
  - intros l. cbn. apply Permutation.Permutation_refl.
  - apply world_compiled. intros n sp fz src c K Hl. cbn in K. destruct K as [K|[K|[]]]; [|discriminate K]. injection K as <- <-. injection Hl as <- <- <-.
    split; [repeat constructor; cbn; intuition discriminate|]. intros d Hd. cbn in Hd. destruct Hd as [<-|[]]. exists [ChImport (im0 0); store 0]. split; [reflexivity|chunks_fine].
  - constructor; try reflexivity; unfold bare_find, found_in; cbn [assoc e_find_spec bare_world world].
    + intros t f name sp. destruct (seqb name "b"); [|destruct (seqb name "os")]; cbn; intros K; congruence.
    + intros t f name. destruct (seqb name "b"); [|destruct (seqb name "os")]; cbn; intros K; auto; discriminate.
    + intros name sp. destruct (seqb name "b") eqn:X; [|destruct (seqb name "os") eqn:Y; [|discriminate]]; intros K; injection K as <-; [apply seqb_eq in X as ->|]; reflexivity.
    + intros name sp. destruct (seqb name "b"); [|destruct (seqb name "os"); [|discriminate]]; intros K; injection K as <-; reflexivity.
  - intros x i H. apply assoc_In in H. destruct H as [H|[]]. now injection H as <- <-.
Qed.
Example C98_code_nonvacuous : exists implies z', coded bare_world bare_find bare_code /\ ~ sources bare_world bare_find bare_code /\ running bare_world bare_find main_conf
  /\ dsession bare_world (fun _ => False) implies main_conf bare_graph /\ in_graph bare_graph "b" /\ modular bare_graph "b" /\ orderly bare_find main_conf bare_graph (RunModule "b")
  /\ run (kept bare_find main_conf) bare_code (by_statement bare_find main_conf bare_code "b" [] (Mods [] [] [] [])) (Import "b") (Mods [] [] [] []) Next z'
  /\ loaded z' = ["b"; "os"].
Proof.
  eexists. exists (Mods ["b"; "os"] [] [] []). split; [exact bare_coded|]. split; [|split; [exact bare_running|split; [|split; [discriminate|split; [split; discriminate|split; [|split; [|reflexivity]]]]]]].
  - intros H. specialize (H "b" spec_b eq_refl). cbn in H. destruct H as (text & file & b & K & _). discriminate K.
  - eapply (calls_session _ _ _ 60 [AAddModule "b"]); [apply new_session|reflexivity|vm_compute; reflexivity|reflexivity].
  - constructor.
    + now apply tidy_bool.
    + intros m nd x t A B C K. exfalso. apply gfind_in in A as [A <-]. vm_compute in A.
      repeat (destruct A as [<-|A]; [cbn in B; repeat (destruct B as [<-|B]; [inversion C as [? ? C1]; discriminate C1|]); destruct B|]). destruct A.
    + intros m x id (nd & (a & i & y & _ & _ & _ & A & _) & B & _) _. apply gfind_in in A as [A _]. vm_compute in A.
      repeat (destruct A as [<-|A]; [destruct B as [G B]; try discriminate G; destruct B as [[]|(b & k & ff & ty & t & B & _)]; discriminate B|]). destruct A.
    + intros a f d (ds & K & _). vm_compute in K. repeat (destruct K as [K|K]; [injection K as <- <- <-; vm_compute; split; discriminate|]). destruct K.
  - apply rn_top; [distinct|now apply no_child|reflexivity|]. refine (rn_load _ _ _ "b" _ _ _ (Mods ["os"] ["b"] [] []) Next _ _ _ _); [distinct|reflexivity|reflexivity|].
    eapply rn_cons; [|apply rn_nil]. eapply rn_import; [|apply rn_import_nil]. apply rn_top; [distinct|now apply no_child|reflexivity|].
    refine (rn_load _ _ _ "os" _ _ _ (Mods [] ["os"; "b"] [] []) Next _ _ _ _); [distinct|reflexivity|reflexivity|apply rn_nil].
Qed.

Print Assumptions C98_partial.
Print Assumptions C98_module_partial.
Print Assumptions C98_default_partial.
Print Assumptions C98_default_module_partial.
Print Assumptions C98_refuted.
