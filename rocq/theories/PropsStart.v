(** C82: graphs with the hooks and the configuration that every graph starts with,
    and the command line. *)
From Verif Require Import World PropsFine PropsCli BuiltinHooks PropsEnd BuilderPass PyStrFacts BuilderWhy PropsImports FineSpec BuilderFine.
From Verif Require Cli ReportSpec PropsHooks BuilderEndCalls.
Open Scope string_scope.

(** What has to be known about the environment; [F]: the modules that refer to their
    own submodules and are installed. *)
Record start_fine (E : env) (P : paths) (F : list string) (ospath sysconfigdata : string) : Prop := {
  sf_working : working E;
  sf_mypyc : mypyc_fine E P;
  sf_certain : certain E (fun n => In n F);
  sf_found : forall t fakes name sp, e_find_spec E t fakes name = ROk (Some sp) -> by_dots F std_bonus (sp_name sp) <= by_dots F std_bonus name;
  sf_target : forall sp name, importable E sp -> target sp name -> by_dots F std_bonus name <= by_dots F std_bonus (sp_name sp);
  sf_ospath : module_name ospath /\ by_dots F std_bonus ospath <= 1;
  sf_sysconfigdata : module_name sysconfigdata /\ by_dots F std_bonus sysconfigdata = 0
}.

Definition C82_statement : Prop := forall E P win32 ospath sysconfigdata fuel s a ans s', start_fine E P std_firm ospath sysconfigdata ->
  meant_history E (tame E (fun n => In n std_firm) std_rank) (builtin_start P win32 ospath sysconfigdata) s ->
  meant E (tame E (fun n => In n std_firm) std_rank) s a -> tame E (fun n => In n std_firm) std_rank s a ->
  top_call E fuel a s = Some (ans, s') -> forall e, ans <> AnsErr e.

Definition plain_paths : paths := Paths (fun f => fst (rpartition slash f)) (fun f => snd (rpartition slash f)) (fun _ f => f) (fun l => l).
Definition wrap_modules : list (string * entry) := [("dbm", ESource true [] []); ("turtledemo", ESource true [] []);
  ("wrap", ESource false [imp "_wrap"] ["swig_import_helper"])].
Lemma plain_found w scripts t fakes name sp : world_b w scripts = true -> e_find_spec (world w scripts []) t fakes name = ROk (Some sp) -> sp_name sp = name.
Proof.
  intros W. cbn [e_find_spec world]. destruct (assoc name w) as [e|] eqn:Ea; [|discriminate]. apply assoc_In in Ea. intros H.
  apply andb_true_iff in W as [W _]. rewrite forallb_forall in W. now destruct (world_spec w name sp e (W _ Ea) H).
Qed.
Lemma wrap_target sp name : importable (world wrap_modules [] []) sp -> ~ target sp name.
Proof.
  intros (t & f & nm & Hf) T. cbn [e_find_spec world] in Hf. destruct (assoc nm wrap_modules) as [e|] eqn:Ea; [|discriminate]. apply assoc_In in Ea.
  repeat (destruct Ea as [Ea|Ea]; [injection Ea as <- <-; injection Hf as <-; exact T|]). contradiction.
Qed.
Lemma wrap_fine : start_fine (world wrap_modules [] []) plain_paths std_firm "posixpath" "_sysconfigdata".
Proof.
  assert (B : world_b wrap_modules [] = true) by (vm_compute; reflexivity). constructor.
  - now apply world_working.
  - constructor; [auto|discriminate|discriminate].
  - constructor.
    + intros p x H Dx. exfalso. assert (X : dots (p ++ "." ++ x) = 0) by (destruct H as [<-|[<-|[]]]; reflexivity).
      rewrite !dots_app in X. cbn in X. lia.
    + intros t fakes name [<-|[<-|[]]]; eexists; split; reflexivity.
    + intros t fakes name sp H K. rewrite (plain_found _ _ _ _ _ _ B H) in K. destruct K as [<-|[<-|[]]]; injection H as <-; exact I.
  - intros t fakes name sp H. now rewrite (plain_found _ _ _ _ _ _ B H).
  - intros sp name H T. now elim (wrap_target sp name H).
  - split; [now apply (mnb_sound 9)|vm_compute; lia].
  - split; [now apply (mnb_sound 9)|reflexivity].
Qed.

(** A wrapper made by SWIG that is not in a package, where its extension module is
    not installed: the hook looks for the spec of the package with the empty name. *)
Theorem C82_refuted : ~ C82_statement.
Proof.
  intros H. assert (K : option_map fst (top_call (world wrap_modules [] []) 60 (AAddModule "wrap") (builtin_start plain_paths false "posixpath" "_sysconfigdata")) = Some (AnsErr EAssert))
    by (vm_compute; reflexivity).
  destruct (top_call _ _ _ _) as [[ans s']|] eqn:Kt; [|discriminate K]. cbn [option_map fst] in K. injection K as ->.
  refine (H _ _ false _ _ 60 _ (AAddModule "wrap") _ s' wrap_fine (mh_start _ _ _) _ I Kt EAssert eq_refl). constructor. now apply (mnb_sound 9).
Qed.
Print Assumptions C82_refuted.

Lemma start_ranked E P F o d : start_fine E P F o d -> ranked E (fun n => In n F) (by_dots F std_bonus).
Proof.
  intros H. constructor; [|apply H|apply H|].
  - intros p x _ Dx. now apply by_dots_package.
  - intros sp fz text code tool _ _ _ [-> | ->] _; unfold by_dots; cbn [head std_bonus]; cbn; destruct (memb _ F); cbn; lia.
Qed.
Lemma start_post E P F o d ok : start_fine E P F o d -> forall h, In h [mypyc_hook P] -> post_fine E ok h.
Proof. intros H h [<-|[]]. left. exists P. split; [reflexivity|apply H]. Qed.
Lemma start_missing E : swig_free E -> forall h, In h [swig_hook] -> missing_fine E h.
Proof. intros H h [<-|[]]. now left. Qed.

(** There are no such wrappers. *)
Theorem C82_partial E P win32 ospath sysconfigdata fuel s a ans s' : start_fine E P std_firm ospath sysconfigdata -> swig_free E ->
  meant_history E (tame E (fun n => In n std_firm) std_rank) (builtin_start P win32 ospath sysconfigdata) s ->
  meant E (tame E (fun n => In n std_firm) std_rank) s a -> tame E (fun n => In n std_firm) std_rank s a ->
  top_call E fuel a s = Some (ans, s') -> forall e, ans <> AnsErr e.
Proof.
  intros H S. destruct (sf_ospath _ _ _ _ _ H) as [N1 R1]. destruct (sf_sysconfigdata _ _ _ _ _ H) as [N2 R2].
  apply (C81_hooks_partial E (fun n => In n std_firm) std_rank (STDLIB_IMPLIES win32 ospath sysconfigdata) [mypyc_hook P] [swig_hook]).
  - apply H.
  - apply H.
  - eapply start_ranked; exact H.
  - cbn. intuition discriminate.
  - now apply std_conf.
  - eapply start_post; exact H.
  - now apply start_missing.
Qed.
Print Assumptions C82_partial.

(** With finitely many modules every call has an answer, which is no exception. *)
Theorem C82_answer_partial E V P win32 ospath sysconfigdata s a : start_fine E P std_firm ospath sysconfigdata -> swig_free E ->
  finite_universe E V -> redirects_end E ->
  meant_history E (fun s a => tame E (fun n => In n std_firm) std_rank s a /\ good_call V a) (builtin_start P win32 ospath sysconfigdata) s ->
  meant E (tame E (fun n => In n std_firm) std_rank) s a -> tame E (fun n => In n std_firm) std_rank s a -> good_call V a ->
  exists fuel ans s', (forall more, fuel <= more -> top_call E more a s = Some (ans, s')) /\ forall e, ans <> AnsErr e.
Proof.
  intros H S FU RE Hh Hm Ht Hg. destruct (C27_ends_partial E V (builtin_start P win32 ospath sysconfigdata) s a FU RE) as (fuel & ans & s' & K).
  - exists (STDLIB_IMPLIES win32 ospath sysconfigdata), [mypyc_hook P], [swig_hook]. split; [reflexivity|apply BuilderEndCalls.builtin_hooks].
  - eapply meant_good; [|exact Hh]. now intros s1 a1 [_ G].
  - exact Hg.
  - exists fuel, ans, s'. split; [exact K|]. apply (C82_partial E P win32 ospath sysconfigdata fuel s a ans s'); auto. eapply history_weak; [|exact Hh]. now intros s1 a1 [T _].
Qed.
Print Assumptions C82_answer_partial.

(** ** The command line *)

Definition conf_ok (F : list string) (p : string * implied) : bool := match snd p with
  | ImpNone => negb (memb (fst p) F)
  | ImpAlias t | ImpVirtual t => mnb 9 t && (by_dots F std_bonus t <=? by_dots F std_bonus (fst p))%nat
  | ImpRefs l => forallb (fun t => mnb 9 t && (by_dots F std_bonus t <=? by_dots F std_bonus (fst p))%nat) l
  end.
Lemma conf_ok_sound F k i : conf_ok F (k, i) = true -> named i /\ ranked_conf (fun n => In n F) (by_dots F std_bonus) k i.
Proof.
  unfold conf_ok. cbn [fst snd]. assert (X : forall t, mnb 9 t && (by_dots F std_bonus t <=? by_dots F std_bonus k)%nat = true -> module_name t /\ by_dots F std_bonus t <= by_dots F std_bonus k).
  { intros t H. apply andb_true_iff in H as [A B]. split; [now apply (mnb_sound 9)|now apply Nat.leb_le]. }
  destruct i; cbn [named ranked_conf]; auto.
  - intros H. split; [exact I|]. apply negb_true_iff in H. intros K. apply memb_In in K. congruence.
  - rewrite forallb_forall. intros H. split; intros t Ht; now apply X, H.
Qed.
(** Modules with submodules in their own list, that are not excluded. *)
Definition firm_left (excluded : list string) : list string := filter (fun n => negb (memb n excluded)) std_firm.
Lemma firm_left_cases excluded : exists b1 b2, firm_left excluded = ((if b1 : bool then ["dbm"] else []) ++ (if b2 : bool then ["turtledemo"] else []))%list
  /\ (b1 = false -> In "dbm" excluded) /\ (b2 = false -> In "turtledemo" excluded).
Proof.
  exists (negb (memb "dbm" excluded)), (negb (memb "turtledemo" excluded)). split; [|split].
  - unfold firm_left, std_firm. cbn [filter]. now destruct (memb "dbm" excluded), (memb "turtledemo" excluded).
  - intros K. apply negb_false_iff in K. now apply memb_In.
  - intros K. apply negb_false_iff in K. now apply memb_In.
Qed.
Lemma left_conf excluded win32 ospath sysconfigdata : let F := firm_left excluded in
  module_name ospath -> by_dots F std_bonus ospath <= 1 -> module_name sysconfigdata -> by_dots F std_bonus sysconfigdata = 0 ->
  forall k i, assoc k (add_excludes excluded (add_implies (STDLIB_IMPLIES win32 ospath sysconfigdata) [("__main__", ImpNone)])) = Some i ->
    named i /\ ranked_conf (fun n => In n F) (by_dots F std_bonus) k i.
Proof.
  intros F N1 R1 N2 R2 k i H. assert (Ex : In k excluded -> i = ImpNone /\ ~ In k F).
  { intros K. split; [|intros Q; apply filter_In in Q as [_ Q]; apply memb_In in K; now rewrite K in Q].
    clear - H K. revert H. generalize (add_implies (STDLIB_IMPLIES win32 ospath sysconfigdata) [("__main__", ImpNone)]) as l. unfold add_excludes.
    induction excluded as [|x excluded IH] using rev_ind; [destruct K|]. intros l. rewrite fold_left_app. cbn [fold_left]. rewrite BuilderKinds.assoc_lazy_set.
    destruct (seqb k x) eqn:Es; [now intros [= <-]|]. apply IH. apply in_app_or in K as [K|[K|[]]]; [exact K|]. subst x. now rewrite (proj2 (seqb_eq k k) eq_refl) in Es. }
  destruct (memb k excluded) eqn:Em; [apply memb_In in Em; destruct (Ex Em) as [-> K]; now split|].
  assert (Nk : ~ In k excluded) by (intros K; apply memb_In in K; congruence).
  apply excluded_assoc in H as [H|[_ H]]; [|contradiction]. apply implied_assoc in H as [H|H].
  { cbn [assoc] in H. destruct (seqb k "__main__") eqn:Es; [|discriminate]. apply seqb_eq in Es. subst k. injection H as <-. split; [exact I|].
    intros K. apply filter_In in K as [K _]. cbn in K. intuition discriminate. }
  destruct (firm_left_cases excluded) as (b1 & b2 & Ef & Q1 & Q2). fold F in Ef.
  assert (X : (In (k, i) (STDLIB_IMPLIES win32 "posixpath" "_sysconfigdata") /\ k <> "os.path" /\ k <> "sysconfig") \/ (k, i) = ("os.path", ImpAlias ospath) \/ (k, i) = ("sysconfig", ImpRefs [sysconfigdata]) \/ (k, i) = ("sysconfig", ImpRefs [])).
  { pose (put := fun p : string * implied => if seqb (fst p) "os.path" then ("os.path", ImpAlias ospath) else
      if seqb (fst p) "sysconfig" then ("sysconfig", match snd p with ImpRefs [] => ImpRefs [] | _ => ImpRefs [sysconfigdata] end) else p).
    assert (Q : STDLIB_IMPLIES win32 ospath sysconfigdata = map put (STDLIB_IMPLIES win32 "posixpath" "_sysconfigdata")) by (destruct win32; vm_compute; reflexivity).
    rewrite Q in H. apply in_map_iff in H as ([k0 i0] & H & K). unfold put in H. cbn [fst snd] in H. destruct (seqb k0 "os.path") eqn:E1; [right; left; now symmetry|].
    destruct (seqb k0 "sysconfig") eqn:E2.
    - right. right. destruct i0 as [| | |[|]]; first [left; now symmetry|right; now symmetry].
    - injection H as <- <-. left. split; [exact K|]. split; intros ->; [now rewrite (proj2 (seqb_eq _ _) eq_refl) in E1|now rewrite (proj2 (seqb_eq _ _) eq_refl) in E2]. }
  destruct X as [(X & X1 & X2)|[X|[X|X]]].
  - apply conf_ok_sound. rewrite Ef.
    assert (C : forallb (fun p => conf_ok ((if b1 then ["dbm"] else []) ++ (if b2 then ["turtledemo"] else []))%list p || (negb b1 && seqb (fst p) "dbm") || (negb b2 && seqb (fst p) "turtledemo")) (STDLIB_IMPLIES win32 "posixpath" "_sysconfigdata") = true)
      by (destruct win32, b1, b2; vm_compute; reflexivity).
    rewrite forallb_forall in C. specialize (C _ X). cbn [fst] in C. apply orb_true_iff in C as [C|C]; [apply orb_true_iff in C as [C|C]; [exact C|]|].
    + apply andb_true_iff in C as [C1 C2]. apply seqb_eq in C2. subst k. elim Nk. apply Q1. now destruct b1.
    + apply andb_true_iff in C as [C1 C2]. apply seqb_eq in C2. subst k. elim Nk. apply Q2. now destruct b2.
  - injection X as -> ->. split; [exact N1|]. cbn [ranked_conf]. eapply Nat.le_trans; [exact R1|]. rewrite Ef. destruct b1, b2; vm_compute; lia.
  - injection X as -> ->. split; intros t [<-|[]]; [exact N2|]. rewrite R2. lia.
  - injection X as -> ->. split; intros t [].
Qed.

Lemma excluded_start E P win32 ospath sysconfigdata excluded ok L fuel ans s : let F := firm_left excluded in
  start_fine E P F ospath sysconfigdata -> swig_free E -> top_call E fuel (AExcludes excluded) (builtin_start P win32 ospath sysconfigdata) = Some (ans, s) ->
  ans = AnsUnit /\ Inv E (fun n => In n F) (by_dots F std_bonus) ok L s /\ settled s /\ s_graph s = empty_graph.
Proof.
  intros F H S K. unfold top_call, call, bind, attempt in K. cbn [do_action] in K. unfold modify, bind, ret in K. injection K as <- <-. split; [reflexivity|].
  destruct (sf_ospath _ _ _ _ _ H) as [N1 R1]. destruct (sf_sysconfigdata _ _ _ _ _ H) as [N2 R2].
  assert (M : ~ In "__main__" F) by (intros Q; apply filter_In in Q as [Q _]; cbn in Q; intuition discriminate).
  destruct (init_fine E (fun n => In n F) (by_dots F std_bonus) ok L [mypyc_hook P] [swig_hook] []) as [I0 S0]; [exact (start_post _ _ _ _ _ _ H)|exact (start_missing _ S)|intros k i []|exact M|].
  split; [|split; [intros id t [Q _]; discriminate|reflexivity]].
  refine (mv_inv _ _ _ _ _ _ _ (conf_moved E _ _ _ _ (init [] [mypyc_hook P] [swig_hook])
    (add_excludes excluded (add_implies (STDLIB_IMPLIES win32 ospath sysconfigdata) [("__main__", ImpNone)])) (EvConf excluded) I0 _ _)).
  - intros k i Q. right. exact (left_conf excluded win32 ospath sysconfigdata N1 R1 N2 R2 k i Q).
  - intros _. now apply excluded_main, implied_main.
Qed.

(** What is asked for: modules, distributions, or different scripts, which are paths
    except for the first one. *)
Definition sensible (E : env) (t : Cli.node_type) (names : list string) : Prop := match t with
  | Cli.NTModule => forall n, In n names -> module_name n
  | Cli.NTScript => NoDup names /\ (forall f, In f (tl names) -> label f) /\
      forall f, In f names -> script_fine E f /\ forall t, exists tree, e_script E t f = ROk tree /\ forall p w, In (p, w) (sites [] tree) -> proper w
  | Cli.NTDistribution => forall n t, In n names -> exists d, e_dist_named E t n = ROk (Some d) /\ usable E d
  end.
Section modules.
  Variables (E : env) (P : paths) (ospath sysconfigdata : string) (F : list string).
  Hypothesis H : start_fine E P F ospath sysconfigdata.
  Notation fits := (tame E (fun n => In n F) (by_dots F std_bonus)).
  Section some.
  Variables (ok : st -> action -> Prop) (L : string -> Prop).
  Hypothesis OK : confined E (fun n => In n F) (by_dots F std_bonus) ok L.
  Notation Good := (Inv E (fun n => In n F) (by_dots F std_bonus) ok L).
  Lemma one_fine fuel a s ans s' : Good s -> settled s -> meant E ok s a -> ok s a ->
    top_call E fuel a s = Some (ans, s') -> (forall e, ans <> AnsErr e) /\ Good s' /\ settled s'.
  Proof.
    apply top_fine; [apply H|apply H|exact (start_ranked _ _ _ _ _ H)|exact OK].
  Qed.
  Lemma modules_fine (f : string -> action) fuel : forall names s anss s', Good s -> settled s ->
    (forall n s, In n names -> meant E ok s (f n) /\ ok s (f n)) ->
    calls E fuel (map f names) s = Some (anss, s') -> Good s' /\ settled s'.
  Proof.
    induction names as [|n names IH]; intros s anss s' I0 S0 Hn K; cbn [map calls] in K; [injection K as <- <-; now split|].
    destruct (top_call E fuel (f n) s) as [[ans s1]|] eqn:Kt; [|discriminate]. destruct (calls E fuel (map f names) s1) as [[anss' s2]|] eqn:Kc; [|discriminate].
    injection K as <- <-. destruct (Hn n s) as [M1 M2]; [now left|]. destruct (one_fine fuel (f n) s ans s1 I0 S0) as (_ & T2 & T3); [exact M1|exact M2|exact Kt|].
    apply (IH s1 anss' s2 T2 T3); [|exact Kc]. intros m u Hm. apply Hn. now right.
  Qed.
  End some.

  (** Scripts only, those of [l]. *)
  Definition scripts_of (l : list string) (s : st) (a : action) : Prop := fits s a /\
    match a with AAddScript f => In f l | AAddDist _ | AAddDistNamed _ => False | _ => True end.
  Lemma scripts_confined l : confined E (fun n => In n F) (by_dots F std_bonus) (scripts_of l) (fun f => In f l).
  Proof. constructor; [intros s a []|intros s f []|intros s d []|intros s name t d []]; auto; contradiction. Qed.
  Lemma calls_last fuel l a : forall s anss s', calls E fuel (l ++ [a])%list s = Some (anss, s') ->
    exists anss1 s1 ans, calls E fuel l s = Some (anss1, s1) /\ top_call E fuel a s1 = Some (ans, s').
  Proof.
    induction l as [|b l IH]; intros s anss s' K; cbn [app calls] in *.
    - destruct (top_call E fuel a s) as [[ans s1]|] eqn:Kt; [|discriminate]. injection K as _ <-. eauto 6.
    - destruct (top_call E fuel b s) as [[ans s1]|] eqn:Kt; [|discriminate]. destruct (calls E fuel (l ++ [a])%list s1) as [[anss' s2]|] eqn:Kc; [|discriminate].
      injection K as _ <-. destruct (IH _ _ _ Kc) as (anss1 & s3 & ans3 & A & B). rewrite A. eauto 6.
  Qed.
  Definition readable (f : string) : Prop := forall t, exists tree, e_script E t f = ROk tree /\ forall p w, In (p, w) (sites [] tree) -> proper w.
  Lemma scripts_next fuel s0 names anss s1 f n2 : s_graph s0 = empty_graph -> calls E fuel (map AAddScript names) s0 = Some (anss, s1) ->
    Inv E (fun n => In n F) (by_dots F std_bonus) (scripts_of names) (fun f => In f names) s1 ->
    ~ In f names -> (forall g, In g (tl (names ++ f :: n2)) -> label g) -> ~ in_graph s1 f.
  Proof.
    intros G0 K1 I1 Df Hl. destruct names as [|g names].
    - cbn in K1. injection K1 as _ <-. unfold in_graph. rewrite G0. intros Q. now apply Q.
    - eapply fresh_label; [exact I1| |exact Df]. apply Hl. cbn. apply in_or_app. right. now left.
  Qed.
  Lemma scripts_fine fuel s0 : s_graph s0 = empty_graph -> settled s0 ->
    (forall ok L, Inv E (fun n => In n F) (by_dots F std_bonus) ok L s0) ->
    forall names anss s', calls E fuel (map AAddScript names) s0 = Some (anss, s') -> NoDup names -> (forall f, In f (tl names) -> label f) ->
    (forall f, In f names -> script_fine E f /\ readable f) ->
    settled s' /\ forall l, incl names l -> Inv E (fun n => In n F) (by_dots F std_bonus) (scripts_of l) (fun f => In f l) s'.
  Proof.
    intros G0 S0 I0. induction names as [|f names IH] using rev_ind; intros anss s' K D Hl Hs; [cbn in K; injection K as _ <-; split; [exact S0|intros l _; apply I0]|].
    rewrite map_app in K. cbn [map] in K. destruct (calls_last _ _ _ _ _ _ K) as (anss1 & s1 & ans & K1 & Kt).
    apply NoDup_remove in D as [D Df]. rewrite app_nil_r in D, Df.
    destruct (IH anss1 s1 K1 D) as [S1 I1]; [intros g Hg; apply Hl; destruct names; [destruct Hg|]; cbn in *; apply in_or_app; now left|intros g Hg; apply Hs, in_or_app; now left|].
    assert (Fr : ~ in_graph s1 f) by (eapply scripts_next; eassumption || apply (I1 names), incl_refl).
    destruct (Hs f) as [Hf Hr]; [apply in_or_app; right; now left|].
    assert (All : forall l, incl (names ++ [f]) l -> settled s' /\ Inv E (fun n => In n F) (by_dots F std_bonus) (scripts_of l) (fun f => In f l) s').
    { intros l Hi. destruct (one_fine _ _ (scripts_confined l) fuel (AAddScript f) s1 ans s') as (_ & A & B); auto.
      - apply I1. intros g Hg. apply Hi, in_or_app. now left.
      - now apply me_script.
      - split; [exact Hf|]. apply Hi, in_or_app. right. now left. }
    split; [exact (proj1 (All _ (incl_refl _)))|]. intros l Hi. now apply All.
  Qed.
End modules.

(** Without SWIG wrappers, none of the calls of the program raises: the report of the
    graph is written, unless the caches of the import system cannot be dropped. *)
Theorem C82_main_partial : forall envs P win32 ospath sysconfigdata fuel invalidate stdlib iter opens writes l names y r y',
  keeps_path invalidate -> PropsCli.quiet invalidate -> has_path y -> names <> [] -> Forall valid l ->
  let E := envs (flat_map says_path l ++ Cli.sys_path y)%list in
  start_fine E P (firm_left (flat_map (says_exclude stdlib) l)) ospath sysconfigdata -> swig_free E ->
  sensible E (last (flat_map says_type l) Cli.NTModule) names ->
  Cli.main envs (builtin_start P win32 ospath sysconfigdata) fuel invalidate stdlib iter opens writes l names y = Some (r, y') ->
  (exists anss s, calls E fuel (asked stdlib l names) (builtin_start P win32 ospath sysconfigdata) = Some (anss, s) /\
     Forall (fun a => ok_answer a = true) anss /\
     delivered (last (flat_map says_output l) None) (Cli.print_graph iter (last (flat_map says_format l) Cli.FHtml) (s_graph s)) y y' r)
  \/ exists e y1 y2, r = RErr e /\ invalidate y1 = Some (RErr e, y2).
Proof.
  intros envs P win32 ospath sysconfigdata fuel invalidate stdlib iter opens writes l names y r y' HK HQ Hy Hn HV E H S Hs K.
  destruct (C60_main _ _ _ _ _ _ _ _ l names y r y' HK HQ Hy Hn HV K) as [_ [D|(_ & e & -> & [(l1 & a & l2 & anss & s1 & s2 & Ea & Kc & _ & Kt)|(y1 & y2 & Ki)])]]; [left; exact D| |right; eauto].
  exfalso. set (excluded := flat_map (says_exclude stdlib) l) in *. fold E in Kc, Kt.
  unfold asked in Ea. fold excluded in Ea. destruct l1 as [|a0 l1].
  { injection Ea as <- _. cbn [calls] in Kc. injection Kc as <- <-. destruct (excluded_start _ _ _ _ _ _ (fun _ _ => True) (fun _ => True) _ _ _ H S Kt) as [Q _]. discriminate. }
  injection Ea as <- Ea. cbn [calls] in Kc. destruct (top_call E fuel (AExcludes excluded) (builtin_start P win32 ospath sysconfigdata)) as [[ans0 s0]|] eqn:K0; [|discriminate].
  destruct (calls E fuel l1 s0) as [[anss' s']|] eqn:K1; [|discriminate]. injection Kc as <- <-.
  destruct (excluded_start _ _ _ _ _ _ (tame E (fun n => In n (firm_left excluded)) (by_dots (firm_left excluded) std_bonus)) (fun _ => True) _ _ _ H S K0) as (_ & I0 & S0 & G0). unfold sensible in Hs. destruct (last (flat_map says_type l) Cli.NTModule); cbn [verb] in Ea.
  - destruct Hs as (D & Hl & Hs). destruct (map_eq_app _ _ _ _ Ea) as (n1 & n2 & -> & <- & Ea2). destruct n2 as [|n n2]; [discriminate|]. injection Ea2 as <- _.
    destruct (Hs n) as [Hf Hr]; [apply in_or_app; right; now left|]. pose proof (NoDup_remove_2 _ _ _ D) as Df.
    assert (Dn : ~ In n n1) by (intros Q; apply Df, in_or_app; now left).
    destruct (scripts_fine E P ospath sysconfigdata _ H fuel s0 G0 S0) with (names := n1) (anss := anss') (s' := s') as [S1 I1]; auto.
    + intros ok L. exact (proj1 (proj2 (excluded_start _ _ _ _ _ _ ok L _ _ _ H S K0))).
    + apply NoDup_remove_1 in D. clear - D. induction n1 as [|x n1 IH]; [constructor|]. cbn in D. inversion D as [|? ? A B]; subst. constructor; [|now apply IH]. intros Q. apply A, in_or_app. now left.
    + intros g Hg. apply Hl. destruct n1 as [|x n1]; [destruct Hg|]. cbn in *. apply in_or_app. now left.
    + intros g Hg. apply Hs, in_or_app. now left.
    + destruct (one_fine E P ospath sysconfigdata _ H _ _ (scripts_confined _ _ (n1 ++ [n])%list) fuel (AAddScript n) s' (AnsErr e) s2) as (Q & _); auto.
      * apply I1. intros g Hg. apply in_or_app. now left.
      * apply me_script; [|exact Hr]. eapply scripts_next; [exact G0|exact K1|apply I1, incl_refl|exact Dn|exact Hl].
      * split; [exact Hf|]. apply in_or_app. right. now left.
      * now apply (Q e).
  - destruct (map_eq_app _ _ _ _ Ea) as (n1 & n2 & -> & <- & Ea2). destruct n2 as [|n n2]; [discriminate|]. injection Ea2 as <- _.
    destruct (modules_fine E P ospath sysconfigdata _ H _ _ (confined_all _ _ _) AAddModule fuel n1 s0 anss' s' I0 S0) as [I1 S1]; [intros m u Hm; split; [constructor; apply Hs, in_or_app; now left|exact I]|exact K1|].
    destruct (one_fine E P ospath sysconfigdata _ H _ _ (confined_all _ _ _) fuel (AAddModule n) s' (AnsErr e) s2 I1 S1) as (Q & _); [constructor; apply Hs, in_or_app; right; now left|exact I|exact Kt|].
    now apply (Q e).
  - destruct (map_eq_app _ _ _ _ Ea) as (n1 & n2 & -> & <- & Ea2). destruct n2 as [|n n2]; [discriminate|]. injection Ea2 as <- _.
    destruct (modules_fine E P ospath sysconfigdata _ H _ _ (confined_all _ _ _) AAddDistNamed fuel n1 s0 anss' s' I0 S0) as [I1 S1]; [intros m u Hm; split; [constructor; intros t; apply Hs, in_or_app; now left|exact I]|exact K1|].
    destruct (one_fine E P ospath sysconfigdata _ H _ _ (confined_all _ _ _) fuel (AAddDistNamed n) s' (AnsErr e) s2 I1 S1) as (Q & _); [constructor; intros t; apply Hs, in_or_app; right; now left|exact I|exact Kt|].
    now apply (Q e).
Qed.
Print Assumptions C82_main_partial.

(** ** Concrete cases *)

Lemma installed_complete E d files sp : complete_spec E sp -> complete_spec (installed E d files) sp.
Proof. intros []. constructor; auto. Qed.
Lemma installed_working E d files : working E -> working (installed E d files).
Proof.
  intros [A1 A2 A3 A4 A5 A6 A7 A8]. constructor; [exact A1|exact A2| |exact A4|exact A5| |exact A7|exact A8].
  - intros t fakes name N M. specialize (A3 t fakes name N M). cbn [e_find_spec installed]. destruct (e_find_spec E t fakes name) as [[sp|]|e]; [|exact I|].
    + now apply installed_complete.
    + destruct A3 as [A|[A|[A|(A & B & C & D)]]]; [now left|right; now left|right; right; now left|right; right; right]. split; [exact A|]. split; [exact B|]. split; [exact C|].
      cbn [e_find_spec installed]. destruct (e_find_spec E (2 + t) (remove_name name fakes) name) as [[sp|]|e']; [|exact I|exact D]. now apply installed_complete.
  - intros t f. now exists (Some d).
Qed.
(** The function of SWIG is not there. *)
Definition sites_b (l : list ast) : bool := forallb (fun x => negb (memb helper (map fst (w_names (snd x))))) (sites [] (AOther l)).
Definition free_b (w : list (string * entry)) (scripts : list (string * list ast)) : bool :=
  forallb (fun p => match snd p with ESource _ body wr => sites_b body && negb (memb helper wr) | EText _ _ body rd wr => sites_b body && negb (memb helper (rd ++ wr)%list) | _ => true end) w
  && forallb (fun p => sites_b (snd p)) scripts.
Lemma sites_free l p w : sites_b l = true -> In (p, w) (sites [] (AOther l)) -> ~ In helper (map fst (w_names w)).
Proof. unfold sites_b. rewrite forallb_forall. intros H K Q. specialize (H _ K). cbn [snd] in H. apply memb_In in Q. now rewrite Q in H. Qed.
Lemma plain_writes v reads writes n : code_writes v (code_of reads writes) n -> In n (reads ++ writes)%list.
Proof.
  intros (p & d & fn & cls & D & _ & _ & i & x & N & W). inversion D as [|c e d' p' He _]; subst; [|destruct He].
  assert (X : forall m, names_arg (code_of reads writes) x m -> In m (reads ++ writes)%list) by (intros m (a & _ & K); eapply nth_error_In; exact K).
  destruct W as [(_ & _ & _ & W)|[(_ & _ & W)|(O & _)]]; [now apply X..|]. exfalso. apply nth_error_In in N. cbn in N. apply in_app_or in N as [N|N];
    apply in_map_iff in N as (k & <- & _); discriminate O.
Qed.
Lemma world_free w scripts d files : world_b w scripts = true -> free_b w scripts = true -> swig_free (installed (world w scripts []) d files).
Proof.
  intros B H. pose proof (world_working w scripts [] B) as Wk. apply andb_true_iff in H as [H1 H2]. rewrite forallb_forall in H1, H2. constructor.
  - intros sp f gs c (t & fk & name & Hf) L. cbn [e_find_spec world installed] in Hf. destruct (assoc name w) as [e|] eqn:Ea; [|discriminate]. apply assoc_In in Ea.
    specialize (H1 _ Ea). cbn [snd] in H1. pose proof B as B'. apply andb_true_iff in B' as [B' _]. rewrite forallb_forall in B'. specialize (B' _ Ea).
    destruct e as [p body wr|p tx body rd wr| | |sp0|e0]; cbn [spec_of] in Hf; try (injection Hf as <-); try discriminate.
    + injection L as <- <- <-. intros Q. apply plain_writes, memb_In in Q. cbn [app] in Q. rewrite Q in H1. now rewrite andb_comm in H1.
    + injection L as <- <- <-. intros Q. apply plain_writes, memb_In in Q. rewrite Q in H1. now rewrite andb_comm in H1.
    + exfalso. destruct (world_spec w name sp0 (ESpec sp0) B' eq_refl) as [_ _]. unfold entry_b in B'. apply andb_true_iff in B' as [_ B']. cbn [snd fst] in B'.
      destruct sp0 as [nm ld o se i pk]. cbn in L. subst ld. discriminate.
  - intros sp f gs c fn opt wh Hi L S _. pose proof (plain_compiled w scripts [] B sp f gs c Hi L) as C. destruct Hi as (t & fk & name & Hf). cbn [e_find_spec world installed] in Hf.
    destruct (assoc name w) as [e|] eqn:Ea; [|discriminate]. apply assoc_In in Ea. pose proof B as H'. apply andb_true_iff in H' as [H' _]. rewrite forallb_forall in H'.
    destruct (world_spec w name sp e (H' _ Ea) Hf) as [_ [[Q _]|[Q|[Q|(text & c' & Q & P)]]]]; rewrite Q in L; try discriminate. injection L as <- <- <-.
    unfold plain_code in P. destruct (extract_bytecode_info true c') as [[[[l wr] rd]|]|] eqn:Ex; try discriminate P. destruct l; [|discriminate P].
    destruct (PropsSource.code_covers _ _ _ _ _ C Ex) as [K _]. destruct (K _ _ _ S) as (i & [] & _).
  - intros t f text tree p wh. cbn [e_parse world installed]. destruct (text_of w text) as [l|] eqn:Et.
    + intros [= <-] K. apply text_body in Et as (k & e & Hi & Hb). specialize (H1 _ Hi). cbn [snd] in H1. destruct e; try contradiction; subst; apply andb_true_iff in H1 as [H1 _];
        eapply sites_free; eassumption.
    + destruct (assoc text scripts) as [l|] eqn:Ea; [|discriminate]. intros [= <-] K. apply assoc_In in Ea. eapply sites_free; [exact (H2 _ Ea)|exact K].
  - intros t f tree p wh. cbn [e_script world installed]. destruct (assoc f scripts) as [l|] eqn:Ea; [|discriminate]. intros [= <-] K. apply assoc_In in Ea. eapply sites_free; [exact (H2 _ Ea)|exact K].
Qed.

(** A program with an extension module made by mypyc, that imports modules of the
    standard library. *)
Definition start_modules : list (string * entry) := [("dbm", ESource true [] []); ("turtledemo", ESource true [] []); ("b", EExtension); ("ab12__mypyc", EExtension);
  ("c", ESource false [] []); ("os", ESource false [] []); ("posixpath", ESource false [] []);
  ("app", ESource false [imp "b"; imp "os.path"; imp "nothing"; World.from "dbm" ["gnu"] 0] [])].
Definition start_scripts : list (string * list ast) := [("b.py", [imp "c"]); ("main.py", [imp "app"]); ("/bin/run.py", [imp "c"; World.from "dbm" ["x"] 0])].
Definition start_dist : dist := Dist 0 "/lib/d-1.dist-info" "d" "1" [] ["b"; "ab12__mypyc"].
Definition start_world : env := installed (world start_modules start_scripts []) start_dist ["b.py"].
Lemma start_world_fine F : (forall n, In n F -> In n std_firm) -> start_fine start_world plain_paths F "posixpath" "_sysconfigdata".
Proof.
  intros HF. assert (B : world_b start_modules start_scripts = true) by (vm_compute; reflexivity).
  assert (T : forall sp name, importable start_world sp -> ~ target sp name).
  { intros sp name (t & f & nm & Hf) T. cbn [e_find_spec world installed start_world] in Hf. destruct (assoc nm start_modules) as [e|] eqn:Ea; [|discriminate]. apply assoc_In in Ea.
    repeat (destruct Ea as [Ea|Ea]; [injection Ea as <- <-; injection Hf as <-; exact T|]). contradiction. }
  assert (N : forall t fakes name sp, e_find_spec start_world t fakes name = ROk (Some sp) -> sp_name sp = name) by (intros t fakes name sp; exact (plain_found start_modules start_scripts t fakes name sp B)).
  assert (Z : forall n, by_dots F std_bonus n <= by_dots F std_bonus n) by (intros n; lia).
  constructor.
  - now apply installed_working, world_working.
  - constructor; [auto| |].
    + intros t f d x [= <-] [<-|[<-|[]]]; now apply (mnb_sound 9).
    + intros t t' f _. now exists f.
  - constructor.
    + intros p x H Dx. exfalso. apply HF in H. assert (X : dots (p ++ "." ++ x) = 0) by (destruct H as [<-|[<-|[]]]; reflexivity).
      rewrite !dots_app in X. cbn in X. lia.
    + intros t fakes name H. apply HF in H as [<-|[<-|[]]]; eexists; split; reflexivity.
    + intros t fakes name sp H K. rewrite (N _ _ _ _ H) in K. apply HF in K as [<-|[<-|[]]]; injection H as <-; exact I.
  - intros t fakes name sp H. now rewrite (N _ _ _ _ H).
  - intros sp name H K. now elim (T sp name H).
  - split; [now apply (mnb_sound 9)|]. unfold by_dots. destruct (memb (PropsFine.head "posixpath") F); vm_compute; lia.
  - split; [now apply (mnb_sound 9)|]. unfold by_dots. destruct (memb (PropsFine.head "_sysconfigdata") F); vm_compute; lia.
Qed.
Lemma start_world_free : swig_free start_world.
Proof. apply world_free; vm_compute; reflexivity. Qed.
(** The hypotheses of [C82_partial] hold; the hook for mypyc finds modules. *)
Example C82_nonvacuous : start_fine start_world plain_paths std_firm "posixpath" "_sysconfigdata" /\ swig_free start_world
  /\ meant start_world (tame start_world (fun n => In n std_firm) std_rank) (builtin_start plain_paths false "posixpath" "_sysconfigdata") (AAddModule "app")
  /\ let r := the_calls start_world [AAddModule "app"] (builtin_start plain_paths false "posixpath" "_sysconfigdata") in
     forallb ok_answer (fst r) = true
     /\ node_list (snd r) = [("app", Module MSource); ("dbm", Package false "dbm" MSource (Some "dbm/__init__.py") None);
       ("dbm.gnu", MissingModule); ("dbm.ndbm", MissingModule); ("dbm.dumb", MissingModule); ("nothing", MissingModule);
       ("os", Module MSource); ("os.path", AliasNode "posixpath"); ("posixpath", Module MSource); ("b", Module MExtension);
       ("ab12__mypyc", Module MExtension); ("c", Module MSource)].
Proof.
  split; [now apply start_world_fine|]. split; [exact start_world_free|]. split; [constructor; now apply (mnb_sound 9)|]. vm_compute. split; reflexivity.
Qed.
(** A script with a path and a distribution. *)
Lemma start_dist_usable : usable start_world start_dist.
Proof.
  split; [now apply label_slash|]. split; [intros t tree; discriminate|]. intros x [<-|[<-|[]]]; now apply (mnb_sound 9).
Qed.
Example C82_dist_nonvacuous : let s0 := builtin_start plain_paths false "posixpath" "_sysconfigdata" in
  let r := the_calls start_world [AAddScript "/bin/run.py"] s0 in
  meant start_world (tame start_world (fun n => In n std_firm) std_rank) s0 (AAddScript "/bin/run.py") /\ tame start_world (fun n => In n std_firm) std_rank s0 (AAddScript "/bin/run.py")
  /\ meant start_world (tame start_world (fun n => In n std_firm) std_rank) (snd r) (AAddDist start_dist) /\ meant start_world (tame start_world (fun n => In n std_firm) std_rank) (snd r) (AAddDistNamed "d")
  /\ let r' := the_calls start_world [AAddDist start_dist; AAddDistNamed "d"] (snd r) in
     fst r = [AnsId "/bin/run.py"] /\ fst r' = [AnsId "/lib/d-1.dist-info"; AnsId "/lib/d-1.dist-info"]
     /\ map fst (node_list (snd r')) = ["/bin/run.py"; "dbm"; "dbm.gnu"; "dbm.ndbm"; "dbm.dumb"; "dbm.x"; "c"; "/lib/d-1.dist-info"; "b"; "ab12__mypyc"]
     /\ g_roots (s_graph (snd r')) = ["/bin/run.py"; "/lib/d-1.dist-info"; "ab12__mypyc"].
Proof.
  intros s0 r. split; [constructor|].
  - intros K. now apply K.
  - intros t. eexists. split; [reflexivity|]. now apply body_sound.
  - split; [|split; [|split]].
    + right. split; [now apply label_slash|]. intros t tree p w [= <-] Hw. repeat (destruct Hw as [Hw|Hw]; [injection Hw as <- <-; reflexivity|]). contradiction.
    + constructor. exact start_dist_usable.
    + constructor. intros t. exists start_dist. split; [reflexivity|exact start_dist_usable].
    + vm_compute. repeat split; reflexivity.
Qed.
(** The command line. *)
Example C82_main_nonvacuous : let l := [Cli.OExclude "dbm"; Cli.OScript; Cli.OFormat "dot"; Cli.OOutput "out"] in let y := some_sys in
  start_fine start_world plain_paths (firm_left (flat_map (says_exclude ["abc"]) l)) "posixpath" "_sysconfigdata" /\ swig_free start_world
  /\ sensible start_world (last (flat_map says_type l) Cli.NTModule) ["main.py"; "/bin/run.py"]
  /\ option_map (fun x => (fst x, match PropsCli.contents (snd x) "out" with Some t => option_map (fun q => flat_map (fun i => match i with ReportSpec.REdge a b _ => [(a, b)] | _ => [] end) (fst q)) (ReportSpec.read_dot t) | None => None end))
    (Cli.main (fun _ => start_world) (builtin_start plain_paths false "posixpath" "_sysconfigdata") 60 (Cli.io_ret tt) ["abc"] (fun _ g => g_nodes g) (fun _ => ROk tt) (fun _ _ => None) l ["main.py"; "/bin/run.py"] y)
    = Some (ROk tt, Some [("main.py", "app"); ("app", "dbm"); ("app", "nothing"); ("app", "os.path"); ("app", "b"); ("os.path", "posixpath"); ("os.path", "os");
        ("b", "ab12__mypyc"); ("b", "c"); ("/bin/run.py", "dbm"); ("/bin/run.py", "c")]).
Proof.
  intros l y. split; [apply start_world_fine; intros n Hn; now apply filter_In in Hn|]. split; [exact start_world_free|]. split.
  - split; [repeat constructor; cbn; intuition discriminate|]. split; [intros f [<-|[]]; now apply label_slash|]. intros f [<-|[<-|[]]].
    + split; [left; now apply (mnb_sound 9)|]. intros t. eexists. split; [reflexivity|]. now apply body_sound.
    + split.
      * right. split; [now apply label_slash|]. intros t tree p w [= <-] Hw. repeat (destruct Hw as [Hw|Hw]; [injection Hw as <- <-; reflexivity|]). contradiction.
      * intros t. eexists. split; [reflexivity|]. now apply body_sound.
  - vm_compute. reflexivity.
Qed.

(** Hooks of a user: each module uses another one; the length of the names of missing modules is kept. *)
Definition uses_c : post_hook := fun n => PDo (AImportModule n "c") (fun _ => PRet None).
Definition notes : missing_hook := fun importing name => PDo (ARemember (String.length name)) (fun _ => PRet None).
Example C81_hooks_nonvacuous E : post_fine E (tame E (fun n => In n []) dots) uses_c /\ missing_fine E notes
  /\ let r := the_calls start_world [AAddModule "app"] (init [] [uses_c] [notes]) in forallb ok_answer (fst r) = true /\ 
     edge_pairs (snd r) = [("app", "dbm"); ("dbm", "c"); ("c", "c"); ("dbm.gnu", "dbm"); ("app", "dbm.gnu"); ("dbm.gnu", "c"); ("app", "nothing"); ("nothing", "c");
       ("os.path", "os"); ("app", "os.path"); ("os.path", "c"); ("os", "c"); ("app", "b"); ("b", "c"); ("app", "c")].
Proof.
  split; [|split].
  - right. intros n s H. constructor; [constructor; [exact H|now apply (mnb_sound 9)]|exact I|]. intros ans s' _ _. constructor.
  - right. intros importing name. split; [right; now exists (String.length name)|]. intros ans. reflexivity.
  - vm_compute. split; reflexivity.
Qed.
(** Hooks that are added later, and a module that is put into the graph by hand. *)
Example C81_later_nonvacuous E s : let own := Node "own" MissingModule [] [] None None [] false in ~ in_graph s "own" ->
  meant E (tame E (fun n => In n []) dots) s (AAddNode own) /\ meant E (tame E (fun n => In n []) dots) s (AAddPost uses_c) /\ meant E (tame E (fun n => In n []) dots) s (AAddMissing notes)
  /\ let r := the_calls start_world [AAddNode own; AAddModule "b"; AAddPost uses_c; AAddMissing notes; AAddModule "nothing.x"; AAddModule "own"] new in forallb ok_answer (fst r) = true
     /\ map (fun p => (fst p, is_missing (snd p))) (node_list (snd r)) = [("own", true); ("b", false); ("nothing", true); ("nothing.x", true); ("c", false)]
     /\ edge_pairs (snd r) = [("nothing.x", "nothing"); ("nothing.x", "c"); ("c", "c"); ("nothing", "c")] /\ s_mem (snd r) = 9.
Proof.
  intros own K. destruct (C81_hooks_nonvacuous E) as (A & B & _). split; [|split; [|split]].
  - constructor. constructor; cbn; auto. now apply (mnb_sound 9).
  - apply me_post. destruct A as [(P & A & _)|A]; [|exact A]. assert (Q : mypyc_hook P "" = uses_c "") by now rewrite A. discriminate.
  - now apply me_missing.
  - vm_compute. repeat split; reflexivity.
Qed.
