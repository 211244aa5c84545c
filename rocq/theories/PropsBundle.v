(** C99: the modules of the graph are enough to run the program. *)
From Verif Require Import ReportSpec BuilderSource BuilderHist BuilderInv BuilderCalls World AstProofs PropsBuilder PropsCalls PropsHooks PropsRoots PropsSource PropsReach SeedSpec BuilderSame PropsLoad PropsNeed PropsSame PropsSeed MoreSpec PropsMore BuilderRest PropsRest PropsDefault PropsLoad PropsSame MustSpec PropsMust WithinSpec PropsWithin BundleSpec.
Open Scope string_scope.

(** Modules of the graph are found, and are not excluded. *)
Lemma real_kept E find DS implies conf s x n : running E find conf -> dsession E DS implies conf s -> gfind (s_graph s) x = Some n -> real (n_kind n) = true ->
  exists sp, kept find conf x = Some sp.
Proof.
  intros [A _ _ B C] H G R. pose proof (w_inv _ _ _ _ _ (one_JW E find implies conf A B C s H)) as W.
  destruct (j_nodes _ _ _ _ _ W _ _ G) as (n0 & l & _ & K & S). destruct S as (_ & S2 & _). rewrite S2 in R.
  destruct K as [t tr b A1 B1|d0 A1 B1|A1|c' k' A1 B1 C1 D1|i' k' A1 B1 C1|A1 B1 C1|sp n0 b k' s1 s2 A1 B1 C1 D1]; cbn [n_kind plain_node] in R; try discriminate R.
  - destruct k'; discriminate.
  - destruct i'; try discriminate C1; injection C1 as <-; discriminate R.
  - exists sp. unfold kept. destruct (assoc x conf) as [i|] eqn:Ei; [|exact C1]. destruct (B1 i Ei) as [X _]. destruct i; try discriminate X. exact C1.
Qed.
Lemma bundle_kept E find DS implies conf s p F : running E find conf -> dsession E DS implies conf s -> bundle_of s p find F ->
  forall x sp, F x = Some sp -> kept find conf x = Some sp.
Proof.
  intros A B H x sp K. apply H in K as [[(n & G & R) _] K]. destruct (real_kept E find DS implies conf s x n A B G R) as (sp' & X).
  rewrite X. f_equal. apply kept_some in X as [X _]. congruence.
Qed.
Lemma bundle_includes E find DS implies conf s p F : running E find conf -> dsession E DS implies conf s -> bundle_of s p find F -> includes_bundle s p find conf F.
Proof. intros A B H. split; [intros x sp C K; apply H; now split|exact (bundle_kept E find DS implies conf s p F A B H)]. Qed.
(** Both find the same modules, where the program asks for them. *)
Lemma bundle_agrees E find DS implies conf code s p F : running E find conf -> dsession E DS implies conf s -> begun_with s p -> coded E find code ->
  orderly find conf s p -> includes_bundle s p find conf F ->
  forall x, asked E find conf p x -> starts_with "." x = false -> (forall q, child_of q x -> can_import find conf q) -> kept find conf x = F x.
Proof.
  intros A B C W O H x P1 P2 P3. destruct (kept find conf x) as [sp|] eqn:K.
  - symmetry. apply (proj1 H); [|now apply kept_some in K as [K _]]. apply (C75_partial E find DS implies conf s p x A B C O).
    eapply load_fine; eassumption.
  - destruct (F x) as [sp|] eqn:X; [|reflexivity]. apply (proj2 H) in X. congruence.
Qed.
(** Calls import the same in both. *)
Lemma bundle_can E find DS implies conf s p F m : running E find conf -> dsession E DS implies conf s -> includes_bundle s p find conf F ->
  can_import F [] m -> can_import find conf m.
Proof.
  intros A B H K. induction K as [m sp K1 K2 K3 _ _ IH]. apply (proj2 H) in K1. apply kept_some in K1 as [K1 K4].
  eapply can_intro; eassumption.
Qed.
Lemma can_bundle E find DS implies conf s p F m : running E find conf -> dsession E DS implies conf s -> begun_with s p -> orderly find conf s p -> includes_bundle s p find conf F ->
  can_import find conf m -> asked E find conf p m -> can_import F [] m.
Proof.
  intros A B C O H K. induction K as [m sp K1 K2 K3 K4 K5 IH]. intros (name & Q1 & Q2). apply (can_intro F [] m sp).
  - apply (proj1 H); [|exact K1]. apply (C75_partial E find DS implies conf s p m A B C O). exists name. split; [exact Q1|]. split; [exact Q2|]. eapply can_intro; eassumption.
  - exact K2.
  - exact K3.
  - discriminate.
  - intros q Hq. apply (IH q Hq). apply (asked_up E find conf p q m); [now exists name|exact Hq].
Qed.
Lemma bundle_calls E find DS implies conf code s p F f l z y x : running E find conf -> dsession E DS implies conf s -> includes_bundle s p find conf F ->
  by_statement F [] code f l z y x -> by_statement find conf code f l z y x.
Proof.
  intros A B H K. assert (R : forall n b w m, requests F [] n b w m -> requests find conf n b w m).
  { intros n b w m [m' X|m' sp x' X1 X2 X3 X4 X5 X6 X7]; [now apply rq_module|]. eapply rq_name; try eassumption; [eapply bundle_can; eassumption|].
    apply (proj2 H), kept_some in X3 as [X3 _]. exact X3. }
  destruct K as [w K1 K2 K3|n sp b w K1 K2 K3 K4 K5]; [eapply bs_script; eauto|]. apply (proj2 H), kept_some in K2 as [K2 _]. eapply bs_module; eauto.
Qed.
Lemma calls_bundle E find DS implies conf code s p F f l z y x : running E find conf -> dsession E DS implies conf s -> begun_with s p -> coded E find code ->
  orderly find conf s p -> includes_bundle s p find conf F -> (forall w, In w (flat_map imports l) -> p = RunScript f /\ forall t, e_script E t f = ROk (module_tree l)) ->
  within_program E find conf z p y -> by_statement find conf code f l z y x -> by_statement F [] code f l z y x.
Proof.
  intros A B C W O H HP V K.
  assert (R : forall n b w m, (forall q, requests find conf n b w q -> asked E find conf p q) -> requests find conf n b w m -> requests F [] n b w m).
  { intros n b w m Q [m' X|m' sp x' X1 X2 X3 X4 X5 X6 X7]; [now apply rq_module|].
    assert (M : can_import F [] m') by (eapply can_bundle; try eassumption; apply Q; now apply rq_module).
    destruct (F m') as [sp'|] eqn:Em; [|inversion M; congruence]. assert (sp' = sp) as -> by (apply (proj2 H), kept_some in Em as [Em _]; congruence). eapply rq_name; eassumption. }
  destruct K as [w K1 K2 K3|n sp b w K1 K2 K3 K4 K5].
  - eapply bs_script; [exact K1|exact K2|]. apply R; [|exact K3]. intros q Hq. eapply script_asked; eassumption.
  - assert (L : loads E find conf p n) by (destruct K1 as [N T]; destruct (V n T) as [X|X]; [contradiction|exact X]).
    eapply bs_module; [exact K1|apply (proj1 H); [exact (C75_partial E find DS implies conf s p n A B C O L)|exact K2]|exact K3|exact K4|].
    apply R; [|exact K5]. intros q Hq. eapply module_asked; eassumption.
Qed.
Lemma run_calls find code (may may' : mods -> string -> Prop) t z o z' : (forall y x, may y x -> may' y x) -> run find code may t z o z' -> run find code may' t z o z'.
Proof. intros H K. induction K; try solve [econstructor; eauto]. Qed.
Lemma bundle_runs E find DS implies conf code s p F f l z t o z' : running E find conf -> dsession E DS implies conf s -> begun_with s p -> coded E find code ->
  orderly find conf s p -> includes_bundle s p find conf F -> at_rest (kept find conf) code z ->
  (forall w, In w (flat_map imports l) -> p = RunScript f /\ forall t, e_script E t f = ROk (module_tree l)) -> ready E find conf code f l p t ->
  (run (kept find conf) code (by_statement find conf code f l z) t z o z' <-> run F code (by_statement F [] code f l z) t z o z').
Proof.
  intros A B C W O H R HP RT.
  assert (V : within_program E find conf z p z).
  { intros y [K|[K|K]]; [now left| |]; [rewrite (ar_loading _ _ _ R) in K|rewrite (ar_failed _ _ _ R) in K]; destruct K. }
  pose proof (bundle_agrees E find DS implies conf code s p F A B C W O H) as HA. split; intros K.
  - eapply run_same; try eassumption; auto. intros y x Y. eapply calls_bundle; eassumption.
  - assert (K' : run F code (by_statement find conf code f l z) t z o z') by (eapply run_calls; [|exact K]; intros y x; eapply bundle_calls; eassumption).
    eapply run_same; try eassumption; [exact (proj2 H)| |auto]. intros x P1 P2 P3. symmetry. now apply HA.
Qed.

(** ** Theorems *)

(** A program that is started in a state of Python does in the copy what it does in full:
    both have the same runs, with the same outcomes and the same modules afterwards. *)
Definition C99_statement : Prop := forall E find conf code DS f l s F z o z', executed E find conf code DS f l s -> at_rest (kept find conf) code z ->
  bundle_of s (RunScript f) find F ->
  (run (kept find conf) code (by_statement find conf code f l z) (Lines f None l) z o z'
   <-> run F code (by_statement F [] code f l z) (Lines f None l) z o z').

(** So it does in any part of the installation that has the modules of the graph. *)
Theorem C99_more_partial : forall E find conf code DS f l s F z o z', executed E find conf code DS f l s -> at_rest (kept find conf) code z ->
  orderly find conf s (RunScript f) -> includes_bundle s (RunScript f) find conf F ->
  (run (kept find conf) code (by_statement find conf code f l z) (Lines f None l) z o z'
   <-> run F code (by_statement F [] code f l z) (Lines f None l) z o z').
Proof.
  intros E find conf code DS f l s F z o z' [A (i & B) C [D1 D2]] R O H.
  apply (bundle_runs E find DS i conf code s (RunScript f) F); try assumption; [now split|]. intros w Hw. now split.
Qed.
Theorem C99_module_more_partial : forall E find conf code DS implies name s F z o z', running E find conf -> dsession E DS implies conf s ->
  in_graph s name -> modular s name -> coded E find code -> at_rest (kept find conf) code z -> orderly find conf s (RunModule name) ->
  includes_bundle s (RunModule name) find conf F ->
  (run (kept find conf) code (by_statement find conf code name [] z) (Import name) z o z'
   <-> run F code (by_statement F [] code name [] z) (Import name) z o z').
Proof.
  intros E find conf code DS i name s F z o z' A B C C' D R O H. apply (bundle_runs E find DS i conf code s (RunModule name) F); try assumption; [now split|intros w []|].
  exists name. split; [now apply ak_start|apply wi_self].
Qed.
Theorem C99_default_more_partial : forall E P find conf code DS implies f l s F z o z', order_of_set P -> running E find conf -> default_session E P DS implies conf s ->
  ordinary (s_graph s) -> kind_of s f = Some Script -> assembled E find code f l -> at_rest (kept find conf) code z -> orderly find conf s (RunScript f) ->
  includes_bundle s (RunScript f) find conf F ->
  (run (kept find conf) code (by_statement find conf code f l z) (Lines f None l) z o z'
   <-> run F code (by_statement F [] code f l z) (Lines f None l) z o z').
Proof.
  intros E P find conf code DS i f l s F z o z' OP A B G C D R O H. destruct (C93_session _ _ _ _ _ _ OP B G) as [u [Hu Bu]].
  pose proof (but_orderly _ _ _ _ _ Bu O) as O'. destruct Bu as [x [y ->]].
  eapply C99_more_partial; [|exact R|exact O'|exact H]. constructor; [exact A|eexists; exact Hu|exact C|exact D].
Qed.
Theorem C99_default_module_more_partial : forall E P find conf code DS implies name s F z o z', order_of_set P -> running E find conf -> default_session E P DS implies conf s ->
  ordinary (s_graph s) -> in_graph s name -> modular s name -> coded E find code -> at_rest (kept find conf) code z -> orderly find conf s (RunModule name) ->
  includes_bundle s (RunModule name) find conf F ->
  (run (kept find conf) code (by_statement find conf code name [] z) (Import name) z o z'
   <-> run F code (by_statement F [] code name [] z) (Import name) z o z').
Proof.
  intros E P find conf code DS i name s F z o z' OP A B G C C' D R O H. destruct (C93_session _ _ _ _ _ _ OP B G) as [u [Hu Bu]].
  pose proof (but_orderly _ _ _ _ _ Bu O) as O'. destruct Bu as [x [y ->]].
  eapply C99_module_more_partial; [exact A|exact Hu|exact C|exact C'|exact D|exact R|exact O'|exact H].
Qed.

(** The copy that has nothing else. *)
Theorem C99_partial : forall E find conf code DS f l s F z o z', executed E find conf code DS f l s -> at_rest (kept find conf) code z ->
  orderly find conf s (RunScript f) -> bundle_of s (RunScript f) find F ->
  (run (kept find conf) code (by_statement find conf code f l z) (Lines f None l) z o z'
   <-> run F code (by_statement F [] code f l z) (Lines f None l) z o z').
Proof.
  intros E find conf code DS f l s F z o z' X R O H. pose proof X as [A (i & B) _ _]. eapply C99_more_partial; try eassumption. eapply bundle_includes; eassumption.
Qed.
Theorem C99_module_partial : forall E find conf code DS implies name s F z o z', running E find conf -> dsession E DS implies conf s ->
  in_graph s name -> modular s name -> coded E find code -> at_rest (kept find conf) code z -> orderly find conf s (RunModule name) ->
  bundle_of s (RunModule name) find F ->
  (run (kept find conf) code (by_statement find conf code name [] z) (Import name) z o z'
   <-> run F code (by_statement F [] code name [] z) (Import name) z o z').
Proof.
  intros E find conf code DS i name s F z o z' A B C C' D R O H. eapply C99_module_more_partial; try eassumption. eapply bundle_includes; eassumption.
Qed.
Theorem C99_default_partial : forall E P find conf code DS implies f l s F z o z', order_of_set P -> running E find conf -> default_session E P DS implies conf s ->
  ordinary (s_graph s) -> kind_of s f = Some Script -> assembled E find code f l -> at_rest (kept find conf) code z -> orderly find conf s (RunScript f) ->
  bundle_of s (RunScript f) find F ->
  (run (kept find conf) code (by_statement find conf code f l z) (Lines f None l) z o z'
   <-> run F code (by_statement F [] code f l z) (Lines f None l) z o z').
Proof.
  intros E P find conf code DS i f l s F z o z' OP A B G C D R O H. destruct (C93_session _ _ _ _ _ _ OP B G) as [u [Hu Bu]].
  eapply C99_default_more_partial; try eassumption. destruct Bu as [x [y ->]]. exact (bundle_includes E find DS i conf _ (RunScript f) F A Hu H).
Qed.
Theorem C99_default_module_partial : forall E P find conf code DS implies name s F z o z', order_of_set P -> running E find conf -> default_session E P DS implies conf s ->
  ordinary (s_graph s) -> in_graph s name -> modular s name -> coded E find code -> at_rest (kept find conf) code z -> orderly find conf s (RunModule name) ->
  bundle_of s (RunModule name) find F ->
  (run (kept find conf) code (by_statement find conf code name [] z) (Import name) z o z'
   <-> run F code (by_statement F [] code name [] z) (Import name) z o z').
Proof.
  intros E P find conf code DS i name s F z o z' OP A B G C C' D R O H. destruct (C93_session _ _ _ _ _ _ OP B G) as [u [Hu Bu]].
  eapply C99_default_module_more_partial; try eassumption. destruct Bu as [x [y ->]]. exact (bundle_includes E find DS i conf _ (RunModule name) F A Hu H).
Qed.

(** ** Examples *)

(** The modules of a list. *)
Definition only (ns : list string) (find : string -> option spec) (x : string) : option spec := if memb x ns then find x else None.
Lemma only_bundle ns s p find : (forall x, In x ns -> covered s p x) -> (forall n, In n (g_nodes (s_graph s)) -> real (n_kind n) = true -> In (n_name n) ns) -> bundle_of s p find (only ns find).
Proof.
  intros A B x sp. unfold only. destruct (memb x ns) eqn:M.
  - apply memb_In in M. split; [intros H; split; [now apply A|exact H]|now intros [_ H]].
  - split; [discriminate|]. intros [[(n & G & R) _] _]. apply gfind_in in G as [G <-]. exfalso. apply B in G; [|exact R]. apply memb_In in G. congruence.
Qed.
Definition edge_in (g : graph) (a b : string) : bool := existsb (fun e => seqb (fst (fst e)) a && seqb (snd (fst e)) b && match snd e with [] => false | _ => true end) (g_edges g).
Lemma edge_leads g a b c : leads g a b -> edge_in g b c = true -> leads g a c.
Proof.
  intros H K. apply existsb_exists in K as ([[x y] ds] & I & K). cbn in K. apply andb_true_iff in K as [K D]. apply andb_true_iff in K as [K1 K2].
  apply seqb_eq in K1, K2. subst x y. destruct ds as [|d ds]; [discriminate D|]. eapply le_edge; [exact H|]. exists (d :: ds). split; [exact I|now left].
Qed.
Ltac all_names := intros n H; vm_compute in H; repeat (destruct H as [<-|H]; [vm_compute; intros K; first [discriminate K|tauto]|]); destruct H.
Lemma cond_bundle : bundle_of cond_graph (RunScript "main.py") (found_in (entries cond_program)) (only ["q"; "json"] (found_in (entries cond_program))).
Proof.
  apply only_bundle; [|all_names]. assert (Q : leads (s_graph cond_graph) "main.py" "q") by (eapply edge_leads; [apply le_self|reflexivity]).
  intros x [<-|[<-|[]]]; (split; [eexists; split; reflexivity|]); [exact Q|]. eapply edge_leads; [exact Q|reflexivity].
Qed.
Theorem C99_refuted : ~ C99_statement.
Proof.
  intros H. destruct (H (program_world cond_program cond_script) (found_in (entries cond_program)) main_conf (code_in cond_program) (fun _ => False) "main.py" cond_script cond_graph
    (only ["q"; "json"] (found_in (entries cond_program))) (Mods [] [] [] []) Next (Mods ["q.name"; "q"] [] [] [])) as [K _].
  - eapply program_executed; vm_compute; reflexivity.
  - apply rest_new.
  - exact cond_bundle.
  - specialize (K cond_run). apply run_inv in K as [K _]; [|now constructor|exact Logic.I]. apply (v_found _ _ _ K "q.name"); [now left|reflexivity].
Qed.

(** The bundle of the program of C98 has four modules; its run fails at the same place. *)
Definition lazy_only : string -> option spec := only ["pkg"; "pkg.sub"; "pkg.late"; "os"] (found_in (entries lazy_program)).
Lemma lazy_bundle : bundle_of lazy_graph (RunScript "main.py") (found_in (entries lazy_program)) lazy_only.
Proof.
  apply only_bundle; [|all_names]. assert (Q : leads (s_graph lazy_graph) "main.py" "pkg") by (eapply edge_leads; [apply le_self|reflexivity]).
  assert (Q2 : leads (s_graph lazy_graph) "main.py" "pkg.sub") by (eapply edge_leads; [apply le_self|reflexivity]).
  intros x [<-|[<-|[<-|[<-|[]]]]]; (split; [eexists; split; reflexivity|]); [exact Q|exact Q2|eapply edge_leads; [exact Q2|reflexivity]|eapply edge_leads; [exact Q|reflexivity]].
Qed.
Example C99_nonvacuous : exists z',
  executed (program_world lazy_program lazy_script) (found_in (entries lazy_program)) main_conf (code_in lazy_program) (fun _ => False) "main.py" lazy_script lazy_graph
  /\ at_rest (kept (found_in (entries lazy_program)) main_conf) (code_in lazy_program) (Mods ["os"] [] [] []) /\ orderly (found_in (entries lazy_program)) main_conf lazy_graph (RunScript "main.py")
  /\ bundle_of lazy_graph (RunScript "main.py") (found_in (entries lazy_program)) lazy_only
  /\ run lazy_only (code_in lazy_program) (by_statement lazy_only [] (code_in lazy_program) "main.py" lazy_script (Mods ["os"] [] [] []))
       (Lines "main.py" None lazy_script) (Mods ["os"] [] [] []) Raise z'
  /\ loaded z' = ["pkg.sub"; "pkg"; "os"] /\ failed z' = ["pkg.late"].
Proof.
  destruct C98_nonvacuous as (z' & A & B & C & D & G). exists z'. split; [exact A|]. split; [exact B|]. split; [exact C|]. split; [exact lazy_bundle|]. split; [|exact G].
  apply (C99_partial _ _ _ _ _ _ _ _ lazy_only _ _ _ A B C lazy_bundle). exact D.
Qed.
Example C99_more_nonvacuous : includes_bundle lazy_graph (RunScript "main.py") (found_in (entries lazy_program)) main_conf lazy_only.
Proof. destruct C98_nonvacuous as (_ & [A (i & B) _ _] & _). exact (bundle_includes _ _ _ _ _ _ _ _ A B lazy_bundle). Qed.

Print Assumptions C99_more_partial.
Print Assumptions C99_partial.
Print Assumptions C99_module_more_partial.
Print Assumptions C99_module_partial.
Print Assumptions C99_default_more_partial.
Print Assumptions C99_default_partial.
Print Assumptions C99_default_module_more_partial.
Print Assumptions C99_default_module_partial.
Print Assumptions C99_refuted.
