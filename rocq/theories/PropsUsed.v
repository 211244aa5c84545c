(** C101: the distributions of all that a run loads are reported. *)
From Verif Require Import ReportSpec BuilderSource BuilderHist BuilderInv BuilderCalls World AstProofs PropsBuilder PropsCalls PropsHooks PropsRoots PropsSource PropsReach SeedSpec BuilderSame PropsLoad PropsNeed PropsSame PropsSeed MoreSpec PropsMore BuilderRest PropsRest PropsDefault PropsLoad PropsSame AttrSpec BuilderAttr PropsReport PropsBundle MustSpec PropsMust WithinSpec PropsWithin UsedSpec.
Open Scope string_scope.

(** The node of a module has the distribution of the file of the module. *)
Lemma real_dist E find DS implies conf s x n sp file d t : running E find conf -> dsession E DS implies conf s -> gfind (s_graph s) x = Some n -> real (n_kind n) = true ->
  find x = Some sp -> loaded_from sp file -> e_dist_for_file E t file = ROk (Some d) -> n_dist n = Some d.
Proof.
  intros [A _ _ B C] H G R F (O & L) D. pose proof (w_inv _ _ _ _ _ (one_JW E find implies conf A B C s H)) as W.
  destruct (j_nodes _ _ _ _ _ W _ _ G) as (n0 & l & _ & K & S). destruct S as (S1 & S2 & _ & S4 & _). rewrite S2 in R. rewrite S4.
  destruct K as [t0 tr b A1 B1|d0 A1 B1|A1|c' k' A1 B1 C1 D1|i' k' A1 B1 C1|A1 B1 C1|sp' n0 b k' s1 s2 A1 B1 C1 D1]; cbn [n_kind plain_node] in R; try discriminate R.
  - destruct k'; discriminate.
  - destruct i'; try discriminate C1; injection C1 as <-; discriminate R.
  - assert (sp' = sp) as -> by congruence.
    assert (N : n_name n0 = x) by (apply gfind_in in G as [_ G]; congruence).
    assert (I : forall sp', importable E sp' -> sp_name sp' = n_name n0 -> sp' = sp).
    { intros sp' (t' & f' & y & I) I'. destruct (find y) as [sy|] eqn:Ey.
      - rewrite (sy_some _ _ B t' f' y sy Ey) in I. injection I as <-. rewrite (sy_name _ _ B y sy Ey) in I'. congruence.
      - destruct (sy_none _ _ B t' f' y Ey) as [X|[X|X]]; rewrite X in I; discriminate I. }
    destruct (nfs_attrs E k' sp s1 n0 b s2) as [X _]; [exists 0, [], x; apply (sy_some _ _ B _ _ _ _ C1)|exact D1|].
    assert (SF : spec_file sp = Some file).
    { unfold spec_file. destruct L as [->|(src & code & ->)]; exact O. }
    assert (T : forall d', dist_told E (spec_file sp) d' -> d' = Some d).
    { rewrite SF. intros d' (t' & X'). rewrite (sy_dist _ _ B t' t) in X'. congruence. }
    destruct X as [X1 X2 X3|sp2 X1 X2 X3 X4|X1 (sp2 & X2 & X3 & X4)|sp2 mk X1 X2 X3 X4 X5 X6 X7|sp2 mk ty X1 X2 X3 X4 X5 X6 X7].
    + exfalso. unfold code_kind in X1. destruct (n_kind n0); discriminate || contradiction.
    + rewrite (I sp2 X2 X3) in X4. exfalso. destruct L as [L|(src & code & L)]; rewrite L in X4; destruct X4; discriminate.
    + rewrite (I sp2 X2 X3) in X4. exfalso. destruct L as [L|(src & code & L)]; rewrite L in X4; discriminate.
    + rewrite (I sp2 X2 X3) in X7. now apply T.
    + rewrite (I sp2 X2 X3) in X7. now apply T.
Qed.
Lemma used_reported E find DS implies conf s p x sp file d t l : running E find conf -> dsession E DS implies conf s -> In (started p) (g_roots (s_graph s)) ->
  covered s p x -> find x = Some sp -> loaded_from sp file -> e_dist_for_file E t file = ROk (Some d) -> looked_at (s_graph s) l ->
  In (dist_identifier d) (map dist_identifier (distributions l)).
Proof.
  intros A B Hr [(n & G & R) HL] F L D HV. pose proof (real_dist E find DS implies conf s x n sp file d t A B G R F L D) as Hd.
  destruct (distributions_spec l []) as (_ & _ & X). destruct (X d) as [[]|X']; [|exact X']. exists n.
  split; [|split; [intros K; rewrite K in R; discriminate R|exact Hd]]. pose proof (gfind_in _ _ _ G) as [G1 G2]. destruct HV as [T| ->]; [|exact G1].
  apply (tr_all _ _ T). split; [exact G1|]. rewrite G2. eapply PropsLoad.leads_reaches; eassumption.
Qed.

(** ** Theorems *)

(** Each distribution that has a file of a module which the run loads, or begins to
    load, is among the distributions of the graph. *)
Definition C101_statement : Prop := forall E find conf code DS f l s z o z', executed E find conf code DS f l s -> In f (g_roots (s_graph s)) -> at_rest (kept find conf) code z ->
  run (kept find conf) code (by_statement find conf code f l z) (Lines f None l) z o z' ->
  forall x sp file d t ns, In x (loaded z') \/ In x (failed z') -> ~ In x (loaded z) -> find x = Some sp -> loaded_from sp file -> e_dist_for_file E t file = ROk (Some d) ->
  looked_at (s_graph s) ns -> In (dist_identifier d) (map dist_identifier (distributions ns)).

Theorem C101_partial : forall E find conf code DS f l s z o z', executed E find conf code DS f l s -> In f (g_roots (s_graph s)) -> at_rest (kept find conf) code z ->
  orderly find conf s (RunScript f) ->
  run (kept find conf) code (by_statement find conf code f l z) (Lines f None l) z o z' ->
  forall x sp file d t ns, In x (loaded z') \/ In x (failed z') -> ~ In x (loaded z) -> find x = Some sp -> loaded_from sp file -> e_dist_for_file E t file = ROk (Some d) ->
  looked_at (s_graph s) ns -> In (dist_identifier d) (map dist_identifier (distributions ns)).
Proof.
  intros E find conf code DS f l s z o z' X Hr R O H x sp file d t ns Hx Hz F L D V.
  destruct (C98_partial E find conf code DS f l s z o z' X R O H x Hx) as [K|K]; [contradiction|]. destruct X as [A (i & B) C W].
  exact (used_reported E find DS i conf s (RunScript f) x sp file d t ns A B Hr K F L D V).
Qed.
Theorem C101_module_partial : forall E find conf code DS implies name s z o z', running E find conf -> dsession E DS implies conf s ->
  in_graph s name -> modular s name -> In name (g_roots (s_graph s)) -> coded E find code -> at_rest (kept find conf) code z -> orderly find conf s (RunModule name) ->
  run (kept find conf) code (by_statement find conf code name [] z) (Import name) z o z' ->
  forall x sp file d t ns, In x (loaded z') \/ In x (failed z') -> ~ In x (loaded z) -> find x = Some sp -> loaded_from sp file -> e_dist_for_file E t file = ROk (Some d) ->
  looked_at (s_graph s) ns -> In (dist_identifier d) (map dist_identifier (distributions ns)).
Proof.
  intros E find conf code DS i name s z o z' A B C C' Hr W R O H x sp file d t ns Hx Hz F L D V.
  destruct (C98_module_partial E find conf code DS i name s z o z' A B C C' W R O H x Hx) as [K|K]; [contradiction|].
  exact (used_reported E find DS i conf s (RunModule name) x sp file d t ns A B Hr K F L D V).
Qed.
Theorem C101_default_partial : forall E P find conf code DS implies f l s z o z', order_of_set P -> running E find conf -> default_session E P DS implies conf s ->
  ordinary (s_graph s) -> kind_of s f = Some Script -> In f (g_roots (s_graph s)) -> assembled E find code f l -> at_rest (kept find conf) code z -> orderly find conf s (RunScript f) ->
  run (kept find conf) code (by_statement find conf code f l z) (Lines f None l) z o z' ->
  forall x sp file d t ns, In x (loaded z') \/ In x (failed z') -> ~ In x (loaded z) -> find x = Some sp -> loaded_from sp file -> e_dist_for_file E t file = ROk (Some d) ->
  looked_at (s_graph s) ns -> In (dist_identifier d) (map dist_identifier (distributions ns)).
Proof.
  intros E P find conf code DS i f l s z o z' OP A B G C Hr W R O H. destruct (C93_session _ _ _ _ _ _ OP B G) as [u [Hu Bu]].
  pose proof (but_orderly _ _ _ _ _ Bu O) as O'. destruct Bu as [x [y ->]].
  eapply (C101_partial E find conf code DS f l (set_missing (set_post s x) y) z o z'); [|exact Hr|exact R|exact O'|exact H]. constructor; [exact A|eexists; exact Hu|exact C|exact W].
Qed.
Theorem C101_default_module_partial : forall E P find conf code DS implies name s z o z', order_of_set P -> running E find conf -> default_session E P DS implies conf s ->
  ordinary (s_graph s) -> in_graph s name -> modular s name -> In name (g_roots (s_graph s)) -> coded E find code -> at_rest (kept find conf) code z -> orderly find conf s (RunModule name) ->
  run (kept find conf) code (by_statement find conf code name [] z) (Import name) z o z' ->
  forall x sp file d t ns, In x (loaded z') \/ In x (failed z') -> ~ In x (loaded z) -> find x = Some sp -> loaded_from sp file -> e_dist_for_file E t file = ROk (Some d) ->
  looked_at (s_graph s) ns -> In (dist_identifier d) (map dist_identifier (distributions ns)).
Proof.
  intros E P find conf code DS i name s z o z' OP A B G C C' Hr W R O H. destruct (C93_session _ _ _ _ _ _ OP B G) as [u [Hu Bu]].
  pose proof (but_orderly _ _ _ _ _ Bu O) as O'. destruct Bu as [x [y ->]].
  exact (C101_module_partial E find conf code DS i name (set_missing (set_post s x) y) z o z' A Hu C C' Hr W R O' H).
Qed.

(** ** Examples *)

(** The world of a program, in which files belong to distributions. *)
Definition dist_world (w : PropsMust.program) (l : list piece) (h : string -> option dist) : env :=
  let E := program_world w l in
  Env (e_find_spec E) (e_sysmod E) (fun _ f => ROk (h f)) (e_dist_named E) (e_parse E) (e_script E) (e_import E) (e_location E) (e_suffixes E) (e_glob_py E)
    (e_subdirs E) (e_is_file E) (e_read E) (e_parent E) (e_isidentifier E) (e_names_order E) (e_order E) (e_ge311 E).
Lemma dist_world_executed w l h s anss : assoc "@@SIX_MOVES@@" w = None -> calls (dist_world w l h) 60 [AAddScript "main.py"] new = Some (anss, s) -> forallb fine_answer anss = true ->
  kind_of s "main.py" = Some Script -> executed (dist_world w l h) (found_in (entries w)) main_conf (code_in w) (fun _ => False) "main.py" l s.
Proof.
  intros H6 C F K. pose proof (program_running w l H6) as [A1 A2 A3 A4 A5]. constructor.
  - constructor; [exact A1|exact A2|exact A3| |exact A5]. destruct A4 as [B1 B2 B3 B4 B5 B6 B7 B8 B9 B10]. constructor; try assumption. reflexivity.
  - eexists. eapply (calls_session _ _ _ 60 [AAddScript "main.py"]); [apply new_session|reflexivity|exact C|exact F].
  - exact K.
  - destruct (written_assembled _ _ _ _ _ (program_written w l)) as [W1 W2]. constructor; [exact W1|exact W2].
Qed.
Definition dist_x : dist := Dist 1 "x" "x" "1.0" ["q.name.py"; "pkg.late.py"] [].
Definition dist_y : dist := Dist 2 "y" "y" "1.0" ["pkg/__init__.py"] [].
Definition owner (f : string) : option dist := if memb f (dist_files dist_x) then Some dist_x else if memb f (dist_files dist_y) then Some dist_y else None.
Definition dist_cond : st := Eval vm_compute in match calls (dist_world cond_program cond_script owner) 60 [AAddScript "main.py"] new with Some (_, s) => s | None => new end.
Theorem C101_refuted : ~ C101_statement.
Proof.
  intros H. specialize (H (dist_world cond_program cond_script owner) (found_in (entries cond_program)) main_conf (code_in cond_program) (fun _ => False) "main.py" cond_script dist_cond
    (Mods [] [] [] []) Next (Mods ["q.name"; "q"] [] [] [])).
  refine (_ (H _ _ (rest_new _ _) cond_run "q.name" _ "q.name.py" dist_x 0 (g_nodes (s_graph dist_cond)) _ _ eq_refl _ eq_refl (or_intror eq_refl))).
  - vm_compute. intros [].
  - eapply dist_world_executed; vm_compute; reflexivity.
  - now left.
  - left. now left.
  - intros [].
  - split; [reflexivity|]. right. eexists _, _. reflexivity.
Qed.

Definition dist_lazy : st := Eval vm_compute in match calls (dist_world lazy_program lazy_script owner) 60 [AAddScript "main.py"] new with Some (_, s) => s | None => new end.
(** The run fails while it loads pkg.late, which is part of a distribution. *)
Example C101_nonvacuous : exists z',
  executed (dist_world lazy_program lazy_script owner) (found_in (entries lazy_program)) main_conf (code_in lazy_program) (fun _ => False) "main.py" lazy_script dist_lazy
  /\ In "main.py" (g_roots (s_graph dist_lazy)) /\ orderly (found_in (entries lazy_program)) main_conf dist_lazy (RunScript "main.py")
  /\ at_rest (kept (found_in (entries lazy_program)) main_conf) (code_in lazy_program) (Mods ["os"] [] [] [])
  /\ run (kept (found_in (entries lazy_program)) main_conf) (code_in lazy_program) (by_statement (found_in (entries lazy_program)) main_conf (code_in lazy_program) "main.py" lazy_script (Mods ["os"] [] [] []))
       (Lines "main.py" None lazy_script) (Mods ["os"] [] [] []) MustSpec.Raise z'
  /\ failed z' = ["pkg.late"] /\ owner "pkg.late.py" = Some dist_x /\ map dist_identifier (distributions (g_nodes (s_graph dist_lazy))) <> [].
Proof.
  destruct C98_nonvacuous as (z' & _ & A & _ & B & _ & C). exists z'. split; [eapply dist_world_executed; vm_compute; reflexivity|]. split; [now left|].
  split; [|split; [exact A|split; [exact B|split; [exact C|split; [reflexivity|vm_compute; discriminate]]]]].
  constructor.
  - now apply tidy_bool.
  - intros m nd x t A' B' C' K. exfalso. apply gfind_in in A' as [A' <-]. vm_compute in A'.
    repeat (destruct A' as [<-|A']; [cbn in B'; repeat (destruct B' as [<-|B']; [inversion C' as [? ? C1]; discriminate C1|]); destruct B'|]). destruct A'.
  - intros m x id (nd & (a & i & y & _ & _ & _ & A' & _) & B' & _) _. apply gfind_in in A' as [A' _]. vm_compute in A'.
    repeat (destruct A' as [<-|A']; [destruct B' as [G B']; try discriminate G; destruct B' as [[]|(b & k & ff & ty & t & B' & _)]; discriminate B'|]). destruct A'.
  - intros a f d (ds & K & _). vm_compute in K. repeat (destruct K as [K|K]; [injection K as <- <- <-; vm_compute; split; discriminate|]). destruct K.
Qed.

Print Assumptions C101_partial.
Print Assumptions C101_module_partial.
Print Assumptions C101_default_partial.
Print Assumptions C101_default_module_partial.
Print Assumptions C101_refuted.
