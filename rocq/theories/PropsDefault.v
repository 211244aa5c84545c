(** C93: what is proved for graphs without hooks holds for default graphs. *)
From Verif Require Import BuilderRest PropsRest PropsIdle.
From Verif Require Import World PropsLoad PropsNeed PropsSame PropsExclude PropsImply PropsText PropsSeed PropsOther PropsNext.
From Verif Require Import BuilderHist BuilderSame SameSpec LoadSpec NeedSpec ReachSpec BuilderSpec ExcludeSpec ImplySpec TextSpec SeedSpec OtherSpec NextSpec.
Open Scope string_scope.

Section sessions.
  Variable E : env.
  Variable P : paths.
  Hypothesis HP : order_of_set P.

  Lemma default_opened implies s : default_opening E P implies s -> ordinary (s_graph s) -> exists s', opening E implies s' /\ side P s s'.
  Proof.
    induction 1 as [|s n names ans s' _ IH H He|s n l ans s' _ IH H He]; intros Hg.
    - eexists. split; [apply op_init|apply side_init].
    - destruct IH as [u [Ou Su]]; [eapply ordinary_grow; [eapply call_grow; exact H|exact Hg]|].
      destruct (side_call E P HP _ _ _ _ _ _ Su H Hg) as [v [Hv Sv]]. exists v. split; [eapply op_exclude; eassumption|exact Sv].
    - destruct IH as [u [Ou Su]]; [eapply ordinary_grow; [eapply call_grow; exact H|exact Hg]|].
      destruct (side_call E P HP _ _ _ _ _ _ Su H Hg) as [v [Hv Sv]]. exists v. split; [eapply op_imply; eassumption|exact Sv].
  Qed.
  Lemma default_sessions DS implies conf s : default_session E P DS implies conf s -> ordinary (s_graph s) -> exists s', dsession E DS implies conf s' /\ side P s s'.
  Proof.
    induction 1 as [s Ho Hl|s n a ans s' _ IH Ha H He]; intros Hg.
    - destruct (default_opened _ _ Ho Hg) as [u [Ou Su]]. exists u. split; [|exact Su]. apply ds_open; [exact Ou|].
      destruct Su as [p [m [-> _]]]. exact Hl.
    - destruct IH as [u [Ou Su]]; [eapply ordinary_grow; [eapply call_grow; exact H|exact Hg]|].
      destruct (side_call E P HP _ _ _ _ _ _ Su H Hg) as [v [Hv Sv]]. exists v. split; [eapply ds_call; eassumption|exact Sv].
  Qed.
End sessions.

(** The same session without hooks. *)
Theorem C93_session E P DS implies conf s : order_of_set P -> default_session E P DS implies conf s -> ordinary (s_graph s) ->
  exists s', dsession E DS implies conf s' /\ but_hooks s s'.
Proof. intros HP H Hg. destruct (default_sessions E P HP DS implies conf s H Hg) as [u [Hu Su]]. exists u. split; [exact Hu|eapply side_but; exact Su]. Qed.

(** ** Conditions do not look at the hooks *)
Lemma but_tidy s s' : but_hooks s s' -> tidy s -> tidy s'.
Proof. intros [p [m ->]] H. exact H. Qed.
Lemma but_orderly find conf s s' r : but_hooks s s' -> orderly find conf s r -> orderly find conf s' r.
Proof. intros [p [m ->]] [A B C D]. constructor; [exact A|exact B|exact C|exact D]. Qed.
Lemma but_plausible E find s s' r : but_hooks s s' -> plausible E find s r -> plausible E find s' r.
Proof. intros [p [m ->]] [A B C D]. constructor; [exact A|exact B|exact C|exact D]. Qed.
Lemma but_settled E find s s' : but_hooks s s' -> settled E find s -> settled E find s'.
Proof. intros [p [m ->]] [A B C D]. constructor; [exact A|exact B|exact C|exact D]. Qed.

(** ** C75 and C76 *)
Theorem C75_default_partial : forall E P find DS implies conf s p t, order_of_set P -> running E find conf -> default_session E P DS implies conf s ->
  ordinary (s_graph s) -> begun_with s p -> orderly find conf s p -> loads E find conf p t -> covered s p t.
Proof.
  intros E P find DS implies conf s p t HP HR HS Hg HB HO HL. destruct (C93_session _ _ _ _ _ _ HP HS Hg) as [u [Hu Bu]].
  pose proof (but_orderly _ _ _ _ _ Bu HO) as HO'. destruct Bu as [x [y ->]].
  exact (C75_partial E find DS implies conf _ p t HR Hu HB HO' HL).
Qed.
Theorem C76_default_partial : forall E P find DS implies conf s p t, order_of_set P -> running E find conf -> default_session E P DS implies conf s ->
  ordinary (s_graph s) -> begun_with s p -> plausible E find s p -> LoadSpec.leads (s_graph s) (started p) t -> t = started p \/ needs E find conf p t.
Proof.
  intros E P find DS implies conf s p t HP HR HS Hg HB HO HL. destruct (C93_session _ _ _ _ _ _ HP HS Hg) as [u [Hu Bu]].
  pose proof (but_plausible _ _ _ _ _ Bu HO) as HO'. destruct Bu as [x [y ->]].
  exact (C76_partial E find DS implies conf _ p t HR Hu HB HO' HL).
Qed.
Theorem C76_default_exact_partial : forall E P find DS implies conf s p, order_of_set P -> running E find conf -> default_session E P DS implies conf s ->
  ordinary (s_graph s) -> begun_with s p -> orderly find conf s p -> plausible E find s p -> unconfigured find conf ->
  forall t, covered s p t <-> loads E find conf p t.
Proof.
  intros E P find DS implies conf s p HP HR HS Hg HB HO HL HU t. destruct (C93_session _ _ _ _ _ _ HP HS Hg) as [u [Hu Bu]].
  pose proof (but_orderly _ _ _ _ _ Bu HO) as HO'. pose proof (but_plausible _ _ _ _ _ Bu HL) as HL'. destruct Bu as [x [y ->]].
  exact (C76_exact_partial E find DS implies conf _ p HR Hu HB HO' HL' HU t).
Qed.

(** ** C66, C84 and C89 *)
Record default_twins (E : env) (P : paths) (find : string -> option spec) (DS : dist -> Prop) (table : Prop) (conf1 conf2 : list (string * implied)) (s1 s2 : st) : Prop := {
  dt_order : order_ok E;
  dt_set : order_of_set P;
  dt_env : steady E find;
  dt_table : table;
  dt_names : forall x i, assoc x conf1 = Some i \/ assoc x conf2 = Some i -> starts_with "." x = false;
  dt_dists : one_each DS;
  dt_first : exists implies, default_session E P DS implies conf1 s1;
  dt_second : exists implies, default_session E P DS implies conf2 s2;
  dt_ordinary1 : ordinary (s_graph s1);
  dt_ordinary2 : ordinary (s_graph s2);
  dt_scripts : same_scripts s1 s2
}.

Theorem C66_default_nodes_partial : forall E P find DS conf1 conf2 s1 s2, default_twins E P find DS (same_table conf1 conf2) conf1 conf2 s1 s2 ->
  forall x n n', gfind (s_graph s1) x = Some n -> gfind (s_graph s2) x = Some n' -> SameSpec.alike n n'
    /\ forall l, In (EvAdd x l) (s_log s1) <-> In (EvAdd x l) (s_log s2).
Proof.
  intros E P find DS conf1 conf2 s1 s2 [A HP B C D HD (i1 & F) (i2 & G) O1 O2 H] x n n' Hn Hn'.
  destruct (C93_session _ _ _ _ _ _ HP F O1) as [u1 [F' B1]]. destruct (C93_session _ _ _ _ _ _ HP G O2) as [u2 [G' B2]].
  destruct B1 as [p1 [m1 ->]]. destruct B2 as [p2 [m2 ->]].
  refine (C66_nodes_partial E find DS conf1 conf2 (set_missing (set_post s1 p1) m1) (set_missing (set_post s2 p2) m2) _ x n n' Hn Hn'). constructor; [exact A|exact B|exact C|intros y i Hy; eapply D; left; exact Hy|exact HD|now exists i1|now exists i2|exact H].
Qed.
Theorem C66_default_more_partial : forall E P find DS conf1 conf2 s1 s2, default_twins E P find DS (same_table conf1 conf2) conf1 conf2 s1 s2 ->
  settled E find s1 -> settled E find s2 -> (forall x, In x (g_roots (s_graph s1)) -> In x (g_roots (s_graph s2))) ->
  reported_within (s_graph s1) (s_graph s2).
Proof.
  intros E P find DS conf1 conf2 s1 s2 [A HP B C D HD (i1 & F) (i2 & G) O1 O2 H] Z1 Z2 HR.
  destruct (C93_session _ _ _ _ _ _ HP F O1) as [u1 [F' B1]]. destruct (C93_session _ _ _ _ _ _ HP G O2) as [u2 [G' B2]].
  pose proof (but_settled _ _ _ _ B1 Z1) as Z1'. pose proof (but_settled _ _ _ _ B2 Z2) as Z2'. destruct B1 as [p1 [m1 ->]]. destruct B2 as [p2 [m2 ->]].
  refine (C66_more_partial E find DS conf1 conf2 (set_missing (set_post s1 p1) m1) (set_missing (set_post s2 p2) m2) _ Z1' Z2' HR). constructor; [exact A|exact B|exact C|intros y i Hy; eapply D; left; exact Hy|exact HD|now exists i1|now exists i2|exact H].
Qed.
Theorem C84_default_less_partial : forall E P find DS conf1 conf2 s1 s2, default_twins E P find DS (more_excluded conf1 conf2) conf1 conf2 s1 s2 ->
  settled E find s1 -> settled E find s2 -> (forall x, In x (g_roots (s_graph s1)) -> In x (g_roots (s_graph s2))) ->
  only_less (s_graph s1) (s_graph s2).
Proof.
  intros E P find DS conf1 conf2 s1 s2 [A HP B C D HD (i1 & F) (i2 & G) O1 O2 H] Z1 Z2 HR.
  destruct (C93_session _ _ _ _ _ _ HP F O1) as [u1 [F' B1]]. destruct (C93_session _ _ _ _ _ _ HP G O2) as [u2 [G' B2]].
  pose proof (but_settled _ _ _ _ B1 Z1) as Z1'. pose proof (but_settled _ _ _ _ B2 Z2) as Z2'. destruct B1 as [p1 [m1 ->]]. destruct B2 as [p2 [m2 ->]].
  refine (C84_less_partial E find DS conf1 conf2 (set_missing (set_post s1 p1) m1) (set_missing (set_post s2 p2) m2) _ Z1' Z2' HR). constructor; [exact A|exact B|exact C|exact D|exact HD|now exists i1|now exists i2|exact H].
Qed.
Theorem C84_default_rest_partial : forall E P find DS conf1 conf2 s1 s2, default_twins E P find DS (more_excluded conf1 conf2) conf1 conf2 s1 s2 ->
  settled E find s1 -> settled E find s2 -> (forall x, In x (g_roots (s_graph s2)) -> In x (g_roots (s_graph s1))) ->
  (forall x t, assoc x conf2 = Some (ImpAlias t) -> ~ out conf1 conf2 x) ->
  rest_kept (out conf1 conf2) (s_graph s2) (s_graph s1).
Proof.
  intros E P find DS conf1 conf2 s1 s2 [A HP B C D HD (i1 & F) (i2 & G) O1 O2 H] Z1 Z2 HR HA.
  destruct (C93_session _ _ _ _ _ _ HP F O1) as [u1 [F' B1]]. destruct (C93_session _ _ _ _ _ _ HP G O2) as [u2 [G' B2]].
  pose proof (but_settled _ _ _ _ B1 Z1) as Z1'. pose proof (but_settled _ _ _ _ B2 Z2) as Z2'. destruct B1 as [p1 [m1 ->]]. destruct B2 as [p2 [m2 ->]].
  refine (C84_rest_partial E find DS conf1 conf2 (set_missing (set_post s1 p1) m1) (set_missing (set_post s2 p2) m2) _ Z1' Z2' HR HA). constructor; [exact A|exact B|exact C|exact D|exact HD|now exists i1|now exists i2|exact H].
Qed.
Theorem C89_default_kept_partial : forall E P find DS conf1 conf2 s1 s2, default_twins E P find DS (more_refs conf1 conf2) conf1 conf2 s1 s2 ->
  settled E find s1 -> settled E find s2 -> (forall x, In x (g_roots (s_graph s1)) -> In x (g_roots (s_graph s2))) ->
  reported_within (s_graph s1) (s_graph s2).
Proof.
  intros E P find DS conf1 conf2 s1 s2 [A HP B C D HD (i1 & F) (i2 & G) O1 O2 H] Z1 Z2 HR.
  destruct (C93_session _ _ _ _ _ _ HP F O1) as [u1 [F' B1]]. destruct (C93_session _ _ _ _ _ _ HP G O2) as [u2 [G' B2]].
  pose proof (but_settled _ _ _ _ B1 Z1) as Z1'. pose proof (but_settled _ _ _ _ B2 Z2) as Z2'. destruct B1 as [p1 [m1 ->]]. destruct B2 as [p2 [m2 ->]].
  refine (C89_kept_partial E find DS conf1 conf2 (set_missing (set_post s1 p1) m1) (set_missing (set_post s2 p2) m2) _ Z1' Z2' HR). constructor; [exact A|exact B|exact C|exact D|exact HD|now exists i1|now exists i2|exact H].
Qed.
Theorem C89_default_added_partial : forall E P find DS conf1 conf2 s1 s2, default_twins E P find DS (more_refs conf1 conf2) conf1 conf2 s1 s2 ->
  settled E find s1 -> settled E find s2 -> same_roots s1 s2 -> only_refs (further conf1 conf2) (s_graph s1) (s_graph s2).
Proof.
  intros E P find DS conf1 conf2 s1 s2 [A HP B C D HD (i1 & F) (i2 & G) O1 O2 H] Z1 Z2 HR.
  destruct (C93_session _ _ _ _ _ _ HP F O1) as [u1 [F' B1]]. destruct (C93_session _ _ _ _ _ _ HP G O2) as [u2 [G' B2]].
  pose proof (but_settled _ _ _ _ B1 Z1) as Z1'. pose proof (but_settled _ _ _ _ B2 Z2) as Z2'. destruct B1 as [p1 [m1 ->]]. destruct B2 as [p2 [m2 ->]].
  refine (C89_added_partial E find DS conf1 conf2 (set_missing (set_post s1 p1) m1) (set_missing (set_post s2 p2) m2) _ Z1' Z2' HR). constructor; [exact A|exact B|exact C|exact D|exact HD|now exists i1|now exists i2|exact H].
Qed.

(** ** C80 *)
Theorem C80_default_partial : forall E P find DS implies conf s fuel src ans s' tree f t0, order_of_set P ->
  running E find conf -> unconfigured find conf -> packaged find -> default_session E P DS implies conf s ->
  top_call E fuel (AAddSource src) s = Some (ans, s') -> (forall e, ans <> AnsErr e) -> ordinary (s_graph s') ->
  e_parse E (s_clock s) "-source-code-" src = ROk tree -> e_script E t0 f = ROk tree -> absolute tree ->
  tidy s' -> scripts_apart s' -> (forall r, tree_names tree r -> modular s' r) -> text_orderly find conf s' tree ->
  forall t, text_covers s' tree t <-> loads E find conf (RunScript f) t.
Proof.
  intros E P find DS implies conf s fuel src ans s' tree f t0 HP HR HU HK HX HC Ha Hg Hp Ht HA T1 T2 T3 T4 t.
  destruct (default_sessions E P HP DS implies conf s HX) as [u [Hu Su]]; [eapply ordinary_grow; [eapply call_grow; exact HC|exact Hg]|].
  destruct (side_call E P HP _ _ _ _ _ _ Su HC Hg) as [u' [Hc' Su']].
  assert (T4' : text_orderly find conf u' tree).
  { intros r Hr Hk. apply (but_orderly _ _ s'); [eapply side_but; exact Su'|]. apply T4; [exact Hr|]. destruct Su' as [p [m [-> _]]]. exact Hk. }
  assert (Hp' : e_parse E (s_clock u) "-source-code-" src = ROk tree) by (destruct Su as [p [m [-> _]]]; exact Hp).
  destruct Su' as [p' [m' [-> _]]].
  exact (C80_partial E find DS implies conf u fuel src ans (BuilderIdle.hooked s' p' m') tree f t0 HR HU HK Hu Hc' Ha Hp' Ht HA T1 T2 T3 T4' t).
Qed.

(** ** C86 *)
Lemma calls_grow E fuel l : forall s anss t, calls E fuel l s = Some (anss, t) -> grow (s_graph s) (s_graph t).
Proof.
  induction l as [|a l IH]; intros s anss t H; cbn in H; [injection H as <- <-; apply grow_refl|].
  destruct (top_call E fuel a s) as [[x s1]|] eqn:E1; [|discriminate]. destruct (calls E fuel l s1) as [[xs s2]|] eqn:E2; [|discriminate]. injection H as <- <-.
  eapply grow_trans; [eapply call_grow; exact E1|eapply IH; exact E2].
Qed.
Lemma calls_off E P fuel l : order_of_set P -> forall s s' anss t, side P s s' -> calls E fuel l s = Some (anss, t) -> ordinary (s_graph t) ->
  exists t', calls E fuel l s' = Some (anss, t') /\ side P t t'.
Proof.
  intros HP. induction l as [|a l IH]; intros s s' anss t HR H Hg; cbn in H |- *; [injection H as <- <-; now exists s'|].
  destruct (top_call E fuel a s) as [[x s1]|] eqn:E1; [|discriminate]. destruct (calls E fuel l s1) as [[xs s2]|] eqn:E2; [|discriminate]. injection H as <- <-.
  destruct (side_call E P HP _ _ _ _ _ _ HR E1) as [u [Hu Su]]; [eapply ordinary_grow; [eapply calls_grow; exact E2|exact Hg]|].
  destruct (IH _ _ _ _ Su E2 Hg) as [v [Hv Sv]]. exists v. rewrite Hu, Hv. now split.
Qed.
Record default_seeds (E1 E2 : env) (P : paths) (find : string -> option spec) (DS : dist -> Prop) (implies : list (string * implied)) (s0 : st) (l : list action) (s1 s2 : st) : Prop := {
  de_env : reseeded E1 E2;
  de_set : order_of_set P;
  de_names1 : set_order (e_names_order E1);
  de_names2 : set_order (e_names_order E2);
  de_order1 : order_ok E1;
  de_order2 : order_ok E2;
  de_steady : steady E1 find;
  de_table : forall x i, assoc x (s_lazy s0) = Some i -> starts_with "." x = false;
  de_open1 : default_opening E1 P implies s0;
  de_open2 : default_opening E2 P implies s0;
  de_calls : Forall (fun a => root_action a \/ dist_action E1 DS a) l;
  de_dists : one_each DS;
  de_named : steady_dists E1;
  de_apart1 : dists_apart DS s1;
  de_apart2 : dists_apart DS s2;
  de_first : exists fuel anss, calls E1 fuel l s0 = Some (anss, s1) /\ Forall (fun a => ok_answer a = true) anss;
  de_second : exists fuel anss, calls E2 fuel l s0 = Some (anss, s2) /\ Forall (fun a => ok_answer a = true) anss;
  de_ordinary1 : ordinary (s_graph s1);
  de_ordinary2 : ordinary (s_graph s2)
}.
Lemma default_seeds_off E1 E2 P find DS implies s0 l s1 s2 : default_seeds E1 E2 P find DS implies s0 l s1 s2 ->
  exists u0 u1 u2, seeds E1 E2 find DS implies u0 l u1 u2 /\ but_hooks s1 u1 /\ but_hooks s2 u2.
Proof.
  intros [A HP B C D F G H I J K HD HN P1 P2 (f1 & a1 & L1 & L2) (f2 & a2 & M1 & M2) O1 O2].
  assert (O0 : ordinary (s_graph s0)) by (eapply ordinary_grow; [eapply calls_grow; exact L1|exact O1]).
  destruct (default_opened E1 P HP _ _ I O0) as [u0 [I' S0]]. destruct (default_opened E2 P HP _ _ J O0) as [u0' [J' S0']].
  rewrite (side_off _ _ _ _ S0 S0') in J'.
  destruct (calls_off E1 P f1 l HP _ _ _ _ S0 L1 O1) as [u1 [L1' S1]]. destruct (calls_off E2 P f2 l HP _ _ _ _ S0 M1 O2) as [u2 [M1' S2]].
  exists u0, u1, u2. apply side_but in S0. apply side_but in S1. apply side_but in S2. split; [|now split].
  destruct S0 as [p0 [m0 ->]]. destruct S1 as [p1 [m1 ->]]. destruct S2 as [p2 [m2 ->]].
  constructor; [exact A|exact B|exact C|exact D|exact F|exact G|exact H|exact I'|exact J'|exact K|exact HD|exact HN|exact P1|exact P2| |].
  - now exists f1, a1.
  - now exists f2, a2.
Qed.
Theorem C86_default_roots_partial : forall E1 E2 P find DS implies s0 l s1 s2, default_seeds E1 E2 P find DS implies s0 l s1 s2 -> same_roots s1 s2.
Proof.
  intros E1 E2 P find DS implies s0 l s1 s2 T. destruct (default_seeds_off _ _ _ _ _ _ _ _ _ _ T) as [u0 [u1 [u2 [T' [[p1 [m1 ->]] [p2 [m2 ->]]]]]]].
  exact (C86_roots_partial _ _ _ _ _ _ _ _ _ T').
Qed.
Theorem C86_default_partial : forall E1 E2 P find DS implies s0 l s1 s2, default_seeds E1 E2 P find DS implies s0 l s1 s2 ->
  plain_sources E1 -> same_scripts s1 s2 -> settled E1 find s1 -> settled E2 find s2 ->
  reported_within (s_graph s1) (s_graph s2).
Proof.
  intros E1 E2 P find DS implies s0 l s1 s2 T HS HQ Z1 Z2. destruct (default_seeds_off _ _ _ _ _ _ _ _ _ _ T) as [u0 [u1 [u2 [T' [B1 B2]]]]].
  pose proof (but_settled _ _ _ _ B1 Z1) as Z1'. pose proof (but_settled _ _ _ _ B2 Z2) as Z2'. destruct B1 as [p1 [m1 ->]]. destruct B2 as [p2 [m2 ->]].
  exact (C86_partial _ _ _ _ _ _ _ _ _ T' HS HQ Z1' Z2').
Qed.

(** ** C91 and C92 *)
Lemma fine_grow E l s t : calls_fine E l s t -> grow (s_graph s) (s_graph t).
Proof. induction 1 as [s|a l n ans s s1 t Ha Hc He Hl IH]; [apply grow_refl|]. eapply grow_trans; [eapply call_grow; exact Hc|exact IH]. Qed.
Lemma fine_off E P l s t : order_of_set P -> calls_fine E l s t -> forall s', side P s s' -> ordinary (s_graph t) -> exists t', calls_fine E l s' t' /\ side P t t'.
Proof.
  intros HP. induction 1 as [s|a l n ans s s1 t Ha Hc He Hl IH]; intros s' HR Hg; [exists s'; split; [constructor|exact HR]|].
  destruct (side_call E P HP _ _ _ _ _ _ HR Hc) as [u [Hu Su]]; [eapply ordinary_grow; [eapply fine_grow; exact Hl|exact Hg]|].
  destruct (IH _ Su Hg) as [v [Hv Sv]]. exists v. split; [econstructor; eassumption|exact Sv].
Qed.
Lemma fine_on E P l s' t' : order_of_set P -> calls_fine E l s' t' -> forall s, side P s s' -> ordinary (s_graph t') -> exists t, calls_fine E l s t /\ side P t t'.
Proof.
  intros HP. induction 1 as [s|a l n ans s s1 t Ha Hc He Hl IH]; intros s' HR Hg; [exists s'; split; [constructor|exact HR]|].
  destruct (side_call' E P HP _ _ _ _ _ _ HR Hc) as [k [u [Hu Su]]]; [eapply ordinary_grow; [eapply fine_grow; exact Hl|exact Hg]|].
  destruct (IH _ Su Hg) as [v [Hv Sv]]. exists v. split; [econstructor; eassumption|exact Sv].
Qed.
Theorem C91_default_partial E P finds dists conf l t : order_of_set P ->
  (forall t f name sp, e_find_spec E t f name = ROk (Some sp) -> direct (sp_loader sp) = true) ->
  calls_fine E l (init conf [mypyc_hook P] [swig_hook]) t -> ordinary (s_graph t) -> agree (named t) E finds dists ->
  calls_fine (with_finds E finds dists) l (init conf [mypyc_hook P] [swig_hook]) t.
Proof.
  intros HP HD Hc Hg HA. destruct (fine_off E P l _ _ HP Hc _ (side_init P conf) Hg) as [u [Hu Su]].
  assert (Gu : s_graph u = s_graph t) by (destruct Su as [p [m [-> _]]]; reflexivity).
  assert (HA' : agree (named u) E finds dists) by (destruct Su as [p [m [-> _]]]; exact HA).
  pose proof (C91_partial E finds dists conf l u HD Hu HA') as Hf.
  destruct (fine_on (with_finds E finds dists) P l _ _ HP Hf _ (side_init P conf)) as [v [Hv Sv]]; [now rewrite Gu|].
  now rewrite (side_on _ _ _ _ Su Sv) in Hv.
Qed.

Definition default_graph (P : paths) (conf : list (string * implied)) (fakes : list string) (clock : nat) : st :=
  set_clock (set_fakes (init conf [mypyc_hook P] [swig_hook]) fakes) clock.
Lemma returns_grow E l s t : returns E l s t -> grow (s_graph s) (s_graph t).
Proof. induction 1 as [s|a ans l n s s1 t Ha Hc He Hl IH]; [apply grow_refl|]. eapply grow_trans; [eapply call_grow; exact Hc|exact IH]. Qed.
Lemma returns_off E P l s t : order_of_set P -> returns E l s t -> forall s', side P s s' -> ordinary (s_graph t) -> exists t', returns E l s' t' /\ side P t t'.
Proof.
  intros HP. induction 1 as [s|a ans l n s s1 t Ha Hc He Hl IH]; intros s' HR Hg; [exists s'; split; [constructor|exact HR]|].
  destruct (side_call E P HP _ _ _ _ _ _ HR Hc) as [u [Hu Su]]; [eapply ordinary_grow; [eapply returns_grow; exact Hl|exact Hg]|].
  destruct (IH _ Su Hg) as [v [Hv Sv]]. exists v. split; [econstructor; eassumption|exact Sv].
Qed.
Lemma returns_on E P l s' t' : order_of_set P -> returns E l s' t' -> forall s, side P s s' -> ordinary (s_graph t') -> exists t, returns E l s t /\ side P t t'.
Proof.
  intros HP. induction 1 as [s|a ans l n s s1 t Ha Hc He Hl IH]; intros s' HR Hg; [exists s'; split; [constructor|exact HR]|].
  destruct (side_call' E P HP _ _ _ _ _ _ HR Hc) as [k [u [Hu Su]]]; [eapply ordinary_grow; [eapply returns_grow; exact Hl|exact Hg]|].
  destruct (IH _ Su Hg) as [v [Hv Sv]]. exists v. split; [econstructor; eassumption|exact Sv].
Qed.
Lemma side_start P conf f c : side P (default_graph P conf f c) (new_graph conf f c).
Proof. exists [], []. split; [reflexivity|]. now exists [], []. Qed.
Theorem C92_default_partial E P base breaks f c conf l s : order_of_set P -> python E base breaks -> process E f ->
  returns E l (default_graph P conf [] 0) s -> ordinary (s_graph s) -> (forall a ans, In (a, ans) l -> for_package a = false) ->
  exists f' c', returns E l (default_graph P conf f c) (set_clock (set_fakes s f') c') /\ incl (s_fakes s) f'.
Proof.
  intros HP HB Hf Hr Hg Hl. destruct (returns_off E P l _ _ HP Hr _ (side_start P conf [] 0) Hg) as [u [Hu Su]].
  assert (Gu : s_graph u = s_graph s) by (destruct Su as [p [m [-> _]]]; reflexivity).
  destruct (C92_partial E base breaks f c conf l u HB Hf Hu Hl) as [f' [c' [Hn Hi]]].
  destruct (returns_on E P l _ _ HP Hn _ (side_start P conf f c)) as [v [Hv Sv]]; [cbn; now rewrite Gu|].
  exists f', c'. split; [|destruct Su as [p [m [-> _]]]; exact Hi].
  assert (X : side P (set_clock (set_fakes s f') c') (set_clock (set_fakes u f') c')).
  { destruct Su as [p [m [-> Hh]]]. exists p, m. split; [reflexivity|exact Hh]. }
  now rewrite (side_on _ _ _ _ X Sv) in Hv.
Qed.

(** ** Every session without hooks is one of these *)
Lemma opened_default E P implies s' : order_of_set P -> opening E implies s' -> ordinary (s_graph s') -> exists s, default_opening E P implies s /\ side P s s'.
Proof.
  intros HP. induction 1 as [|s n names ans s' _ IH H He|s n l ans s' _ IH H He]; intros Hg.
  - eexists. split; [apply do_init|apply side_init].
  - destruct IH as [u [Ou Su]]; [eapply ordinary_grow; [eapply call_grow; exact H|exact Hg]|].
    destruct (side_call' E P HP _ _ _ _ _ _ Su H Hg) as [k [v [Hv Sv]]]. exists v. split; [eapply do_exclude; eassumption|exact Sv].
  - destruct IH as [u [Ou Su]]; [eapply ordinary_grow; [eapply call_grow; exact H|exact Hg]|].
    destruct (side_call' E P HP _ _ _ _ _ _ Su H Hg) as [k [v [Hv Sv]]]. exists v. split; [eapply do_imply; eassumption|exact Sv].
Qed.
Theorem C93_session_back E P DS implies conf s' : order_of_set P -> dsession E DS implies conf s' -> ordinary (s_graph s') ->
  exists s, default_session E P DS implies conf s /\ but_hooks s s'.
Proof.
  intros HP H Hg. cut (exists s, default_session E P DS implies conf s /\ side P s s'); [intros [s [A B]]; exists s; split; [exact A|eapply side_but; exact B]|].
  revert Hg. induction H as [s Ho Hl|s n a ans s' _ IH Ha H He]; intros Hg.
  - destruct (opened_default E P implies s HP Ho Hg) as [u [Ou Su]]. exists u. split; [|exact Su]. apply df_open; [exact Ou|].
    destruct Su as [p [m [-> _]]]. exact Hl.
  - destruct IH as [u [Ou Su]]; [eapply ordinary_grow; [eapply call_grow; exact H|exact Hg]|].
    destruct (side_call' E P HP _ _ _ _ _ _ Su H Hg) as [k [v [Hv Sv]]]. exists v. split; [eapply df_call; eassumption|exact Sv].
Qed.

(** ** Examples *)
Lemma but_sym s s' : but_hooks s s' -> but_hooks s' s.
Proof. intros [p [m ->]]. exists (s_post s), (s_missing s). now destruct s. Qed.
Example C76_default_nonvacuous : exists s, default_session exact_world flat_paths (fun _ => False) [] exact_conf s /\ ordinary (s_graph s)
  /\ begun_with s (RunScript "main.py") /\ orderly (found_in exact_modules) exact_conf s (RunScript "main.py")
  /\ plausible exact_world (found_in exact_modules) s (RunScript "main.py") /\ covered s (RunScript "main.py") "os".
Proof.
  destruct C76_exact_nonvacuous as [_ [S [B [O [L [_ [C _]]]]]]].
  destruct (C93_session_back exact_world flat_paths _ _ _ _ flat_order S) as [s [D K]]; [now apply ordinary_check|].
  exists s. split; [exact D|]. apply but_sym in K. pose proof (but_orderly _ _ _ _ _ K O) as O'. pose proof (but_plausible _ _ _ _ _ K L) as L'.
  destruct K as [p [m ->]]. split; [now apply ordinary_check|]. split; [exact B|]. split; [exact O'|]. split; [exact L'|exact C].
Qed.
Example C66_default_nonvacuous : exists s1 s2, default_twins pair_world flat_paths (found_in pair_modules) (eq pair_dist) (same_table pair_conf pair_conf) pair_conf pair_conf s1 s2
  /\ settled pair_world (found_in pair_modules) s1 /\ settled pair_world (found_in pair_modules) s2 /\ same_roots s1 s2
  /\ map n_name (g_nodes (s_graph s1)) <> map n_name (g_nodes (s_graph s2)).
Proof.
  destruct C66_distribution_nonvacuous as [[A B C D HD (i1 & F) (i2 & G) H] [Z1 [Z2 [R [N _]]]]].
  destruct (C93_session_back pair_world flat_paths _ _ _ _ flat_order F) as [s1 [F' K1]]; [now apply ordinary_check|].
  destruct (C93_session_back pair_world flat_paths _ _ _ _ flat_order G) as [s2 [G' K2]]; [now apply ordinary_check|].
  exists s1, s2. apply but_sym in K1. apply but_sym in K2. pose proof (but_settled _ _ _ _ K1 Z1) as Z1'. pose proof (but_settled _ _ _ _ K2 Z2) as Z2'.
  destruct K1 as [p1 [m1 ->]]. destruct K2 as [p2 [m2 ->]]. split; [|split; [exact Z1'|split; [exact Z2'|split; [exact R|exact N]]]].
  constructor; [exact A|exact flat_order|exact B|exact C|intros x i [K|K]; eapply D; exact K|exact HD|now exists i1|now exists i2|now apply ordinary_check|now apply ordinary_check|exact H].
Qed.

Print Assumptions C93_session.
Print Assumptions C93_session_back.
Print Assumptions C75_default_partial.
Print Assumptions C76_default_partial.
Print Assumptions C76_default_exact_partial.
Print Assumptions C66_default_nodes_partial.
Print Assumptions C66_default_more_partial.
Print Assumptions C80_default_partial.
Print Assumptions C84_default_less_partial.
Print Assumptions C84_default_rest_partial.
Print Assumptions C86_default_roots_partial.
Print Assumptions C86_default_partial.
Print Assumptions C89_default_kept_partial.
Print Assumptions C89_default_added_partial.
Print Assumptions C91_default_partial.
Print Assumptions C92_default_partial.
