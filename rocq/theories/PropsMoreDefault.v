(** C95 for graphs with the built-in hooks. *)
From Verif Require Import BuilderRest PropsRest PropsDefault PropsSame PropsSeed PropsMore.
From Verif Require Import BuilderHist BuilderSame SameSpec ReachSpec BuilderSpec SeedSpec MoreSpec.
Open Scope string_scope.

Record default_growing (E1 E2 : env) (P : paths) (find find2 : string -> option spec) (DS : dist -> Prop) (conf1 conf2 : list (string * implied)) (s1 s2 : st) : Prop := {
  dg_code : extended E1 E2 find find2;
  dg_set : order_of_set P;
  dg_names1 : set_order (e_names_order E1);
  dg_names2 : set_order (e_names_order E2);
  dg_plain : plain_sources E1;
  dg_order1 : order_ok E1;
  dg_order2 : order_ok E2;
  dg_steady1 : steady E1 find;
  dg_steady2 : steady E2 find2;
  dg_table : same_table conf1 conf2;
  dg_dots : forall x i, assoc x conf1 = Some i -> starts_with "." x = false;
  dg_dists : one_each DS;
  dg_first : exists implies, default_session E1 P DS implies conf1 s1;
  dg_second : exists implies, default_session E2 P DS implies conf2 s2;
  dg_ordinary1 : ordinary (s_graph s1);
  dg_ordinary2 : ordinary (s_graph s2);
  dg_scripts : same_scripts s1 s2;
  dg_roots : forall x, In x (g_roots (s_graph s1)) -> In x (g_roots (s_graph s2))
}.
Theorem C95_default_partial : forall E1 E2 P find find2 DS conf1 conf2 s1 s2, default_growing E1 E2 P find find2 DS conf1 conf2 s1 s2 ->
  nothing_new find find2 -> no_repair E1 E2 find find2 s1 -> settled E1 find s1 -> settled E2 find2 s2 -> included (s_graph s1) (s_graph s2).
Proof.
  intros E1 E2 P find find2 DS conf1 conf2 s1 s2 [A HP B C D F G H I J K L (i1 & M) (i2 & N) O1 O2 Q R] HN NR Z1 Z2.
  destruct (C93_session _ _ _ _ _ _ HP M O1) as [u1 [M' B1]]. destruct (C93_session _ _ _ _ _ _ HP N O2) as [u2 [N' B2]].
  pose proof (but_settled _ _ _ _ B1 Z1) as Z1'. pose proof (but_settled _ _ _ _ B2 Z2) as Z2'. destruct B1 as [p1 [m1 ->]]. destruct B2 as [p2 [m2 ->]].
  refine (C95_partial E1 E2 find find2 DS conf1 conf2 (set_missing (set_post s1 p1) m1) (set_missing (set_post s2 p2) m2) _ HN NR Z1' Z2').
  constructor; try assumption; [now exists i1|now exists i2].
Qed.

Example C95_default_nonvacuous : exists s1 s2, default_growing edit_world edit_world' flat_paths (found_in edit_modules) (found_in edit_modules') (fun _ => False) main_conf main_conf s1 s2
  /\ nothing_new (found_in edit_modules) (found_in edit_modules') /\ no_repair edit_world edit_world' (found_in edit_modules) (found_in edit_modules') s1
  /\ settled edit_world (found_in edit_modules) s1 /\ settled edit_world' (found_in edit_modules') s2 /\ s_post s1 <> [].
Proof.
  destruct C95_nonvacuous as [[A B C D F G H I J K L (i1 & M) (i2 & N) Q R] [HN [NR [Z1 [Z2 _]]]]].
  assert (O1 : ordinary (s_graph edit_1)) by now apply ordinary_check. assert (O2 : ordinary (s_graph edit_2)) by now apply ordinary_check.
  destruct (C93_session_back edit_world flat_paths _ _ _ _ flat_order M O1) as [s1 [M' B1]]. destruct (C93_session_back edit_world' flat_paths _ _ _ _ flat_order N O2) as [s2 [N' B2]].
  exists s1, s2. assert (X : s_post s1 <> []).
  { pose proof (default_sessions edit_world flat_paths flat_order _ _ _ _ M') as X. destruct X as [u [_ [p [m [_ [c [d [X _]]]]]]]]; [apply but_sym in B1; destruct B1 as [p [m ->]]; exact O1|].
    intros Y. rewrite Y in X. now destruct c. }
  apply but_sym in B1. apply but_sym in B2. pose proof (but_settled _ _ _ _ B1 Z1) as Z1'. pose proof (but_settled _ _ _ _ B2 Z2) as Z2'.
  destruct B1 as [p1 [m1 ->]]. destruct B2 as [p2 [m2 ->]]. split; [|split; [exact HN|split; [exact NR|split; [exact Z1'|split; [exact Z2'|exact X]]]]].
  constructor; try assumption; [exact flat_order|now exists i1|now exists i2].
Qed.

Print Assumptions C95_default_partial.
