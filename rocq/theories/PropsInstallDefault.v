(** C96 for graphs with the built-in hooks. *)
From Verif Require Import BuilderRest PropsRest PropsDefault PropsSame PropsSeed PropsMore PropsMoreDefault PropsInstall.
From Verif Require Import BuilderHist BuilderSame SameSpec ReachSpec BuilderSpec SeedSpec MoreSpec InstallSpec.
Open Scope string_scope.

Theorem C96_default_edited_partial : forall E1 E2 P find find2 DS conf1 conf2 s1 s2, default_growing E1 E2 P find find2 DS conf1 conf2 s1 s2 ->
  no_repair E1 E2 find find2 s1 -> settled E1 find s1 -> settled E2 find2 s2 -> supplied (s_graph s1) (s_graph s2).
Proof.
  intros E1 E2 P find find2 DS conf1 conf2 s1 s2 [A HP B C D F G H I J K L (i1 & M) (i2 & N) O1 O2 Q R] NR Z1 Z2.
  destruct (C93_session _ _ _ _ _ _ HP M O1) as [u1 [M' B1]]. destruct (C93_session _ _ _ _ _ _ HP N O2) as [u2 [N' B2]].
  pose proof (but_settled _ _ _ _ B1 Z1) as Z1'. pose proof (but_settled _ _ _ _ B2 Z2) as Z2'. destruct B1 as [p1 [m1 ->]]. destruct B2 as [p2 [m2 ->]].
  refine (C96_edited_partial E1 E2 find find2 DS conf1 conf2 (set_missing (set_post s1 p1) m1) (set_missing (set_post s2 p2) m2) _ NR Z1' Z2').
  constructor; try assumption; [now exists i1|now exists i2].
Qed.
Theorem C96_default_partial : forall E1 E2 P find find2 DS conf1 conf2 s1 s2, default_growing E1 E2 P find find2 DS conf1 conf2 s1 s2 ->
  same_code find find2 -> settled E1 find s1 -> settled E2 find2 s2 -> supplied (s_graph s1) (s_graph s2).
Proof.
  intros E1 E2 P find find2 DS conf1 conf2 s1 s2 [A HP B C D F G H I J K L (i1 & M) (i2 & N) O1 O2 Q R] SC Z1 Z2.
  destruct (C93_session _ _ _ _ _ _ HP M O1) as [u1 [M' B1]]. destruct (C93_session _ _ _ _ _ _ HP N O2) as [u2 [N' B2]].
  pose proof (but_settled _ _ _ _ B1 Z1) as Z1'. pose proof (but_settled _ _ _ _ B2 Z2) as Z2'. destruct B1 as [p1 [m1 ->]]. destruct B2 as [p2 [m2 ->]].
  refine (C96_partial E1 E2 find find2 DS conf1 conf2 (set_missing (set_post s1 p1) m1) (set_missing (set_post s2 p2) m2) _ SC Z1' Z2').
  constructor; try assumption; [now exists i1|now exists i2].
Qed.

Example C96_default_nonvacuous : exists s1 s2, default_growing app_world app_world' flat_paths (found_in app_old) (found_in app_new) (fun _ => False) main_conf main_conf s1 s2
  /\ same_code (found_in app_old) (found_in app_new)
  /\ settled app_world (found_in app_old) s1 /\ settled app_world' (found_in app_new) s2 /\ s_post s1 <> [].
Proof.
  destruct C96_nonvacuous as [[A B C D F G H I J K L (i1 & M) (i2 & N) Q R] [HN [Z1 [Z2 _]]]].
  assert (O1 : ordinary (s_graph app_1)) by now apply ordinary_check. assert (O2 : ordinary (s_graph app_2)) by now apply ordinary_check.
  destruct (C93_session_back app_world flat_paths _ _ _ _ flat_order M O1) as [s1 [M' B1]]. destruct (C93_session_back app_world' flat_paths _ _ _ _ flat_order N O2) as [s2 [N' B2]].
  exists s1, s2. assert (X : s_post s1 <> []).
  { pose proof (default_sessions app_world flat_paths flat_order _ _ _ _ M') as X. destruct X as [u [_ [p [m [_ [c [d [X _]]]]]]]]; [apply but_sym in B1; destruct B1 as [p [m ->]]; exact O1|].
    intros Y. rewrite Y in X. now destruct c. }
  apply but_sym in B1. apply but_sym in B2. pose proof (but_settled _ _ _ _ B1 Z1) as Z1'. pose proof (but_settled _ _ _ _ B2 Z2) as Z2'.
  destruct B1 as [p1 [m1 ->]]. destruct B2 as [p2 [m2 ->]]. split; [|split; [exact HN|split; [exact Z1'|split; [exact Z2'|exact X]]]].
  constructor; try assumption; [exact flat_order|now exists i1|now exists i2].
Qed.

Print Assumptions C96_default_edited_partial.
Print Assumptions C96_default_partial.
