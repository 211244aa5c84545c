(** C97 for graphs with the built-in hooks. *)
From Verif Require Import BuilderRest PropsRest PropsDefault PropsSame PropsSeed PropsMore PropsMoreDefault.
From Verif Require Import BuilderHist BuilderSame SameSpec ReachSpec BuilderSpec SeedSpec MoreSpec NeedSpec MustSpec PropsMust AstSpec.
Open Scope string_scope.

Record default_tested (E : env) (P : paths) (find : string -> option spec) (code : string -> option (list piece)) (DS : dist -> Prop) (conf : list (string * implied)) (f : string) (l : list piece) (s : st) : Prop := {
  dt_order : order_ok E;
  dt_paths : order_of_set P;
  dt_names : set_order (e_names_order E);
  dt_steady : steady E find;
  dt_dots : forall x i, assoc x conf = Some i -> starts_with "." x = false;
  dt_conf : excludes_only conf;
  dt_session : exists implies, default_session E P DS implies conf s;
  dt_ordinary : ordinary (s_graph s);
  dt_script : kind_of s f = Some Script;
  dt_source : written E find code f l;
  dt_tools : no_tools s;
  dt_tidy : tidy s;
  dt_apart : scripts_apart s
}.
Lemma default_tested_but E P find code DS conf f l s : default_tested E P find code DS conf f l s ->
  exists s', tested E find code DS conf f l s' /\ s_graph s' = s_graph s.
Proof.
  intros [A HP B C D F (i & G) O H I K L M]. destruct (C93_session _ _ _ _ _ _ HP G O) as [u [G' [p [m ->]]]].
  exists (set_missing (set_post s p) m). split; [|reflexivity]. constructor; try assumption. now exists i.
Qed.
Theorem C97_default_loaded_partial : forall E P find code may DS conf f l s z z', default_tested E P find code DS conf f l s -> at_rest find code z ->
  Forall straight l -> (forall x c, code x = Some c -> Forall straight c) ->
  run find code may (Lines f None l) z Next z' -> sound_circles z' ->
  forall b, needed (s_graph s) f b -> b = f \/ In b (loaded z').
Proof.
  intros E P find code may DS conf f l s z z' T R S1 S2 N S b Hb. destruct (default_tested_but _ _ _ _ _ _ _ _ _ T) as (u & U & G). rewrite <- G in Hb.
  eapply C97_loaded_partial; eassumption.
Qed.
Theorem C97_default_partial : forall E P find code may DS conf f l s z z' b, default_tested E P find code DS conf f l s -> at_rest find code z ->
  Forall straight l -> (forall x c, code x = Some c -> Forall straight c) ->
  needed (s_graph s) f b -> kind_of s b = Some MissingModule -> run find code may (Lines f None l) z Next z' -> ~ sound_circles z'.
Proof.
  intros E P find code may DS conf f l s z z' b T R S1 S2 Hb Km N. destruct (default_tested_but _ _ _ _ _ _ _ _ _ T) as (u & U & G).
  unfold kind_of in Km. rewrite <- G in Hb, Km. eapply C97_partial; eassumption.
Qed.

(** A graph with the built-in hooks, in which the modules have this code. *)
Record default_explored (E : env) (P : paths) (find : string -> option spec) (code : string -> option (list piece)) (DS : dist -> Prop) (conf : list (string * implied)) (s : st) : Prop := {
  dx_order : order_ok E;
  dx_paths : order_of_set P;
  dx_names : set_order (e_names_order E);
  dx_steady : steady E find;
  dx_dots : forall x i, assoc x conf = Some i -> starts_with "." x = false;
  dx_conf : excludes_only conf;
  dx_session : exists implies, default_session E P DS implies conf s;
  dx_ordinary : ordinary (s_graph s);
  dx_source : sources E find code;
  dx_tools : no_tools s;
  dx_tidy : tidy s;
  dx_apart : scripts_apart s
}.
Lemma default_explored_but E P find code DS conf s : default_explored E P find code DS conf s ->
  exists s', explored E find code DS conf s' /\ s_graph s' = s_graph s.
Proof.
  intros [A HP B C D F (i & G) O I K L M]. destruct (C93_session _ _ _ _ _ _ HP G O) as [u [G' [p [m ->]]]].
  exists (set_missing (set_post s p) m). split; [|reflexivity]. constructor; try assumption. now exists i.
Qed.
Theorem C97_default_modules_partial : forall E P find code may DS conf f l s z o z', default_explored E P find code DS conf s -> at_rest find code z ->
  (forall x c, code x = Some c -> Forall straight c) ->
  run find code may (Lines f None l) z o z' -> sound_circles z' ->
  forall a b, In a (loaded z') -> modular s a -> needed (s_graph s) a b -> In b (loaded z') /\ kind_of s b <> Some MissingModule.
Proof.
  intros E P find code may DS conf f l s z o z' T R S2 N S a b Ha Hm Hb. destruct (default_explored_but _ _ _ _ _ _ _ T) as (u & U & G).
  unfold modular, kind_of in *. rewrite <- G in *. exact (C97_modules_partial _ _ _ _ _ _ _ _ _ _ _ _ U R S2 N S a b Ha Hm Hb).
Qed.
Theorem C97_default_import_partial : forall E P find code may DS conf s z z' x, default_explored E P find code DS conf s -> at_rest find code z ->
  (forall x c, code x = Some c -> Forall straight c) ->
  run find code may (Import x) z Next z' -> sound_circles z' -> modular s x ->
  forall b, needed (s_graph s) x b -> In b (loaded z') /\ kind_of s b <> Some MissingModule.
Proof.
  intros E P find code may DS conf s z z' x T R S2 N S Hm b Hb. destruct (default_explored_but _ _ _ _ _ _ _ T) as (u & U & G).
  unfold modular, kind_of in *. rewrite <- G in *. exact (C97_import_partial _ _ _ _ _ _ _ _ _ _ U R S2 N S Hm b Hb).
Qed.

Example C97_default_nonvacuous : exists s, default_tested (program_world app_program app_script) flat_paths (found_in (entries app_program)) (code_in app_program) (fun _ => False) main_conf "main.py" app_script s
  /\ s_graph s = s_graph app_graph /\ s_post s <> [].
Proof.
  destruct C97_nonvacuous as (z' & [A B C D F (i & G) H I K L M] & _).
  assert (O : ordinary (s_graph app_graph)) by now apply ordinary_check.
  destruct (C93_session_back _ flat_paths _ _ _ _ flat_order G O) as [s [G' BB]]. exists s.
  assert (X : s_post s <> []).
  { pose proof (default_sessions _ flat_paths flat_order _ _ _ _ G') as X. destruct X as [u [_ [p [m [_ [c [d [X _]]]]]]]]; [apply but_sym in BB; destruct BB as [p [m ->]]; exact O|].
    intros Y. rewrite Y in X. now destruct c. }
  apply but_sym in BB. destruct BB as [p [m ->]]. split; [|split; [reflexivity|exact X]].
  constructor; try assumption; [exact flat_order|now exists i].
Qed.

Example C97_default_modules_nonvacuous : exists s, default_explored (program_world app_program app_script) flat_paths (found_in (entries app_program)) (code_in app_program) (fun _ => False) main_conf s
  /\ s_graph s = s_graph app_graph /\ s_post s <> [].
Proof. destruct C97_default_nonvacuous as (s & [] & G & X). exists s. split; [|now split]. constructor; try assumption. now destruct dt_source0. Qed.

Print Assumptions C97_default_modules_partial.
Print Assumptions C97_default_import_partial.
Print Assumptions C97_default_loaded_partial.
Print Assumptions C97_default_partial.
