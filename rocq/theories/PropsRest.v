(** C93: built-in hooks that have nothing to do. *)
From Verif Require Import BuilderRest PyStrFacts World PropsIdle.
From Verif Require PropsHooks.
Open Scope string_scope.

(** States that are the same but for the lists of hooks. *)
Definition but_hooks (s s' : st) : Prop := exists p m, s' = set_missing (set_post s p) m.

Lemma ordinary_grow g g' : grow g g' -> ordinary g' -> ordinary g.
Proof.
  intros H [A B]. split.
  - intros n Hn [K W]. destruct (H n Hn) as [n' [Hn' [E1 [E2 [E3 [E4 E5]]]]]]. apply (A n' Hn'). split; [now rewrite E2|now apply E5].
  - intros n d Hn Hc Hd. destruct (H n Hn) as [n' [Hn' [E1 [E2 [E3 [E4 E5]]]]]]. apply (B n' d Hn'); [|congruence].
    unfold compiled in *. now rewrite E2, E4.
Qed.

Lemma gfind_In g id n : gfind g id = Some n -> In n (g_nodes g).
Proof. intros H. now apply find_some in H. Qed.

Lemma swig_rests : rest_missing ordinary swig_hook.
Proof.
  intros g im nm [A B]. unfold swig_hook. destruct im as [id|]; [|now apply rs_ret]. apply rs_look. intros mem.
  destruct (gfind g id) as [n|] eqn:En; [|now apply rs_ret]. apply gfind_In in En.
  destruct (negb (is_module (n_kind n) || is_package (n_kind n))) eqn:Ek; [now apply rs_ret|].
  destruct (negb (seqb nm _)); [now apply rs_ret|].
  destruct (memb "swig_import_helper" (n_written n)) eqn:Ew; [|now apply rs_ret].
  exfalso. apply (A n En). apply memb_In in Ew. split; [|exact Ew]. destruct (n_kind n); try discriminate Ek; eauto 9.
Qed.
Lemma mypyc_rests P : order_of_set P -> rest_post ordinary (mypyc_hook P).
Proof.
  intros HP g id [A B]. unfold mypyc_hook. apply rs_look. intros mem.
  destruct (gfind g id) as [n|] eqn:En; [|now apply rs_ret]. apply gfind_In in En.
  destruct (extension_file n) as [f|] eqn:Ef; [|now apply rs_ret]. destruct (n_dist n) as [d|] eqn:Ed; [|now apply rs_ret].
  destruct (helper_of P d) as [h|] eqn:Eh; [|now apply rs_ret].
  exfalso. apply (B n d En); [|exact Ed|].
  - unfold extension_file in Ef. unfold compiled. destruct (n_kind n); try discriminate Ef;
      match goal with m : mkind |- _ => destruct m; try discriminate Ef end.
    + left. split; [reflexivity|congruence].
    + right. rewrite Ef. eauto 6.
  - unfold helper_of in Eh. apply find_some in Eh as [Hi Hw]. apply ends_with_spec in Hw as [t ->]. exists t. now apply HP.
Qed.

(** ** The states go together *)
Definition side (P : paths) (s s' : st) : Prop := R (tails [mypyc_hook P] [] [swig_hook] []) s s'.
Lemma side_back P s s' : side P s s' -> R (tails [] [mypyc_hook P] [] [swig_hook]) s' s.
Proof.
  intros [p [m [-> [c [d [H1 [H2 [-> ->]]]]]]]]. exists (s_post s), (s_missing s). rewrite hooked_back. split; [reflexivity|]. exists c, d. auto.
Qed.
Lemma back_side P s s' : R (tails [] [mypyc_hook P] [] [swig_hook]) s' s -> side P s s'.
Proof.
  intros [p [m [-> [c [d [H1 [H2 [-> ->]]]]]]]]. exists (s_post s'), (s_missing s'). rewrite hooked_back. split; [reflexivity|]. exists c, d. auto.
Qed.
Lemma side_off P s u u' : side P s u -> side P s u' -> u' = u.
Proof.
  intros [p [m [-> [c [d [H1 [H2 [-> ->]]]]]]]] [p' [m' [-> [c' [d' [H1' [H2' [-> ->]]]]]]]].
  rewrite H1 in H1'. rewrite H2 in H2'. apply app_inj_tail in H1' as [-> _]. apply app_inj_tail in H2' as [-> _]. reflexivity.
Qed.
Lemma side_on P s s' u : side P s u -> side P s' u -> s' = s.
Proof.
  intros H H'. apply side_back in H as [p [m [-> [c [d [H1 [H2 [-> ->]]]]]]]]. apply side_back in H' as [p' [m' [-> [c' [d' [H1' [H2' [-> ->]]]]]]]].
  rewrite app_nil_r in H1, H2, H1', H2'. congruence.
Qed.
Lemma side_but P s s' : side P s s' -> but_hooks s s'.
Proof. intros [p [m [-> _]]]. now exists p, m. Qed.

Section calls.
  Variable E : env.
  Variable P : paths.
  Hypothesis HP : order_of_set P.
  Let F1 : Forall (rest_post ordinary) [mypyc_hook P].
  Proof. constructor; [now apply mypyc_rests|constructor]. Qed.
  Let F2 : Forall (rest_missing ordinary) [swig_hook].
  Proof. constructor; [apply swig_rests|constructor]. Qed.

  Lemma call_grow n a s ans t : top_call E n a s = Some (ans, t) -> grow (s_graph s) (s_graph t).
  Proof.
    intros H. apply call_some in H.
    destruct (rest_calls E (fun _ => True) (fun _ _ _ _ => I) [] [] [] [] (Forall_nil _) (Forall_nil _) (Forall_nil _) (Forall_nil _) n a) as [G _].
    exact (G _ _ _ H).
  Qed.
  Lemma side_call n a s s' ans t : side P s s' -> top_call E n a s = Some (ans, t) -> ordinary (s_graph t) ->
    exists t', top_call E n a s' = Some (ans, t') /\ side P t t'.
  Proof.
    intros HR H Hg. apply call_some in H.
    destruct (rest_calls E ordinary ordinary_grow [mypyc_hook P] [] [swig_hook] [] F1 (Forall_nil _) F2 (Forall_nil _) n a) as [_ G].
    destruct (G _ _ _ _ HR H Hg) as [t' [Ht HRt]]. exists t'. split; [|exact HRt]. apply call_some. cbn in Ht. now rewrite Nat.add_0_r in Ht.
  Qed.
  Lemma side_call' n a s s' ans t' : side P s s' -> top_call E n a s' = Some (ans, t') -> ordinary (s_graph t') ->
    exists n' t, top_call E n' a s = Some (ans, t) /\ side P t t'.
  Proof.
    intros HR H Hg. apply call_some in H.
    destruct (rest_calls E ordinary ordinary_grow [] [mypyc_hook P] [] [swig_hook] (Forall_nil _) F1 (Forall_nil _) F2 n a) as [_ G].
    destruct (G _ _ _ _ (side_back P s s' HR) H Hg) as [t [Ht HRt]]. eexists. exists t. split; [apply call_some; exact Ht|now apply back_side].
  Qed.
  Lemma side_init implies : side P (init implies [mypyc_hook P] [swig_hook]) (init implies [] []).
  Proof. exists [], []. split; [reflexivity|]. now exists [], []. Qed.
  Lemma sides s s' : with_without E P s s' -> ordinary (s_graph s) \/ ordinary (s_graph s') -> side P s s'.
  Proof.
    induction 1 as [implies|s s' a n n' ans ans' t t' _ IH H H']; intros [Hg|Hg].
    - apply side_init.
    - apply side_init.
    - assert (Hs : side P s s') by (apply IH; left; eapply ordinary_grow; [eapply call_grow; exact H|exact Hg]).
      destruct (side_call _ _ _ _ _ _ Hs H Hg) as [u [Hu Hr]]. pose proof (top_call_same E _ _ _ _ _ _ Hu H') as X. injection X as -> ->. exact Hr.
    - assert (Hs : side P s s') by (apply IH; right; eapply ordinary_grow; [eapply call_grow; exact H'|exact Hg]).
      destruct (side_call' _ _ _ _ _ _ Hs H' Hg) as [k [u [Hu Hr]]]. pose proof (top_call_same E _ _ _ _ _ _ Hu H) as X. injection X as -> ->. exact Hr.
  Qed.
End calls.

(** Without SWIG wrappers and without modules compiled by mypyc in the graph, all is
    as without the built-in hooks, also for the next call. *)
Theorem C93_same E P s s' : order_of_set P -> with_without E P s s' -> ordinary (s_graph s) \/ ordinary (s_graph s') -> but_hooks s s'.
Proof. intros HP H Hg. eapply side_but, sides; eassumption. Qed.
Theorem C93_next E P s s' a n ans t : order_of_set P -> with_without E P s s' -> top_call E n a s = Some (ans, t) -> ordinary (s_graph t) ->
  exists n' t', top_call E n' a s' = Some (ans, t') /\ but_hooks t t'.
Proof.
  intros HP H Hc Hg. assert (Hs : side P s s') by (eapply sides; [exact HP|exact H|left; eapply ordinary_grow; [eapply call_grow; exact Hc|exact Hg]]).
  destruct (side_call E P HP _ _ _ _ _ _ Hs Hc Hg) as [u [Hu Hr]]. exists n, u. split; [exact Hu|eapply side_but; exact Hr].
Qed.
Theorem C93_back E P s s' a n ans t' : order_of_set P -> with_without E P s s' -> top_call E n a s' = Some (ans, t') -> ordinary (s_graph t') ->
  exists n' t, top_call E n' a s = Some (ans, t) /\ but_hooks t t'.
Proof.
  intros HP H Hc Hg. assert (Hs : side P s s') by (eapply sides; [exact HP|exact H|right; eapply ordinary_grow; [eapply call_grow; exact Hc|exact Hg]]).
  destruct (side_call' E P HP _ _ _ _ _ _ Hs Hc Hg) as [k [u [Hu Hr]]]. exists k, u. split; [exact Hu|eapply side_but; exact Hr].
Qed.

(** ** Examples *)
(** A package written by SWIG, and an extension module compiled by mypyc: the hooks change
    the graph. *)
Definition flat_paths : paths := Paths (fun _ => "") (fun f => f) (fun _ f => f) (fun l => l).
Lemma flat_order : order_of_set flat_paths.
Proof. intros l x H. exact H. Qed.
Definition hooks_on : st := init [] [mypyc_hook flat_paths] [swig_hook].
Definition hooks_off : st := init [] [] [].
Example C93_swig_matters :
  node_list (snd (the_calls PropsHooks.swig_world [AAddModule "a"] hooks_on)) <> node_list (snd (the_calls PropsHooks.swig_world [AAddModule "a"] hooks_off)).
Proof. vm_compute. discriminate. Qed.
Example C93_mypyc_matters :
  node_list (snd (the_calls PropsHooks.mypyc_world [AAddModule "b"] hooks_on)) <> node_list (snd (the_calls PropsHooks.mypyc_world [AAddModule "b"] hooks_off)).
Proof. vm_compute. discriminate. Qed.

(** An extension module of a distribution without helpers, a module that binds
    [swig_import_helper] under another name, and a hook of the user. *)
Definition usual : dist := Dist 0 "d 1" "d" "1" [] ["b"; "mypyc__ab12"].
Definition usual_world : env :=
  installed (world [("a", ESource true [imp "_a"; imp "b"; imp "gone"] ["swig_import"]); ("a._a", EExtension); ("b", EExtension); ("c", ESource false [imp "b"] [])] [("b.py", [imp "c"])] []) usual ["b.py"].
Definition notes : post_hook := fun n => PDo (AAddNode (plain_node MissingModule (n ++ "!"))) (fun _ => PRet None).
Definition usual_calls : list action := [AAddPost notes; AAddModule "a"; AAddModule "c"].
Lemma calls_pair E P l : forall fuel fuel' s s' anss anss' t t', with_without E P s s' ->
  calls E fuel l s = Some (anss, t) -> calls E fuel' l s' = Some (anss', t') -> with_without E P t t'.
Proof.
  induction l as [|a l IH]; intros fuel fuel' s s' anss anss' t t' HR H H'; cbn in H, H'.
  - injection H as <- <-. injection H' as <- <-. exact HR.
  - destruct (top_call E fuel a s) as [[x s1]|] eqn:E1; [|discriminate]. destruct (calls E fuel l s1) as [[xs s2]|] eqn:E2; [|discriminate]. injection H as <- <-.
    destruct (top_call E fuel' a s') as [[x' s1']|] eqn:E1'; [|discriminate]. destruct (calls E fuel' l s1') as [[xs' s2']|] eqn:E2'; [|discriminate]. injection H' as <- <-.
    eapply IH; [eapply ww_call; eassumption|eassumption|eassumption].
Qed.
Definition ordinary_b (g : graph) : bool :=
  forallb (fun n => negb (memb "swig_import_helper" (n_written n))
    && match n_dist n with Some d => negb (existsb (ends_with "__mypyc") (dist_import_names d)) | None => true end)%bool (g_nodes g).
Lemma ordinary_check g : ordinary_b g = true -> ordinary g.
Proof.
  intros H. unfold ordinary_b in H. rewrite forallb_forall in H. split.
  - intros n Hn [_ K]. specialize (H n Hn). apply memb_In in K. rewrite K in H. discriminate.
  - intros n d Hn _ Hd [b Hb]. specialize (H n Hn). rewrite Hd in H. apply andb_true_iff in H as [_ H].
    apply negb_true_iff in H. assert (X : existsb (ends_with "__mypyc") (dist_import_names d) = true); [|congruence].
    apply existsb_exists. exists (b ++ "__mypyc"). split; [exact Hb|apply ends_with_app].
Qed.
Example C93_nonvacuous : exists s s', with_without usual_world flat_paths s s' /\ ordinary (s_graph s)
  /\ map n_name (g_nodes (s_graph s')) = ["a"; "gone"; "gone!"; "b"; "b!"; "_a"; "_a!"; "a!"; "c"; "c!"] /\ s_post s' = [notes] /\ s_post s = [notes; mypyc_hook flat_paths].
Proof.
  destruct (calls usual_world 60 usual_calls hooks_on) as [[x s]|] eqn:E1; [|vm_compute in E1; discriminate].
  destruct (calls usual_world 60 usual_calls hooks_off) as [[x' s']|] eqn:E2; [|vm_compute in E2; discriminate].
  exists s, s'. split; [eapply calls_pair; [apply ww_init|exact E1|exact E2]|].
  vm_compute in E1, E2. injection E1 as _ <-. injection E2 as _ <-. split; [now apply ordinary_check|]. repeat split; reflexivity.
Qed.

Print Assumptions C93_same.
Print Assumptions C93_next.
Print Assumptions C93_back.
