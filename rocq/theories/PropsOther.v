(** C91: what is not in the graph does not matter. *)
From Verif Require Import BuilderOther World.
Open Scope string_scope.

(** ** The full statement *)
Definition C91_statement : Prop := forall E finds dists conf l t, calls_fine E l (init conf [] []) t -> agree (named t) E finds dists ->
  calls_fine (with_finds E finds dists) l (init conf [] []) t.

(** With loaders that do not redirect. *)
Theorem C91_partial E finds dists conf l t : (forall t f name sp, e_find_spec E t f name = ROk (Some sp) -> direct (sp_loader sp) = true) ->
  calls_fine E l (init conf [] []) t -> agree (named t) E finds dists -> calls_fine (with_finds E finds dists) l (init conf [] []) t.
Proof.
  intros HD Hc HA. assert (U : unhooked (init conf [] [])) by now split. revert U HA. induction Hc as [s|a l n ans s s1 t Ha Hc He Hl IH]; intros U HA; [constructor|].
  assert (HA1 : unhooked s1) by (eapply (other_call E (e_find_spec E) (e_dist_for_file E) (fun _ => True)); try eassumption; split; auto).
  assert (Hsub : forall l s t, calls_fine E l s t -> unhooked s -> sub s t).
  { clear - HD. intros l s t H. induction H as [s|a l n ans s s1 t Ha Hc He Hl IH]; intros U; [apply sub_refl|].
    destruct (other_call E (e_find_spec E) (e_dist_for_file E) (fun _ => True) a n s ans s1) as [U1 [S1 _]]; try assumption; [split; auto|].
    eapply sub_trans; [exact S1|now apply IH]. }
  destruct (other_call E finds dists (named t) a n s ans s1 HA HD Ha U Hc He) as [_ [_ HE]].
  econstructor; [exact Ha|apply HE; intros x Hx; exact (Hsub _ _ _ Hl HA1 x Hx)|exact He|now apply IH].
Qed.

(** Hence the same nodes, edges and roots, and nothing is different but what is not in the
    graph: a module that is installed in addition, and is not even looked for. *)
Theorem C91_install_partial E finds dists conf l t t' : (forall t f name sp, e_find_spec E t f name = ROk (Some sp) -> direct (sp_loader sp) = true) ->
  calls_fine E l (init conf [] []) t -> agree (named t) E finds dists -> calls_fine (with_finds E finds dists) l (init conf [] []) t' ->
  s_graph t' = s_graph t.
Proof.
  intros HD Hc HA Hc'. pose proof (C91_partial E finds dists conf l t HD Hc HA) as Hc2.
  assert (X : forall F l s t t', calls_fine F l s t -> calls_fine F l s t' -> t' = t).
  { clear. intros F l s t t' H. revert t'. induction H as [s|a l n ans s s1 t Ha Hc He Hl IH]; intros t' H'; inversion H' as [|a' l' n' ans' s' s1' t0 Ha' Hc' He' Hl']; subst; [reflexivity|].
    pose proof (top_call_same F _ _ _ _ _ _ Hc Hc') as Y. injection Y as -> ->. now apply IH. }
  now rewrite (X _ _ _ _ _ Hc2 Hc').
Qed.

(** ** Vendored modules *)
(** [v.x] stands for [w.x] if there is one, and else for [x]. *)
Definition vendored (more : list (string * entry)) : env := world (more ++ [("v", ESource true [] []);
  ("v.x", ESpec (Spec "v.x" (LVendor (Some ("v", "w"))) (Some "v/x.py") None true (ROk false)));
  ("x", ESource false [] []); ("w", ESource true [] [])])%list [] [].
Definition without : env := vendored [("w.x", EFail (ENotFound true))].
Definition with_x : env := vendored [("w.x", ESource false [] [])].

Theorem C91_refuted : ~ C91_statement.
Proof.
  intros H. destruct (top_call without 40 (AAddModule "v.x") (init [] [] [])) as [[ans t]|] eqn:Ec; [|vm_compute in Ec; discriminate].
  assert (Hc : calls_fine without [AAddModule "v.x"] (init [] [] []) t).
  { econstructor; [reflexivity|exact Ec| |constructor]. vm_compute in Ec. injection Ec as <- _. intros e. discriminate. }
  specialize (H without (e_find_spec with_x) (e_dist_for_file with_x) [] _ _ Hc).
  assert (HA : agree (named t) without (e_find_spec with_x) (e_dist_for_file with_x)).
  { split; [|reflexivity]. intros name u f Hn. destruct (String.eqb name "w.x") eqn:En.
    - apply String.eqb_eq in En. subst name. exfalso. vm_compute in Ec. injection Ec as _ <-. destruct Hn as [Hn|[n [Hi Hn]]]; [discriminate|].
      cbn in Hi. repeat (destruct Hi as [<-|Hi]; [discriminate Hn|]). exact Hi.
    - unfold with_x, without, vendored, world. cbn [e_find_spec app assoc]. unfold seqb. now rewrite En. }
  specialize (H HA). inversion H as [|a l n ans' s s1 t0 Ha Hc' He Hl]; subst. inversion Hl; subst. 
  assert (X : top_call (with_finds without (e_find_spec with_x) (e_dist_for_file with_x)) 40 (AAddModule "v.x") (init [] [] []) = Some (ans', t)).
  { destruct (top_call (with_finds without (e_find_spec with_x) (e_dist_for_file with_x)) 40 (AAddModule "v.x") (init [] [] [])) as [y|] eqn:Ey; [|vm_compute in Ey; discriminate].
    now rewrite (top_call_same _ _ _ _ _ _ _ Ey Hc'). }
  vm_compute in Ec, X. injection Ec as _ <-. discriminate X.
Qed.

(** ** Cases *)
(** [a] imports [b] and [gone], which is missing; [b] has from a import c; nothing else is
    looked for, so that other versions of [other] and [a.c] do not matter. *)
Definition small (more : list (string * entry)) : env := world (("a", ESource false [imp "b"; imp "gone"] ["c"]) :: ("b", ESource false [from "a" ["c"] 0] []) :: more) [] [].
Definition small1 : env := small [("other", ESource false [imp "b"] [])].
Definition small2 : env := small [("other", EExtension); ("a.c", ESource false [] []); ("new", ESource true [imp "a"] [])].
Example C91_nonvacuous : exists t, calls_fine small1 [AExcludes ["z"]; AAddModule "a"] (init [] [] []) t
  /\ agree (named t) small1 (e_find_spec small2) (e_dist_for_file small2)
  /\ e_find_spec small1 0 [] "new" <> e_find_spec small2 0 [] "new" /\ e_find_spec small1 0 [] "other" <> e_find_spec small2 0 [] "other"
  /\ map n_name (g_nodes (s_graph t)) = ["a"; "gone"; "b"]
  /\ (forall t f name sp, e_find_spec small1 t f name = ROk (Some sp) -> direct (sp_loader sp) = true).
Proof.
  destruct (top_call small1 40 (AExcludes ["z"]) (init [] [] [])) as [[a0 s0]|] eqn:E0; [|vm_compute in E0; discriminate].
  destruct (top_call small1 40 (AAddModule "a") s0) as [[ans t]|] eqn:Ec; [|vm_compute in E0; injection E0 as _ <-; vm_compute in Ec; discriminate].
  exists t. assert (Hc : calls_fine small1 [AExcludes ["z"]; AAddModule "a"] (init [] [] []) t).
  { econstructor; [reflexivity|exact E0| |econstructor; [reflexivity|exact Ec| |constructor]].
    - vm_compute in E0. injection E0 as <- _. intros e. discriminate.
    - vm_compute in E0. injection E0 as _ <-. vm_compute in Ec. injection Ec as <- _. intros e. discriminate. }
  split; [exact Hc|]. vm_compute in E0. injection E0 as _ <-. vm_compute in Ec. injection Ec as _ <-. split; [|split; [|split; [|split]]].
  - split; [|reflexivity]. intros name u f [->|[n [Hi Hn]]]; [reflexivity|]. cbn in Hi. repeat (destruct Hi as [<-|Hi]; [rewrite <- Hn; reflexivity|]). destruct Hi.
  - discriminate.
  - discriminate.
  - reflexivity.
  - intros u f name sp. unfold small1, small, world. cbn [e_find_spec app assoc].
    repeat match goal with |- context [if ?b then _ else _] => destruct b end; cbn [spec_of]; intros X; try discriminate X; injection X as <-; reflexivity.
Qed.

Print Assumptions C91_partial.
Print Assumptions C91_install_partial.
Print Assumptions C91_refuted.
