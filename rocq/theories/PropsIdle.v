(** C90: a hook that does nothing changes nothing. *)
From Verif Require Import BuilderIdle World.
Open Scope string_scope.

(** ** The full statement *)
Definition C90_statement : Prop := forall E s s',
  two E (fun _ => True) (fun _ => True) (fun _ => True) s s' -> s_graph s' = s_graph s /\ forall a, next_same E a s s'.

Lemma call_post E n h s : top_call E n (AAddPost h) s = Some (AnsUnit, set_post s (h :: s_post s)).
Proof. reflexivity. Qed.
Lemma call_missing E n h s : top_call E n (AAddMissing h) s = Some (AnsUnit, set_missing s (h :: s_missing s)).
Proof. reflexivity. Qed.
Lemma call_some E n a s ans t : top_call E n a s = Some (ans, t) <-> call E (exec E n) a s = Some (ROk ans, t).
Proof.
  unfold top_call. destruct (call E (exec E n) a s) as [[[x|e] u]|]; split; intros H; try discriminate; congruence.
Qed.

Lemma idle_steady ret p : only_looks ret p -> steady p.
Proof. induction 1 as [o Ho|k Hk IH]; [constructor|]. now apply sd_do. Qed.
Lemma idle_post_steady h : idle_post h -> steady_post h.
Proof. intros H n. eapply idle_steady, H. Qed.
Lemma idle_missing_steady h : idle_missing h -> steady_missing h.
Proof. intros H im n. eapply idle_steady, H. Qed.

(** ** Hooks that do not register hooks *)
Definition inv (s s' : st) : Prop := exists p m, s' = hooked s p m /\ alike idle_post (s_post s) p /\ alike idle_missing (s_missing s) m
  /\ Forall steady_post (s_post s) /\ Forall steady_post p /\ Forall steady_missing (s_missing s) /\ Forall steady_missing m.

Lemma hooked_back s p m : hooked (hooked s p m) (s_post s) (s_missing s) = s.
Proof. now destruct s. Qed.
Lemma inv_sym s s' : inv s s' -> inv s' s.
Proof.
  intros [p [m [-> [A1 [A2 [F1 [F2 [F3 F4]]]]]]]]. exists (s_post s), (s_missing s). rewrite hooked_back. cbn.
  split; [reflexivity|]. split; [now apply alike_sym|]. split; [now apply alike_sym|]. auto.
Qed.

Lemma inv_call E a n ans s s' t : steady_call a -> inv s s' -> top_call E n a s = Some (ans, t) ->
  exists n' t', top_call E n' a s' = Some (ans, t') /\ inv t t'.
Proof.
  intros Ha [p [m [-> [A1 [A2 [F1 [F2 [F3 F4]]]]]]]] H.
  assert (Hc : (exists h, a = AAddPost h) \/ (exists h, a = AAddMissing h) \/ steady_action a) by (destruct a; cbn in *; eauto).
  destruct Hc as [[h ->]|[[h ->]|Hs]].
  - rewrite call_post in H. injection H as <- <-. exists n. eexists. split; [apply call_post|].
    exists (h :: p), m. split; [reflexivity|]. cbn in *. repeat split; auto. now constructor.
  - rewrite call_missing in H. injection H as <- <-. exists n. eexists. split; [apply call_missing|].
    exists p, (h :: m). split; [reflexivity|]. cbn in *. repeat split; auto. now constructor.
  - destruct (alike_count _ _ _ A1) as [kp Kp]. destruct (alike_count _ _ _ A2) as [kq Kq].
    apply call_some in H.
    destruct (steady_calls E (s_post s) p (s_missing s) m F1 F3 (kp + kq) kp kq Kp Kq ltac:(lia) ltac:(lia) n a Hs s (hooked s p m) _ _
      (ex_intro _ p (ex_intro _ m (conj eq_refl (conj eq_refl (conj eq_refl (conj eq_refl eq_refl)))))) H) as [t' [Ht HR]].
    exists (n * (kp + kq + 1)), t'. split; [now apply call_some|].
    destruct HR as [p1 [m1 [-> [E1 [E2 [-> ->]]]]]]. exists p, m. rewrite E1, E2. auto 8.
Qed.

Lemma inv_graph s s' : inv s s' -> s_graph s' = s_graph s.
Proof. intros [p [m [-> _]]]. reflexivity. Qed.

Lemma inv_both E a n n' ans ans' s s' t t' : steady_call a -> inv s s' -> top_call E n a s = Some (ans, t) -> top_call E n' a s' = Some (ans', t') ->
  ans' = ans /\ inv t t'.
Proof.
  intros Ha Hi H H'. destruct (inv_call E a n ans s s' t Ha Hi H) as [k [u [Hu Hiu]]].
  pose proof (top_call_same E _ _ _ _ _ _ Hu H') as X. injection X as -> ->. auto.
Qed.

Lemma inv_next E a s s' : steady_call a -> inv s s' -> next_same E a s s'.
Proof.
  intros Ha Hi. split; [|split].
  - intros n ans t H. destruct (inv_call E a n ans s s' t Ha Hi H) as [k [u [Hu Hiu]]]. exists k, u. split; [exact Hu|now apply inv_graph].
  - intros n ans t H. destruct (inv_call E a n ans s' s t Ha (inv_sym _ _ Hi) H) as [k [u [Hu Hiu]]]. exists k, u. split; [exact Hu|now apply inv_graph].
  - intros n n' ans ans' t t' H H'. destruct (inv_both E a n n' ans ans' s s' t t' Ha Hi H H') as [-> Hiu]. split; [reflexivity|now apply inv_graph].
Qed.

Lemma two_inv E s s' : two E steady_call steady_post steady_missing s s' -> inv s s'.
Proof.
  induction 1 as [implies p p' m m' F1 F2 F3 F4 A1 A2|s s' a n n' ans ans' t t' _ IH Ha H H'|s s' h n ans t _ IH Hh H|s s' h n ans t _ IH Hh H|s s' h n ans t _ IH Hh H|s s' h n ans t _ IH Hh H].
  - exists p', m'. cbn. auto 8.
  - eapply inv_both; eassumption.
  - rewrite call_post in H. injection H as <- <-. destruct IH as [p [m [-> [A1 [A2 [F1 [F2 [F3 F4]]]]]]]]. exists p, m. cbn.
    split; [reflexivity|]. split; [now constructor|]. split; [exact A2|]. split; [constructor; [now apply idle_post_steady|exact F1]|]. auto.
  - rewrite call_post in H. injection H as <- <-. destruct IH as [p [m [-> [A1 [A2 [F1 [F2 [F3 F4]]]]]]]]. exists (h :: p), m.
    split; [reflexivity|]. split; [now constructor|]. split; [exact A2|]. split; [exact F1|]. split; [constructor; [now apply idle_post_steady|exact F2]|]. auto.
  - rewrite call_missing in H. injection H as <- <-. destruct IH as [p [m [-> [A1 [A2 [F1 [F2 [F3 F4]]]]]]]]. exists p, m. cbn.
    split; [reflexivity|]. split; [exact A1|]. split; [now constructor|]. split; [exact F1|]. split; [exact F2|]. split; [constructor; [now apply idle_missing_steady|exact F3]|exact F4].
  - rewrite call_missing in H. injection H as <- <-. destruct IH as [p [m [-> [A1 [A2 [F1 [F2 [F3 F4]]]]]]]]. exists p, (h :: m).
    split; [reflexivity|]. split; [exact A1|]. split; [now constructor|]. split; [exact F1|]. split; [exact F2|]. split; [exact F3|]. constructor; [now apply idle_missing_steady|exact F4].
Qed.

(** If no hook registers hooks (the user may, at any time), idle hooks change nothing,
    wherever they are in the lists. *)
Theorem C90_steady_partial E s s' : two E steady_call steady_post steady_missing s s' ->
  s_graph s' = s_graph s /\ forall a, steady_call a -> next_same E a s s'.
Proof.
  intros H. apply two_inv in H. split; [now apply inv_graph|]. intros a Ha. now apply inv_next.
Qed.

(** ** The oldest hooks *)
Definition tinv (s s' : st) : Prop := exists l l' k k', Forall idle_post l /\ Forall idle_post l' /\ Forall idle_missing k /\ Forall idle_missing k'
  /\ R (tails l l' k k') s s'.
Lemma tinv_sym s s' : tinv s s' -> tinv s' s.
Proof.
  intros [l [l' [k [k' [F1 [F2 [F3 [F4 [p [m [-> [c [d [H1 [H2 [-> ->]]]]]]]]]]]]]]]].
  exists l', l, k', k. repeat (split; [assumption|]). exists (s_post s), (s_missing s). rewrite hooked_back.
  split; [reflexivity|]. exists c, d. auto.
Qed.
Lemma tinv_call E a n ans s s' t : tinv s s' -> top_call E n a s = Some (ans, t) -> exists n' t', top_call E n' a s' = Some (ans, t') /\ tinv t t'.
Proof.
  intros [l [l' [k [k' [F1 [F2 [F3 [F4 HR]]]]]]]] H. apply call_some in H.
  destruct (tail_calls E l l' k k' F1 F2 F3 F4 n a s s' _ _ HR H) as [t' [Ht HRt]].
  eexists. exists t'. split; [apply call_some; exact Ht|]. exists l, l', k, k'. auto.
Qed.
Lemma tinv_graph s s' : tinv s s' -> s_graph s' = s_graph s.
Proof. intros [l [l' [k [k' [_ [_ [_ [_ [p [m [-> _]]]]]]]]]]]. reflexivity. Qed.
Lemma tinv_both E a n n' ans ans' s s' t t' : tinv s s' -> top_call E n a s = Some (ans, t) -> top_call E n' a s' = Some (ans', t') ->
  ans' = ans /\ tinv t t'.
Proof.
  intros Hi H H'. destruct (tinv_call E a n ans s s' t Hi H) as [k [u [Hu Hiu]]].
  pose proof (top_call_same E _ _ _ _ _ _ Hu H') as X. injection X as -> ->. auto.
Qed.

(** Idle hooks that are older than all others change nothing, whatever the others do. *)
Theorem C90_oldest_partial E s s' : oldest E s s' -> s_graph s' = s_graph s /\ forall a, next_same E a s s'.
Proof.
  intros H. assert (Hi : tinv s s').
  { induction H as [implies p m l l' k k' F1 F2 F3 F4|s s' a n n' ans ans' t t' _ IH H H'].
    - exists l, l', k, k'. repeat (split; [assumption|]). exists (p ++ l')%list, (m ++ k')%list. split; [reflexivity|]. exists p, m. auto.
    - eapply tinv_both; eassumption. }
  split; [now apply tinv_graph|]. intros a. split; [|split].
  - intros n ans t Hc. destruct (tinv_call E a n ans s s' t Hi Hc) as [k [u [Hu Hiu]]]. exists k, u. split; [exact Hu|now apply tinv_graph].
  - intros n ans t Hc. destruct (tinv_call E a n ans s' s t (tinv_sym _ _ Hi) Hc) as [k [u [Hu Hiu]]]. exists k, u. split; [exact Hu|now apply tinv_graph].
  - intros n n' ans ans' t t' Hc H'. destruct (tinv_both E a n n' ans ans' s s' t t' Hi Hc H') as [-> Hiu]. split; [reflexivity|now apply tinv_graph].
Qed.

(** ** A hook that registers two hooks *)
Definition nothing : post_hook := fun _ => PRet None.
(** Notes that it was called again for the same node. *)
Definition noting : post_hook := fun _ => PDo ALook (fun a => match a with
  | AnsGraph _ 0 => PDo (ARemember 1) (fun _ => PRet None)
  | AnsGraph _ 2 => PDo (AAddNode (plain_node MissingModule "again")) (fun _ => PDo (ARemember 3) (fun _ => PRet None))
  | _ => PRet None
  end).
(** Registers two hooks, the first time it is called. *)
Definition registering : post_hook := fun _ => PDo ALook (fun a => match a with
  | AnsGraph _ 1 => PDo (AAddPost nothing) (fun _ => PDo (AAddPost nothing) (fun _ => PDo (ARemember 2) (fun _ => PRet None)))
  | _ => PRet None
  end).
Definition one_module : env := world [("m", ESource false [] [])] [] [].
Lemma nothing_idle : idle_post nothing.
Proof. intros n. now constructor. Qed.

(** With an idle hook between the two the first one is called once, without it twice. *)
Theorem C90_refuted : ~ C90_statement.
Proof.
  intros H. destruct (H one_module (init [] [noting; registering] []) (init [] [noting; nothing; registering] [])) as [_ Hn].
  { apply tw_init; now repeat constructor. }
  destruct (Hn (AAddModule "m")) as [_ [_ Hb]].
  specialize (Hb 20 20). vm_compute in Hb. specialize (Hb _ _ _ _ eq_refl eq_refl). destruct Hb as [_ Hb]. discriminate Hb.
Qed.
Example C90_called_again :
  option_map (fun x => map n_name (g_nodes (s_graph (snd x)))) (top_call one_module 20 (AAddModule "m") (init [] [noting; registering] [])) = Some ["m"; "again"]
  /\ option_map (fun x => map n_name (g_nodes (s_graph (snd x)))) (top_call one_module 20 (AAddModule "m") (init [] [noting; nothing; registering] [])) = Some ["m"].
Proof. split; vm_compute; reflexivity. Qed.

(** ** Cases *)
(** Hooks that do something, and idle hooks around them: a missing module is replaced,
    a post processing hook adds an edge. *)
Definition replacing : missing_hook := fun _ name => if seqb name "gone" then PDo (AAddModule "here") (fun a => match a with AnsId id => PRet (Some id) | _ => PRet None end) else PRet None.
Definition linking : post_hook := fun n => if seqb n "here" then PDo (AImportModule "here" "other") (fun _ => PRet None) else PRet None.
Definition looking : missing_hook := fun _ _ => PDo ALook (fun _ => PRet None).
Definition three_modules : env := world [("m", ESource false [imp "gone"; imp "lost"] []); ("here", ESource false [] []); ("other", ESource false [] [])] [] [].
Lemma looking_idle : idle_missing looking.
Proof. intros im n. constructor. intros a. now constructor. Qed.
Lemma replacing_steady : steady_missing replacing.
Proof. intros im n. unfold replacing. destruct (seqb n "gone"); repeat constructor. intros []; constructor. Qed.
Lemma linking_steady : steady_post linking.
Proof. intros n. unfold linking. destruct (seqb n "here"); repeat constructor. Qed.
Example C90_nonvacuous : exists s s', two three_modules steady_call steady_post steady_missing s s'
  /\ s_post s = [linking] /\ s_post s' = [nothing; linking; nothing] /\ List.length (s_missing s') = 2
  /\ map n_name (g_nodes (s_graph s')) = ["m"; "lost"; "here"; "other"].
Proof.
  assert (H0 : two three_modules steady_call steady_post steady_missing (init [] [] [replacing]) (init [] [nothing] [replacing; looking])).
  { apply tw_init.
    - constructor.
    - constructor; [apply idle_post_steady, nothing_idle|constructor].
    - constructor; [apply replacing_steady|constructor].
    - constructor; [apply replacing_steady|constructor; [apply idle_missing_steady, looking_idle|constructor]].
    - apply ak_right; [apply nothing_idle|constructor].
    - apply ak_both. apply ak_right; [apply looking_idle|constructor]. }
  assert (H1 := tw_call _ _ _ _ _ _ (AAddPost linking) 1 1 _ _ _ _ H0 linking_steady (call_post _ _ _ _) (call_post _ _ _ _)).
  assert (H2 := tw_post' _ _ _ _ _ _ nothing 1 _ _ H1 nothing_idle (call_post _ _ _ _)).
  match type of H2 with two _ _ _ _ ?s ?s' =>
    destruct (top_call three_modules 40 (AAddModule "m") s) as [[a1 t]|] eqn:E1; [|vm_compute in E1; discriminate];
    destruct (top_call three_modules 40 (AAddModule "m") s') as [[a2 t']|] eqn:E2; [|vm_compute in E2; discriminate] end.
  exists t, t'. split; [exact (tw_call _ _ _ _ _ _ (AAddModule "m") _ _ _ _ _ _ H2 I E1 E2)|].
  vm_compute in E1, E2. injection E1 as _ <-. injection E2 as _ <-. repeat split; reflexivity.
Qed.
(** The oldest hooks, with hooks that register hooks. *)
Example C90_oldest_case : exists s s', oldest one_module s s' /\ List.length (s_post s) = 4 /\ List.length (s_post s') = 5
  /\ map n_name (g_nodes (s_graph s')) = ["m"; "again"].
Proof.
  assert (H0 : oldest one_module (init [] ([noting; registering] ++ []) ([] ++ [])) (init [] ([noting; registering] ++ [nothing]) ([] ++ []))).
  { apply od_init; repeat constructor. }
  match type of H0 with oldest _ ?s ?s' =>
    destruct (top_call one_module 40 (AAddModule "m") s) as [[a1 t]|] eqn:E1; [|vm_compute in E1; discriminate];
    destruct (top_call one_module 40 (AAddModule "m") s') as [[a2 t']|] eqn:E2; [|vm_compute in E2; discriminate] end.
  exists t, t'. split; [exact (od_call _ _ _ _ _ _ _ _ _ _ H0 E1 E2)|].
  vm_compute in E1, E2. injection E1 as _ <-. injection E2 as _ <-. repeat split; reflexivity.
Qed.

Print Assumptions C90_steady_partial.
Print Assumptions C90_oldest_partial.
Print Assumptions C90_refuted.
