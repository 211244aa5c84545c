(** C65: the nodes of the graph can be reached from the roots. *)
From Verif Require Import BuilderReach ReportSpec BuilderSource BuilderHist BuilderInv BuilderCalls World PropsBuilder PropsSource.
Open Scope string_scope.

(** What the users of [iter_graph] and the reports rely on. *)
Definition C65_statement : Prop := forall E implies s n, order_ok E -> plain_history E implies True s -> tidy s ->
  in_graph s n -> reaches (s_graph s) n.

(** "from q import name", where the package q has a global variable [name]:
    the missing module q.name stays in the graph although nothing leads to it. *)
Definition global_world : env := world
  [("q", EText true "name = 1" [] [] ["name"]);
   ("q.sub", ESource false [World.imp "os"] []);
   ("os", ESource false [] [])]
  [("main.py", [World.from "q" ["name"; "sub"; "nowhere"] 0])] [].
Definition global_end : st := Eval vm_compute in snd (the_calls global_world [AAddScript "main.py"] new).
Lemma global_plain : plain_history global_world [] True global_end.
Proof. eapply (ph_call _ _ _ (init [] [] []) 60 (AAddScript "main.py")); [apply ph_init, incl_refl|exact Logic.I|vm_compute; reflexivity|discriminate]. Qed.
Lemma global_tidy : tidy global_end.
Proof.
  split.
  - intros n i nm (l & A & B) C.
    cbn in A. repeat (destruct A as [A|A]; [try discriminate; injection A as <- <-; cbn in B; repeat (destruct B as [<-|B]; [cbn in C;
      repeat (destruct C as [<-|C]; [reflexivity|]); destruct C|]); destruct B|]). destruct A.
  - intros m nd A _ K. assert (In m (ids (s_graph global_end))) as H by (apply gfind_ids; congruence).
    vm_compute in H. repeat (destruct H as [<-|H]; [discriminate K|]). destruct H.
Qed.

Theorem C65_refuted : ~ C65_statement.
Proof.
  intros H. specialize (H global_world [] global_end "q.name" (world_order _ _ _) global_plain global_tidy).
  assert (K : in_graph global_end "q.name") by (vm_compute; discriminate). apply H in K.
  remember "q.name" as id eqn:Eid. destruct K as [id Hr|a b ds _ He].
  - subst id. vm_compute in Hr. intuition discriminate.
  - subst b. vm_compute in He. intuition discriminate.
Qed.

Lemma reach_stk E s0 s : start s0 -> reach E s0 s -> linv s /\ stk s /\ tight s0 s.
Proof.
  intros H0 HR. induction HR as [|s fuel a ans s' HR IH HC].
  - split; [now apply start_linv|]. split; [|apply calm_tight, calm_refl]. destruct H0 as (i & p & m & ->). intros w [].
  - destruct IH as (L & T & K). destruct (top_call_ties E fuel a s ans s' L T HC) as (L' & T' & K').
    split; [exact L'|]. split; [exact T'|]. tight_both.
Qed.

(** With any hooks and any calls, as long as there was no exception: every node
    can be reached from a loose one, or is itself what is left over from an import. *)
Theorem C65_any_partial : forall E s0 s n, start s0 -> reach E s0 s -> ~ In EvErr (s_log s) ->
  in_graph s n -> (exists b, loose s b /\ leads (s_graph s) b n) \/ exists m x, left_over s m x n.
Proof.
  intros E s0 s n H0 HR Hn Hi. destruct (reach_stk E s0 s H0 HR) as (_ & _ & K).
  assert (H : held (fun _ => False) s).
  { apply K. intros x Hx. destruct H0 as (i & p & m & ->). now elim Hx. }
  destruct (H n Hi) as [[He|(b & [[]|Hb] & Hl)]|Hs]; [contradiction|left; now exists b|now right].
Qed.

Lemma leads_reaches g a b : reaches g a -> leads g a b -> reaches g b.
Proof. intros H K. induction K as [|b c d K IH (ds & He & _)]; [exact H|]. eapply re_edge; eassumption. Qed.

Lemma child_plainly c m x : dotless x -> lstrip dot m <> ""%string -> child_of c (m ++ "." ++ x)%string -> c = m.
Proof.
  intros Hx Hm H. remember (m ++ "." ++ x)%string as name eqn:En. destruct H as [y _ Hy|k y -> Hy].
  - now apply app_dot_inj in En as [-> _].
  - exfalso. apply Hm. assert (K : repeat_char dot (S k) = (repeat_char dot k ++ ".")%string).
    { clear. induction k as [|k IH]; [reflexivity|]. change (String dot (repeat_char dot (S k)) = String dot (repeat_char dot k ++ ".")%string). f_equal. exact IH. }
    rewrite K, <- app_assoc_s in En. apply (app_dot_inj (repeat_char dot k) y m x Hy Hx) in En as [<- _].
    clear. induction k as [|k IH]; [reflexivity|exact IH].
Qed.

(** Nothing was found in a missing module. *)
Lemma plain_idle E implies fine s n : order_ok E -> plain_history E implies fine s -> kind_of s n = Some MissingModule -> ~ ReachSpec.busy s n.
Proof.
  intros HE HH Hk.
  destruct (plain_is_user _ _ _ _ HH) as (first & HU). set (s0 := init first [] []) in HU. assert (H0 : start s0) by (now exists first, [], []).
  pose proof (user_is_reach _ _ _ HU) as HR.
  pose proof (plain_holds _ _ _ _ HH) as P. pose proof (sourced_reach E s0 s H0 HR) as (_ & So & _).
  intros [(i & l & A & B)|(x & A)]; [|now apply (pl_asked _ _ _ P) in A].
  destruct (sched_from E s0 s _ _ HE H0 HR A) as [K|K]; [|now apply (pl_asked _ _ _ P) in K].
  unfold kind_of in Hk. destruct (gfind (s_graph s) n) as [nd|] eqn:En; [|discriminate]. injection Hk as Hk.
  assert (Hc : code_kind nd = None) by (unfold code_kind; now rewrite Hk).
  destruct (So _ _ _ K En) as [tree [t K1 _|sp fz text code file t mk _ _ _ _ _ _ K1 _] _|c wr rd [sp fz src mk _ _ _ K1 _] _|_ ->]; try congruence.
  destruct B.
Qed.

(** Plain use: reached from the roots, or left over when a name of a package was
    imported, or reached from such a module for which implied references are
    configured. *)
Theorem C65_plain_partial : forall E implies s n, order_ok E -> plain_history E implies True s -> tidy s ->
  in_graph s n -> reaches (s_graph s) n
    \/ (exists m x, n = (m ++ "." ++ x)%string /\ left_over s m x n)
    \/ (exists m x refs, let b := (m ++ "." ++ x)%string in
          left_over s m x b /\ In (b, ImpRefs refs) implies /\ leads (s_graph s) b n).
Proof.
  intros E implies s n HE HH [Td1 Td2] Hn.
  destruct (plain_is_user _ _ _ _ HH) as (first & HU). set (s0 := init first [] []) in HU. assert (H0 : start s0) by (now exists first, [], []).
  pose proof (user_is_reach _ _ _ HU) as HR.
  pose proof (plain_holds _ _ _ _ HH) as P.
  assert (R : forall name m, resolves s name m -> m = name) by (intros name m; apply (reach_resolves E s0 s name m HE H0 HR (pl_missing _ _ _ P))).
  assert (RL : forall m x b, left_over s m x b -> b = (m ++ "." ++ x)%string) by (intros m x b (nd & _ & _ & K & _); now apply R).
  destruct (C65_any_partial E s0 s n H0 HR (pl_fine _ _ _ P Logic.I) Hn) as [(b & Hb & Hl)|(m & x & Hs)].
  2:{ right; left. exists m, x. split; [now apply RL|exact Hs]. }
  destruct Hb as [b Hb|m x refs b A B|m x b A B|m x nd c p A B D F|b Hb|b x l l' A B].
  - left. eapply leads_reaches; [apply re_root, Hb|exact Hl].
  - right; right. exists m, x, refs. cbv zeta. pose proof (RL _ _ _ A). subst b. split; [exact A|]. split; [|exact Hl].
    destruct (pl_implied _ _ _ P _ _ B) as [K|K]; [discriminate|exact K].
  - exfalso. revert B. destruct A as (nd & _ & _ & _ & A). eapply plain_idle; eassumption.
  - exfalso. apply D. destruct A as (k & i & nm & A1 & A2 & <- & A4 & A5). eapply child_plainly; [eapply Td1|eapply Td2|]; eassumption.
  - now apply (pl_asked _ _ _ P) in Hb.
  - assert (K : In (EvReq b x) (s_log s)) by (rewrite A; apply in_or_app; right; now left). now apply (pl_asked _ _ _ P) in K.
Qed.

(** So with the default settings everything but such missing modules is reported. *)
Corollary C65_present_partial : forall E implies s n k, order_ok E -> plain_history E implies True s -> tidy s ->
  (forall b refs, ~ In (b, ImpRefs refs) implies) ->
  kind_of s n = Some k -> k <> MissingModule -> reaches (s_graph s) n.
Proof.
  intros E implies s n k HE HH T Hi Hk Hm.
  assert (Hn : in_graph s n) by (intros K; unfold kind_of in Hk; rewrite K in Hk; discriminate).
  destruct (C65_plain_partial E implies s n HE HH T Hn) as [K|[(m & x & _ & nd & _ & _ & _ & K)|(m & x & refs & _ & K & _)]]; [exact K|congruence|].
  now elim (Hi _ _ K).
Qed.

(** Nothing is left over if no name that a package binds is imported from it and
    found missing: then the whole graph is reported. *)
Corollary C65_tidy_partial : forall E implies s n, order_ok E -> plain_history E implies True s -> tidy s ->
  (forall m x b, ~ left_over s m x b) -> in_graph s n -> reaches (s_graph s) n.
Proof.
  intros E implies s n HE HH T Hl Hn. destruct (C65_plain_partial E implies s n HE HH T Hn) as [K|[(m & x & _ & K)|(m & x & refs & K & _)]]; [exact K| |];
  now elim (Hl _ _ _ K).
Qed.

(** The same world: three names from q, of which the global one leaves a node. *)
Example C65_nonvacuous :
  plain_history global_world [] True global_end /\ tidy global_end
  /\ left_over global_end "q" "name" "q.name" /\ reaches (s_graph global_end) "os"
  /\ map fst (node_list global_end) = ["main.py"; "q"; "q.name"; "q.sub"; "q.nowhere"; "os"].
Proof.
  split; [exact global_plain|]. split; [exact global_tidy|].
  split; [|split; [|vm_compute; reflexivity]].
  - eexists. split; [|split; [split; [|left]|split; [now left|reflexivity]]].
    + exists "main.py", (IInfo (IName "q" None) 0 [IName "name" None; IName "sub" None; IName "nowhere" None] false false false false), (IName "name" None).
      split; [|split; [now left|split; [reflexivity|split; vm_compute; reflexivity]]]. eexists. split; [cbn; intuition reflexivity|now left].
    + reflexivity.
    + cbn. tauto.
  - apply (re_edge _ "q.sub" _ [Dep false true false None]); [|vm_compute; tauto].
    apply (re_edge _ "main.py" _ [Dep false true true None]); [|vm_compute; tauto]. apply re_root. vm_compute. tauto.
Qed.

(** With implied references for that name the module they mention is only reached
    from the missing module: the third case is needed. *)
Definition refs_world : env := world
  [("q", EText true "name = 1" [] [] ["name"]); ("os", ESource false [] [])]
  [("main.py", [World.from "q" ["name"] 0])] [].
Definition refs_end : st := Eval vm_compute in snd (the_calls refs_world [AAddScript "main.py"] (init [("q.name", ImpRefs ["os"])] [] [])).
Example C65_implied_nonvacuous :
  plain_history refs_world [("q.name", ImpRefs ["os"])] True refs_end
  /\ ~ reaches (s_graph refs_end) "os" /\ leads (s_graph refs_end) "q.name" "os"
  /\ kind_of refs_end "os" = Some (Module MSource).
Proof.
  split; [eapply (ph_call _ _ _ (init [("q.name", ImpRefs ["os"])] [] []) 60 (AAddScript "main.py")); [apply ph_init, incl_refl|exact Logic.I|vm_compute; reflexivity|discriminate]|].
  split; [|split; [|reflexivity]].
  - intros K. assert (X : forall id, reaches (s_graph refs_end) id -> id = "main.py" \/ id = "q").
    { intros id H. induction H as [id Hr|a b ds _ IH He].
      - vm_compute in Hr. intuition.
      - destruct IH as [-> | ->]; vm_compute in He; intuition (try discriminate); match goal with H : (_, _, _) = _ |- _ => injection H; intros; subst; auto end. }
    destruct (X _ K); discriminate.
  - eapply leads_edge; [apply leads_here|]. exists [default_dep]. split; [vm_compute; tauto|now left].
Qed.
(** The same references, added by a call. *)
Definition refs_told : st := Eval vm_compute in snd (the_calls refs_world [AImplies [("q.name", ImpRefs ["os"])]] new).
Definition refs_late : st := Eval vm_compute in snd (the_calls refs_world [AAddScript "main.py"] refs_told).
Example C65_implied_by_call :
  plain_history refs_world [("q.name", ImpRefs ["os"])] True refs_late /\ s_graph refs_late = s_graph refs_end.
Proof.
  split; [|reflexivity]. eapply (ph_call _ _ _ refs_told 60 (AAddScript "main.py")); [|exact Logic.I|vm_compute; reflexivity|discriminate].
  eapply (ph_call _ _ _ new 60 (AImplies [("q.name", ImpRefs ["os"])])); [apply ph_init; intros x []|apply incl_refl|vm_compute; reflexivity|discriminate].
Qed.

Print Assumptions C65_refuted.
Print Assumptions C65_any_partial.
Print Assumptions C65_plain_partial.
Print Assumptions C65_present_partial.
Print Assumptions C65_tidy_partial.
