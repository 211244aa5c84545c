(** Theorems about single calls: C17, C29, C36, C37, C39, C40. *)
From Verif Require Import BuilderCalls World AstSpec AstProofs DistsProofs.

Lemma order_world w s f : order_ok (world w s f).
Proof. intros l x. reflexivity. Qed.

(** ** C17: excludes and implies *)

Inductive conf := Exclude (names : list string) | Imply (l : list (string * implied)).
Definition conf_call (c : conf) : action :=
  match c with Exclude names => AExcludes names | Imply l => AImplies l end.

(** A name can be excluded by both calls: [add_implies({name: None})]. *)
Definition excludes (c : conf) (x : string) : Prop :=
  match c with Exclude names => In x names | Imply l => In (x, ImpNone) l end.
Definition implies_of (c : conf) : list (string * implied) :=
  match c with Exclude _ => [] | Imply l => l end.

(** [i] is the last entry for [x] in [l]. *)
Definition last_entry (x : string) (i : implied) (l : list (string * implied)) : Prop :=
  exists l1 l2, l = l1 ++ (x, i) :: l2 /\ forall j, ~ In (x, j) l2.

Lemma implies_result imps : forall l x, assoc x l <> Some ImpNone -> ~ In (x, ImpNone) imps ->
  (forall i, last_entry x i imps -> assoc x (add_implies imps l) = Some i)
  /\ ((forall i, ~ In (x, i) imps) -> assoc x (add_implies imps l) = assoc x l).
Proof.
  induction imps as [|[y j] imps IH]; intros l x Hl Hn.
  - split; [intros i (l1 & l2 & K & _); now destruct l1|reflexivity].
  - assert (Hn' : ~ In (x, ImpNone) imps) by (intros K; apply Hn; now right).
    unfold add_implies. cbn [fold_left fst snd]. fold (add_implies imps).
    set (l' := match assoc y l with Some ImpNone => l | _ => lazy_set y j l end).
    assert (Hx : assoc x l' = if seqb x y then Some j else assoc x l).
    { unfold l'. rewrite assoc_implies_one. destruct (seqb x y) eqn:E; [|reflexivity]. apply seqb_eq in E as <-.
      destruct (assoc x l) as [[]|]; congruence. }
    assert (Hl' : assoc x l' <> Some ImpNone).
    { rewrite Hx. destruct (seqb x y) eqn:E; [|exact Hl]. apply seqb_eq in E as <-. intros K. injection K as ->. apply Hn. now left. }
    destruct (IH l' x Hl' Hn') as [I1 I2].
    change (fold_left _ imps l') with (add_implies imps l'). split.
    + intros i (l1 & l2 & K & N). destruct l1 as [|p l1]; injection K as K1 K2.
      * subst y j l2. rewrite I2 by exact N. rewrite Hx. now rewrite (proj2 (seqb_eq x x) eq_refl).
      * apply I1. now exists l1, l2.
    + intros N. rewrite I2 by (intros i K; apply (N i); now right). rewrite Hx.
      destruct (seqb x y) eqn:E; [|reflexivity]. apply seqb_eq in E as <-. elim (N j). now left.
Qed.
Lemma implies_none imps : forall l x, In (x, ImpNone) imps -> assoc x (add_implies imps l) = Some ImpNone.
Proof.
  induction imps as [|[y j] imps IH]; intros l x H; [destruct H|].
  unfold add_implies. cbn [fold_left fst snd]. destruct H as [H|H]; [|now apply IH].
  injection H as -> ->. apply (assoc_implies_kept imps). rewrite assoc_implies_one.
  rewrite (proj2 (seqb_eq x x) eq_refl). destruct (assoc x l) as [[]|]; reflexivity.
Qed.

Lemma conf_call_state E fuel c s ans s' : top_call E fuel (conf_call c) s = Some (ans, s') ->
  s_lazy s' = match c with Exclude names => add_excludes names (s_lazy s) | Imply l => add_implies l (s_lazy s) end.
Proof.
  intros H. destruct c; unfold top_call, call, attempt, bind, modify, ret in H; cbn in H; injection H as <- <-; reflexivity.
Qed.

(** The table of implied actions after any sequence of configuration calls,
    from any state. *)
Theorem C17_configured : forall E fuel cs s anss s' x,
  calls E fuel (map conf_call cs) s = Some (anss, s') ->
  let excluded := assoc x (s_lazy s) = Some ImpNone \/ exists c, In c cs /\ excludes c x in
  (excluded -> assoc x (s_lazy s') = Some ImpNone)
  /\ (~ excluded ->
      (forall i, last_entry x i (flat_map implies_of cs) -> assoc x (s_lazy s') = Some i)
      /\ ((forall i, ~ In (x, i) (flat_map implies_of cs)) -> assoc x (s_lazy s') = assoc x (s_lazy s))).
Proof.
  intros E fuel cs. induction cs as [|c cs IH]; intros s anss s' x H; cbn zeta.
  - injection H as <- <-. split; [intros [K|(c & [] & _)]; exact K|]. intros _.
    split; [intros i (l1 & l2 & K & _); now destruct l1|reflexivity].
  - cbn [map calls] in H. destruct (top_call E fuel (conf_call c) s) as [[ans s1]|] eqn:E1; [|discriminate].
    destruct (calls E fuel (map conf_call cs) s1) as [[anss' s2]|] eqn:E2; [|discriminate]. injection H as <- <-.
    apply conf_call_state in E1. destruct (IH s1 anss' s2 x E2) as [I1 I2]. split.
    + intros K. apply I1. destruct K as [K|(c' & [<-|K1] & K2)].
      * left. rewrite E1. destruct c; [rewrite assoc_excludes; now destruct (memb x names)|now apply assoc_implies_kept].
      * left. rewrite E1. destruct c; cbn in K2.
        -- rewrite assoc_excludes. now rewrite (proj2 (memb_In x names) K2).
        -- now apply implies_none.
      * right. now exists c'.
    + intros K.
      assert (K0 : assoc x (s_lazy s) <> Some ImpNone) by (intros A; apply K; now left).
      assert (Kc : ~ excludes c x) by (intros A; apply K; right; exists c; split; [now left|exact A]).
      assert (K1 : assoc x (s_lazy s1) <> Some ImpNone
        /\ (forall i, last_entry x i (implies_of c) -> assoc x (s_lazy s1) = Some i)
        /\ ((forall i, ~ In (x, i) (implies_of c)) -> assoc x (s_lazy s1) = assoc x (s_lazy s))).
      { rewrite E1. destruct c; cbn in Kc; cbn [implies_of].
        - rewrite assoc_excludes. rewrite (proj2 (memb_false x names) Kc). split; [exact K0|].
          split; [intros i (l1 & l2 & A & _); now destruct l1|reflexivity].
        - destruct (implies_result l (s_lazy s) x K0 Kc) as [A B]. split; [|now split].
          assert (D : (forall i, ~ In (x, i) l) \/ exists i, last_entry x i l).
          { clear. induction l as [|[y j] l IH]; [left; intros i []|].
            destruct IH as [IH|(i & l1 & l2 & -> & N)].
            - destruct (seqb x y) eqn:Exy.
              + apply seqb_eq in Exy as <-. right. exists j, [], l. now split.
              + left. intros i [A|A]; [injection A as -> ->|now elim (IH i)].
                assert (seqb x x = true) by now apply seqb_eq. congruence.
            - right. exists i, ((y, j) :: l1), l2. now split. }
          destruct D as [D|(i & D)]; [rewrite (B D); exact K0|]. rewrite (A i D). intros X. injection X as ->.
          apply Kc. destruct D as (l1 & l2 & -> & _). apply in_app_iff. right. now left. }
      destruct K1 as (K1 & A & B).
      assert (K2 : ~ (assoc x (s_lazy s1) = Some ImpNone \/ exists c0, In c0 cs /\ excludes c0 x)).
      { intros [X|(c' & X & Y)]; [contradiction|]. apply K. right. exists c'. split; [now right|exact Y]. }
      destruct (I2 K2) as [J1 J2]. cbn [flat_map]. split.
      * intros i (l1 & l2 & L & N).
        assert (D : (exists m, flat_map implies_of cs = m ++ (x, i) :: l2 ) \/
                    (exists m, implies_of c = l1 ++ (x, i) :: m /\ l2 = m ++ flat_map implies_of cs)).
        { clear - L. revert l1 L. generalize (implies_of c) as a. induction a as [|p a IHa]; intros l1 L; cbn in L.
          - left. now exists l1.
          - destruct l1 as [|q l1]; injection L as -> L.
            + right. exists a. now split.
            + destruct (IHa l1 L) as [(m & D)|(m & D1 & D2)]; [left; now exists m|].
              right. exists m. rewrite D1. now split. }
        destruct D as [(m & D)|(m & D1 & D2)].
        -- apply J1. exists m, l2. now split.
        -- assert (N1 : forall j, ~ In (x, j) (flat_map implies_of cs)).
           { intros j X. apply (N j). rewrite D2. apply in_app_iff. now right. }
           rewrite (J2 N1). apply A. exists l1, m. split; [exact D1|]. intros j X. apply (N j). rewrite D2.
           apply in_app_iff. now left.
      * intros N. rewrite J2, B; [reflexivity| |]; intros i X; apply (N i); apply in_app_iff; auto.
Qed.

(** [__main__] is excluded from the start, whatever table is used. *)
Theorem C17_main_excluded : forall implies post missing,
  assoc "__main__" (s_lazy (init implies post missing)) = Some ImpNone.
Proof. intros implies post missing. apply assoc_implies_kept. reflexivity. Qed.

Example C17_nonvacuous :
  let cs := [Imply [("a", ImpAlias "b"); ("c", ImpRefs ["d"])]; Exclude ["a"]; Imply [("a", ImpVirtual "v"); ("c", ImpAlias "e")]] in
  let s := snd (the_calls (world [] [] []) (map conf_call cs) new) in
  assoc "a" (s_lazy s) = Some ImpNone /\ assoc "c" (s_lazy s) = Some (ImpAlias "e")
  /\ assoc "__main__" (s_lazy s) = Some ImpNone /\ assoc "x" (s_lazy s) = None.
Proof. vm_compute. auto. Qed.

(** ** C29: add_module *)

(** Only the ghost log differs. *)
Definition unchanged (s s' : st) : Prop := exists l, s' = St (s_graph s) (s_lazy s) (s_stack s) (s_seen s) (s_post s)
  (s_missing s) (s_fakes s) (s_mem s) (s_clock s) (s_run s) (s_saved s) (l ++ s_log s).

Definition C29_statement : Prop := forall E s0 s fuel name ans s',
  order_ok E -> start s0 -> reach E s0 s -> top_call E fuel (AAddModule name) s = Some (ans, s') -> ok_answer ans = true ->
  ans = AnsId name /\ rooted s' name.

(** A missing hook may return a node with another name. *)
Definition other_hook : missing_hook := fun _ name =>
  if seqb name "nope" then PDo (AAddNode (plain_node MissingModule "other")) (fun _ => PRet (Some "other")) else PRet None.
Definition other_new : st := init [] [] [other_hook].
Definition other_done : st := Eval vm_compute in snd (the_calls (world [] [] []) [AAddModule "nope"] other_new).

Theorem C29_refuted : ~ C29_statement.
Proof.
  intros H. destruct (H (world [] [] []) other_new other_new 60 "nope" (AnsId "other") other_done) as [K _].
  - apply order_world.
  - now eexists _, _, _.
  - apply reach_init.
  - vm_compute. reflexivity.
  - reflexivity.
  - discriminate.
Qed.

Theorem C29_add_module_partial : forall E s0 s fuel name ans s',
  order_ok E -> start s0 -> reach E s0 s -> top_call E fuel (AAddModule name) s = Some (ans, s') -> ok_answer ans = true ->
  exists id, ans = AnsId id /\ rooted s' id /\ resolves s' name id /\ (s_missing s' = [] -> id = name).
Proof.
  intros E s0 s fuel name ans s' HE H0 HR HC Ho.
  pose proof (reach_call E s0 s fuel _ ans s' HR HC) as R'.
  destruct (call_post E fuel (AAddModule name) s ans s' (add_module (exec E fuel) name) AnsId _
    (h_linv _ _ (reach_history E s0 s HE H0 HR)) eq_refl (cwp_module _ (closes_exec E fuel) name s) HC Ho)
    as (id & -> & _ & _ & Hr & Hi).
  exists id. split; [reflexivity|]. split; [exact Hi|]. split; [exact Hr|]. intros M.
  eapply (reach_resolves E s0 s'); eassumption.
Qed.

Lemma set_add_same x l : In x l -> set_add x l = l.
Proof. intros H. unfold set_add. now rewrite (proj2 (memb_In x l) H). Qed.

(** The same call again: nothing changes.  (A missing hook could have made a
    distribution node of that name; then the second call fails.) *)
Theorem C29_repeated_partial : forall E s0 s fuel name s' fuel2 ans2 s2,
  order_ok E -> start s0 -> reach E s0 s -> top_call E fuel (AAddModule name) s = Some (AnsId name, s') ->
  kind_of s' name <> Some Distribution ->
  top_call E fuel2 (AAddModule name) s' = Some (ans2, s2) -> ans2 = AnsId name /\ unchanged s' s2.
Proof.
  intros E s0 s fuel name s' fuel2 ans2 s2 HE H0 HR HC Hk HC2.
  destruct (call_post E fuel (AAddModule name) s _ s' (add_module (exec E fuel) name) AnsId _
    (h_linv _ _ (reach_history E s0 s HE H0 HR)) eq_refl (cwp_module _ (closes_exec E fuel) name s) HC eq_refl)
    as (id & Ei & Em & _ & _ & Hi1 & Hi2). injection Ei as <-.
  assert (Hs : s_stack s' = []) by (eapply top_call_drains; [exact HC|reflexivity|reflexivity]).
  assert (Hd : exists n, gfind (s_graph s') name = Some n).
  { unfold in_graph in Hi1. destruct (gfind (s_graph s') name) as [n|]; [now exists n|congruence]. }
  destruct Hd as [n Hn].
  unfold top_call, call, attempt, bind in HC2. cbn [do_action] in HC2. unfold bind in HC2.
  unfold add_module, find_module, get_node, bind, gets, ret in HC2. rewrite Hn in HC2.
  unfold assert in HC2. destruct (is_distribution (n_kind n)) eqn:Ek; cbn [negb] in HC2.
  - elim Hk. unfold kind_of. rewrite Hn. cbn. f_equal. now destruct (n_kind n).
  - unfold note, modify, add_root, lift_graph, gadd_root, ghas, ret in HC2. cbn [s_graph log] in HC2. rewrite Hn in HC2.
    destruct fuel2 as [|fuel2]; [discriminate|].
    cbn [exec f_run] in HC2. unfold run_body in HC2. cbn [s_stack set_graph log] in HC2. rewrite Hs in HC2.
    injection HC2 as <- <-. split; [reflexivity|]. exists [EvRoot name].
    rewrite (set_add_same _ _ Hi2). unfold set_graph, log. cbn. f_equal. now destruct (s_graph s').
Qed.

Definition two_world : env := world [("p", ESource true [imp "p.m"] []); ("p.m", ESource false [] [])] [] [].
Definition two_done : st := Eval vm_compute in snd (the_calls two_world [AAddModule "p"] new).
Example C29_nonvacuous :
  top_call two_world 60 (AAddModule "p") new = Some (AnsId "p", two_done) /\ g_roots (s_graph two_done) = ["p"]
  /\ s_missing two_done = [] /\ top_call two_world 60 (AAddModule "p") two_done = Some (AnsId "p", log two_done (EvRoot "p")).
Proof. vm_compute. auto. Qed.

(** ** C36: add_script *)

Definition C36_statement : Prop := forall E fuel path s, in_graph s path ->
  exists s', top_call E fuel (AAddScript path) s = Some (AnsErr EValue, s') /\ unchanged s s'.

Definition the_dist (names : list string) : dist := Dist 0 "/lib/d.dist-info" "d" "1.0" [] names.
Definition dist_done : st := Eval vm_compute in snd (the_calls two_world [AAddDist (the_dist ["p"])] new).

(** The identifier of a distribution makes the lookup fail with AssertionError. *)
Theorem C36_refuted : ~ C36_statement.
Proof.
  intros H. destruct (H two_world 60 "/lib/d.dist-info"%string dist_done) as (s' & K & _); [discriminate|].
  vm_compute in K. discriminate.
Qed.

Theorem C36_duplicate_partial : forall E fuel path s k, kind_of s path = Some k -> k <> Distribution ->
  exists s', top_call E fuel (AAddScript path) s = Some (AnsErr EValue, s') /\ unchanged s s'.
Proof.
  intros E fuel path s k Hk Hd. exists (log s EvErr). split; [|now exists [EvErr]].
  unfold top_call, call, attempt. cbn [do_action]. unfold add_script, find_module, get_node, gets, bind.
  unfold kind_of in Hk. destruct (gfind (s_graph s) path) as [n|]; [|discriminate]. cbn in Hk. injection Hk as Hk.
  unfold assert. replace (is_distribution (n_kind n)) with false; [reflexivity|].
  rewrite Hk. now destruct k.
Qed.

Theorem C36_new_script : forall E s0 s fuel path ans s',
  order_ok E -> start s0 -> reach E s0 s -> top_call E fuel (AAddScript path) s = Some (ans, s') -> ok_answer ans = true ->
  ans = AnsId path /\ ~ in_graph s path /\ kind_of s' path = Some Script /\ rooted s' path.
Proof.
  intros E s0 s fuel path ans s' HE H0 HR HC Ho.
  destruct (call_post E fuel (AAddScript path) s ans s' (add_script E (exec E fuel) path) AnsId _
    (h_linv _ _ (reach_history E s0 s HE H0 HR)) eq_refl (cwp_script E _ (closes_exec E fuel) path s) HC Ho)
    as (id & -> & _ & _ & -> & A & B & C). auto.
Qed.

Definition script_world : env := world [("p", ESource true [imp "p.m"] []); ("p.m", ESource false [] [])]
  [("main.py", [imp "p"])] [].
Definition script_done : st := Eval vm_compute in snd (the_calls script_world [AAddScript "main.py"] new).
Example C36_nonvacuous :
  top_call script_world 60 (AAddScript "main.py") new = Some (AnsId "main.py", script_done)
  /\ kind_of script_done "main.py" = Some Script /\ g_roots (s_graph script_done) = ["main.py"]
  /\ kind_of script_done "p.m" = Some (Module MSource).
Proof. vm_compute. auto. Qed.

(** ** C37: add_distribution *)

Definition linked_dist (s : st) (d : dist) : Prop :=
  rooted s (dist_identifier d) /\
  (exists n, gfind (s_graph s) (dist_identifier d) = Some n /\ n_kind n = Distribution /\ n_dist n = Some d) /\
  forall name, In name (dist_import_names d) ->
    exists m, resolves s name m /\ has_edge (s_graph s) (dist_identifier d) m (Dep false true false None).

Definition C37_statement : Prop := forall E s0 s fuel d ans s',
  order_ok E -> start s0 -> reach E s0 s -> top_call E fuel (AAddDist d) s = Some (ans, s') -> ok_answer ans = true ->
  ans = AnsId (dist_identifier d) /\ linked_dist s' d.

(** The first call fails because of the name [a..b]; the second succeeds. *)
Definition bad_dist : dist := the_dist ["a..b"; "p"].
Definition bad_once : st := Eval vm_compute in snd (the_calls two_world [AAddDist bad_dist] new).
Definition bad_twice : st := Eval vm_compute in snd (the_calls two_world [AAddDist bad_dist] bad_once).

Theorem C37_refuted : ~ C37_statement.
Proof.
  intros H. destruct (H two_world new bad_once 60 bad_dist (AnsId "/lib/d.dist-info"%string) bad_twice) as (_ & _ & _ & K).
  - apply order_world.
  - now exists [], [], [].
  - apply (ran _ [AAddDist bad_dist]). vm_compute. reflexivity.
  - vm_compute. reflexivity.
  - reflexivity.
  - destruct (K "p") as (m & _ & ds & A & _); [now right; left|]. vm_compute in A. destruct A.
Qed.

Lemma add_named_ok E fuel name s ans s' : top_call E fuel (AAddDistNamed name) s = Some (ans, s') -> ok_answer ans = true ->
  exists d, e_dist_named E (s_clock s) name = ROk (Some d) /\ top_call E fuel (AAddDist d) (tick s) = Some (ans, s').
Proof.
  intros H Ho. unfold top_call, call, attempt in *. cbn [do_action] in *. unfold add_distribution_named, askr, bind in *.
  destruct (e_dist_named E (s_clock s) name) as [[d|]|e].
  - exists d. split; [reflexivity|]. exact H.
  - cbn in H. injection H as <- <-. discriminate.
  - cbn in H. injection H as <- <-. discriminate.
Qed.

(** A distribution that is not installed cannot be added. *)
Theorem C37_unknown : forall E fuel name s, e_dist_named E (s_clock s) name = ROk None ->
  exists s', top_call E fuel (AAddDistNamed name) s = Some (AnsErr EValue, s')
    /\ s_graph s' = s_graph s /\ s_stack s' = s_stack s /\ s_lazy s' = s_lazy s.
Proof.
  intros E fuel name s H. unfold top_call, call, attempt. cbn [do_action]. unfold add_distribution_named, askr, bind. rewrite H.
  cbn. eexists. split; [reflexivity|]. auto.
Qed.
Example C37_unknown_nonvacuous : e_dist_named (world [] [] []) (s_clock new) "wheel" = ROk None.
Proof. reflexivity. Qed.

Theorem C37_new_distribution_partial : forall E s0 s fuel d ans s',
  order_ok E -> start s0 -> reach E s0 s -> top_call E fuel (AAddDist d) s = Some (ans, s') -> ok_answer ans = true ->
  ~ in_graph s (dist_identifier d) -> ans = AnsId (dist_identifier d) /\ linked_dist s' d.
Proof.
  intros E s0 s fuel d ans s' HE H0 HR HC Ho Hn.
  destruct (call_post E fuel (AAddDist d) s ans s' (add_distribution E (exec E fuel) d) AnsId _
    (h_linv _ _ (reach_history E s0 s HE H0 HR)) eq_refl (cwp_distribution E _ (closes_exec E fuel) d s) HC Ho)
    as (id & -> & _ & _ & -> & K).
  split; [reflexivity|]. destruct K as (A & B & C).
  - unfold in_graph in Hn. destruct (gfind (s_graph s) (dist_identifier d)); [elim Hn; discriminate|reflexivity].
  - split; [exact A|]. split; [exact B|]. intros name Hi. apply C. now apply HE.
Qed.

(** Adding it again gives the same node and changes nothing, from any state. *)
Theorem C37_again : forall E fuel d s n, gfind (s_graph s) (dist_identifier d) = Some n -> n_kind n = Distribution ->
  top_call E fuel (AAddDist d) s = Some (AnsId (dist_identifier d), s).
Proof.
  intros E fuel d s n Hn Hk. unfold top_call, call, attempt. cbn [do_action]. unfold add_distribution, get_node, gets, bind.
  rewrite Hn, Hk. reflexivity.
Qed.

Example C37_nonvacuous :
  top_call two_world 60 (AAddDist (the_dist ["p"])) new = Some (AnsId "/lib/d.dist-info"%string, dist_done)
  /\ linked_dist dist_done (the_dist ["p"]) /\ kind_of dist_done "p.m" = Some (Module MSource).
Proof.
  split; [vm_compute; reflexivity|]. split; [|reflexivity].
  apply (C37_new_distribution_partial two_world new new 60 (the_dist ["p"]) (AnsId "/lib/d.dist-info"%string)).
  - apply order_world.
  - now exists [], [], [].
  - apply reach_init.
  - vm_compute. reflexivity.
  - reflexivity.
  - intros K. now apply K.
Qed.

(** ** C39: add_dependencies_for_source *)

Lemma source_roots E s0 s fuel src ans s' : order_ok E -> start s0 -> reach E s0 s ->
  top_call E fuel (AAddSource src) s = Some (ans, s') -> ok_answer ans = true ->
  exists t infos, e_parse E (s_clock s) "-source-code-" src = ROk t /\ extract_ast_info (e_names_order E) t = Some infos
      /\ forall i, In i infos -> root_for s' (in_name (ii_module i))
         /\ forall nm, In nm (ii_names i) -> root_for s' (in_name (ii_module i) ++ "." ++ in_name nm)%string.
Proof.
  intros HE H0 HR HC Ho.
  destruct (call_post E fuel (AAddSource src) s ans s' (add_source E (exec E fuel) src) (fun _ => AnsUnit) _
    (h_linv _ _ (reach_history E s0 s HE H0 HR)) eq_refl (cwp_source E _ (closes_exec E fuel) src s) HC Ho)
    as (_ & _ & _ & _ & K). exact K.
Qed.

(** Every import statement anywhere in the text; [root_for] is a root with that
    name, or what a missing hook gave for it. *)
Theorem C39_source_roots : forall E s0 s fuel src ans s' t,
  order_ok E -> set_order (e_names_order E) -> start s0 -> reach E s0 s ->
  e_parse E (s_clock s) "-source-code-" src = ROk t ->
  top_call E fuel (AAddSource src) s = Some (ans, s') -> ok_answer ans = true ->
  forall p stmt w, below p t stmt -> In w (whats stmt) ->
    match w with
    | WImport name _ => root_for s' name
    | WFrom m names _ => let m := match m with Some m => m | None => ""%string end in
        root_for s' m /\ forall x asname, In (x, asname) names -> x <> "*"%string -> root_for s' (m ++ "." ++ x)%string
    end.
Proof.
  intros E s0 s fuel src ans s' t HE HO H0 HR Hp HC Ho p stmt w Hb Hw.
  destruct (source_roots E s0 s fuel src ans s' HE H0 HR HC Ho) as (t' & infos & Ht & Hx & K).
  rewrite Hp in Ht. injection Ht as <-.
  destruct (extract_contexts (e_names_order E) t HO) as (out & Hx' & A & _). rewrite Hx in Hx'. injection Hx' as <-.
  destruct (A p stmt w Hb Hw) as (i & Hi & Hs & _). destruct (K i Hi) as [K1 K2].
  destruct w as [name a|m names level]; cbn in Hs.
  - destruct Hs as (Hs & _). now rewrite Hs in K1.
  - destruct Hs as (Hs & _ & Hn & _). rewrite Hs in K1, K2. cbn in K1, K2. split; [exact K1|].
    intros x asname Hin Hne. assert (H : In x (map in_name (ii_names i))); [apply Hn|].
    + split; [exact Hne|]. now apply (in_map fst) in Hin.
    + apply in_map_iff in H as (nm & <- & H). now apply K2.
Qed.
(** Without missing hooks the roots have the very names. *)
Theorem C39_names : forall E s0 s name, order_ok E -> start s0 -> reach E s0 s -> s_missing s = [] ->
  root_for s name -> rooted s name.
Proof.
  intros E s0 s name HE H0 HR M (id & A & B). now rewrite (reach_resolves E s0 s name id HE H0 HR M A) in B.
Qed.

Definition text_world : env := world [("p", ESource true [imp "p.m"] []); ("p.m", ESource false [] []); ("a", ESource false [] [])]
  [("import a; from p import m", [imp "a"; AIf [from "p" ["m"] 0]]); ("from . import x", [AImportFrom None [("x", None)] 1]);
   ("from .a import x", [from "a" ["x"] 1])] [].
Definition text_done : st := Eval vm_compute in snd (the_calls text_world [AAddSource "import a; from p import m"] new).
Example C39_nonvacuous :
  top_call text_world 60 (AAddSource "import a; from p import m") new = Some (AnsUnit, text_done)
  /\ g_roots (s_graph text_done) = ["a"; "p"; "p.m"].
Proof. vm_compute. auto. Qed.

(** ** C40: relative imports in the source text *)

Definition C40_statement : Prop := forall E s0 s fuel src ans s' t p m names level,
  order_ok E -> start s0 -> reach E s0 s -> s_missing s = [] -> s_post s = [] ->
  e_parse E (s_clock s) "-source-code-" src = ROk t ->
  below p t (AImportFrom m names (S level)) ->
  top_call E fuel (AAddSource src) s = Some (ans, s') -> ans <> AnsErr EValue.

Definition relative_done : st := Eval vm_compute in snd (the_calls text_world [AAddSource "from . import x"] new).
Theorem C40_refuted : ~ C40_statement.
Proof.
  intros H. apply (H text_world new new 60 "from . import x"%string (AnsErr EValue) relative_done
    (AOther [AImportFrom None [("x"%string, None)] 1]) [KOther] None [("x"%string, None)] 0).
  - apply order_world.
  - now exists [], [], [].
  - apply reach_init.
  - reflexivity.
  - reflexivity.
  - reflexivity.
  - apply (below_kid [] _ KOther (AImportFrom None [("x"%string, None)] 1)); [now left|apply below_here].
  - vm_compute. reflexivity.
  - reflexivity.
Qed.

(** More than that: no source text with such an import can succeed, unless there
    is a node with the empty name or a missing hook comes up with a node. *)
Theorem C40_never_succeeds : forall E s0 s fuel src ans s' t p names level,
  order_ok E -> set_order (e_names_order E) -> start s0 -> reach E s0 s -> s_missing s' = [] ->
  e_parse E (s_clock s) "-source-code-" src = ROk t ->
  below p t (AImportFrom None names level) ->
  top_call E fuel (AAddSource src) s = Some (ans, s') -> ok_answer ans = true -> in_graph s' ""%string.
Proof.
  intros E s0 s fuel src ans s' t p names level HE HO H0 HR M Hp Hb HC Ho.
  destruct (C39_source_roots E s0 s fuel src ans s' t HE HO H0 HR Hp HC Ho p _ (WFrom None names level) Hb) as [K _]; [now left|].
  apply (C39_names E s0 s' ""%string HE H0) in K; [apply K| |exact M]. eapply reach_call; eassumption.
Qed.
(** The level is not looked at: [from .a import x] makes the top level module
    [a] a root. *)
Example C40_level_ignored :
  g_roots (s_graph (snd (the_calls text_world [AAddSource "from .a import x"] new))) = ["a"; "a.x"].
Proof. vm_compute. reflexivity. Qed.

Print Assumptions C17_configured.
Print Assumptions C17_main_excluded.
Print Assumptions C29_refuted.
Print Assumptions C29_add_module_partial.
Print Assumptions C29_repeated_partial.
Print Assumptions C36_refuted.
Print Assumptions C36_duplicate_partial.
Print Assumptions C36_new_script.
Print Assumptions C37_refuted.
Print Assumptions C37_unknown.
Print Assumptions C37_new_distribution_partial.
Print Assumptions C37_again.
Print Assumptions C39_source_roots.
Print Assumptions C39_names.
Print Assumptions C40_refuted.
Print Assumptions C40_never_succeeds.
