(** Theorems about processing import statements: C03, C58, C59. *)
From Verif Require Import BuilderCalls World.

Lemma order_world w s f : order_ok (world w s f).
Proof. intros l x. reflexivity. Qed.

(** ** C58: star imports *)

(** The nodes of [s'] are those of [s], with [names] added to the globals of [n]. *)
Definition only_written (s s' : st) (n : string) (names : list string) : Prop :=
  g_edges (s_graph s') = g_edges (s_graph s) /\ g_roots (s_graph s') = g_roots (s_graph s) /\
  (forall id, id <> n -> gfind (s_graph s') id = gfind (s_graph s) id) /\
  match gfind (s_graph s) n, gfind (s_graph s') n with
  | Some a, Some b => n_name b = n_name a /\ n_kind b = n_kind a /\ n_read b = n_read a /\ n_dist b = n_dist a
      /\ n_file b = n_file a /\ n_search b = n_search a /\ n_data b = n_data a
      /\ forall x, In x (n_written b) <-> In x (n_written a) \/ In x names
  | None, None => True
  | _, _ => False
  end.

Lemma written_only s n names : only_written s (set_graph s (gadd_written (s_graph s) n names)) n names.
Proof.
  split; [reflexivity|]. split; [reflexivity|]. cbn [s_graph set_graph]. split.
  - intros id Hid. rewrite gfind_written. destruct (gfind (s_graph s) id) as [a|] eqn:Ea; [|reflexivity]. cbn.
    apply gfind_name in Ea. unfold upd_written. destruct (seqb (n_name a) n) eqn:En; [|reflexivity].
    apply seqb_eq in En. congruence.
  - rewrite gfind_written. destruct (gfind (s_graph s) n) as [a|] eqn:Ea; [|exact Logic.I]. cbn.
    apply gfind_name in Ea. unfold upd_written. rewrite (proj2 (seqb_eq (n_name a) n) Ea). cbn.
    repeat (split; [reflexivity|]). intros x. apply set_union_In.
Qed.

(** Any state, any implementation [r] of the other functions; the node that is
    imported from is a module or package. *)
Theorem C58_star : forall r n m i s nd x,
  ii_star i = true -> gfind (s_graph s) n = Some nd ->
  is_module (n_kind nd) || is_package (n_kind nd) || is_script (n_kind nd) = true ->
  gfind (s_graph s) m = Some x -> is_package (n_kind x) || is_module (n_kind x) = true ->
  exists g, process_namelist r n m i s = Some (ROk tt, set_graph s g) /\ only_written s (set_graph s g) n (n_written x).
Proof.
  intros r n m i s nd x Hs Hn Hk Hm Hx. exists (gadd_written (s_graph s) n (n_written x)). split; [|apply written_only].
  unfold process_namelist, kind_test, get_node, gets, bind, ret. rewrite Hn, Hk. cbn [assert]. unfold assert, ret.
  rewrite Hm, Hs, Hx. reflexivity.
Qed.
(** Anything else (missing, excluded, namespace package, alias): no change. *)
Theorem C58_star_other : forall r n m i s nd,
  ii_star i = true -> gfind (s_graph s) n = Some nd ->
  is_module (n_kind nd) || is_package (n_kind nd) || is_script (n_kind nd) = true ->
  (forall x, gfind (s_graph s) m = Some x -> is_package (n_kind x) || is_module (n_kind x) = false) ->
  process_namelist r n m i s = Some (ROk tt, s).
Proof.
  intros r n m i s nd Hs Hn Hk Hm.
  unfold process_namelist, kind_test, get_node, gets, bind, ret. rewrite Hn, Hk. unfold assert, ret. rewrite Hs.
  destruct (gfind (s_graph s) m) as [x|]; [|reflexivity]. now rewrite (Hm x eq_refl).
Qed.

Definition star_world : env := world
  [("a", ESource false [AImportFrom (Some "b"%string) [("*"%string, None)] 0] ["x"]); ("b", ESource false [] ["y"; "z"])] [] [].
Definition star_done : st := Eval vm_compute in snd (the_calls star_world [AAddModule "a"] new).
Example C58_nonvacuous :
  option_map n_written (gfind (s_graph star_done) "a") = Some ["x"; "y"; "z"]
  /\ option_map n_written (gfind (s_graph star_done) "b") = Some ["y"; "z"].
Proof. vm_compute. auto. Qed.

(** ** C59: names of from imports *)

(** In any history: the from list of statement [i] of [n] has been processed for
    the imported node [m], which is the package [p] or an alias of it. *)
Definition from_package (s : st) (n p : string) (i : iinfo) (nd : node) : Prop :=
  exists m, In (EvDone (DoNames n m i)) (s_log s) /\ (m = p \/ kind_of s m = Some (AliasNode p))
    /\ ii_star i = false /\ gfind (s_graph s) p = Some nd /\ is_package (n_kind nd) = true.

Definition C59_statement : Prop := forall E s0 s n p i nd nm,
  order_ok E -> start s0 -> reach E s0 s -> from_package s n p i nd -> In nm (ii_names i) ->
  ~ In (in_name nm) (n_written nd) ->
  exists t, resolves s (p ++ "." ++ in_name nm) t /\ in_graph s t /\ has_edge (s_graph s) n t (name_dep i nm).

(** [from six.moves import getcwd], where the loader of six does not have a spec
    for the name: an edge to [os] without [in_fromlist] and no edge to
    [six.moves.getcwd]. *)
Definition six_world : env := world
  [("six", ESource true [] []); ("six.moves", ESpec (Spec "six.moves" LSix None (Some []) true (ROk true)));
   ("os", ESource false [] []); ("a", ESource false [from "six.moves" ["getcwd"] 0] [])] [] [].
Definition six_done : st := Eval vm_compute in snd (the_calls six_world [AAddModule "a"] new).
Definition six_info : iinfo := IInfo (IName "six.moves" None) 0 [IName "getcwd" None] false false false false.

Theorem C59_refuted : ~ C59_statement.
Proof.
  intros H. destruct (gfind (s_graph six_done) "six.moves") as [nd|] eqn:Em; [|discriminate].
  destruct (H six_world new six_done "a"%string "six.moves"%string six_info nd (IName "getcwd" None)) as (t & A & B & ds & C & _).
  - apply order_world.
  - now exists [], [], [].
  - apply (ran _ [AAddModule "a"%string]). vm_compute. reflexivity.
  - exists "six.moves"%string. split; [vm_compute; intuition|]. split; [now left|]. split; [reflexivity|].
    split; [exact Em|]. vm_compute in Em. injection Em as <-. reflexivity.
  - now left.
  - vm_compute in Em. injection Em as <-. cbn. intuition discriminate.
  - destruct A as [A|A]; [|vm_compute in A; intuition discriminate]. subst t. vm_compute in C. intuition discriminate.
Qed.

Definition six_moves (k : kind) : bool :=
  match k with Package _ init _ _ _ => seqb init "@@SIX_MOVES@@" | _ => false end.

(** For all packages but [six.moves]. *)
Theorem C59_from_edges_partial : forall E s0 s n p i nd nm,
  order_ok E -> start s0 -> reach E s0 s -> from_package s n p i nd -> In nm (ii_names i) ->
  ~ In (in_name nm) (n_written nd) -> six_moves (n_kind nd) = false ->
  exists t, resolves s (p ++ "." ++ in_name nm) t /\ in_graph s t /\ has_edge (s_graph s) n t (name_dep i nm)
    /\ has_edge (s_graph s) t p (Dep false true false None) /\ (s_missing s = [] -> t = (p ++ "." ++ in_name nm)%string).
Proof.
  intros E s0 s n p i nd nm HE H0 HR (m & Hd & Hm & Hs & Hp & Hk) Hi Hw H6.
  pose proof (reach_facts E s0 s HE H0 HR) as F.
  destruct (f_results _ F _ Hd Hs) as (_ & _ & K & _). unfold names_linked in K. rewrite Hs in K.
  assert (Kp : kind_of s p = Some (n_kind nd)) by (unfold kind_of; now rewrite Hp).
  assert (Np : nameable (n_kind nd) = true) by (unfold nameable; now rewrite Hk).
  assert (X : name_done s n p i nm).
  { destruct Hm as [->|Hm].
    - apply (K (n_kind nd) p Kp); [now left|exact Hi].
    - apply (K (AliasNode p) p Hm); [|exact Hi]. right. split; [reflexivity|]. now exists (n_kind nd). }
  destruct X as [(y & t & A1 & A2 & _)|[(k & A)|[(t & A1 & A2 & A3)|[(y & t & A1 & _ & A2 & _)|(b & k & f & ty & x & t & A & _)]]]].
  - rewrite Hp in A1. injection A1 as <-. contradiction.
  - rewrite Kp in A. injection A as A. rewrite A in Hk. discriminate.
  - exists t. split; [exact A1|]. split.
    + destruct A2 as (ds & A2 & _). apply (wf_ends _ (f_wf _ F)) in A2 as [_ A2]. unfold in_graph. now rewrite gfind_ids.
    + split; [exact A2|]. split; [exact A3|]. intros M. eapply (reach_resolves E s0 s); eassumption.
  - rewrite Hp in A1. injection A1 as <-. contradiction.
  - rewrite Kp in A. injection A as A. rewrite A in H6. discriminate.
Qed.

(** From a plain module no node is made: only edges and globals of [n] can change. *)
Definition same_nodes (s s' : st) : Prop :=
  map n_name (g_nodes (s_graph s')) = map n_name (g_nodes (s_graph s)) /\
  s' = set_graph s (s_graph s').

Lemma process_name_module r n m k i nm s res s' :
  process_name r n m (Module k) i nm s = Some (res, s') -> same_nodes s s'.
Proof.
  unfold process_name, get_node, gets, bind, ret. cbn [is_module].
  assert (X : forall o, match (do add_edge n o (from_importinfo i true (in_asname nm)) ;; ret true) s with
    | Some (ROk a, s1) => (if a : bool then Some (ROk tt, s1) else None)
    | Some (RErr e, s1) => Some (RErr e, s1)
    | None => None end = Some (res, s') -> same_nodes s s').
  { intros o H. unfold bind, add_edge, lift_graph, gadd_edge in H.
    destruct (ghas (s_graph s) n && ghas (s_graph s) o); injection H as <- <-; (split; [reflexivity|]); now destruct s. }
  destruct (memb _ _).
  - unfold reexported, gets. intros H. destruct (find _ _) as [[ds t]|] eqn:Ef; cbn [option_map snd] in H.
    + apply (X t). revert H. unfold bind, ret. destruct (add_edge n t _ s) as [[[a|e] s1]|]; auto.
    + injection H as <- <-. split; [reflexivity|]. now destruct s.
  - intros H. injection H as <- <-. split; [reflexivity|]. now destruct s.
Qed.
Lemma same_nodes_trans a b c : same_nodes a b -> same_nodes b c -> same_nodes a c.
Proof. intros [A1 A2] [B1 B2]. split; [congruence|]. rewrite B2, A2. now destruct a. Qed.
Lemma same_nodes_refl a : same_nodes a a.
Proof. split; [reflexivity|now destruct a]. Qed.
Lemma iter_same {A} (f : A -> M unit) l : (forall x s res s', f x s = Some (res, s') -> same_nodes s s') ->
  forall s res s', iter f l s = Some (res, s') -> same_nodes s s'.
Proof.
  intros H. induction l as [|x l IH]; intros s res s' K; cbn in K.
  - injection K as <- <-. apply same_nodes_refl.
  - unfold bind in K. destruct (f x s) as [[[u|e] s1]|] eqn:Ef; [| |discriminate].
    + eapply same_nodes_trans; [eapply H, Ef|eapply IH, K].
    + injection K as <- <-. eapply H, Ef.
Qed.
Theorem C59_plain_module : forall r n m i s res s' x k,
  gfind (s_graph s) m = Some x -> n_kind x = Module k ->
  process_namelist r n m i s = Some (res, s') -> same_nodes s s'.
Proof.
  intros r n m i s res s' x k Hm Hk H.
  unfold process_namelist, kind_test, get_node, gets in H. unfold bind at 1 2 in H.
  assert (W : forall names, same_nodes s (set_graph s (gadd_written (s_graph s) n names))).
  { intros names. split; [|reflexivity]. cbn [s_graph set_graph]. unfold gadd_written. cbn [g_nodes].
    rewrite map_map. apply map_ext. intros y. unfold upd_written. now destruct (seqb _ _). }
  set (ok := match gfind (s_graph s) n with Some x => _ | None => false end) in H. 
  unfold bind, ret, assert in H. destruct ok; [|injection H as <- <-; apply same_nodes_refl].
  unfold ret in H. rewrite Hm, Hk in H. cbn [is_package is_nspkg is_module orb] in H.
  destruct (ii_star i).
  - injection H as <- <-. apply W.
  - destruct (ii_names i) as [|nm names] eqn:En; [injection H as <- <-; apply same_nodes_refl|].
    unfold add_written, modify in H. eapply same_nodes_trans; [apply W|]. eapply iter_same; [|exact H].
    intros nm' s1 r1 s2. apply process_name_module.
Qed.

Definition from_world : env := world
  [("a", ESource false [from "p" ["m"; "g"; "no"] 0; from "b" ["q"] 0] []); ("p", ESource true [] ["g"]);
   ("p.m", ESource false [] []); ("b", ESource false [] [])] [] [].
Definition from_done : st := Eval vm_compute in snd (the_calls from_world [AAddModule "a"] new).
Definition from_info : iinfo := IInfo (IName "p" None) 0 [IName "m" None; IName "g" None; IName "no" None] false false false false.
Example C59_nonvacuous : exists nd, from_package from_done "a" "p" from_info nd /\ ~ In "m"%string (n_written nd)
  /\ six_moves (n_kind nd) = false
  /\ In ("a", "p.m")%string (edge_pairs from_done) /\ In ("a", "p.no")%string (edge_pairs from_done)
  /\ kind_of from_done "p.no" = Some MissingModule /\ kind_of from_done "b.q" = None.
Proof.
  eexists. split; [exists "p"%string; split; [vm_compute; intuition|]; split; [now left|]; split; [reflexivity|];
    split; [vm_compute; reflexivity|reflexivity]|].
  vm_compute. intuition discriminate.
Qed.

(** ** C03: relative imports in scripts *)

(** A relative import of a script that has been processed. *)
Definition script_import (s : st) (path : string) (i : iinfo) : Prop :=
  kind_of s path = Some Script /\ In (EvDone (DoImport path i)) (s_log s) /\ ii_level i <> 0.
Definition reported_invalid (s : st) (path : string) (i : iinfo) : Prop :=
  kind_of s (invalid_name i) = Some InvalidRelativeImport /\ has_edge (s_graph s) path (invalid_name i) (invalid_dep i)
  /\ forall m, ~ import_target s path i m.

Definition C03_statement : Prop := forall E s0 s path i, order_ok E -> start s0 -> reach E s0 s ->
  script_import s path i -> reported_invalid s path i.

(** [from . import bar] in [foo.py]: [foo] and [foo.bar] are imported. *)
Definition c03_world : env := world [("foo", ESource true [] []); ("foo.bar", ESource false [] [])]
  [("foo.py", [AImportFrom None [("bar", None)] 1]); ("script", [AImportFrom None [("bar", None)] 1]);
   ("a.b", [AImportFrom (Some "x"%string) [] 2])] [].
Definition c03_done : st := Eval vm_compute in snd (the_calls c03_world [AAddScript "foo.py"] new).
Definition c03_info : iinfo := IInfo (IName "" None) 1 [IName "bar" None] false false false false.

Theorem C03_refuted : ~ C03_statement.
Proof.
  intros H. destruct (H c03_world new c03_done "foo.py"%string c03_info) as (K & _).
  - apply order_world.
  - now exists [], [], [].
  - apply (ran _ [AAddScript "foo.py"%string]). vm_compute. reflexivity.
  - split; [reflexivity|]. split; [vm_compute; intuition|]. discriminate.
  - vm_compute in K. discriminate.
Qed.

Fixpoint dots (s : string) : nat :=
  match s with
  | EmptyString => 0
  | String c r => (if Ascii.eqb c dot then 1 else 0) + dots r
  end.
Lemma dots_app a b : dots (a ++ b) = dots a + dots b.
Proof. induction a as [|c a IH]; [reflexivity|]. cbn. rewrite IH. lia. Qed.
Lemma up_dots k n q : up k n q -> k <= dots n.
Proof.
  intros H. induction H; [lia|]. rewrite !dots_app. change (dots ".") with 1. lia.
Qed.
Lemma dotless_dots x : has_char dot x = false -> dots x = 0.
Proof.
  induction x as [|y x IHx]; intros Hx; [reflexivity|]. cbn [has_char dots] in *. apply Bool.orb_false_iff in Hx as [A B].
  rewrite IHx by exact B. now rewrite A.
Qed.
Lemma dots_up k : forall n, k <= dots n -> exists q, up k n q.
Proof.
  induction k as [|k IH]; intros n H; [exists n; constructor|].
  destruct (rpart dot n) as [[p c]|] eqn:Er.
  - apply rpart_Some in Er as [-> Hc].
    rewrite dots_app in H. cbn [dots] in H. rewrite (dotless_dots c Hc) in H. cbn in H.
    destruct (IH p) as [q Hq]; [lia|]. exists q. change (String dot c) with ("." ++ c)%string. now constructor.
  - apply rpart_None in Er. exfalso.
    rewrite (dotless_dots n Er) in H. lia.
Qed.
Lemma script_not_pkg s path b : kind_of s path = Some Script -> pkg_node s path b -> b = false.
Proof. intros H (k & A & ->). rewrite H in A. now injection A as <-. Qed.

(** Paths with fewer dots than the level of the import (for instance no file
    name extension and no directory with a dot). *)
Theorem C03_few_dots_partial : forall E s0 s path i, order_ok E -> start s0 -> reach E s0 s ->
  script_import s path i -> dots path < ii_level i -> reported_invalid s path i.
Proof.
  intros E s0 s path i HE H0 HR (Hk & Hd & Hl) Hp.
  assert (N : forall q, ~ up (climb false (ii_level i)) path q).
  { intros q K. apply up_dots in K. cbn in K. lia. }
  assert (T : forall m, ~ import_target s path i m).
  { intros m (b & name & A & B & _). rewrite (script_not_pkg s path b Hk A) in B. inversion B; [contradiction| |]; eapply N; eassumption. }
  destruct (f_results _ (reach_facts E s0 s HE H0 HR) _ Hd) as [(b & A & B & C & D)|(m & A & _)].
  - split; [exact C|]. split; [exact D|exact T].
  - elim (T m A).
Qed.
(** All other paths: the import is never reported, a module is imported. *)
Theorem C03_other_paths_misread : forall E s0 s path i, order_ok E -> start s0 -> reach E s0 s ->
  script_import s path i -> ii_level i <= dots path ->
  exists q m, up (ii_level i) path q
    /\ resolves s (if seqb (in_name (ii_module i)) "" then q else (q ++ "." ++ in_name (ii_module i)))%string m
    /\ has_edge (s_graph s) path m (import_dep i).
Proof.
  intros E s0 s path i HE H0 HR (Hk & Hd & Hl) Hp.
  destruct (f_results _ (reach_facts E s0 s HE H0 HR) _ Hd) as [(b & A & B & C & D)|(m & A & B & _)].
  - exfalso. rewrite (script_not_pkg s path b Hk A) in B. destruct B as [_ B]. cbn in B.
    destruct (dots_up _ _ Hp) as [q Hq]. now apply (B q).
  - destruct A as (b & name & A1 & A2 & A3). rewrite (script_not_pkg s path b Hk A1) in A2.
    inversion A2; [contradiction| |]; subst.
    + exists name, m. cbn in H1. split; [exact H1|]. rewrite H2. split; [exact A3|exact B].
    + exists q, m. cbn in H1. split; [exact H1|]. destruct (seqb (in_name (ii_module i)) "") eqn:Ee.
      * apply seqb_eq in Ee. contradiction.
      * now split.
Qed.

Definition c03_ok : st := Eval vm_compute in snd (the_calls c03_world [AAddScript "script"; AAddScript "a.b"] new).
Example C03_nonvacuous :
  (exists i, script_import c03_ok "script" i /\ dots "script" < ii_level i)
  /\ (exists i, script_import c03_ok "a.b" i /\ dots "a.b" < ii_level i)
  /\ kind_of c03_ok "." = Some InvalidRelativeImport /\ kind_of c03_ok "..x" = Some InvalidRelativeImport.
Proof.
  split; [|split; [|now split]].
  - exists c03_info. split; [split; [reflexivity|split; [vm_compute; intuition|discriminate]]|vm_compute; lia].
  - exists (IInfo (IName "x" None) 2 [] false false false false).
    split; [split; [reflexivity|split; [vm_compute; intuition|discriminate]]|vm_compute; lia].
Qed.

Print Assumptions C03_refuted.
Print Assumptions C03_few_dots_partial.
Print Assumptions C03_other_paths_misread.
Print Assumptions C58_star.
Print Assumptions C58_star_other.
Print Assumptions C59_refuted.
Print Assumptions C59_from_edges_partial.
Print Assumptions C59_plain_module.
