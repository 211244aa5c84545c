(** C88: a call that is refused changes nothing. *)
From Verif Require Import BuilderSource BuilderHist BuilderInv BuilderCalls World PropsBuilder PropsCalls PropsPackage PropsRepeat.
Open Scope string_scope.

(** Calls that are turned down for what is asked or for what the graph has, with
    the exception of each. *)
Inductive refusal (E : env) (s : st) : action -> err -> Prop :=
(* a name that is that of a distribution *)
| rf_script_dist path : kind_of s path = Some Distribution -> refusal E s (AAddScript path) EAssert
| rf_module_dist name : kind_of s name = Some Distribution -> refusal E s (AAddModule name) EAssert
| rf_import_dist n name : kind_of s name = Some Distribution -> refusal E s (AImportModule n name) EAssert
| rf_package_dist n name : kind_of s name = Some Distribution -> refusal E s (AImportPackage n name) EAssert
(* what is there already *)
| rf_script_there path k : kind_of s path = Some k -> k <> Distribution -> refusal E s (AAddScript path) EValue
| rf_dist_there d k : kind_of s (dist_identifier d) = Some k -> k <> Distribution -> refusal E s (AAddDist d) EAssert
| rf_node_there n : in_graph s (n_name n) -> refusal E s (AAddNode n) EValue
(* what cannot be read or is not installed *)
| rf_script_text path e : ~ in_graph s path -> e_script E (s_clock s) path = RErr e -> refusal E s (AAddScript path) e
| rf_source_text src e : e_parse E (s_clock s) "-source-code-" src = RErr e -> refusal E s (AAddSource src) e
| rf_dist_unknown name : e_dist_named E (s_clock s) name = ROk None -> refusal E s (AAddDistNamed name) EValue
| rf_dist_fails name e : e_dist_named E (s_clock s) name = RErr e -> refusal E s (AAddDistNamed name) e
(* nodes that are not there *)
| rf_edge a b d : ~ (in_graph s a /\ in_graph s b) -> refusal E s (AAddEdge a b d) EKey
| rf_root id : ~ in_graph s id -> refusal E s (AAddRoot id) EKey
| rf_process id l : ~ in_graph s id -> refusal E s (AProcessImports id l) EKey
| rf_import n name k : kind_of s name = Some k -> k <> Distribution -> ~ in_graph s n -> refusal E s (AImportModule n name) EKey
(* a relative name without a package *)
| rf_relative name : refusal E s (AFindSpecRel name "") EImport.

Lemma kind_node s x k : kind_of s x = Some k -> exists n, gfind (s_graph s) x = Some n /\ n_kind n = k.
Proof. unfold kind_of. destruct (gfind (s_graph s) x) as [n|]; cbn; intros H; [|discriminate]. injection H as <-. eauto. Qed.
Lemma not_there s x : ~ in_graph s x -> gfind (s_graph s) x = None.
Proof. unfold in_graph. destruct (gfind (s_graph s) x) as [n|]; [|reflexivity]. intros H. elim H. discriminate. Qed.
Lemma not_dist k : k <> Distribution -> is_distribution k = false.
Proof. now destruct k. Qed.

(** The call raises that exception, and everything is as it was. *)
Theorem C88_refused : forall E s fuel a e ans s', refusal E s a e -> top_call E fuel a s = Some (ans, s') -> ans = AnsErr e /\ as_before s s'.
Proof.
  intros E s fuel a e ans s' H HC. unfold top_call, call, attempt in HC. unfold bind at 1 in HC.
  destruct H; cbn [do_action] in HC.
  - apply kind_node in H as (n & Hf & Hk). unfold add_script, find_module, get_node, gets, bind, assert in HC. rewrite Hf, Hk in HC. cbn in HC.
    injection HC as <- <-. split; [reflexivity|repeat split].
  - apply kind_node in H as (n & Hf & Hk). unfold add_module, find_module, get_node, gets, bind, assert in HC. rewrite Hf, Hk in HC. cbn in HC.
    injection HC as <- <-. split; [reflexivity|repeat split].
  - apply kind_node in H as (m & Hf & Hk). unfold import_module, note, modify, find_module, get_node, gets, bind, assert in HC. cbn [s_graph log] in HC.
    rewrite Hf, Hk in HC. cbn in HC. injection HC as <- <-. split; [reflexivity|repeat split].
  - apply kind_node in H as (m & Hf & Hk). unfold import_package, note, modify, find_module, get_node, gets, bind, assert in HC. cbn [s_graph log] in HC.
    rewrite Hf, Hk in HC. cbn in HC. injection HC as <- <-. split; [reflexivity|repeat split].
  - apply kind_node in H as (n & Hf & Hk). apply not_dist in H0. unfold add_script, find_module, get_node, gets, bind, assert in HC. rewrite Hf, Hk, H0 in HC. cbn in HC.
    injection HC as <- <-. split; [reflexivity|repeat split].
  - apply kind_node in H as (n & Hf & Hk). apply not_dist in H0. unfold add_distribution, get_node, gets, bind, assert in HC. rewrite Hf, Hk, H0 in HC. cbn in HC.
    injection HC as <- <-. split; [reflexivity|repeat split].
  - unfold note, modify, bind, user_add_node, lift_graph, gadd_node, ghas in HC. cbn [s_graph log] in HC. unfold in_graph in H.
    destruct (gfind (s_graph s) (n_name n)); [|now elim H]. injection HC as <- <-. split; [reflexivity|repeat split].
  - apply not_there in H. unfold add_script, find_module, get_node, gets, bind, askr, ret, raise in HC. rewrite H in HC. cbn in HC. rewrite H0 in HC.
    injection HC as <- <-. split; [reflexivity|repeat split].
  - unfold add_source, bind, askr in HC. rewrite H in HC. injection HC as <- <-. split; [reflexivity|repeat split].
  - unfold add_distribution_named, bind, askr, raise in HC. rewrite H in HC. injection HC as <- <-. split; [reflexivity|repeat split].
  - unfold add_distribution_named, bind, askr, raise in HC. rewrite H in HC. injection HC as <- <-. split; [reflexivity|repeat split].
  - unfold note, modify, bind, add_edge, lift_graph, gadd_edge, ghas in HC. cbn [s_graph log] in HC. unfold in_graph in H.
    destruct (gfind (s_graph s) a), (gfind (s_graph s) b); cbn in HC;
      first [injection HC as <- <-; split; [reflexivity|repeat split]|elim H; split; discriminate].
  - apply not_there in H. unfold note, modify, bind, add_root, lift_graph, gadd_root, ghas in HC. cbn [s_graph log] in HC. rewrite H in HC.
    injection HC as <- <-. split; [reflexivity|repeat split].
  - apply not_there in H. unfold get_node, gets, bind, raise in HC. rewrite H in HC. injection HC as <- <-. split; [reflexivity|repeat split].
  - apply not_there in H1. apply kind_node in H as (m & Hf & Hk). apply not_dist in H0.
    unfold import_module, note, modify, find_module, get_node, gets, bind, assert, add_edge, lift_graph, gadd_edge, ghas in HC. cbn [s_graph log] in HC.
    rewrite Hf, Hk, H0 in HC. cbn in HC. rewrite H1 in HC. cbn in HC. injection HC as <- <-. split; [reflexivity|repeat split].
  - cbn in HC. injection HC as <- <-. split; [reflexivity|repeat split].
Qed.

(** ** Calls that raise later *)

(** A script is in the graph when adding it raises, unless nothing has changed. *)
Theorem C88_script : forall E s0 s fuel path e s', order_ok E -> start s0 -> reach E s0 s ->
  top_call E fuel (AAddScript path) s = Some (AnsErr e, s') -> as_before s s' \/ (~ in_graph s path /\ kind_of s' path = Some Script).
Proof.
  intros E s0 s fuel path e s' HE H0 HR HC. pose proof (h_linv _ _ (reach_history E s0 s HE H0 HR)) as L.
  destruct (gfind (s_graph s) path) as [n|] eqn:Ef.
  { left. destruct (is_distribution (n_kind n)) eqn:Ed.
    - refine (proj2 (C88_refused E s fuel _ EAssert _ s' (rf_script_dist E s path _) HC)). unfold kind_of. rewrite Ef. cbn. f_equal. now destruct (n_kind n).
    - refine (proj2 (C88_refused E s fuel _ EValue _ s' (rf_script_there E s path (n_kind n) _ _) HC)); [unfold kind_of; now rewrite Ef|].
      intros K. rewrite K in Ed. discriminate. }
  assert (N : ~ in_graph s path) by (unfold in_graph; now rewrite Ef).
  destruct (e_script E (s_clock s) path) as [t|e1] eqn:Et.
  2:{ left. exact (proj2 (C88_refused E s fuel _ e1 _ s' (rf_script_text E s path e1 N Et) HC)). }
  right. split; [exact N|]. unfold top_call, call, attempt in HC. unfold bind at 1 in HC. cbn [do_action] in HC.
  unfold add_script, find_module, get_node, gets in HC. unfold bind at 1 in HC. unfold bind at 1 in HC. unfold bind at 1 in HC. rewrite Ef in HC.
  cbn [ret] in HC. unfold bind at 1 in HC. unfold bind at 1 in HC. unfold askr in HC. rewrite Et in HC.
  destruct (extract_ast_info (e_names_order E) t) as [l|] eqn:El; [|discriminate].
  set (n := Node path Script [] [] None (Some path) [] false) in HC. assert (Lt : linv (tick s)) by exact L.
  destruct (add_node n l (tick s)) as [[[[]|e2] s2]|] eqn:E2; [| |discriminate].
  2:{ unfold add_node, bind, lift_graph, gadd_node, ghas in E2. cbn [s_graph tick n_name n] in E2. cbn in E2. rewrite Ef in E2. discriminate. }
  destruct (cwp_add_node (fun _ => True) n l (tick s) (fun _ s2 => kind_of s2 path = Some Script) (fun _ _ => Logic.I) (fun _ _ _ K => K) Lt _ _ E2) as (_ & L2 & _ & K2).
  destruct ((do process_import_list path l ;; do note (EvRoot path) ;; do add_root path ;; do f_run (exec E fuel) ;; ret path) s2) as [[r s3]|] eqn:E3; [|discriminate].
  assert (G : grows s2 s3).
  { assert (W : cwp none (do process_import_list path l ;; do note (EvRoot path) ;; do add_root path ;; do f_run (exec E fuel) ;; ret path) s2 (fun _ _ => True)).
    { apply cwp_bind, cwp_sched. intros s4 _ _ _ _. eapply cwp_then; [apply cwp_root_run_in, closes_exec|auto]. }
    exact (proj1 (W L2 _ _ E3)). }
  pose proof (grows_kind _ _ _ _ G K2) as K3. destruct r as [x|x]; [discriminate|]. injection HC as _ <-. exact K3.
Qed.

(** It cannot be added again: that is refused, whatever happens in between. *)
Theorem C88_no_retry : forall E s0 s fuel path e s' s1 fuel2 ans s2, order_ok E -> start s0 -> reach E s0 s ->
  top_call E fuel (AAddScript path) s = Some (AnsErr e, s') -> ~ as_before s s' -> reach E s' s1 ->
  top_call E fuel2 (AAddScript path) s1 = Some (ans, s2) -> ans = AnsErr EValue /\ as_before s1 s2.
Proof.
  intros E s0 s fuel path e s' s1 fuel2 ans s2 HE H0 HR HC HN HR1 HC2.
  destruct (C88_script E s0 s fuel path e s' HE H0 HR HC) as [K|[_ K]]; [now elim HN|].
  pose proof (reach_call E s0 s fuel _ _ s' HR HC) as R'.
  destruct (reach_from_grows E s' s1 (h_linv _ _ (reach_history E s0 s' HE H0 R')) HR1) as [G _].
  apply (C88_refused E s1 fuel2 (AAddScript path) EValue ans s2); [|exact HC2]. apply (rf_script_there E s1 path Script); [|discriminate].
  eapply grows_kind; eassumption.
Qed.

(** So for a distribution ... *)
Theorem C88_dist : forall E s0 s fuel d e s', order_ok E -> start s0 -> reach E s0 s ->
  top_call E fuel (AAddDist d) s = Some (AnsErr e, s') ->
  as_before s s' \/ (~ in_graph s (dist_identifier d) /\ kind_of s' (dist_identifier d) = Some Distribution).
Proof.
  intros E s0 s fuel d e s' HE H0 HR HC. pose proof (h_linv _ _ (reach_history E s0 s HE H0 HR)) as L.
  destruct (gfind (s_graph s) (dist_identifier d)) as [n|] eqn:Ef.
  { left. destruct (is_distribution (n_kind n)) eqn:Ed.
    - exfalso. unfold top_call, call, attempt in HC. cbn [do_action] in HC. unfold add_distribution, get_node, gets, bind, assert in HC.
      rewrite Ef, Ed in HC. discriminate.
    - refine (proj2 (C88_refused E s fuel _ EAssert _ s' (rf_dist_there E s d (n_kind n) _ _) HC)); [unfold kind_of; now rewrite Ef|].
      intros K. rewrite K in Ed. discriminate. }
  right. split; [unfold in_graph; now rewrite Ef|]. unfold top_call, call, attempt in HC. unfold bind at 1 in HC. cbn [do_action] in HC.
  unfold add_distribution, get_node, gets in HC. unfold bind at 1 in HC. unfold bind at 1 in HC. rewrite Ef in HC. unfold bind at 1 in HC.
  set (n := Node (dist_identifier d) Distribution [] [] (Some d) None [] false) in HC.
  destruct (user_add_node n s) as [[[[]|e2] s2]|] eqn:E2; [| |discriminate].
  2:{ unfold user_add_node, lift_graph, gadd_node, ghas in E2. cbn in E2. rewrite Ef in E2. discriminate. }
  destruct (cwp_user_node_in (fun _ => True) n s (fun _ s2 => gfind (s_graph s2) (dist_identifier d) = Some n) (fun _ _ _ K => K) L _ _ E2) as (_ & L2 & _ & K2).
  set (m := do note (EvRoot (dist_identifier d)) ;; _) in HC.
  destruct (m s2) as [[r s3]|] eqn:E3; [|discriminate].
  assert (G : grows s2 s3).
  { assert (W : cwp none m s2 (fun _ _ => True)); [|exact (proj1 (W L2 _ _ E3))]. unfold m.
    apply cwp_bind, cwp_note; [reflexivity|]. apply cwp_bind, cwp_root_in. intros s4 _ _ _. apply cwp_bind.
    eapply cwp_then; [apply (cwp_iter none _ (fun _ _ => True))|].
    - intros name s5. apply cwp_bind. eapply cwp_then; [apply (c_find _ (closes_exec E fuel))|]. intros x s6 _ _ _. apply cwp_edge. auto.
    - auto.
    - intros u s5 _ _ _. apply cwp_bind. eapply cwp_then; [apply (c_run _ (closes_exec E fuel))|]. intros. now apply cwp_ret. }
  assert (K3 : kind_of s3 (dist_identifier d) = Some Distribution) by (apply (grows_kind _ _ _ _ G); unfold kind_of; now rewrite K2).
  destruct r as [x|x]; [discriminate|]. injection HC as _ <-. exact K3.
Qed.

(** ... but adding it again is no error: nothing is done for the modules that are missing. *)
Theorem C88_taken_for_done : forall E s0 s fuel d e s' s1 fuel2 ans s2, order_ok E -> start s0 -> reach E s0 s ->
  top_call E fuel (AAddDist d) s = Some (AnsErr e, s') -> ~ as_before s s' -> reach E s' s1 ->
  top_call E fuel2 (AAddDist d) s1 = Some (ans, s2) -> ans = AnsId (dist_identifier d) /\ as_before s1 s2.
Proof.
  intros E s0 s fuel d e s' s1 fuel2 ans s2 HE H0 HR HC HN HR1 HC2.
  destruct (C88_dist E s0 s fuel d e s' HE H0 HR HC) as [K|[_ K]]; [now elim HN|].
  pose proof (reach_call E s0 s fuel _ _ s' HR HC) as R'.
  destruct (reach_from_grows E s' s1 (h_linv _ _ (reach_history E s0 s' HE H0 R')) HR1) as [G _].
  pose proof (grows_kind _ _ _ _ G K) as K1. apply kind_node in K1 as (n & Hf & Hk).
  unfold top_call, call, attempt in HC2. cbn [do_action] in HC2. unfold add_distribution, get_node, gets, bind, assert in HC2.
  rewrite Hf, Hk in HC2. cbn in HC2. injection HC2 as <- <-. split; [reflexivity|repeat split].
Qed.

(** ** All calls *)

(** The calls that change the graph or the configuration in one step do so or change nothing. *)
Definition one_step (a : action) : Prop :=
  match a with
  | AAddNode _ | AAddEdge _ _ _ | AAddRoot _ | AProcessImports _ _ | AExcludes _ | AImplies _ | AAddPost _ | AAddMissing _ | ALook => True
  | _ => False
  end.
Theorem C88_one_step : forall E s fuel a e s', one_step a -> top_call E fuel a s = Some (AnsErr e, s') -> refusal E s a e /\ as_before s s'.
Proof.
  intros E s fuel a e s' H HC. cut (refusal E s a e).
  { intros K. split; [exact K|]. exact (proj2 (C88_refused E s fuel a e _ s' K HC)). }
  unfold top_call, call, attempt, bind in HC. destruct a; try contradiction H; cbn [do_action] in HC; try discriminate HC.
  - unfold note, modify, bind, user_add_node, lift_graph, gadd_node, ghas in HC. cbn [s_graph log] in HC.
    destruct (gfind (s_graph s) (n_name n)) eqn:Ef; [|discriminate]. injection HC as <- _. apply rf_node_there. unfold in_graph. now rewrite Ef.
  - unfold note, modify, bind, add_edge, lift_graph, gadd_edge, ghas in HC. cbn [s_graph log] in HC.
    match type of HC with context [match gfind ?g ?x with _ => _ end && match gfind ?g ?y with _ => _ end] => destruct (gfind g x) eqn:E1, (gfind g y) eqn:E2 end;
      try discriminate HC; injection HC as <- _; apply rf_edge; unfold in_graph; rewrite E1, E2; intros [K1 K2]; first [now elim K1|now elim K2].
  - unfold note, modify, bind, add_root, lift_graph, gadd_root, ghas in HC. cbn [s_graph log] in HC.
    destruct (gfind (s_graph s) id) eqn:Ef; [discriminate|]. injection HC as <- _. apply rf_root. unfold in_graph. rewrite Ef. auto.
  - unfold get_node, gets, bind, note, modify, process_import_list, raise, ret in HC.
    destruct (gfind (s_graph s) id) eqn:Ef; [discriminate|]. injection HC as <- _. apply rf_process. unfold in_graph. rewrite Ef. auto.
Qed.

Definition C88_statement : Prop := forall E s0 s fuel a e s', order_ok E -> start s0 -> reach E s0 s ->
  top_call E fuel a s = Some (AnsErr e, s') -> as_before s s'.

(** A distribution one name of which is no name of a module: it is in the graph
    when ValueError is raised, with the first module, the imports of which are not
    looked at; the second call returns. *)
Definition half_1 : st := Eval vm_compute in snd (the_calls left_world [AAddDist (the_dist ["p"; "a..b"])] new).
Definition half_2 : st := Eval vm_compute in snd (the_calls left_world [AAddDist (the_dist ["p"; "a..b"])] half_1).
Example C88_half :
  top_call left_world 60 (AAddDist (the_dist ["p"; "a..b"])) new = Some (AnsErr EValue, half_1)
  /\ map fst (node_list half_1) = ["/lib/d.dist-info"; "p"]
  /\ s_stack half_1 <> []
  /\ top_call left_world 60 (AAddDist (the_dist ["p"; "a..b"])) half_1 = Some (AnsId "/lib/d.dist-info", half_2)
  /\ map fst (node_list half_2) = ["/lib/d.dist-info"; "p"]
  /\ s_stack half_2 = s_stack half_1.
Proof. vm_compute. repeat split; discriminate. Qed.
(** A module is looked up before the node that imports it. *)
Definition nobody_1 : st := Eval vm_compute in snd (the_calls left_world [AImportModule "nobody" "q"] new).
Example C88_nobody :
  top_call left_world 60 (AImportModule "nobody" "q") new = Some (AnsErr EKey, nobody_1)
  /\ map fst (node_list nobody_1) = ["q"] /\ edge_pairs nobody_1 = [].
Proof. vm_compute. auto. Qed.

Theorem C88_refuted : ~ C88_statement.
Proof.
  intros H. destruct C88_nobody as (P & _). specialize (H left_world new new 60 _ _ nobody_1 (order_world _ _ _) ltac:(now eexists _, _, _) (reach_init _ _) P).
  destruct H as [A _]. apply (f_equal (fun g => List.length (g_nodes g))) in A. vm_compute in A. discriminate.
Qed.

(** A script whose import raises: it stays in the graph, and cannot be added again. *)
Definition stuck_world : env := world [("q", ESource false [] [])] [("main.py", [imp "q"; imp "a..b"])] [].
Definition stuck_1 : st := Eval vm_compute in snd (the_calls stuck_world [AAddScript "main.py"] new).
Definition stuck_2 : st := Eval vm_compute in snd (the_calls stuck_world [AAddScript "main.py"] stuck_1).
Example C88_nonvacuous :
  (exists e, top_call stuck_world 60 (AAddScript "main.py") new = Some (AnsErr e, stuck_1))
  /\ map fst (node_list stuck_1) = ["main.py"] /\ ~ as_before new stuck_1
  /\ top_call stuck_world 60 (AAddScript "main.py") stuck_1 = Some (AnsErr EValue, stuck_2) /\ as_before stuck_1 stuck_2
  /\ refusal stuck_world stuck_1 (AAddScript "main.py") EValue
  /\ refusal stuck_world stuck_1 (AAddNode (plain_node MissingModule "main.py")) EValue
  /\ refusal stuck_world stuck_1 (AAddEdge "main.py" "q" default_dep) EKey
  /\ refusal stuck_world stuck_1 (AAddRoot "q") EKey
  /\ refusal stuck_world stuck_1 (AAddDistNamed "nothing") EValue
  /\ refusal left_world half_1 (AAddModule "/lib/d.dist-info") EAssert
  /\ refusal left_world half_1 (AImportModule "zz" "p") EKey.
Proof.
  split; [eexists; vm_compute; reflexivity|]. split; [vm_compute; reflexivity|].
  split; [intros [A _]; apply (f_equal (fun g => List.length (g_nodes g))) in A; vm_compute in A; discriminate|].
  split; [vm_compute; reflexivity|]. split; [repeat split|].
  split; [apply (rf_script_there _ _ _ Script); [reflexivity|discriminate]|].
  split; [apply rf_node_there; vm_compute; discriminate|].
  split; [apply rf_edge; intros [_ K]; now apply K|].
  split; [apply rf_root; intros K; now apply K|].
  split; [apply rf_dist_unknown; reflexivity|].
  split; [apply rf_module_dist; reflexivity|].
  eapply rf_import; [vm_compute; reflexivity|discriminate|intros K; now apply K].
Qed.

Print Assumptions C88_refused.
Print Assumptions C88_one_step.
Print Assumptions C88_script.
Print Assumptions C88_no_retry.
Print Assumptions C88_dist.
Print Assumptions C88_taken_for_done.
Print Assumptions C88_refuted.
