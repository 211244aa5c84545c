(** C92: building one graph does not influence the next one. *)
From Verif Require Import BuilderNext BuilderOther World.
Open Scope string_scope.

(** ** The full statement *)
Definition C92_statement : Prop := forall E base breaks, python E base breaks -> forall f c conf l s, process E f ->
  returns E l (new_graph conf [] 0) s -> exists s', returns E l (new_graph conf f c) s' /\ s_graph s' = s_graph s.

(** Without [import_package]: the calls return the same, with the same graph, stack and implied
    actions; only more packages are faked in the end, and more questions asked. *)
Theorem C92_partial E base breaks f c conf l s : python E base breaks -> process E f ->
  returns E l (new_graph conf [] 0) s -> (forall a ans, In (a, ans) l -> for_package a = false) ->
  exists f' c', returns E l (new_graph conf f c) (set_clock (set_fakes s f') c') /\ incl (s_fakes s) f'.
Proof.
  intros HP Hf Hr Hl. pose proof (process_faked E base breaks HP f Hf) as Ff.
  assert (C : calm base breaks (new_graph conf [] 0)) by (split; [split; [now split|intros p []]|intros n p []]).
  assert (O : over base breaks (new_graph conf [] 0) (new_graph conf f c)) by (exists f, c; split; [reflexivity|split; [intros x []|exact Ff]]).
  revert C O. generalize (new_graph conf f c). induction Hr as [s|a ans l n s s1 t Ha Hc He Hr IH]; intros s' C O.
  - destruct O as [f' [c' [-> [O1 O2]]]]. exists f', c'. split; [constructor|exact O1].
  - destruct (next_call E base breaks HP n a s s' ans s1 Ha (Hl a ans (or_introl eq_refl)) C O Hc He) as [C1 [t' [Ht O1]]].
    destruct (IH (fun b y Hb => Hl b y (or_intror Hb)) t' C1 O1) as [f' [c' [Hr' I']]].
    exists f', c'. split; [|exact I']. econstructor; eassumption.
Qed.

(** Hence whatever the process did before, the second graph is that of a new process: a call
    cannot give something else, however much fuel there is. *)
Theorem C92_same_partial E base breaks f c conf a n ans s m ans' s' : python E base breaks -> process E f ->
  plain_call a = true -> for_package a = false -> top_call E n a (new_graph conf [] 0) = Some (ans, s) -> (forall e, ans <> AnsErr e) ->
  top_call E m a (new_graph conf f c) = Some (ans', s') -> ans' = ans /\ s_graph s' = s_graph s.
Proof.
  intros HP Hf Ha Hp Hc He Hc'.
  destruct (C92_partial E base breaks f c conf [(a, ans)] s HP Hf) as [f' [c' [Hr _]]].
  - econstructor; [exact Ha|exact Hc|exact He|constructor].
  - intros b y [H|[]]. now injection H as <- _.
  - inversion Hr as [|a0 ans0 l0 n0 s0 s1 t0 _ Hc2 _ Hr2]; subst. inversion Hr2; subst.
    pose proof (top_call_same _ _ _ _ _ _ _ Hc2 Hc') as X. injection X as <- <-. split; reflexivity.
Qed.

(** ** A package that cannot be imported *)
(** The package [p], with the modules [p.x] and [p.q.z], raises RuntimeError when it is imported,
    and [p.q] SyntaxError; [m] imports [p.q.z]. *)
Definition broken (name : string) : option err :=
  if seqb name "p" then Some ERuntime else if seqb name "p.q" then Some ESyntax else None.
Definition shop : env := world [("p", ESource true [] []); ("p.x", ESource false [] []); ("p.q", ESource true [imp "gone"] []); ("p.q.z", ESource false [imp "p.x"] []);
  ("m", ESource false [imp "p.q.z"] [])] [] [].
Definition shop_base (name : string) : result (option spec) := e_find_spec shop 0 [] name.
Definition broken_shop : env := with_finds shop (fun _ f name => finds_of shop_base broken f name) (e_dist_for_file shop).

Lemma broken_python : python broken_shop shop_base broken.
Proof.
  assert (W : forall p e, broken p = Some e -> p = "p" /\ e = ERuntime \/ p = "p.q" /\ e = ESyntax).
  { intros p e. unfold broken. destruct (seqb p "p") eqn:E1; [apply String.eqb_eq in E1; subst; intros X; injection X as <-; now left|].
    destruct (seqb p "p.q") eqn:E2; [apply String.eqb_eq in E2; subst; intros X; injection X as <-; now right|discriminate]. }
  constructor; try reflexivity.
  - intros name. left. unfold shop_base, shop, world. cbn [e_find_spec assoc].
    repeat match goal with |- context [if ?b then _ else _] => destruct b end; cbn [spec_of]; eexists; reflexivity.
  - intros name sp. unfold shop_base, shop, world. cbn [e_find_spec assoc].
    repeat match goal with |- context [if ?b then _ else _] => destruct b end; cbn [spec_of]; intros X; try discriminate X; injection X as <-; reflexivity.
  - intros p e H. destruct (W p e H) as [[_ ->]|[_ ->]]; reflexivity.
  - intros p e H. destruct (W p e H) as [[-> _]|[-> _]]; eexists; reflexivity.
Qed.

(** After a graph with [p.x] there is a fake package for [p]. *)
Lemma after_px : process broken_shop ["p"].
Proof.
  destruct (top_call broken_shop 40 (AAddModule "p.x") (new_graph [] [] 0)) as [[ans s]|] eqn:Ec; [|vm_compute in Ec; discriminate].
  assert (Hs : s_fakes s = ["p"]) by (vm_compute in Ec; injection Ec as _ <-; reflexivity). rewrite <- Hs.
  econstructor; [apply pr_start|]. eapply sc_cons; [|exact Ec|constructor]. reflexivity.
Qed.

(** Then [import_package] for [p] raises ValueError: it does not have the workaround. *)
Theorem C92_refuted : ~ C92_statement.
Proof.
  intros H. specialize (H broken_shop shop_base broken broken_python ["p"] 0 []).
  destruct (top_call broken_shop 40 (AAddNode (plain_node Script "n")) (new_graph [] [] 0)) as [[b1 u1]|] eqn:D1; [|vm_compute in D1; discriminate].
  destruct (top_call broken_shop 40 (AImportPackage "n" "p") u1) as [[b2 u2]|] eqn:D2; [|vm_compute in D1; injection D1 as _ <-; vm_compute in D2; discriminate].
  assert (Hr : returns broken_shop [(AAddNode (plain_node Script "n"), b1); (AImportPackage "n" "p", b2)] (new_graph [] [] 0) u2).
  { econstructor; [reflexivity|exact D1| |econstructor; [reflexivity|exact D2| |constructor]].
    - vm_compute in D1. injection D1 as <- _. intros e. discriminate.
    - vm_compute in D1. injection D1 as _ <-. vm_compute in D2. injection D2 as <- _. intros e. discriminate. }
  destruct (H _ _ after_px Hr) as [s' [Hr' _]].
  inversion Hr' as [|x1 x2 x3 x4 x5 v1 x6 _ F1 _ R1]; subst. inversion R1 as [|y1 y2 y3 y4 y5 v2 y6 _ F2 Fe R2]; subst.
  destruct (top_call broken_shop 40 (AAddNode (plain_node Script "n")) (new_graph [] ["p"] 0)) as [[c1 w1]|] eqn:G1; [|vm_compute in G1; discriminate].
  pose proof (top_call_same _ _ _ _ _ _ _ G1 F1) as X. injection X as -> ->.
  destruct (top_call broken_shop 40 (AImportPackage "n" "p") v1) as [[c2 w2]|] eqn:G2; [|vm_compute in G1; injection G1 as _ <-; vm_compute in G2; discriminate].
  pose proof (top_call_same _ _ _ _ _ _ _ G2 F2) as X. injection X as -> ->.
  vm_compute in G1. injection G1 as _ <-. vm_compute in G2. injection G2 as G2 _. apply (Fe ESpecValue). now symmetry.
Qed.

(** ** Cases *)
(** In a new process [p] and [p.q] are faked for the graph of [m]; in a process with
    a fake [p] the graph is the same. *)
Example C92_nonvacuous : exists s, returns broken_shop [(AAddModule "m", AnsId "m")] (new_graph [] [] 0) s
  /\ process broken_shop ["p"] /\ s_fakes s = ["p"; "p.q"]
  /\ map n_name (g_nodes (s_graph s)) = ["m"; "p"; "p.q"; "p.q.z"; "p.x"; "gone"].
Proof.
  destruct (top_call broken_shop 40 (AAddModule "m") (new_graph [] [] 0)) as [[ans s]|] eqn:Ec; [|vm_compute in Ec; discriminate].
  assert (Ha : ans = AnsId "m") by (vm_compute in Ec; injection Ec as <- _; reflexivity). subst ans.
  exists s. split; [econstructor; [reflexivity|exact Ec|intros e; discriminate|constructor]|]. split; [exact after_px|].
  vm_compute in Ec. injection Ec as <-. split; reflexivity.
Qed.

Print Assumptions C92_partial.
Print Assumptions C92_same_partial.
Print Assumptions C92_refuted.
