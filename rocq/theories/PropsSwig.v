(** Post processing of the nodes that the SWIG hook supplies: C23. *)
From Verif Require Import BuilderKeep BuilderPackage BuilderCalls BuiltinHooks World PropsBuilder PropsHooks.
Open Scope string_scope.

(** Histories of calls that ask for roots, for a new graph with the built-in hooks. *)
Inductive asked_history (E : env) (s0 : st) : st -> Prop :=
| asked_init : asked_history E s0 s0
| asked_more s fuel a ans s' : asked_history E s0 s -> makes_roots a = true -> top_call E fuel a s = Some (ans, s') ->
    asked_history E s0 s'.

Definition C23_statement : Prop := forall E P win32 ospath conf s,
  order_ok E -> (forall l y, In y (pa_order P l) <-> In y l) ->
  asked_history E (builtin_start P win32 ospath conf) s -> ~ In EvErr (s_log s) ->
  forall n k, kind_of s n = Some k -> k <> Distribution -> hook_calls n s = 1.

Definition swig_end : st := Eval vm_compute in snd (the_calls swig_world [AAddModule "a"] hooked).
Definition swig_answer : answer := Eval vm_compute in
  match top_call swig_world 60 (AAddModule "a") hooked with Some (ans, _) => ans | None => AnsUnit end.
Theorem C23_refuted : ~ C23_statement.
Proof.
  intros H. assert (K : hook_calls "_a" swig_end = 1).
  { apply (H swig_world flat_paths false "posixpath" "_sysconfigdata" swig_end (world_order _ _ _) (fun l y => iff_refl _)) with (k := Module MExtension).
    - apply (asked_more _ _ hooked 60 (AAddModule "a") swig_answer); [apply asked_init|reflexivity|]. vm_compute. reflexivity.
    - cbn. intuition discriminate.
    - vm_compute. reflexivity.
    - discriminate. }
  vm_compute in K. discriminate.
Qed.

(** ** What holds *)

(** Programs that hand no nodes to the graph, and install only such hooks. *)
Definition gives_nothing (a : action) : bool :=
  match a with AAddPost _ | AAddMissing _ | AAddNode _ | AHookContext _ => false | _ => true end.
Inductive tame : prog -> Prop :=
| tame_ret o : tame (PRet o)
| tame_raise e : tame (PRaise e)
| tame_do a k : tame_action a -> (forall ans, tame (k ans)) -> tame (PDo a k)
with tame_action : action -> Prop :=
| tame_post h : (forall n, tame (h n)) -> tame_action (AAddPost h)
| tame_miss h : (forall i n, tame (h i n)) -> tame_action (AAddMissing h)
| tame_context p : tame p -> tame_action (AHookContext p)
| tame_plain a : gives_nothing a = true -> tame_action a.

Lemma tame_mypyc P n : tame (mypyc_hook P n).
Proof.
  unfold mypyc_hook, mypyc_found, mypyc_source.
  repeat match goal with
    | |- tame (PRet _) => apply tame_ret
    | |- tame (PRaise _) => apply tame_raise
    | |- tame (PDo _ _) => apply tame_do; [now apply tame_plain|intros ?]
    | |- tame (match ?x with _ => _ end) => destruct x
    end.
Qed.

Definition ext_at (s : st) (n : string) : Prop := kind_of s n = Some (Module MExtension).
(** Nothing was given, extension modules stay. *)
Record quiet (s s' : st) : Prop := {
  q_post : s_post s' = s_post s;
  q_missing : s_missing s' = s_missing s;
  q_ext : forall n, ext_at s n -> ext_at s' n;
  q_err : In EvErr (s_log s) -> In EvErr (s_log s');
  q_given : forall n, In (EvGiven n) (s_log s') -> In (EvGiven n) (s_log s)
}.
Lemma quiet_refl s : quiet s s.
Proof. constructor; auto. Qed.
Lemma quiet_trans a b c : quiet a b -> quiet b c -> quiet a c.
Proof. intros [A1 A2 A3 A4 A5] [B1 B2 B3 B4 B5]. constructor; [congruence|congruence|auto|auto|auto]. Qed.
Lemma quiet_same s s' : s_graph s' = s_graph s -> s_post s' = s_post s -> s_missing s' = s_missing s ->
  s_log s' = s_log s -> quiet s s'.
Proof. intros A B C D. constructor; unfold ext_at, kind_of; rewrite ?A, ?D; auto. Qed.
Lemma quiet_log s s' e : s_graph s' = s_graph s -> s_post s' = s_post s -> s_missing s' = s_missing s ->
  s_log s' = e :: s_log s -> (forall n, e <> EvGiven n) -> quiet s s'.
Proof.
  intros A B C D F. constructor; unfold ext_at, kind_of; rewrite ?A, ?D; auto; cbn; [auto|].
  intros n [H|H]; [now elim (F n)|exact H].
Qed.

Record supplied (s : st) : Prop := {
  su_post : forall h, In h (s_post s) -> forall n, tame (h n);
  su_miss : forall h, In h (s_missing s) -> h = swig_hook \/ forall i n, tame (h i n);
  su_given : forall n, In (EvGiven n) (s_log s) -> (exists c, n = "_" ++ c) /\ (ext_at s n \/ In EvErr (s_log s))
}.
Lemma supplied_quiet s s' : quiet s s' -> supplied s -> supplied s'.
Proof.
  intros [A B C D F] [H1 H2 H3]. constructor; rewrite ?A, ?B; auto. intros n Hn. destruct (H3 n (F n Hn)) as [X [Y|Y]]; auto.
Qed.
Definition qm {A} (m : M A) : Prop := forall s x s', m s = Some (x, s') -> quiet s s'.
Lemma qm_keeps {A} (m : M A) : qm m -> keeps supplied m.
Proof. intros H s x s' Ex. apply supplied_quiet. eapply H; exact Ex. Qed.
Lemma qm_bind {A B} (m : M A) (f : A -> M B) : qm m -> (forall a, qm (f a)) -> qm (bind m f).
Proof.
  intros Hm Hf s x s' H. unfold bind in H. destruct (m s) as [[[a|e] s1]|] eqn:Em; [| |discriminate].
  - eapply quiet_trans; [eapply Hm; exact Em|eapply Hf; exact H].
  - injection H as <- <-. eapply Hm; exact Em.
Qed.
Lemma qm_env {A} (m : M A) : envm m -> qm m.
Proof. intros H s x s' Ex. apply H in Ex as (f & c & ->). now apply quiet_same. Qed.
Lemma qm_lift f : (forall g g', f g = ROk g' -> forall n x, gfind g n = Some x -> exists y, gfind g' n = Some y /\ n_kind y = n_kind x) ->
  qm (lift_graph f).
Proof.
  intros H s x s' Ex. unfold lift_graph in Ex. destruct (f (s_graph s)) as [g|e] eqn:Ef; injection Ex as <- <-; [|apply quiet_refl].
  constructor; auto. intros n. unfold ext_at, kind_of. cbn. destruct (gfind (s_graph s) n) as [y|] eqn:Ey; [|discriminate].
  destruct (H _ _ Ef n y Ey) as (z & Hz1 & Hz). rewrite ?Hz1. cbn [option_map]. now rewrite Hz.
Qed.
Lemma find_some_app {A} f (l r : list A) x : find f l = Some x -> find f (l ++ r) = Some x.
Proof. induction l as [|a l IH]; [discriminate|]. cbn. destruct (f a); auto. Qed.
Lemma add_node_keeps g n g' : gadd_node g n = ROk g' -> forall m x, gfind g m = Some x -> exists y, gfind g' m = Some y /\ n_kind y = n_kind x.
Proof.
  unfold gadd_node. destruct (ghas g (n_name n)); [discriminate|]. intros H. injection H as <-. intros m x Hm.
  exists x. split; [|reflexivity]. unfold gfind in *. cbn [g_nodes]. now apply find_some_app.
Qed.
Lemma qm_add_node n : qm (lift_graph (fun g => gadd_node g n)).
Proof. apply qm_lift. intros g g' H. now apply add_node_keeps with (n := n). Qed.
Lemma qm_add_edge a b d : qm (add_edge a b d).
Proof.
  apply qm_lift. intros g g' H. unfold gadd_edge in H. destruct (_ && _)%bool; [|discriminate]. injection H as <-. intros n x Hx. now exists x.
Qed.
Lemma qm_add_root n : qm (add_root n).
Proof.
  apply qm_lift. intros g g' H. unfold gadd_root in H. destruct (ghas g n); [|discriminate]. injection H as <-. intros m x Hx. now exists x.
Qed.
Lemma qm_schedule n l : qm (process_import_list n l).
Proof.
  intros s x s' H. injection H as <- <-. destruct (schedule_log n l s). unfold schedule. destruct (memb n _);
  apply quiet_log with (e := EvSched n l); auto; discriminate.
Qed.
Lemma qm_note e : (forall n, e <> EvGiven n) -> qm (note e).
Proof. intros He s x s' H. injection H as <- <-. now apply quiet_log with (e := e). Qed.
Lemma qm_ret {A} (a : A) : qm (ret a).
Proof. intros s x s' H. injection H as <- <-. apply quiet_refl. Qed.
Lemma qm_same f : (forall s, s_graph (f s) = s_graph s /\ s_post (f s) = s_post s /\ s_missing (f s) = s_missing s /\ s_log (f s) = s_log s) ->
  qm (modify f).
Proof. intros H s x s' Ex. injection Ex as <- <-. destruct (H s) as (A & B & C & D). now apply quiet_same. Qed.
Lemma qm_event f : (forall s, s_graph (f s) = s_graph s /\ s_post (f s) = s_post s /\ s_missing (f s) = s_missing s /\
    exists e, s_log (f s) = e :: s_log s /\ forall n, e <> EvGiven n) -> qm (modify f).
Proof. intros H s x s' Ex. injection Ex as <- <-. destruct (H s) as (A & B & C & e & D & F). now apply quiet_log with (e := e). Qed.

Ltac qq := repeat match goal with
  | |- qm (bind _ _) => apply qm_bind; [|intros ?]
  | |- qm (ret _) => apply qm_ret
  | |- qm (note _) => apply qm_note; discriminate
  | |- qm (user_add_node _) => apply qm_add_node
  | |- qm (add_edge _ _ _) => apply qm_add_edge
  | |- qm (add_root _) => apply qm_add_root
  | |- qm (process_import_list _ _) => apply qm_schedule
  | |- qm (modify _) => first [now apply qm_same|apply qm_event; intros s; repeat split; eexists; split; [reflexivity|discriminate]]
  | |- qm (match ?x with _ => _ end) => destruct x
  | |- qm (if ?x then _ else _) => destruct x
  | |- qm _ => apply qm_env; unfold get_node; envm_tac; fail
  end.

(** What the SWIG hook gives. *)
Lemma looks_quiet E k a s ans s' : looks a = true -> call E (exec E k) a s = Some (ROk ans, s') -> quiet s s'.
Proof.
  intros H Hc.
  assert (X : forall x s1, do_action E (exec E k) a s = Some (x, s1) -> quiet s s1).
  { intros x s1 Hd. destruct a; try discriminate;
      try (apply envm_looks in Hd; [destruct Hd as (f & c & ->); now apply quiet_same|reflexivity|discriminate|discriminate]).
    - injection Hd as <- <-. apply quiet_refl.
    - injection Hd as <- <-. now apply quiet_same. }
  apply call_split in Hc as [Hc|(e & s1 & Hc & _ & ->)]; [now apply X in Hc|].
  apply X in Hc. eapply quiet_trans; [exact Hc|]. apply quiet_log with (e := EvErr); auto. discriminate.
Qed.

(** Programs that look and perhaps give an extension module [name] in the end. *)
Inductive looker (name : string) : prog -> Prop :=
| lk_ret o : looker name (PRet o)
| lk_raise e : looker name (PRaise e)
| lk_look a k : looks a = true -> (forall ans, looker name (k ans)) -> looker name (PDo a k)
| lk_give n k : n_name n = name -> n_kind n = Module MExtension -> (forall ans, looker name (k ans)) -> looker name (PDo (AAddNode n) k).
Lemma looker_found name o : looker name (swig_found name o).
Proof.
  unfold swig_found. destruct o as [sp|]; [|apply lk_ret]. apply lk_look; [reflexivity|]. intros [| | | | |n l| |]; try apply lk_ret; try apply lk_raise.
  destruct (is_extension (n_kind n)) eqn:Ee; cbn [negb]; [|apply lk_ret]. destruct l; [|apply lk_raise].
  apply lk_give; [reflexivity| |].
  - cbn. destruct (n_kind n) as [|[]| | | | | | | |]; try discriminate; reflexivity.
  - intros []; first [apply lk_ret|apply lk_raise].
Qed.
Ltac lk := repeat match goal with
  | |- looker _ (PRet _) => apply lk_ret
  | |- looker _ (PRaise _) => apply lk_raise
  | |- looker _ (swig_found _ _) => apply looker_found
  | |- looker _ (PDo _ _) => apply lk_look; [reflexivity|intros ?]
  | |- looker _ (match ?x with _ => _ end) => destruct x
  | |- looker _ (if ?x then _ else _) => destruct x
  end.
Lemma looker_gives E k name : (exists c, name = "_" ++ c) -> forall p, looker name p -> forall s x s', supplied s ->
  run_prog E (exec E k) p s = Some (x, s') -> supplied s'.
Proof.
  intros Hc p Hp. induction Hp as [o|e|a f Ha Hf IH|n f Hn Hk Hf IH]; intros s x s' Hs Hx.
  - injection Hx as <- <-. exact Hs.
  - injection Hx as <- <-. exact Hs.
  - apply prog_do in Hx as (ans & s1 & Hd & Hx). eapply IH; [|exact Hx]. eapply supplied_quiet; [|exact Hs].
    eapply looks_quiet; [exact Ha|exact Hd].
  - apply prog_do in Hx as (ans & s1 & Hd & Hx). eapply IH; [|exact Hx]. clear Hx.
    apply call_split in Hd as [Hd|(e & s2 & Hd & _ & ->)].
    + cbn [do_action] in Hd. unfold bind, note, modify, user_add_node, lift_graph in Hd. cbn [s_graph log] in Hd.
      destruct (gadd_node (s_graph s) n) as [g|e] eqn:Eg; [|discriminate]. injection Hd as _ <-.
      destruct Hs as [H1 H2 H3]. constructor; auto. cbn [s_log log set_graph]. intros m [Hm|Hm].
      * injection Hm as <-. rewrite Hn. split; [exact Hc|left]. unfold ext_at, kind_of. cbn.
        unfold gadd_node in Eg. destruct (ghas (s_graph s) (n_name n)) eqn:Eh; [discriminate|]. injection Eg as <-.
        assert (X : gfind (Graph (g_nodes (s_graph s) ++ [n]) (g_edges (s_graph s)) (g_roots (s_graph s))) name = Some n).
        { unfold ghas in Eh. rewrite Hn in Eh. unfold gfind in *. cbn [g_nodes]. induction (g_nodes (s_graph s)) as [|y l IHl].
          - cbn [app find]. now rewrite Hn, (proj2 (seqb_eq name name) eq_refl).
          - cbn [app find] in *. destruct (seqb (n_name y) name); [discriminate|auto]. }
        rewrite X. cbn [option_map]. now rewrite Hk.
      * destruct (H3 m Hm) as [X [Y|Y]]; (split; [exact X|]); [left|right; now right].
        revert Y. unfold ext_at, kind_of. cbn. destruct (gfind (s_graph s) m) as [y|] eqn:Ey; [|discriminate].
        destruct (add_node_keeps _ _ _ Eg m y Ey) as (z & Hz1 & Hz). rewrite ?Hz1. cbn [option_map]. now rewrite Hz.
    + cbn [do_action] in Hd. unfold bind, note, modify, user_add_node, lift_graph in Hd. cbn [s_graph log] in Hd.
      destruct (gadd_node (s_graph s) n) as [g|e'] eqn:Eg; [discriminate|]. injection Hd as _ <-.
      destruct Hs as [H1 H2 H3]. constructor; auto. cbn [s_log log]. intros m [Hm|[Hm|Hm]]; [discriminate| |].
      * injection Hm as <-. rewrite Hn. split; [exact Hc|right; now left].
      * destruct (H3 m Hm) as [X _]. split; [exact X|right; now left].
Qed.
Lemma swig_gives E k i name s x s' : supplied s -> run_prog E (exec E k) (swig_hook i name) s = Some (x, s') -> supplied s'.
Proof.
  intros Hs H. unfold swig_hook in H. destruct i as [id|]; [|injection H as <- <-; exact Hs].
  apply prog_do in H as (ans & s1 & Hd & H). pose proof (looks_quiet E k ALook _ _ _ eq_refl Hd) as Q.
  apply (supplied_quiet _ _ Q) in Hs. clear Q Hd.
  destruct ans as [| | |g m| | | |]; try (injection H as <- <-; exact Hs).
  destruct (gfind g id) as [n|]; [|injection H as <- <-; exact Hs].
  destruct (is_module (n_kind n) || is_package (n_kind n))%bool; cbn [negb] in H; [|injection H as <- <-; exact Hs].
  destruct (seqb name _) eqn:En in H; cbn [negb] in H; [|injection H as <- <-; exact Hs]. apply seqb_eq in En.
  destruct (memb "swig_import_helper" (n_written n)); cbn [negb] in H; [|injection H as <- <-; exact Hs].
  eapply (looker_gives E k name); [exact (ex_intro _ _ En)| |exact Hs|exact H]. unfold swig_retry. lk.
Qed.

Lemma supplied_keeper E : keeper E supplied tame tame_action.
Proof.
  constructor.
  - intros s s' (f & c & ->). now apply supplied_quiet, quiet_same.
  - intros n l _. apply qm_keeps. unfold add_node. apply qm_bind; [apply qm_add_node|]. intros _. qq.
  - assert (X : forall name, keeps supplied (add_node (plain_node MissingModule name) [])).
    { intros name. apply qm_keeps. unfold add_node. apply qm_bind; [apply qm_add_node|]. intros _. qq. }
    intros k im name s s1 _ _ J1 x s2 H. eapply X; eassumption.
  - intros a b d. apply qm_keeps. qq.
  - apply written_any. intros n l s x s' H. injection H as <- <-. apply supplied_quiet. constructor; auto. intros m. unfold ext_at, kind_of. cbn.
    unfold gadd_written, gfind. cbn. induction (g_nodes (s_graph s)) as [|y r IH]; [auto|]. cbn.
    assert (N : n_name (upd_written n l y) = n_name y /\ n_kind (upd_written n l y) = n_kind y) by (unfold upd_written; destruct (seqb (n_name y) n); auto).
    destruct N as [N1 N2]. rewrite N1. destruct (seqb (n_name y) m); [cbn [option_map]; now rewrite N2|exact IH].
  - intros n l. apply qm_keeps. qq.
  - intros n p _. apply qm_keeps. unfold push_package. qq.
  - intros name s x s' H. unfold pop_lazy in H. destruct (assoc name (s_lazy s)); injection H as <- <-; [|auto].
    apply supplied_quiet. eapply quiet_log; [reflexivity|reflexivity|reflexivity|reflexivity|discriminate].
  - intros k w _. apply qm_keeps. unfold insert_work. qq.
  - intros s e He. apply supplied_quiet. apply quiet_log with (e := e); auto. intros n ->. discriminate.
  - intros s _. apply supplied_quiet. apply quiet_log with (e := EvErr); auto. discriminate.
  - intros s id pkg stem _. apply supplied_quiet. eapply quiet_log; [reflexivity|reflexivity|reflexivity|reflexivity|discriminate].
  - intros s. now apply supplied_quiet, quiet_same.
  - intros s0 s _. now apply supplied_quiet, quiet_same.
  - intros s w rest _. apply supplied_quiet. eapply quiet_log; [reflexivity|reflexivity|reflexivity|reflexivity|discriminate].
  - intros k w s u s' _ _. apply supplied_quiet. eapply quiet_log; [reflexivity|reflexivity|reflexivity|reflexivity|discriminate].
  - intros w s. apply supplied_quiet. eapply quiet_log; [reflexivity|reflexivity|reflexivity|reflexivity|discriminate].
  - intros s h n Js Hh. left. now apply (su_post _ Js).
  - intros s h i n Js Hh. destruct (su_miss _ Js h Hh) as [->|K]; [right|left; apply K].
    intros k x s' H. eapply swig_gives; eassumption.
  - intros a k H. inversion H; subst; auto.
  - intros p H. inversion H; subst; [assumption|discriminate].
  - intros a id _ _. apply qm_keeps. qq.
  - intros a d _ _. apply qm_keeps. qq.
  - intros s n name _. apply supplied_quiet. eapply quiet_log; [reflexivity|reflexivity|reflexivity|reflexivity|discriminate].
  - intros r a H Hp. inversion H; subst.
    + intros s x s' Hx. injection Hx as <- <-. intros [A B C]. constructor; auto. cbn. intros h' [<-|Hh]; auto.
    + intros s x s' Hx. injection Hx as <- <-. intros [A B C]. constructor; auto. cbn. intros h' [<-|Hh]; auto.
    + discriminate.
    + apply qm_keeps. destruct a; try discriminate; cbn [do_action]; qq.
  - auto.
  - auto.
Qed.

(** Histories of calls whose programs and hooks hand no nodes to the graph. *)
Inductive tame_history (E : env) (s0 : st) : st -> Prop :=
| tm_init : tame_history E s0 s0
| tm_more s fuel a ans s' : tame_history E s0 s -> user_call a = true -> tame_action a -> top_call E fuel a s = Some (ans, s') ->
    tame_history E s0 s'.

(** With the built-in hooks and as long as nothing has raised, every node is post
    processed exactly once, apart from extension modules that the SWIG hook
    supplied.  Missing: those (refuted). *)
Theorem C23_others_partial : forall E P win32 ospath conf s,
  order_ok E -> tame_history E (builtin_start P win32 ospath conf) s -> ~ In EvErr (s_log s) ->
  forall n k, kind_of s n = Some k -> k <> Distribution ->
  hook_calls n s = 1 \/ (k = Module MExtension /\ exists c, n = "_" ++ c).
Proof.
  intros E P win32 ospath conf s HE HT N n k Hk Hd. set (s0 := builtin_start P win32 ospath conf) in *.
  assert (H0 : start s0) by now eexists _, _, _.
  assert (X : user_reach E s0 s /\ supplied s).
  { clear N Hk. induction HT as [|s fuel a ans s' HT [IH1 IH2] Ha Ht Hc].
    - split; [apply user_init|]. constructor.
      + intros h [<-|[]]. apply tame_mypyc.
      + intros h [<-|[]]. now left.
      + intros m [].
    - split; [eapply user_more; eassumption|]. eapply (keeps_top _ _ _ _ (supplied_keeper E)); eassumption. }
  destruct X as [HU HS]. destruct (in_dec string_dec n (flat_map (fun e => match e with EvGiven m => [m] | _ => [] end) (s_log s))) as [I1|I1].
  - apply in_flat_map in I1 as (e & I1 & I2). destruct e; try destruct I2 as [->|[]]; try contradiction.
    destruct (su_given _ HS _ I1) as [A [B|B]]; [right|contradiction]. unfold ext_at in B. rewrite Hk in B. injection B as ->. auto.
  - left. apply (C22_post_processed_partial E s0 s HE H0 HU N). exists k. split; [exact Hk|]. split; [exact Hd|].
    intros K. apply I1. apply in_flat_map. exists (EvGiven n). split; [exact K|now left].
Qed.
(** The world of the refutation: the package itself is post processed. *)
Example C23_nonvacuous : tame_history swig_world hooked swig_end /\ kind_of swig_end "a" = Some (Package false "a" MSource (Some "a/__init__.py") None)
  /\ hook_calls "a" swig_end = 1 /\ ~ In EvErr (s_log swig_end).
Proof.
  split; [|split; [vm_compute; reflexivity|split; [vm_compute; reflexivity|cbn; intuition discriminate]]].
  apply (tm_more _ _ hooked 60 (AAddModule "a") swig_answer); [apply tm_init|reflexivity|now apply tame_plain|vm_compute; reflexivity].
Qed.

Print Assumptions C23_refuted.
Print Assumptions C23_others_partial.
