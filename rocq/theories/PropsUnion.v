(** C94: the graph for several programs is the union of their graphs. *)
From Verif Require Import ReportSpec BuilderSource BuilderHist BuilderInv BuilderCalls World PropsBuilder PropsSource PropsReach BuilderSame PropsSame UnionSpec.
From Verif Require Import BuilderRest PropsRest PropsDefault SameSpec BuilderSpec.
Open Scope string_scope.

(** All graphs made with the same settings. *)
Definition C94_statement : Prop := forall E find DS conf conf1 (part : st -> Prop) s, (forall s1, part s1 -> twins E find DS conf conf1 s s1 /\ tidy s1) -> tidy s ->
  roots_of_parts part s -> union_of part (s_graph s).

Lemma twins_sym E find DS conf1 conf2 s1 s2 : twins E find DS conf1 conf2 s1 s2 -> twins E find DS conf2 conf1 s2 s1.
Proof.
  intros [A B C D HD F G H]. constructor; auto.
  - intros y. now rewrite C.
  - intros y i. rewrite <- C. apply D.
  - now apply same_scripts_sym.
Qed.
Lemma twins_edge E find DS conf1 conf2 s1 s2 a b d : twins E find DS conf1 conf2 s1 s2 -> settled E find s1 -> settled E find s2 ->
  has_edge (s_graph s1) a b d -> reaches (s_graph s2) a -> has_edge (s_graph s2) a b d.
Proof. intros [A B C D HD (i1 & F) (i2 & G) H] Z1 Z2. now apply (pair_edge E find i1 i2 conf1 conf2 A B C D HD s1 s2 F G H). Qed.
Lemma twins_step E find DS conf1 conf2 s1 s2 a b ds : twins E find DS conf1 conf2 s1 s2 -> settled E find s1 -> settled E find s2 ->
  In (a, b, ds) (g_edges (s_graph s1)) -> reaches (s_graph s2) a -> reaches (s_graph s2) b.
Proof.
  intros T Z1 Z2 He Hr. pose proof T as [A _ _ _ _ (i1 & F) _ _].
  assert (N : ds <> []) by (eapply (one_full E i1 conf1 A s1 F); exact He). destruct ds as [|d ds]; [now elim N|].
  assert (Hd : has_edge (s_graph s1) a b d) by (eexists; split; [exact He|now left]).
  eapply twins_edge in Hd as (ds' & Hd & _); [|exact T|exact Z1|exact Z2|exact Hr]. eapply re_edge; [exact Hr|exact Hd].
Qed.

Theorem C94_partial : forall E find DS conf conf1 (part : st -> Prop) s, (forall s1, part s1 -> twins E find DS conf conf1 s s1 /\ settled E find s1) -> settled E find s ->
  roots_of_parts part s -> union_of part (s_graph s).
Proof.
  intros E find DS conf conf1 part s HT Z HR.
  assert (K : forall s1 x, part s1 -> reaches (s_graph s1) x -> reaches (s_graph s) x).
  { intros s1 x Hp. destruct (HT s1 Hp) as [T Z1]. induction 1 as [x Hx|a b ds _ IH He].
    - apply re_root. apply HR. now exists s1.
    - eapply (twins_step E find DS conf1 conf s1 s); [now apply twins_sym|exact Z1|exact Z|exact He|exact IH]. }
  split.
  - intros x. split; [|intros (s1 & Hp & Hx); eapply K; eassumption].
    induction 1 as [x Hx|a b ds _ (s1 & Hp & IH) He].
    + apply HR in Hx as (s1 & Hp & Hx). exists s1. split; [exact Hp|now apply re_root].
    + destruct (HT s1 Hp) as [T Z1]. exists s1. split; [exact Hp|]. eapply (twins_step E find DS conf conf1 s s1); eassumption.
  - intros s1 x Hp Hx. destruct (HT s1 Hp) as [T Z1]. pose proof (K _ _ Hp Hx) as Hx2. apply twins_sym in T. pose proof T as [A _ _ _ _ (i1 & F) (i2 & G) _].
    pose proof (one_reaches E i1 conf1 A s1 F x Hx) as I1. pose proof (one_reaches E i2 conf A s G x Hx2) as I2.
    destruct (gfind (s_graph s1) x) as [n|] eqn:E1; [|now elim I1]. destruct (gfind (s_graph s) x) as [n'|] eqn:E2; [|now elim I2].
    exists n, n'. split; [reflexivity|]. split; [reflexivity|]. now apply (C66_nodes_partial E find DS conf1 conf s1 s T x).
  - intros s1 x y d Hp Hx. destruct (HT s1 Hp) as [T Z1]. split; intros He.
    + eapply (twins_edge E find DS conf conf1 s s1); eassumption.
    + eapply (twins_edge E find DS conf1 conf s1 s); [now apply twins_sym|exact Z1|exact Z|exact He|]. eapply K; eassumption.
Qed.

(** ** Not in general *)
(** "import json" in package pkg, "from pkg import json" in its submodule: the submodule
    alone has no edge to json, but it has one together with the package. *)
Definition early_pkg : st := Eval vm_compute in snd (the_calls early_world [AAddModule "pkg"] new).
Definition early_sub : st := Eval vm_compute in snd (the_calls early_world [AAddModule "pkg.sub"] new).
Definition early_part (s : st) : Prop := s = early_pkg \/ s = early_sub.
Lemma early_each s : early_part s -> twins early_world (found_in early_modules) (fun _ => False) [("__main__", ImpNone)] [("__main__", ImpNone)] early_1 s /\ tidy s.
Proof.
  intros Hs. destruct early_twins as [A B C D HD F _ _]. split.
  - constructor; auto.
    + exists []. destruct Hs as [-> | ->]; [apply (early_session [AAddModule "pkg"])|apply (early_session [AAddModule "pkg.sub"])]; vm_compute; try reflexivity; discriminate.
    + destruct Hs as [-> | ->]; apply same_scripts_b; reflexivity.
  - destruct Hs as [-> | ->]; now apply tidy_bool.
Qed.
Theorem C94_refuted : ~ C94_statement.
Proof.
  intros H. destruct (H early_world (found_in early_modules) (fun _ => False) [("__main__", ImpNone)] [("__main__", ImpNone)] early_part early_1 early_each (tidy_bool early_1 eq_refl)) as [_ _ U].
  - intros x. split.
    + intros Hx. vm_compute in Hx. destruct Hx as [<-|[<-|[]]]; [exists early_pkg; split; [now left|]|exists early_sub; split; [now right|]]; vm_compute; auto.
    + intros (s1 & [-> | ->] & Hx); vm_compute in Hx; destruct Hx as [<-|[]]; vm_compute; auto.
  - assert (D : exists d, has_edge (s_graph early_1) "pkg.sub" "json" d).
    { eexists. eexists. split; [vm_compute; right; right; left; reflexivity|]. now left. }
    destruct D as (d & D). apply (U early_sub) in D; [|now right|apply re_root; vm_compute; auto].
    destruct D as (ds & D & _). vm_compute in D. repeat (destruct D as [D|D]; [discriminate D|]). destruct D.
Qed.

(** ** With the built-in hooks *)
Theorem C94_default_partial : forall E P find DS conf conf1 (part : st -> Prop) s,
  (forall s1, part s1 -> default_twins E P find DS (same_table conf conf1) conf conf1 s s1 /\ settled E find s1) -> settled E find s -> (exists s1, part s1) ->
  roots_of_parts part s -> union_of part (s_graph s).
Proof.
  intros E P find DS conf conf1 part s HT Z (s0 & H0) HR.
  destruct (HT s0 H0) as [[_ HP _ _ _ _ (i & F) _ O _ _] _]. destruct (C93_session _ _ _ _ _ _ HP F O) as [u [F' B]].
  pose (off := fun u1 => exists s1, part s1 /\ but_hooks s1 u1 /\ exists implies, dsession E DS implies conf1 u1).
  assert (Hoff : forall s1, part s1 -> exists u1, off u1 /\ but_hooks s1 u1).
  { intros s1 Hp. destruct (HT s1 Hp) as [[_ _ _ _ _ _ _ (i1 & G) _ O1 _] _]. destruct (C93_session _ _ _ _ _ _ HP G O1) as [u1 [G' B1]].
    exists u1. split; [|exact B1]. exists s1. split; [exact Hp|]. split; [exact B1|]. now exists i1. }
  assert (X : union_of off (s_graph u)).
  { apply (C94_partial E find DS conf conf1 off u).
    - intros u1 (s1 & Hp & B1 & I1). destruct (HT s1 Hp) as [[A _ SE C D HD _ _ _ _ H] Z1]. split; [|eapply but_settled; eassumption].
      destruct B as [p [m ->]]. destruct B1 as [p1 [m1 ->]]. constructor; [exact A|exact SE|exact C|intros y j Hy; eapply D; left; exact Hy|exact HD|now exists i|exact I1|exact H].
    - eapply but_settled; eassumption.
    - destruct B as [p [m ->]]. intros x. split.
      + intros Hx. apply HR in Hx as (s1 & Hp & Hx). destruct (Hoff s1 Hp) as (u1 & Hu & (p1 & m1 & ->)). exists (set_missing (set_post s1 p1) m1). now split.
      + intros (u1 & (s1 & Hp & (p1 & m1 & ->) & _) & Hx). apply HR. exists s1. now split. }
  destruct B as [p [m ->]]. destruct X as [X1 X2 X3]. split.
  - intros x. split.
    + intros Hx. apply X1 in Hx as (u1 & (s1 & Hp & (p1 & m1 & ->) & _) & Hx). exists s1. now split.
    + intros (s1 & Hp & Hx). apply X1. destruct (Hoff s1 Hp) as (u1 & Hu & (p1 & m1 & ->)). exists (set_missing (set_post s1 p1) m1). now split.
  - intros s1 x Hp Hx. destruct (Hoff s1 Hp) as (u1 & Hu & (p1 & m1 & ->)). exact (X2 _ x Hu Hx).
  - intros s1 x y d Hp Hx. destruct (Hoff s1 Hp) as (u1 & Hu & (p1 & m1 & ->)). exact (X3 _ x y d Hu Hx).
Qed.

(** ** Examples *)
Definition pair_main : st := Eval vm_compute in snd (the_calls pair_world [AAddScript "main.py"] pair_open).
Definition pair_tool : st := Eval vm_compute in snd (the_calls pair_world [AAddScript "tool.py"] pair_open).
Definition pair_part (s : st) : Prop := s = pair_main \/ s = pair_tool.
Example C94_nonvacuous :
  (forall s1, pair_part s1 -> twins pair_world (found_in pair_modules) (fun _ => False) pair_conf pair_conf pair_1 s1 /\ settled pair_world (found_in pair_modules) s1)
  /\ settled pair_world (found_in pair_modules) pair_1 /\ roots_of_parts pair_part pair_1
  /\ ~ in_graph pair_main "json.tool" /\ ~ in_graph pair_tool "q.nowhere" /\ reaches (s_graph pair_main) "q.sub" /\ reaches (s_graph pair_tool) "q.sub".
Proof.
  destruct C66_nonvacuous as [[A B C D HD F _ _] [Z _]].
  assert (X : forall s1, pair_part s1 -> session pair_world pair_implies pair_conf s1).
  { intros s1 [-> | ->].
    - eapply (calls_session _ _ _ 60 [AAddScript "main.py"]); [exact pair_opened|reflexivity|vm_compute; reflexivity|reflexivity].
    - eapply (calls_session _ _ _ 60 [AAddScript "tool.py"]); [exact pair_opened|reflexivity|vm_compute; reflexivity|reflexivity]. }
  split; [|split; [exact Z|split; [|split; [|split; [|split]]]]].
  - intros s1 Hs. split.
    + constructor; auto; [now exists pair_implies; apply X|]. destruct Hs as [-> | ->]; apply same_scripts_b; reflexivity.
    + eapply (settled_bool _ _ _ _ _ _ pair_reached); [apply world_order|now apply X| |exact pair_binds]. destruct Hs as [-> | ->]; reflexivity.
  - intros x. split.
    + intros Hx. vm_compute in Hx. destruct Hx as [<-|[<-|[]]]; [exists pair_main; split; [now left|]|exists pair_tool; split; [now right|]]; vm_compute; auto.
    + intros (s1 & [-> | ->] & Hx); vm_compute in Hx; destruct Hx as [<-|[]]; vm_compute; auto.
  - vm_compute. tauto.
  - vm_compute. tauto.
  - eapply re_edge; [apply re_root; vm_compute; left; reflexivity|]. vm_compute. repeat (try (left; reflexivity); right).
  - eapply re_edge; [apply re_root; vm_compute; left; reflexivity|]. vm_compute. repeat (try (left; reflexivity); right).
Qed.

Print Assumptions C94_refuted.
Print Assumptions C94_partial.
Print Assumptions C94_default_partial.
