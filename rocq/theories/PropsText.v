(** C80: the graph for a text has the modules of the script with that text. *)
From Verif Require Import AstProofs ReportSpec BuilderSource BuilderHist BuilderInv BuilderCalls BuilderAttr World PropsBuilder PropsSource PropsReach PropsCalls BuilderSame PropsSame PropsLoad NeedSpec PropsNeed TextSpec.
Open Scope string_scope.

Lemma text_roots E DS implies conf s fuel src ans s' tree : order_ok E -> set_order (e_names_order E) ->
  dsession E DS implies conf s -> top_call E fuel (AAddSource src) s = Some (ans, s') -> (forall e, ans <> AnsErr e) ->
  e_parse E (s_clock s) "-source-code-" src = ROk tree -> forall r, tree_names tree r -> rooted s' r.
Proof.
  intros HE HO HX HC Ha Hp r (p & w & Hin & Hr).
  assert (X : dsession E DS implies conf s') by (eapply ds_call; eauto; left; exact Logic.I).
  assert (K : root_for s' r).
  { apply sites_below in Hin as (p' & stmt & _ & Hb & Hw).
    assert (Ho : ok_answer ans = true) by (destruct ans; auto; now elim (Ha e)).
    pose proof (C39_source_roots E _ s fuel src ans s' tree HE HO (one_start implies) (user_is_reach _ _ _ (one_user _ _ _ _ HX)) Hp HC Ho p' stmt w Hb Hw) as K.
    destruct w as [n a|m names l]; cbn [w_module w_names] in Hr.
    - destruct Hr as [->|(x & [] & _)]. exact K.
    - destruct K as [K1 K2]. destruct Hr as [->|(x & Hx & Hs & ->)]; [destruct m; exact K1|].
      apply in_map_iff in Hx as ([x' a] & <- & Hx). cbn [fst] in *. specialize (K2 _ _ Hx Hs). destruct m; exact K2. }
  destruct K as (id & A & B). now rewrite (one_resolves E implies conf HE s' X _ _ A) in B.
Qed.

Section same.
  Variable E : env.
  Variable find : string -> option spec.
  Variables conf : list (string * implied).

  (** A name that cannot be imported asks for what the package asks for. *)
  Lemma fall_back m x name : dotless x -> lstrip dot m <> "" -> ~ can_import find conf (m ++ "." ++ x) ->
    asks E find conf (RunModule (m ++ "." ++ x)) name -> name = m ++ "." ++ x \/ asks E find conf (RunModule m) name.
  Proof.
    intros Hx Hm Hn. induction 1 as [name H|f t tree fn opt w r H|name n sp T fn opt w r H1 IH H2 H3 H4 H5 H6 H7].
    - left. now injection H as <-.
    - discriminate.
    - right. destruct IH as [->|IH].
      + eapply (ak_module _ _ _ _ m n); try eassumption; [now apply ak_start|].
        inversion H2 as [|c p nm A B]; subst; [contradiction|]. apply (child_plainly _ _ _ Hx Hm) in A as ->. exact B.
      + eapply ak_module; eassumption.
  Qed.
  Lemma fall_back_loads m x t : dotless x -> lstrip dot m <> "" -> ~ can_import find conf (m ++ "." ++ x) ->
    loads E find conf (RunModule (m ++ "." ++ x)) t -> loads E find conf (RunModule m) t.
  Proof.
    intros Hx Hm Hn (name & A & B & C). destruct (fall_back _ _ _ Hx Hm Hn A) as [->|K].
    - exists m. split; [now apply ak_start|]. split; [|exact C].
      inversion B as [|c p nm K1 K2]; subst; [contradiction|]. apply (child_plainly _ _ _ Hx Hm) in K1 as ->. exact K2.
    - now exists name.
  Qed.

  Variables (f : string) (t0 : nat) (tree : ast).
  Hypothesis HS : steady E find.
  Hypothesis Ht : e_script E t0 f = ROk tree.
  Hypothesis HA : absolute tree.

  Lemma lift_asks r name : asks E find conf (RunScript f) r -> asks E find conf (RunModule r) name -> asks E find conf (RunScript f) name.
  Proof.
    intros Hr. induction 1 as [name H|f' t tr fn opt w m H|name n sp T fn opt w m H1 IH H2 H3 H4 H5 H6 H7]; [now injection H as <-|discriminate|].
    eapply ak_module; eassumption.
  Qed.
  Lemma script_requests name : asks E find conf (RunScript f) name ->
    exists p w r, In (p, w) (sites [] tree) /\ requests find conf f false w r /\ asks E find conf (RunModule r) name.
  Proof.
    induction 1 as [name H|f' t tr fn opt w m H H1 (p & H2 & _) H3 H4|name n sp T fn opt w m H1 IH H2 H3 H4 H5 H6 H7]; [discriminate| |].
    - injection H as <-. rewrite (sy_script _ _ HS t t0 f), Ht in H1. injection H1 as <-. exists p, w, m.
      split; [exact H2|]. split; [exact H4|]. now apply ak_start.
    - destruct IH as (p & w' & r & A & B & C). exists p, w', r. split; [exact A|]. split; [exact B|]. eapply ak_module; eassumption.
  Qed.
  Lemma requests_asks p w r : In (p, w) (sites [] tree) -> requests find conf f false w r -> asks E find conf (RunScript f) r.
  Proof.
    intros A B. destruct (HA _ _ A) as (L & _).
    assert (D : forall k, In k [KDef; KIf; KTry] -> {In k p} + {~ In k p}) by (intros k _; apply in_dec; decide equality).
    destruct (D KDef) as [K1|K1]; [now left| |].
    - eapply (ak_script _ _ _ _ f t0 tree true true w); [reflexivity|exact Ht| |exact L|exact B]. exists p. split; [exact A|]. tauto.
    - destruct (D KIf) as [K2|K2]; [right; now left| |]; [|destruct (D KTry) as [K3|K3]; [right; right; now left| |]].
      + eapply (ak_script _ _ _ _ f t0 tree false true w); [reflexivity|exact Ht| |exact L|exact B]. exists p. split; [exact A|]. split; [split; [discriminate|tauto]|]. tauto.
      + eapply (ak_script _ _ _ _ f t0 tree false true w); [reflexivity|exact Ht| |exact L|exact B]. exists p. split; [exact A|]. split; [split; [discriminate|tauto]|]. tauto.
      + eapply (ak_script _ _ _ _ f t0 tree false false w); [reflexivity|exact Ht| |exact L|exact B]. exists p. split; [exact A|].
        split; [split; [discriminate|tauto]|]. split; [discriminate|tauto].
  Qed.
  Lemma requested_names p w r : In (p, w) (sites [] tree) -> requests find conf f false w r ->
    r = w_module w \/ exists x, In x (map fst (w_names w)) /\ x <> "*" /\ dotless x /\ r = w_module w ++ "." ++ x.
  Proof.
    intros A B. destruct (HA _ _ A) as (L & _ & N & _). destruct B as [m M|m sp x M C D F G H I].
    - left. destruct M; congruence.
    - right. exists x. split; [exact G|]. split; [intros ->; contradiction|]. split; [exact H|]. destruct M; congruence.
  Qed.
End same.

(** All that one is led to is asked for; the order of names does not matter. *)
Lemma covered_loads E find DS implies conf s p t : running E find conf -> dsession E DS implies conf s -> begun_with s p ->
  plausible E find s p -> unconfigured find conf -> covered s p t -> loads E find conf p t.
Proof.
  intros HR HX HB HP HU [(n & A & B) L]. pose proof HR as [R1 R2 R3 R4 R5]. pose proof HP as [P1 P2 P3 P4].
  destruct (real_birth E find implies conf R1 R4 R5 s HX P2 P4 t n A B) as (sp & C & D). specialize (D (uc_readable _ _ HU _ _ C)).
  pose proof (present_can _ _ _ HU D) as Ct.
  assert (N : needs E find conf p t).
  { destruct (C76_partial E find DS implies conf s p t HR HX HB HP L) as [->|K]; [|exact K].
    destruct p as [f|m]; [|now apply nd_start]. exfalso. unfold begun_with, kind_of in HB. cbn [started] in A. rewrite A in HB. injection HB as HB. rewrite HB in B. discriminate. }
  apply (needs_asks _ _ _ _ _ HU) in N as [N|(name & K1 & K2)]; [destruct Ct; congruence|]. now exists name.
Qed.

(** ** The property *)

(** As one would like to have it: the script and its text give the same modules. *)
Definition C80_statement : Prop := forall E find implies conf s fuel src f ans1 ans2 s1 s2 tree,
  running E find conf -> opening E implies s -> s_lazy s = conf ->
  top_call E fuel (AAddSource src) s = Some (ans1, s1) -> (forall e, ans1 <> AnsErr e) ->
  top_call E fuel (AAddScript f) s = Some (ans2, s2) -> (forall e, ans2 <> AnsErr e) ->
  e_parse E (s_clock s) "-source-code-" src = ROk tree -> e_script E (s_clock s) f = ROk tree -> absolute tree ->
  forall x, x <> f -> (reaches (s_graph s1) x <-> reaches (s_graph s2) x).

(** What is proved: they load the same modules; nothing is said about nodes that
    stand for no module. *)
Theorem C80_partial : forall E find DS implies conf s fuel src ans s' tree f t0,
  running E find conf -> unconfigured find conf -> packaged find -> dsession E DS implies conf s ->
  top_call E fuel (AAddSource src) s = Some (ans, s') -> (forall e, ans <> AnsErr e) ->
  e_parse E (s_clock s) "-source-code-" src = ROk tree -> e_script E t0 f = ROk tree -> absolute tree ->
  tidy s' -> scripts_apart s' -> (forall r, tree_names tree r -> modular s' r) -> text_orderly find conf s' tree ->
  forall t, text_covers s' tree t <-> loads E find conf (RunScript f) t.
Proof.
  intros E find DS implies conf s fuel src ans s' tree f t0 HR HU HK HX HC Ha Hp Ht HA T1 T2 T3 T4 t.
  pose proof HR as [R1 R2 R3 R4 R5].
  assert (X : dsession E DS implies conf s') by (eapply ds_call; eauto; left; exact Logic.I).
  pose proof (text_roots _ _ _ _ _ _ _ _ _ _ R1 R2 HX HC Ha Hp) as HRt.
  assert (B : forall r, tree_names tree r -> begun_with s' (RunModule r)).
  { intros r Hr. split; [apply (HRt _ Hr)|now apply T3]. }
  assert (G : forall r, tree_names tree r -> can_import find conf r -> exists n, gfind (s_graph s') r = Some n /\ real (n_kind n) = true).
  { intros r Hr Hc. destruct (HRt _ Hr) as [I _]. unfold in_graph in I. destruct (gfind (s_graph s') r) as [n|] eqn:En; [|now elim I].
    exists n. split; [reflexivity|]. exact (can_real E find implies conf R1 R4 R5 s' X r n Hc En (T3 _ Hr)). }
  assert (P : forall r, plausible E find s' (RunModule r)).
  { intros r. constructor; auto.
    - intros f' t' tr fn opt w K. discriminate.
    - intros x p sp _ _ K. exact (uc_readable _ _ HU _ _ K). }
  split.
  - intros (r & Hr & Hc). pose proof (covered_loads _ _ _ _ _ _ _ _ HR X (B _ Hr) (P r) HU Hc) as HL.
    destruct Hr as (p & w & Hin & Hr). destruct (HA _ _ Hin) as (L & M & N & S).
    assert (Am : asks E find conf (RunScript f) (w_module w)).
    { eapply requests_asks; try eassumption. apply rq_module. now apply mentions_absolute. }
    assert (Lm : loads E find conf (RunModule (w_module w)) t -> loads E find conf (RunScript f) t).
    { intros (name & K1 & K2 & K3). exists name. split; [eapply lift_asks; eassumption|]. now split. }
    destruct Hr as [->|(x & Hx & Hs & ->)]; [now apply Lm|].
    assert (Nm : tree_names tree (w_module w)) by (exists p, w; auto).
    destruct (HRt _ Nm) as [I _]. unfold in_graph in I. destruct (gfind (s_graph s') (w_module w)) as [n|] eqn:En; [|now elim I].
    destruct (real (n_kind n)) eqn:Er.
    + destruct (real_birth E find implies conf R1 R4 R5 s' X T2 (pb_readable _ _ _ _ (P "")) _ n En Er) as (sp & C & D).
      specialize (D (uc_readable _ _ HU _ _ C)). pose proof (present_can _ _ _ HU D) as Ct.
      destruct (spec_pkg sp) eqn:Es.
      * assert (Ax : asks E find conf (RunScript f) (w_module w ++ "." ++ x)).
        { eapply requests_asks; try eassumption. eapply rq_name; try eassumption; [now apply mentions_absolute|now apply N|].
          intros K. apply S in K. rewrite K in Hx. destruct Hx as [Hx|[]]. congruence. }
        destruct HL as (name & K1 & K2 & K3). exists name. split; [eapply lift_asks; eassumption|]. now split.
      * apply Lm. eapply fall_back_loads; try eassumption; [now apply N|]. intros K. inversion K as [nm sp' K1]; subst.
        rewrite (HK _ _ _ (N _ Hx Hs) C Es) in K1. discriminate.
    + apply Lm. eapply fall_back_loads; try eassumption; [now apply N|]. intros K.
      assert (Km : can_import find conf (w_module w)).
      { inversion K as [nm sp' K1 K2 K3 K4 K5]; subst. apply K5. apply child_plain; [exact M|now apply N]. }
      destruct (G _ Nm Km) as (n' & K1 & K2). congruence.
  - intros (name & K1 & K2 & K3). destruct (script_requests _ _ _ _ _ _ R4 Ht _ K1) as (p & w & r & A1 & A2 & A3).
    destruct (requested_names _ _ _ _ HA _ _ _ A1 A2) as [->|(x & Hx & Hs & Hd & ->)].
    + assert (Nm : tree_names tree (w_module w)) by (exists p, w; auto). exists (w_module w). split; [exact Nm|].
      eapply C75_partial; [exact HR|exact X|now apply B| |exists name; auto]. apply T4; [exact Nm|right; eauto].
    + assert (Nx : tree_names tree (w_module w ++ "." ++ x)) by (exists p, w; eauto 6).
      destruct (HRt _ Nx) as [I _]. unfold in_graph in I. destruct (gfind (s_graph s') (w_module w ++ "." ++ x)) as [n|] eqn:En; [|now elim I].
      assert (D : n_kind n = MissingModule \/ n_kind n <> MissingModule) by (destruct (n_kind n); ((left; reflexivity) || (right; discriminate))).
      destruct D as [D|D].
      * assert (Nm : tree_names tree (w_module w)) by (exists p, w; auto). exists (w_module w). split; [exact Nm|].
        eapply C75_partial; [exact HR|exact X|now apply B|apply T4; [exact Nm|right; eauto]|].
        destruct (HA _ _ A1) as (_ & M & _). eapply (fall_back_loads E find conf _ x); [exact Hd|exact M| |exists name; auto].
        intros K. destruct (G _ Nx K) as (n' & Q1 & Q2). assert (n' = n) by congruence. subst n'. rewrite D in Q2. discriminate.
      * exists (w_module w ++ "." ++ x). split; [exact Nx|]. eapply C75_partial; [exact HR|exact X|now apply B| |exists name; auto].
        apply T4; [exact Nx|]. left. unfold kind_of. rewrite En. cbn. congruence.
Qed.

(** So the text gives what a graph with the script gives, also one that has been
    asked for other programs. *)
Theorem C80_script_partial : forall E find DS implies conf s fuel src ans s' tree f t0 DS2 implies2 s2,
  running E find conf -> unconfigured find conf -> packaged find -> dsession E DS implies conf s ->
  top_call E fuel (AAddSource src) s = Some (ans, s') -> (forall e, ans <> AnsErr e) ->
  e_parse E (s_clock s) "-source-code-" src = ROk tree -> e_script E t0 f = ROk tree -> absolute tree ->
  tidy s' -> scripts_apart s' -> (forall r, tree_names tree r -> modular s' r) -> text_orderly find conf s' tree ->
  dsession E DS2 implies2 conf s2 -> kind_of s2 f = Some Script -> orderly find conf s2 (RunScript f) -> plausible E find s2 (RunScript f) ->
  forall t, text_covers s' tree t <-> covered s2 (RunScript f) t.
Proof.
  intros E find DS implies conf s fuel src ans s' tree f t0 DS2 implies2 s2 HR HU HK HX HC Ha Hp Ht HA T1 T2 T3 T4 X2 B2 O2 P2 t.
  rewrite (C80_partial E find DS implies conf s fuel src ans s' tree f t0 HR HU HK HX HC Ha Hp Ht HA T1 T2 T3 T4 t).
  symmetry. eapply (C76_exact_partial E find DS2 implies2 conf s2 (RunScript f)); eauto.
Qed.

(** Names in from lists are taken for modules: the text makes a root of the
    function os.getcwd. *)
Definition getcwd_modules : list (string * entry) := [("os", ESource false [] ["getcwd"])].
Definition getcwd_world : env := world getcwd_modules [("main.py", [World.from "os" ["getcwd"] 0]); ("from os import getcwd", [World.from "os" ["getcwd"] 0])] [].
Definition getcwd_text : st := Eval vm_compute in snd (the_calls getcwd_world [AAddSource "from os import getcwd"] new).
Definition getcwd_script : st := Eval vm_compute in snd (the_calls getcwd_world [AAddScript "main.py"] new).
Theorem C80_refuted : ~ C80_statement.
Proof.
  intros H.
  assert (K : reaches (s_graph getcwd_text) "os.getcwd" <-> reaches (s_graph getcwd_script) "os.getcwd").
  { eapply (H getcwd_world (found_in getcwd_modules) [] plain_conf new 60 "from os import getcwd" "main.py" AnsUnit (AnsId "main.py")).
    - now apply world_running.
    - apply op_init.
    - reflexivity.
    - vm_compute. reflexivity.
    - discriminate.
    - vm_compute. reflexivity.
    - discriminate.
    - reflexivity.
    - reflexivity.
    - intros p w Hw. cbn in Hw. destruct Hw as [Hw|[]]. injection Hw as <- <-. cbn. split; [reflexivity|]. split; [discriminate|].
      split; [intros x [<-|[]] _; reflexivity|]. intros [K|[]]. discriminate.
    - discriminate. }
  destruct K as [K _]. assert (R : reaches (s_graph getcwd_script) "os.getcwd") by (apply K, re_root; vm_compute; tauto).
  assert (N : forall t, reaches (s_graph getcwd_script) t -> In t ["main.py"; "os"]).
  { induction 1 as [t A|a b ds _ IH A]; vm_compute in A.
    - destruct A as [<-|[]]. now left.
    - repeat (destruct A as [A|A]; [injection A as <- <- <-; cbn; tauto|]). destruct A. }
  apply N in R. cbn in R. repeat (destruct R as [R|R]; [discriminate R|]). exact R.
Qed.

(** Names in from lists that are a module (q.sub), that a package binds (q.helper) and
    that a module binds (os.getcwd); skipped is excluded. *)
Definition both_modules : list (string * entry) :=
  [("q", ESource true [World.from "core" ["helper"] 1] ["helper"]); ("q.core", ESource false [World.imp "skipped.part"; World.imp "os"] ["helper"]);
   ("q.sub", ESource false [World.imp "q.none"; World.from "beyond" ["x"] 3] ["run"]); ("os", ESource false [] ["getcwd"]); ("json", ESource false [World.imp "os"] [])].
Definition both_stmts : list ast := [World.from "q" ["sub"; "helper"] 0; World.imp "json"; AIf [World.from "os" ["getcwd"] 0]].
Definition both_tree : ast := AOther both_stmts.
Definition both_world : env := world both_modules [("main.py", both_stmts); ("the text", both_stmts)] [].
Definition both_open : st := Eval vm_compute in snd (the_calls both_world [AExcludes ["skipped"]] new).
Definition both_conf : list (string * implied) := Eval vm_compute in s_lazy both_open.
Definition both_text : st := Eval vm_compute in snd (the_calls both_world [AAddSource "the text"] both_open).
Definition both_script : st := Eval vm_compute in snd (the_calls both_world [AAddScript "main.py"] both_open).

Lemma packaged_bool w : forallb (fun p => match found_in w (fst p) with
     | Some sp => spec_pkg sp || forallb (fun r => negb (starts_with (fst p ++ ".") (fst r))) w | None => true end) w = true -> packaged (found_in w).
Proof.
  intros H m x sp Hx Hm Hs. destruct (found_in w (m ++ "." ++ x)) as [sp'|] eqn:Ex; [|reflexivity]. exfalso.
  unfold found_in in Ex. destruct (assoc (m ++ "." ++ x) w) as [e|] eqn:Ee; [|discriminate]. apply assoc_In in Ee.
  pose proof Hm as Hm'. unfold found_in in Hm. destruct (assoc m w) as [e'|] eqn:Ee'; [|discriminate]. apply assoc_In in Ee'.
  rewrite forallb_forall in H. apply H in Ee'. cbn [fst] in Ee'. rewrite Hm', Hs in Ee'. cbn [orb] in Ee'. rewrite forallb_forall in Ee'.
  apply Ee' in Ee. cbn [fst] in Ee. apply negb_true_iff in Ee.
  assert (K : starts_with (m ++ ".") (m ++ "." ++ x) = true); [|congruence]. apply starts_with_spec. exists x. apply app_assoc_s.
Qed.
Definition both_names : list string := ["q"; "q.sub"; "q.helper"; "json"; "os"; "os.getcwd"].
Lemma both_named r : tree_names both_tree r -> In r both_names.
Proof.
  intros (p & w & Hw & Hr). cbn in Hw. repeat (destruct Hw as [Hw|Hw]; [injection Hw as <- <-; cbn in Hr;
    destruct Hr as [->|(x & Hx & Hs & ->)]; [cbn; tauto|repeat (destruct Hx as [<-|Hx]; [cbn; tauto|]); destruct Hx]|]). destruct Hw.
Qed.
Lemma both_session : session both_world [] both_conf both_text.
Proof.
  eapply (calls_session _ _ _ 60 [AAddSource "the text"] both_open); [|reflexivity|vm_compute; reflexivity|reflexivity].
  apply se_open; [|reflexivity]. eapply (op_exclude _ _ (init [] [] []) 60 ["skipped"]); [apply op_init|vm_compute; reflexivity|discriminate].
Qed.
Lemma both_leads a t : a <> "q.helper" -> leads (s_graph both_text) a t -> t <> "q.helper".
Proof.
  intros Ha. induction 1 as [|b c d _ IH (ds & He & _)]; [exact Ha|]. vm_compute in He.
  repeat (destruct He as [He|He]; [injection He as <- <- <-; discriminate|]). destruct He.
Qed.
Lemma both_orderly r : r <> "q.helper" -> orderly (found_in both_modules) both_conf both_text (RunModule r).
Proof.
  intros Hr. constructor.
  - now apply tidy_bool.
  - intros m nd x t A B C K. exfalso. apply provides_bool in K. apply gfind_in in A as [A <-]. vm_compute in A.
    repeat (destruct A as [<-|A]; [cbn in B; repeat (destruct B as [<-|B]; [first [vm_compute in K; discriminate K|inversion C as [? ? C1]; discriminate C1]|]); destruct B|]). destruct A.
  - intros m x id (nd & (a & i & y & A1 & A2 & <- & A4 & A5) & [B1 B2] & R & K) L. pose proof (from_names_in _ _ _ _ A1 A2) as A3.
    apply (one_resolves both_world [] both_conf (world_order _ _ _) both_text both_session) in R. apply (both_leads _ _ Hr) in L. apply L. subst id.
    apply gfind_in in A4 as [A4 <-].
    destruct B2 as [B2|(? & ? & ? & ? & ? & B2 & _)].
    + revert B2. generalize (in_name y). intros x B2. vm_compute in A4.
      repeat (destruct A4 as [<-|A4]; [first [discriminate B1|destruct B2 as [<-|[]]; reflexivity]|]). destruct A4.
    + vm_compute in A4. repeat (destruct A4 as [<-|A4]; [discriminate B2|]). destruct A4.
  - intros a f d (ds & K & _). vm_compute in K.
    repeat (destruct K as [K|K]; [injection K as <- <- <-; vm_compute; split; discriminate|]). destruct K.
Qed.
Example C80_nonvacuous :
  running both_world (found_in both_modules) both_conf /\ unconfigured (found_in both_modules) both_conf /\ packaged (found_in both_modules)
  /\ session both_world [] both_conf both_open /\ top_call both_world 60 (AAddSource "the text") both_open = Some (AnsUnit, both_text)
  /\ e_parse both_world 0 "-source-code-" "the text" = ROk both_tree /\ e_script both_world 0 "main.py" = ROk both_tree /\ absolute both_tree
  /\ tidy both_text /\ scripts_apart both_text /\ (forall r, tree_names both_tree r -> modular both_text r)
  /\ text_orderly (found_in both_modules) both_conf both_text both_tree
  /\ text_covers both_text both_tree "q.core" /\ loads both_world (found_in both_modules) both_conf (RunScript "main.py") "q.core"
  /\ kind_of both_text "q.helper" = Some MissingModule.
Proof.
  assert (A : absolute both_tree).
  { intros p w Hw. cbn in Hw. repeat (destruct Hw as [Hw|Hw]; [injection Hw as <- <-; cbn; split; [reflexivity|]; split; [discriminate|];
      split; [intros x Hx _; repeat (destruct Hx as [<-|Hx]; [reflexivity|]); destruct Hx|intros K; repeat (destruct K as [K|K]; [discriminate K|]); destruct K]|]). destruct Hw. }
  assert (R : running both_world (found_in both_modules) both_conf) by now apply world_running.
  assert (U : unconfigured (found_in both_modules) both_conf) by now apply unconfigured_bool.
  assert (P : packaged (found_in both_modules)) by now apply packaged_bool.
  assert (X : session both_world [] both_conf both_open).
  { apply se_open; [|reflexivity]. eapply (op_exclude _ _ (init [] [] []) 60 ["skipped"]); [apply op_init|vm_compute; reflexivity|discriminate]. }
  assert (C : top_call both_world 60 (AAddSource "the text") both_open = Some (AnsUnit, both_text)) by (vm_compute; reflexivity).
  assert (T : tidy both_text) by now apply tidy_bool. assert (S : scripts_apart both_text) by now apply apart_bool.
  assert (N : forall r, tree_names both_tree r -> modular both_text r).
  { intros r Hr. apply both_named in Hr. repeat (destruct Hr as [<-|Hr]; [vm_compute; split; discriminate|]). destruct Hr. }
  assert (O : text_orderly (found_in both_modules) both_conf both_text both_tree).
  { intros r _ [K|(p & w & Hw & ->)]; apply both_orderly.
    - intros ->. now apply K.
    - cbn in Hw. repeat (destruct Hw as [Hw|Hw]; [injection Hw as <- <-; discriminate|]). destruct Hw. }
  assert (Y : text_covers both_text both_tree "q.core").
  { exists "q". split.
    - exists [KOther], (WFrom (Some "q") [("sub", None); ("helper", None)] 0). split; [now left|now left].
    - split; [eexists; split; vm_compute; reflexivity|].
      eapply (le_edge _ _ "q" "q.core" (Dep false true false None)); [apply le_self|exists [Dep false true false None]; split; [vm_compute; tauto|now left]]. }
  split; [exact R|]. split; [exact U|]. split; [exact P|]. split; [exact X|]. split; [exact C|]. split; [reflexivity|]. split; [reflexivity|].
  split; [exact A|]. split; [exact T|]. split; [exact S|]. split; [exact N|]. split; [exact O|]. split; [exact Y|]. split; [|reflexivity].
  apply (C80_partial both_world (found_in both_modules) (fun _ => False) [] both_conf both_open 60 "the text" AnsUnit both_text both_tree "main.py" 0); auto; discriminate.
Qed.

Print Assumptions C80_refuted.
Print Assumptions C80_partial.
Print Assumptions C80_script_partial.
