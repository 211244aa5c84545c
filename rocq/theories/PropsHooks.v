(** Theorems about the built-in hooks: C44, C45. *)
From Verif Require Import NamesProofs BuilderCalls BuiltinHooks World.
Open Scope string_scope.

(** ** Single calls of a hook *)

(** Calls that only look. *)
Definition looks (a : action) : bool :=
  match a with
  | ALook | AFindSpec _ | AFindSpecRel _ _ | AFake _ | AUnfake _ | ANodeForSpec _ | AIsFile _ | AParseFile _ => true
  | _ => false
  end.
(** Nothing but the environment and the log has changed. *)
Record untouched (s s' : st) : Prop := {
  un_graph : s_graph s' = s_graph s;
  un_lazy : s_lazy s' = s_lazy s;
  un_stack : s_stack s' = s_stack s;
  un_seen : s_seen s' = s_seen s;
  un_hooks : s_post s' = s_post s /\ s_missing s' = s_missing s /\ s_mem s' = s_mem s
}.
Lemma untouched_refl s : untouched s s.
Proof. now constructor. Qed.
Lemma untouched_trans s s1 s2 : untouched s s1 -> untouched s1 s2 -> untouched s s2.
Proof. intros [A1 A2 A3 A4 (A5 & A6 & A7)] [B1 B2 B3 B4 (B5 & B6 & B7)]. constructor; try congruence. split; [congruence|split; congruence]. Qed.
Lemma untouched_env s s' : env_only s s' -> untouched s s'.
Proof. intros (f & c & ->). now constructor. Qed.

Lemma call_ok E r a s x s' : call E r a s = Some (x, s') -> exists ans, x = ROk ans.
Proof.
  unfold call, bind, attempt. destruct (do_action E r a s) as [[[ans|e] s1]|]; [| |discriminate].
  - intros H. injection H as <- <-. eauto.
  - intros H. injection H as <- <-. eauto.
Qed.
Lemma call_split E r a s ans s' : call E r a s = Some (ROk ans, s') ->
  do_action E r a s = Some (ROk ans, s') \/ exists e s1, do_action E r a s = Some (RErr e, s1) /\ ans = AnsErr e /\ s' = log s1 EvErr.
Proof.
  unfold call, bind, attempt. destruct (do_action E r a s) as [[[a0|e] s1]|]; [| |discriminate]; cbn; intros H; injection H as <- <-.
  - now left.
  - right. now exists e, s1.
Qed.
Lemma prog_do E r a k s x s' : run_prog E r (PDo a k) s = Some (x, s') ->
  exists ans s1, call E r a s = Some (ROk ans, s1) /\ run_prog E r (k ans) s1 = Some (x, s').
Proof.
  cbn [run_prog]. unfold bind. destruct (call E r a s) as [[y s1]|] eqn:Ec; [|discriminate].
  destruct (call_ok _ _ _ _ _ _ Ec) as [ans ->]. intros H. now exists ans, s1.
Qed.

Section looking.
  Variable E : env.
  Variable k : nat.
  Lemma envm_looks a : looks a = true -> a <> ALook -> (forall n, a <> AFake n) -> envm (do_action E (exec E k) a).
  Proof.
    intros H N1 N2. destruct a; try discriminate; cbn [do_action]; try congruence.
    - apply envm_bind; [apply envm_find_spec|]. intros; apply envm_ret.
    - destruct (seqb package ""); [apply envm_raise|]. apply envm_bind; [apply envm_find_spec|]. intros; apply envm_ret.
    - apply envm_bind; [apply envm_del_sysmod|]. intros; apply envm_ret.
    - apply envm_bind; [apply (c_nfs _ (closes_exec E k))|]. intros; apply envm_ret.
    - apply envm_bind; [apply envm_ask|]. intros; apply envm_ret.
    - apply envm_bind; [apply envm_askr|]. intros t. apply envm_bind; [apply envm_askr|]. intros x.
      destruct (extract_ast_info _ x); [apply envm_ret|]. intros s r s'. discriminate.
  Qed.
  Lemma looks_untouched a s ans s' : looks a = true -> call E (exec E k) a s = Some (ROk ans, s') -> untouched s s'.
  Proof.
    intros H Hc.
    assert (X : forall x s1, do_action E (exec E k) a s = Some (x, s1) -> untouched s s1).
    { intros x s1 Hd. destruct a; try discriminate;
        try (apply envm_looks in Hd; [now apply untouched_env|reflexivity|discriminate|discriminate]).
      - injection Hd as <- <-. apply untouched_refl.
      - injection Hd as <- <-. now constructor. }
    apply call_split in Hc as [Hc|(e & s1 & Hc & _ & ->)]; [now apply X in Hc|].
    apply X in Hc. eapply untouched_trans; [exact Hc|]. now constructor.
  Qed.
End looking.

(** ** C44: the SWIG hook *)

(** [c] is the last component of the dotted [name]. *)
Definition last_component (name c : string) : Prop :=
  has_char dot c = false /\ (name = c \/ exists p, name = p ++ "." ++ c).
(** The package that the extension should be in. *)
Definition package_of (n : node) (pkg : string) : Prop :=
  (is_package (n_kind n) = true /\ pkg = n_name n) \/
  (is_package (n_kind n) = false /\ exists c, last_component (n_name n) c /\ (n_name n = pkg ++ "." ++ c \/ pkg = "" /\ n_name n = c)).

Lemma last_component_rpart name : last_component name (snd (rpartition dot name)).
Proof.
  destruct (rpartition_cases dot name) as [[H ->]|(x & y & -> & H & ->)]; cbn [snd]; split; auto.
  right. now exists x.
Qed.
Lemma swig_package_of n : package_of n (swig_package n).
Proof.
  unfold package_of, swig_package. destruct (is_package (n_kind n)); [now left|right]. split; [reflexivity|].
  exists (snd (rpartition dot (n_name n))). split; [apply last_component_rpart|].
  destruct (rpartition_cases dot (n_name n)) as [[H ->]|(x & y & -> & H & ->)]; cbn [fst snd]; [right; auto|left; reflexivity].
Qed.

(** What the hook must have found if it answers. *)
Record swig_case (E : env) (s : st) (importing : option string) (name : string) (ext : node) : Prop := {
  sw_importer : exists id n, importing = Some id /\ gfind (s_graph s) id = Some n
    /\ (is_module (n_kind n) = true \/ is_package (n_kind n) = true)
    /\ (exists c, last_component (n_name n) c /\ name = "_" ++ c)
    /\ In "swig_import_helper" (n_written n)
    /\ exists pkg, package_of n pkg /\ pkg <> "" /\
         exists t fakes sp k s1 s2 found, e_find_spec E t fakes (pkg ++ "." ++ name) = ROk (Some sp)
           /\ f_nfs (exec E k) sp s1 = Some (ROk (found, []), s2) /\ ext = rename found name;
  sw_kind : n_kind ext = Module MExtension;
  sw_name : n_name ext = name;
  sw_new : gfind (s_graph s) name = None
}.

Lemma swig_found_run E k name o s x s' :
  run_prog E (exec E k) (swig_found name o) s = Some (x, s') ->
  (untouched s s' /\ forall y, x <> ROk (Some y)) \/
  (x = ROk (Some name) /\ exists sp s1 s2 found, o = Some sp
     /\ f_nfs (exec E k) sp s1 = Some (ROk (found, []), s2)
     /\ n_kind found = Module MExtension /\ gfind (s_graph s) name = None
     /\ s_graph s' = Graph (g_nodes (s_graph s) ++ [rename found name]) (g_edges (s_graph s)) (g_roots (s_graph s))
     /\ s_stack s' = s_stack s /\ s_seen s' = s_seen s /\ s_lazy s' = s_lazy s
     /\ s_post s' = s_post s /\ s_missing s' = s_missing s).
Proof.
  intros H. unfold swig_found in H. destruct o as [sp|].
  2:{ injection H as <- <-. left. split; [apply untouched_refl|discriminate]. }
  apply prog_do in H as (ans & s1 & Hc & H).
  pose proof (looks_untouched E k (ANodeForSpec sp) _ _ _ eq_refl Hc) as U.
  assert (Q : (forall z, run_prog E (exec E k) (PRet None) s1 = Some (x, s') -> x <> ROk (Some z) /\ s' = s1)).
  { intros z K. injection K as <- <-. split; [discriminate|reflexivity]. }
  destruct ans as [|e| | | |n imports| |]; try (injection H as <- <-; left; split; [exact U|discriminate]).
  destruct (is_extension (n_kind n)) eqn:Ee; cbn [negb] in H.
  2:{ injection H as <- <-. left. split; [exact U|discriminate]. }
  destruct imports; [|injection H as <- <-; left; split; [exact U|discriminate]].
  apply prog_do in H as (ans & s2 & Hd & H). apply call_split in Hd as [Hd|(e & s3 & Hd & -> & ->)].
  - cbn [do_action] in Hd. unfold bind, note, modify, user_add_node, lift_graph in Hd. cbn [s_graph log n_name rename] in Hd.
    unfold gadd_node in Hd. cbn [n_name rename] in Hd. unfold ghas in Hd.
    destruct (gfind (s_graph s1) name) as [y|] eqn:Eg; [discriminate|]. injection Hd as <- <-. injection H as <- <-. right.
    split; [reflexivity|]. destruct U as [U1 U2 U3 U4 (U5 & U6 & _)]. rewrite U1 in Eg.
    apply call_split in Hc as [Hc|(e & s3 & _ & K & _)]; [|discriminate]. cbn [do_action] in Hc. unfold bind in Hc.
    destruct (f_nfs (exec E k) sp s) as [[[[n' l']|e] s4]|] eqn:En; try discriminate. injection Hc as -> -> ->.
    assert (Kk : n_kind n = Module MExtension) by (destruct (n_kind n) as [|[]| | | | | | | |]; try discriminate; reflexivity).
    exists sp, s, s1, n. split; [reflexivity|]. split; [exact En|]. split; [exact Kk|]. split; [exact Eg|].
    cbn [s_graph s_stack s_seen s_lazy s_post s_missing set_graph log]. now rewrite U1, U2, U3, U4, U5, U6.
  - injection H as <- <-. left. split; [|discriminate]. eapply untouched_trans; [exact U|].
    cbn [do_action] in Hd. unfold bind, note, modify, user_add_node, lift_graph in Hd.
    destruct (gadd_node _ _) as [g|e2]; [discriminate|]. injection Hd as -> <-. now constructor.
Qed.

Lemma find_rel_run E k name pkg s o s' : call E (exec E k) (AFindSpecRel name pkg) s = Some (ROk (AnsSpec o), s') ->
  pkg <> "" /\ exists t fakes, e_find_spec E t fakes (pkg ++ "." ++ name) = ROk o.
Proof.
  intros H. apply call_split in H as [H|(e & s1 & _ & K & _)]; [|discriminate]. cbn [do_action] in H.
  destruct (seqb pkg "") eqn:Ep; [discriminate|]. split; [intros ->; discriminate|].
  unfold bind, find_spec in H. destruct (e_find_spec E (s_clock s) (s_fakes s) (pkg ++ "." ++ name)%string) as [o'|e] eqn:Ef; [|discriminate].
  injection H as -> _. eauto.
Qed.

(** The hook answers for SWIG extensions only; otherwise (also if it raises) it
    changes nothing but the environment. *)
Theorem C44_swig : forall E k importing name s x s',
  run_prog E (exec E k) (swig_hook importing name) s = Some (x, s') ->
  (untouched s s' /\ forall y, x <> ROk (Some y)) \/
  (x = ROk (Some name) /\ exists ext, swig_case E s importing name ext
     /\ s_graph s' = Graph (g_nodes (s_graph s) ++ [ext]) (g_edges (s_graph s)) (g_roots (s_graph s))
     /\ s_stack s' = s_stack s /\ s_seen s' = s_seen s /\ s_lazy s' = s_lazy s
     /\ s_post s' = s_post s /\ s_missing s' = s_missing s).
Proof.
  intros E k importing name s x s' H. unfold swig_hook in H. destruct importing as [id|].
  2:{ injection H as <- <-. left. split; [apply untouched_refl|discriminate]. }
  apply prog_do in H as (ans & s1 & Hc & H). pose proof (looks_untouched E k ALook _ _ _ eq_refl Hc) as U1.
  apply call_split in Hc as [Hc|(e & s3 & K & _)]; [|discriminate]. injection Hc as <- <-.
  assert (Stop : forall s2, untouched s s2 -> Some (ROk None, s2) = Some (x, s') -> untouched s s' /\ forall y, x <> ROk (Some y)).
  { intros s2 U K. injection K as <- <-. split; [exact U|discriminate]. }
  assert (Fail : forall s2 e, untouched s s2 -> Some (RErr e, s2) = Some (x, s') -> untouched s s' /\ forall y, x <> ROk (Some y)).
  { intros s2 e U K. injection K as <- <-. split; [exact U|discriminate]. }
  destruct (gfind (s_graph s) id) as [n|] eqn:Eg; [|left; now apply (Stop s)].
  destruct (is_module (n_kind n) || is_package (n_kind n))%bool eqn:Ek; cbn [negb] in H; [|left; now apply (Stop s)].
  destruct (seqb name _) eqn:En in H; cbn [negb] in H; [|left; now apply (Stop s)]. apply seqb_eq in En.
  destruct (memb "swig_import_helper" (n_written n)) eqn:Ew; cbn [negb] in H; [|left; now apply (Stop s)].
  assert (End : forall o s2, untouched s s2 ->
    (forall sp, o = Some sp -> swig_package n <> "" /\ exists t fakes, e_find_spec E t fakes (swig_package n ++ "." ++ name) = ROk (Some sp)) ->
    run_prog E (exec E k) (swig_found name o) s2 = Some (x, s') ->
    (untouched s s' /\ forall y, x <> ROk (Some y)) \/
    (x = ROk (Some name) /\ exists ext, swig_case E s (Some id) name ext
     /\ s_graph s' = Graph (g_nodes (s_graph s) ++ [ext]) (g_edges (s_graph s)) (g_roots (s_graph s))
     /\ s_stack s' = s_stack s /\ s_seen s' = s_seen s /\ s_lazy s' = s_lazy s
     /\ s_post s' = s_post s /\ s_missing s' = s_missing s)).
  { intros o s2 U Hsp K. apply swig_found_run in K as [[K1 K2]|(-> & sp & t1 & t2 & found & -> & K2 & K3 & K4 & K5 & K6 & K7 & K8 & K9 & K10)].
    - left. split; [eapply untouched_trans; eassumption|exact K2].
    - right. split; [reflexivity|]. destruct (Hsp sp eq_refl) as (Np & t & fakes & Hf). destruct U as [V1 V2 V3 V4 (V5 & V6 & _)].
      exists (rename found name). rewrite V1 in K4, K5. rewrite V2, V3, V4, V5, V6 in *. split; [|auto 10]. constructor.
      + exists id, n. split; [reflexivity|]. split; [exact Eg|]. split; [now apply orb_true_iff|].
        split; [eexists; split; [apply last_component_rpart|exact En]|]. split; [now apply memb_In|].
        exists (swig_package n). split; [apply swig_package_of|]. split; [exact Np|].
        exists t, fakes, sp, k, t1, t2, found. auto.
      + exact K3.
      + reflexivity.
      + exact K4. }
  apply prog_do in H as (ans & s2 & Hc & H). pose proof (looks_untouched E k (AFindSpecRel name (swig_package n)) _ _ _ eq_refl Hc) as U2.
  destruct ans as [|e| | |o| | |]; try (left; now apply (Stop s2)).
  2:{ apply (End o s2 U2); [|exact H]. intros sp ->. apply (find_rel_run _ _ _ _ _ _ _ Hc). }
  destruct (is_import_error e); [|left; now apply (Fail s2 e)].
  unfold swig_retry in H. apply prog_do in H as (ans & s3 & Hc3 & H).
  pose proof (looks_untouched E k (AFindSpec (swig_package n)) _ _ _ eq_refl Hc3) as U3. pose proof (untouched_trans _ _ _ U2 U3) as U4.
  destruct ans as [|e3| | |[sp|]| | |]; try (left; first [now apply (Stop s3)|eapply (Fail s3); [exact U4|exact H]]).
  destruct (sp_origin sp); [|left; eapply (Fail s3); [exact U4|exact H]].
  apply prog_do in H as (ans & s4 & Hc4 & H).
  pose proof (untouched_trans _ _ _ U4 (looks_untouched E k (AFake (swig_package n)) _ _ _ eq_refl Hc4)) as U5.
  apply prog_do in H as (ans5 & s5 & Hc5 & H).
  pose proof (untouched_trans _ _ _ U5 (looks_untouched E k (AFindSpecRel name (swig_package n)) _ _ _ eq_refl Hc5)) as U6.
  destruct ans5 as [|e5| | |o| | |]; try (left; first [now apply (Stop s5)|eapply (Fail s5); [exact U6|exact H]]).
  apply prog_do in H as (ans6 & s6 & Hc6 & H).
  pose proof (untouched_trans _ _ _ U6 (looks_untouched E k (AUnfake (swig_package n)) _ _ _ eq_refl Hc6)) as U7.
  assert (X : (exists e6, ans6 = AnsErr e6) \/ run_prog E (exec E k) (swig_found name o) s6 = Some (x, s')).
  { destruct ans6; try (right; exact H). left. eauto. }
  destruct X as [(e6 & ->)|X].
  - left. eapply (Fail s6); [exact U7|exact H].
  - apply (End o s6 U7); [|exact X]. intros sp' ->. apply (find_rel_run _ _ _ _ _ _ _ Hc5).
Qed.

(** *** The other way around *)

Lemma rpart_dotted p c : has_char dot c = false -> rpartition dot (p ++ "." ++ c) = (p, c).
Proof.
  intros H. change ("." ++ c) with (String dot c). unfold rpartition.
  assert (X : rpart dot (p ++ String dot c) = Some (p, c)).
  { induction p as [|a p IH].
    - cbn [append rpart]. now rewrite (proj2 (rpart_None dot c) H).
    - change (String a p ++ String dot c) with (String a (p ++ String dot c)). cbn [rpart]. now rewrite IH. }
  now rewrite X.
Qed.
Lemma rpart_plain c : has_char dot c = false -> rpartition dot c = ("", c).
Proof. intros H. unfold rpartition. now rewrite (proj2 (rpart_None dot c) H). Qed.
Lemma last_component_is name c : last_component name c -> snd (rpartition dot name) = c.
Proof. intros [H [->|(p & ->)]]; [now rewrite rpart_plain|now rewrite rpart_dotted]. Qed.
Lemma package_of_is n pkg : package_of n pkg -> swig_package n = pkg.
Proof.
  intros [[H ->]|(H & c & [Hc _] & K)]; unfold swig_package; rewrite H; [reflexivity|].
  destruct K as [K|[-> K]]; rewrite K; [now rewrite rpart_dotted|now rewrite rpart_plain].
Qed.

(** A module made by SWIG asks for its extension. *)
Record swig_asks (s : st) (importing : option string) (name pkg : string) (n : node) : Prop := {
  sa_importer : exists id, importing = Some id /\ gfind (s_graph s) id = Some n;
  sa_kind : is_module (n_kind n) = true \/ is_package (n_kind n) = true;
  sa_name : exists c, last_component (n_name n) c /\ name = "_" ++ c;
  sa_helper : In "swig_import_helper" (n_written n);
  sa_package : package_of n pkg
}.
Definition import_error (e : err) : Prop := e = EImport \/ exists b, e = ENotFound b.

Lemma swig_start E k importing name pkg n s x s' : swig_asks s importing name pkg n ->
  run_prog E (exec E k) (swig_hook importing name) s = Some (x, s') ->
  exists ans s2, call E (exec E k) (AFindSpecRel name pkg) s = Some (ROk ans, s2) /\
    run_prog E (exec E k) match ans with
      | AnsSpec o => swig_found name o
      | AnsErr e => if is_import_error e then swig_retry name pkg else PRaise e
      | _ => PRet None end s2 = Some (x, s').
Proof.
  intros [(id & -> & Hg) Hk (c & Hc & ->) Hh Hp] H. unfold swig_hook in H.
  apply prog_do in H as (ans & s1 & Hc1 & H). apply call_split in Hc1 as [Hc1|(e & s3 & K & _)]; [|discriminate]. injection Hc1 as <- <-.
  rewrite Hg in H. rewrite (proj2 (orb_true_iff _ _) Hk) in H. cbn [negb] in H.
  rewrite (last_component_is _ _ Hc), (proj2 (seqb_eq _ _) eq_refl) in H. cbn [negb] in H.
  rewrite (proj2 (memb_In _ _) Hh) in H. cbn [negb] in H. rewrite (package_of_is _ _ Hp) in H.
  now apply prog_do in H.
Qed.
Lemma rel_lookup E k name pkg s ans s' : pkg <> "" -> call E (exec E k) (AFindSpecRel name pkg) s = Some (ROk ans, s') ->
  match e_find_spec E (s_clock s) (s_fakes s) (pkg ++ "." ++ name) with
  | ROk o => ans = AnsSpec o
  | RErr e => ans = AnsErr e
  end /\ s_fakes s' = s_fakes s /\ untouched s s'.
Proof.
  intros Np H. pose proof (looks_untouched E k (AFindSpecRel name pkg) _ _ _ eq_refl H) as U.
  assert (Ex : seqb pkg "" = false) by (destruct (seqb pkg "") eqn:Ex; [apply seqb_eq in Ex; contradiction|reflexivity]).
  unfold call, bind, attempt in H. cbn [do_action] in H. rewrite Ex in H. unfold bind, find_spec in H.
  destruct (e_find_spec E (s_clock s) (s_fakes s) (pkg ++ "." ++ name)); injection H as <- <-; auto.
Qed.

(** An exception of the lookup that is not an ImportError reaches the caller, and
    nothing is tried again. *)
Theorem C44_other_errors : forall E k importing name pkg n s x s' e, swig_asks s importing name pkg n -> pkg <> "" ->
  e_find_spec E (s_clock s) (s_fakes s) (pkg ++ "." ++ name) = RErr e -> ~ import_error e ->
  run_prog E (exec E k) (swig_hook importing name) s = Some (x, s') ->
  x = RErr e /\ s_fakes s' = s_fakes s /\ untouched s s'.
Proof.
  intros E k importing name pkg n s x s' e A Np Hf He H. apply (swig_start _ _ _ _ _ _ _ _ _ A) in H as (ans & s2 & Hc & H).
  apply (rel_lookup _ _ _ _ _ _ _ Np) in Hc as (Ha & Hk & U). rewrite Hf in Ha. subst ans.
  assert (X : is_import_error e = false).
  { destruct e; try reflexivity; elim He; [now left|right; eauto]. }
  rewrite X in H. injection H as <- <-. auto.
Qed.

(** The spec is that of an extension module. *)
Definition extension_spec (E : env) (k : nat) (sp : spec) : Prop := forall s1 y s2,
  f_nfs (exec E k) sp s1 = Some (y, s2) -> exists found, y = ROk (found, []) /\ n_kind found = Module MExtension.
(** It is found, at once or as soon as there is a fake package. *)
Definition lookup_finds (E : env) (pkg name : string) (sp : spec) : Prop :=
  (forall t f, e_find_spec E t f (pkg ++ "." ++ name) = ROk (Some sp)) \/
  (exists e own, import_error e /\ sp_origin own <> None /\ (forall t f, e_find_spec E t f pkg = ROk (Some own)) /\
     forall t f, (In pkg f -> e_find_spec E t f (pkg ++ "." ++ name) = ROk (Some sp)) /\
                 (~ In pkg f -> e_find_spec E t f (pkg ++ "." ++ name) = RErr e)).
Lemma found_answers E k name sp s x s' : extension_spec E k sp -> gfind (s_graph s) name = None ->
  run_prog E (exec E k) (swig_found name (Some sp)) s = Some (x, s') ->
  x = ROk (Some name) /\ exists ext, n_name ext = name /\ n_kind ext = Module MExtension /\ gfind (s_graph s') name = Some ext.
Proof.
  intros Hx Hg H. unfold swig_found in H. apply prog_do in H as (ans & s1 & Hc & H).
  pose proof (looks_untouched E k (ANodeForSpec sp) _ _ _ eq_refl Hc) as U.
  assert (Y : exists found, ans = AnsNode found [] /\ n_kind found = Module MExtension).
  { unfold call, bind, attempt in Hc. cbn [do_action] in Hc. unfold bind in Hc.
    destruct (f_nfs (exec E k) sp s) as [[y s2]|] eqn:En; [|discriminate]. destruct (Hx _ _ _ En) as (found & -> & Hk).
    injection Hc as <- <-. eauto. }
  destruct Y as (found & -> & Hk). rewrite Hk in H. cbn [is_extension negb] in H. apply prog_do in H as (ans & s2 & Hd & H).
  assert (G1 : gfind (s_graph s1) name = None) by (destruct U as [-> _ _ _ _]; exact Hg).
  unfold call, bind, attempt in Hd. cbn [do_action] in Hd. unfold bind, note, modify, user_add_node, lift_graph, gadd_node, ghas in Hd.
  cbn [s_graph log n_name rename] in Hd. rewrite G1 in Hd. injection Hd as <- <-. injection H as <- <-. split; [reflexivity|].
  exists (rename found name). split; [reflexivity|]. split; [exact Hk|]. cbn [s_graph set_graph]. rewrite gfind_app, G1.
  cbn [n_name rename]. now rewrite (proj2 (seqb_eq name name) eq_refl).
Qed.

(** The hook does answer. *)
Theorem C44_complete : forall E k importing name pkg n sp s x s', swig_asks s importing name pkg n -> pkg <> "" -> ~ In pkg (s_fakes s) ->
  lookup_finds E pkg name sp -> extension_spec E k sp -> gfind (s_graph s) name = None ->
  run_prog E (exec E k) (swig_hook importing name) s = Some (x, s') ->
  x = ROk (Some name) /\ exists ext, n_name ext = name /\ n_kind ext = Module MExtension /\ gfind (s_graph s') name = Some ext.
Proof.
  intros E k importing name pkg n sp s x s' A Np Nf L Hx Hg H. apply (swig_start _ _ _ _ _ _ _ _ _ A) in H as (ans & s2 & Hc & H).
  apply (rel_lookup _ _ _ _ _ _ _ Np) in Hc as (Ha & Hk & U).
  assert (G2 : gfind (s_graph s2) name = None) by (destruct U as [-> _ _ _ _]; exact Hg).
  destruct L as [L|(e & own & He & Ho & L1 & L2)].
  { rewrite L in Ha. subst ans. exact (found_answers _ _ _ _ _ _ _ Hx G2 H). }
  destruct (L2 (s_clock s) (s_fakes s)) as [_ L3]. rewrite (L3 Nf) in Ha. subst ans.
  assert (X : is_import_error e = true) by (destruct He as [->|(b & ->)]; reflexivity). rewrite X in H.
  unfold swig_retry in H. apply prog_do in H as (ans & s3 & Hc3 & H).
  pose proof (looks_untouched E k (AFindSpec pkg) _ _ _ eq_refl Hc3) as U3.
  assert (Y : ans = AnsSpec (Some own) /\ s_fakes s3 = s_fakes s2).
  { unfold call, bind, attempt in Hc3. cbn [do_action] in Hc3. unfold bind, find_spec in Hc3. rewrite L1 in Hc3. injection Hc3 as <- <-. auto. }
  destruct Y as [-> F3]. destruct (sp_origin own); [|now elim Ho].
  apply prog_do in H as (ans & s4 & Hc4 & H). pose proof (looks_untouched E k (AFake pkg) _ _ _ eq_refl Hc4) as U4.
  assert (F4 : In pkg (s_fakes s4)).
  { apply call_split in Hc4 as [Hc4|(e0 & s5 & K & _)]; [|discriminate]. injection Hc4 as _ <-. cbn. apply set_add_In. now left. }
  apply prog_do in H as (ans5 & s5 & Hc5 & H). apply (rel_lookup _ _ _ _ _ _ _ Np) in Hc5 as (Ha5 & F5 & U5).
  destruct (L2 (s_clock s4) (s_fakes s4)) as [L4 _]. rewrite (L4 F4) in Ha5. subst ans5.
  apply prog_do in H as (ans6 & s6 & Hc6 & H). pose proof (looks_untouched E k (AUnfake pkg) _ _ _ eq_refl Hc6) as U6.
  assert (Z : ans6 = AnsUnit).
  { assert (Hm : memb pkg (s_fakes s5) = true) by (rewrite F5; now apply memb_In).
    unfold call, bind, attempt in Hc6. cbn [do_action] in Hc6. unfold del_sysmod, bind, in_sysmod in Hc6. rewrite Hm in Hc6.
    cbn in Hc6. now injection Hc6 as <- _. }
  subst ans6.
  assert (G6 : gfind (s_graph s6) name = None).
  { rewrite (un_graph _ _ U6), (un_graph _ _ U5), (un_graph _ _ U4), (un_graph _ _ U3). exact G2. }
  exact (found_answers _ _ _ _ _ _ _ Hx G6 H).
Qed.

(** ** C45: the mypyc hook *)

(** What must hold if the hook does anything. *)
Definition mypyc_case (P : paths) (E : env) (s : st) (id : string) : Prop :=
  exists n file d helper t, gfind (s_graph s) id = Some n
    /\ ((n_kind n = Module MExtension /\ n_file n = Some file) \/
        exists fr nm ns, n_kind n = Package fr nm MExtension (Some file) ns)
    /\ n_dist n = Some d /\ In helper (dist_import_names d) /\ (exists p, helper = p ++ "__mypyc")
    /\ e_is_file E t (source_next_to P file) = true.

Theorem C45_mypyc : forall P E k id s x s', (forall l y, In y (pa_order P l) <-> In y l) ->
  run_prog E (exec E k) (mypyc_hook P id) s = Some (x, s') ->
  (untouched s s' /\ x = ROk None) \/ mypyc_case P E s id.
Proof.
  intros P E k id s x s' HP H. unfold mypyc_hook in H. apply prog_do in H as (ans & s1 & Hc & H).
  pose proof (looks_untouched E k ALook _ _ _ eq_refl Hc) as U1. apply call_split in Hc as [Hc|(e & s3 & K & _)]; [|discriminate].
  injection Hc as <- <-.
  assert (Stop : forall s2, untouched s s2 -> Some (ROk None, s2) = Some (x, s') -> untouched s s' /\ x = ROk None).
  { intros s2 U K. injection K as <- <-. auto. }
  destruct (gfind (s_graph s) id) as [n|] eqn:Eg; [|left; now apply (Stop s)].
  destruct (extension_file n) as [file|] eqn:Ef; [|left; now apply (Stop s)].
  destruct (n_dist n) as [d|] eqn:Ed; [|left; now apply (Stop s)].
  destruct (helper_of P d) as [helper|] eqn:Eh; [|left; now apply (Stop s)].
  unfold mypyc_found in H. apply prog_do in H as (ans & s2 & Hc & H).
  pose proof (looks_untouched E k (AIsFile (source_next_to P file)) _ _ _ eq_refl Hc) as U2.
  apply call_split in Hc as [Hc|(e & s3 & K & _)]; [|discriminate]. unfold do_action, bind, ask, ret in Hc. injection Hc as <- Hc.
  destruct (e_is_file E (s_clock s) (source_next_to P file)) eqn:Ei; [|left; now apply (Stop s2)].
  right. unfold helper_of in Eh. apply find_some in Eh as [Eh1 Eh2]. apply (proj1 (HP _ _)) in Eh1.
  exists n, file, d, helper, (s_clock s). split; [exact Eg|]. split.
  - unfold extension_file in Ef. destruct (n_kind n) as [|[]| |fr nm [] f ns| | | | | |]; try discriminate; [left; auto|right].
    subst f. eauto.
  - split; [exact Ed|]. split; [exact Eh1|]. split; [|exact Ei]. now apply ends_with_spec.
Qed.

(** The source file is in the directory of the extension module, and its name is
    the part before the first dot, without the tags of the platform, with [.py]. *)
Theorem C45_source : forall P file stem tags, pa_name P file = stem ++ "." ++ tags ->
  dotless stem -> stem <> "" -> (forall p, tags <> p ++ ".") -> tags <> "" ->
  source_next_to P file = pa_join P (pa_parent P file) (stem ++ ".py").
Proof.
  intros P file stem tags Hn Hd Hs Ht Ht'. unfold source_next_to. do 2 f_equal. rewrite Hn. unfold path_stem, rpartition.
  assert (L : forall y, split_first dot (stem ++ String dot y) = stem).
  { intros y. unfold split_first. enough (K : lpart dot (stem ++ String dot y) = Some (stem, y)) by now rewrite K.
    clear - Hd. revert Hd. unfold dotless. induction stem as [|a x IH]; cbn [has_char append lpart]; [reflexivity|].
    rewrite orb_false_iff. intros [A B]. rewrite Ascii.eqb_sym in A. rewrite ?A, ?(Ascii.eqb_sym a dot), ?A, (IH B). reflexivity. }
  assert (L0 : split_first dot stem = stem).
  { unfold split_first. enough (K : lpart dot stem = None) by now rewrite K.
    clear - Hd. revert Hd. unfold dotless. induction stem as [|a x IH]; cbn [has_char lpart]; [reflexivity|].
    rewrite orb_false_iff. intros [A B]. rewrite Ascii.eqb_sym in A. rewrite ?A, ?(Ascii.eqb_sym a dot), ?A, (IH B). reflexivity. }
  destruct (rpart dot tags) as [[u v]|] eqn:Er.
  - apply rpart_Some in Er as [-> Hv].
    change (stem ++ "." ++ u ++ String dot v) with (stem ++ String dot (u ++ String dot v)).
    replace (stem ++ String dot (u ++ String dot v)) with ((stem ++ String dot u) ++ String dot v) by (rewrite <- app_assoc_s; reflexivity).
    rewrite (rpart_app_char dot _ v Hv). destruct v as [|b v]; [now elim (Ht u)|].
    specialize (L u). destruct stem as [|a x]; [now elim Hs|]. exact L.
  - apply rpart_None in Er. change (stem ++ "." ++ tags) with (stem ++ String dot tags). rewrite (rpart_app_char dot _ tags Er).
    destruct tags as [|b y]; [now elim Ht'|]. destruct stem as [|a x]; [now elim Hs|]. exact L0.
Qed.
Example C45_source_nonvacuous : source_next_to (Paths (fun f => fst (rpartition slash f)) (fun f => snd (rpartition slash f)) (fun d f => d ++ "/" ++ f) (fun l => l))
  "lib/pkg/mod.cpython-312-darwin.so" = "lib/pkg/mod.py".
Proof. reflexivity. Qed.

(** What the hook has done if it did anything: the helper module is a root of the
    graph (C30) and the node depends on it; the imports of the source file were
    handed to the work stack, and no work is left. *)
Definition mypyc_done (P : paths) (E : env) (s s' : st) (id : string) : Prop :=
  exists n file d helper h, gfind (s_graph s) id = Some n /\ extension_file n = Some file
    /\ n_dist n = Some d /\ helper_of P d = Some helper
    /\ resolves s' helper h /\ rooted s' h /\ has_edge (s_graph s') id h (Dep false true false None)
    /\ ((exists t, e_read E t (source_next_to P file) = RErr ESyntax) \/
        exists t text, e_read E t (source_next_to P file) = ROk text /\
          (e_parse E (S t) (source_next_to P file) text = RErr ESyntax \/
           exists tree l, e_parse E (S t) (source_next_to P file) text = ROk tree
             /\ extract_ast_info (e_names_order E) tree = Some l
             /\ (l = [] \/ (s_stack s' = [] /\ forall i, In i l -> scheduled s' id i)))).

Lemma call_grows E k a s ans s' : linv s -> call E (exec E k) a s = Some (ROk ans, s') -> grows s s' /\ linv s'.
Proof. intros L H. destruct (cwp_call E _ (closes_exec E k) a s L _ _ H) as (G & L' & _). auto. Qed.

Theorem C45_effect : forall P E k id s x s', linv s ->
  run_prog E (exec E k) (mypyc_hook P id) s = Some (ROk x, s') -> untouched s s' \/ mypyc_done P E s s' id.
Proof.
  intros P E k id s x s' L H. unfold mypyc_hook in H. apply prog_do in H as (ans & s1 & Hc & H).
  apply call_split in Hc as [Hc|(e & s3 & K & _)]; [|discriminate]. injection Hc as <- <-.
  assert (Stop : forall s2, untouched s s2 -> Some (ROk None, s2) = Some (ROk x, s') -> untouched s s').
  { intros s2 U K. now injection K as <- <-. }
  pose proof (untouched_refl s) as U.
  destruct (gfind (s_graph s) id) as [n|] eqn:Eg; [|left; now apply (Stop s)].
  destruct (extension_file n) as [file|] eqn:Ef; [|left; now apply (Stop s)].
  destruct (n_dist n) as [d|] eqn:Ed; [|left; now apply (Stop s)].
  destruct (helper_of P d) as [helper|] eqn:Eh; [|left; now apply (Stop s)].
  unfold mypyc_found in H. apply prog_do in H as (ans & s2 & Hc & H).
  pose proof (looks_untouched E k (AIsFile (source_next_to P file)) _ _ _ eq_refl Hc) as U2.
  pose proof (proj2 (call_grows _ _ _ _ _ _ L Hc)) as L2.
  destruct ans as [| | | | | |[]|]; try (left; now apply (Stop s2)).
  right. apply prog_do in H as (ans & s3 & Hc3 & H). pose proof (proj2 (call_grows _ _ _ _ _ _ L2 Hc3)) as L3.
  apply call_split in Hc3 as [Hc3|(e & s4 & _ & -> & _)]; [|discriminate H].
  cbn [do_action] in Hc3. unfold bind in Hc3. destruct (add_module (exec E k) helper s2) as [[[h|e] s3']|] eqn:Ea; try discriminate.
  injection Hc3 as <- ->. destruct (cwp_module _ (closes_exec E k) helper s2 L2 _ _ Ea) as (_ & _ & _ & Hr & Hroot).
  apply prog_do in H as (ans & s4 & Hc4 & H). pose proof (call_grows _ _ _ _ _ _ L3 Hc4) as [G4 L4].
  apply call_split in Hc4 as [Hc4|(e & s5 & _ & -> & _)]; [|discriminate H].
  cbn [do_action] in Hc4. unfold bind, note, modify in Hc4.
  destruct (add_edge id h (Dep false true false None) (log s3 (EvEdge id h (Dep false true false None)))) as [[[u|e] s4']|] eqn:Ee; try discriminate.
  injection Hc4 as <- ->.
  assert (He : has_edge (s_graph s4) id h (Dep false true false None)).
  { assert (L3' : linv (log s3 (EvEdge id h (Dep false true false None)))).
    { assert (Q : cwp none (note (EvEdge id h (Dep false true false None))) s3 (fun _ _ => True)).
      { apply cwp_note; [reflexivity|exact I]. }
      now destruct (Q L3 _ _ eq_refl) as (_ & Q' & _). }
    assert (Q : cwp none (add_edge id h (Dep false true false None)) (log s3 (EvEdge id h (Dep false true false None)))
        (fun _ s' => has_edge (s_graph s') id h (Dep false true false None))) by (apply cwp_edge; auto).
    destruct (Q L3' _ _ Ee) as (_ & _ & _ & Q'). exact Q'. }
  assert (End : forall s6, grows s4 s6 ->
    ((exists t, e_read E t (source_next_to P file) = RErr ESyntax) \/
        exists t text, e_read E t (source_next_to P file) = ROk text /\
          (e_parse E (S t) (source_next_to P file) text = RErr ESyntax \/
           exists tree l, e_parse E (S t) (source_next_to P file) text = ROk tree
             /\ extract_ast_info (e_names_order E) tree = Some l
             /\ (l = [] \/ (s_stack s6 = [] /\ forall i, In i l -> scheduled s6 id i)))) -> mypyc_done P E s s6 id).
  { intros s6 G6 HX. exists n, file, d, helper, h. do 4 (split; [assumption|]).
    pose proof (grows_trans _ _ _ G4 G6) as G. split; [eapply grows_resolves; eassumption|].
    split; [eapply grows_rooted; eassumption|]. split; [exact (grows_edge _ _ _ _ _ G6 He)|exact HX]. }
  unfold mypyc_source in H. apply prog_do in H as (ans & s5 & Hc5 & H). pose proof (call_grows _ _ _ _ _ _ L4 Hc5) as [G5 L5].
  assert (Hread : (exists e, ans = AnsErr e /\ (e_read E (s_clock s4) (source_next_to P file) = RErr e \/
        exists text, e_read E (s_clock s4) (source_next_to P file) = ROk text /\ e_parse E (S (s_clock s4)) (source_next_to P file) text = RErr e)) \/
      exists text tree l, e_read E (s_clock s4) (source_next_to P file) = ROk text /\ e_parse E (S (s_clock s4)) (source_next_to P file) text = ROk tree
        /\ extract_ast_info (e_names_order E) tree = Some l /\ ans = AnsImports l).
  { apply call_split in Hc5 as [Hc5|(e & s6 & Hc5 & -> & _)]; cbn [do_action] in Hc5; unfold bind, askr in Hc5; cbn [s_clock tick] in Hc5;
      destruct (e_read E (s_clock s4) (source_next_to P file)) as [text|er] eqn:Er; try discriminate;
      try (destruct (e_parse E (S (s_clock s4)) (source_next_to P file) text) as [tree|ep] eqn:Ep; try discriminate);
      try (destruct (extract_ast_info (e_names_order E) tree) as [l|] eqn:Ex; try discriminate).
    - injection Hc5 as <- <-. right. exists text, tree, l. auto.
    - injection Hc5 as -> _. left. exists e. split; [reflexivity|right]. exists text. auto.
    - injection Hc5 as -> _. left. exists e. auto. }
  destruct Hread as [(e & -> & Hread)|(text & tree & l & Hr1 & Hr2 & Hr3 & ->)].
  { destruct e; try discriminate. injection H as <- <-. apply End; [exact G5|].
    destruct Hread as [Hread|(text & Hr1 & Hr2)]; [left; eauto|right]. exists (s_clock s4), text. auto. }
  destruct l as [|i0 l].
  { injection H as <- <-. apply End; [exact G5|]. right. exists (s_clock s4), text. split; [exact Hr1|right]. exists tree, []. auto. }
  apply prog_do in H as (ans & s6 & Hc6 & H). pose proof (call_grows _ _ _ _ _ _ L5 Hc6) as [G6 L6].
  apply call_split in Hc6 as [Hc6|(e & s7 & _ & -> & _)]; [|discriminate H].
  assert (Hs : In (EvSched id (i0 :: l)) (s_log s6)).
  { cbn [do_action] in Hc6. unfold bind, get_node, gets in Hc6. destruct (gfind (s_graph s5) id); [|discriminate].
    unfold note, modify, process_import_list, ret in Hc6. injection Hc6 as <- <-. rewrite schedule_log. now left. }
  destruct ans; try discriminate H;
  (apply prog_do in H as (ans7 & s7 & Hc7 & H); pose proof (call_grows _ _ _ _ _ _ L6 Hc7) as [G7 L7];
   apply call_split in Hc7 as [Hc7|(e & s8 & _ & -> & _)]; [|discriminate H];
   cbn [do_action] in Hc7; unfold bind in Hc7; destruct (f_run (exec E k) s6) as [[[u7|e] s7']|] eqn:Er7; try discriminate;
   injection Hc7 as <- ->; injection H as <- <-;
   (apply End; [eapply grows_trans; [exact G5|eapply grows_trans; eassumption]|]);
   right; exists (s_clock s4), text; (split; [exact Hr1|right]); exists tree, (i0 :: l); do 2 (split; [assumption|]); right;
   split; [eapply (drains_run E k); exact Er7|]; intros i Hi; exists (i0 :: l); split; [eapply grows_log; eassumption|exact Hi]).
Qed.

(** ** Examples *)

(** pathlib on the file names of the examples. *)
Definition flat_paths : paths := Paths (fun _ => "") (fun f => f) (fun _ f => f) (fun l => l).
Definition hooked : st := builtin_start flat_paths false "posixpath" "_sysconfigdata".

(** A package made by SWIG: the hook finds a._a for the import of _a. *)
Definition swig_world : env := world [("a", ESource true [imp "_a"] ["swig_import_helper"]); ("a._a", EExtension)] [] [].
Example C44_answers :
  let s := snd (the_calls swig_world [AAddModule "a"] hooked) in
  node_list s = [("a", Package false "a" MSource (Some "a/__init__.py") None); ("_a", Module MExtension)]
  /\ edge_pairs s = [("a", "_a")].
Proof. vm_compute. auto. Qed.
(** The hook is called with the package in the graph. *)
Definition swig_state : st := Eval vm_compute in snd (the_calls swig_world [AAddModule "a"] new).
Example C44_hypotheses :
  match run_prog swig_world (exec swig_world 5) (swig_hook (Some "a") "_a")
    (set_graph swig_state (Graph (filter (fun n => is_package (n_kind n)) (g_nodes (s_graph swig_state))) [] [])) with
  | Some (ROk (Some id), s') => id = "_a" /\ node_list s' = [("a", Package false "a" MSource (Some "a/__init__.py") None); ("_a", Module MExtension)]
  | _ => False
  end.
Proof. vm_compute. auto. Qed.

(** [C44_complete] and [C44_other_errors] for this package, also if it cannot be imported. *)
Definition swig_alone : st :=
  set_graph swig_state (Graph (filter (fun n => is_package (n_kind n)) (g_nodes (s_graph swig_state))) [] []).
Definition swig_lookup (e : err) : env := Env
  (fun t f n => if seqb n "a._a" && negb (memb "a" f) then RErr e else e_find_spec swig_world t f n)
  (e_sysmod swig_world) (e_dist_for_file swig_world) (e_dist_named swig_world) (e_parse swig_world) (e_script swig_world)
  (e_import swig_world) (e_location swig_world) (e_suffixes swig_world) (e_glob_py swig_world) (e_subdirs swig_world)
  (e_is_file swig_world) (e_read swig_world)
  (e_parent swig_world) (e_isidentifier swig_world) (e_names_order swig_world) (e_order swig_world) (e_ge311 swig_world).
Lemma swig_alone_asks : exists n, swig_asks swig_alone (Some "a") "_a" "a" n.
Proof.
  eexists. constructor.
  - exists "a". split; reflexivity.
  - now right.
  - exists "a". split; [|reflexivity]. split; [reflexivity|now left].
  - vm_compute. tauto.
  - left. split; reflexivity.
Qed.
Example C44_retry_nonvacuous : exists x s', run_prog (swig_lookup EImport) (exec (swig_lookup EImport) 5) (swig_hook (Some "a") "_a") swig_alone = Some (x, s')
  /\ x = ROk (Some "_a").
Proof.
  destruct (run_prog (swig_lookup EImport) (exec (swig_lookup EImport) 5) (swig_hook (Some "a") "_a") swig_alone) as [[x s']|] eqn:H; [|now vm_compute in H].
  exists x, s'. split; [reflexivity|]. destruct swig_alone_asks as (n & A).
  assert (exists sp, e_find_spec swig_world 0 [] "a._a" = ROk (Some sp)) as (sp & Hsp) by (eexists; reflexivity).
  eapply (C44_complete (swig_lookup EImport) 5 _ _ _ _ sp _ _ _ A); [discriminate|intros []| | |reflexivity|exact H].
  - right. exists EImport. eexists. split; [now left|]. split; [|split; [reflexivity|]]; [discriminate|]. intros t f.
    split; intros K; cbn [e_find_spec swig_lookup append seqb].
    + rewrite (proj2 (memb_In _ _) K). exact Hsp.
    + destruct (memb "a" f) eqn:Em; [now apply memb_In in Em|reflexivity].
  - intros s1 y s2 K. vm_compute in Hsp. injection Hsp as <-. vm_compute in K. injection K as <- _. eauto.
Qed.
Example C44_errors_nonvacuous : exists x s', run_prog (swig_lookup ERuntime) (exec (swig_lookup ERuntime) 5) (swig_hook (Some "a") "_a") swig_alone = Some (x, s')
  /\ x = RErr ERuntime.
Proof.
  destruct (run_prog (swig_lookup ERuntime) (exec (swig_lookup ERuntime) 5) (swig_hook (Some "a") "_a") swig_alone) as [[x s']|] eqn:H; [|now vm_compute in H].
  exists x, s'. split; [reflexivity|]. destruct swig_alone_asks as (n & A).
  eapply (C44_other_errors (swig_lookup ERuntime) 5 _ _ _ _ _ _ _ ERuntime A); [discriminate|reflexivity| |exact H].
  intros [K|(b & K)]; discriminate.
Qed.

(** A distribution compiled by mypyc. *)
Definition compiled : dist := Dist 0 "d 1" "d" "1" [] ["b"; "ab12__mypyc"].
Definition mypyc_world : env :=
  installed (world [("b", EExtension); ("ab12__mypyc", EExtension); ("c", ESource false [] [])] [("b.py", [imp "c"])] []) compiled ["b.py"].
Example C45_acts :
  let s := snd (the_calls mypyc_world [AAddModule "b"] hooked) in
  node_list s = [("b", Module MExtension); ("ab12__mypyc", Module MExtension); ("c", Module MSource)]
  /\ edge_pairs s = [("b", "ab12__mypyc"); ("b", "c")].
Proof. vm_compute. auto. Qed.
(** Without the source file it does nothing. *)
Example C45_no_file :
  let s := snd (the_calls (installed mypyc_world compiled []) [AAddModule "b"] hooked) in
  node_list s = [("b", Module MExtension)] /\ edge_pairs s = [].
Proof. vm_compute. auto. Qed.

Print Assumptions C44_swig.
Print Assumptions C44_other_errors.
Print Assumptions C44_complete.
Print Assumptions C45_mypyc.
Print Assumptions C45_effect.
Print Assumptions C45_source.
