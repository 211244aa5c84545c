(** Theorems about [sys.modules]: C67. *)
From Verif Require Import PyStrFacts BuilderCalls PropsHooks BuilderModules World.
Open Scope string_scope.

(** Building a graph leaves no fake packages behind in [sys.modules], where the
    importing program would run into them. *)
Definition C67_statement : Prop := forall E P win32 ospath data s,
  gentle_history E (eq swig_hook) (builtin_start P win32 ospath data) s -> s_fakes s = [].

(** A package that cannot be imported: importlib finds [a.b] only with the fake
    package in place. *)
Definition unless_faked (E : env) (pkg name : string) (e : err) : env := Env
  (fun t f n => if seqb n name && negb (memb pkg f) then RErr e else e_find_spec E t f n)
  (e_sysmod E) (e_dist_for_file E) (e_dist_named E) (e_parse E) (e_script E)
  (e_import E) (e_location E) (e_suffixes E) (e_glob_py E) (e_subdirs E) (e_is_file E) (e_read E)
  (e_parent E) (e_isidentifier E) (e_names_order E) (e_order E) (e_ge311 E).
Definition failing_world : env :=
  unless_faked (world [("a", ESource true [] []); ("a.b", ESource false [imp "c"] []); ("c", ESource false [] [])] [] []) "a" "a.b" ERuntime.
Definition failing_state : st := Eval vm_compute in snd (the_calls failing_world [AAddModule "a.b"] hooked).

Lemma calls_gentle E Hm fuel l : Forall (gentle_act Hm) l -> forall s0 s anss s', gentle_history E Hm s0 s ->
  calls E fuel l s = Some (anss, s') -> gentle_history E Hm s0 s'.
Proof.
  induction 1 as [|a l Ha Hl IH]; intros s0 s anss s' R H; cbn in H.
  - now injection H as <- <-.
  - destruct (top_call E fuel a s) as [[ans s1]|] eqn:E1; [|discriminate].
    destruct (calls E fuel l s1) as [[anss' s2]|] eqn:E2; [|discriminate]. injection H as <- <-.
    eapply IH; [|exact E2]. eapply gh_call; eassumption.
Qed.

Example C67_left_behind : node_list failing_state =
    [("a", Package false "a" MSource (Some "a/__init__.py") None); ("a.b", Module MSource); ("c", Module MSource)]
  /\ s_fakes failing_state = ["a"].
Proof. vm_compute. auto. Qed.

Lemma failing_history : gentle_history failing_world (eq swig_hook) hooked failing_state.
Proof.
  destruct (calls failing_world 60 [AAddModule "a.b"] hooked) as [[l s]|] eqn:Ec; [|now vm_compute in Ec].
  assert (Hs : s = failing_state) by (vm_compute in Ec; injection Ec as _ <-; reflexivity). subst s.
  eapply calls_gentle; [|apply gh_init|exact Ec]. repeat constructor.
Qed.

Theorem C67_refuted : ~ C67_statement.
Proof. intros H. specialize (H _ _ _ _ _ _ failing_history). vm_compute in H. discriminate. Qed.

(** Every fake package that is left is one that some exception is to blame for:
    looking for a module in a package that importlib does know failed. *)
Theorem C67_blamed_partial : forall E Hm s0 s, gentle_missing Hm -> gentle_hooks Hm s0 -> s_fakes s0 = [] ->
  gentle_history E Hm s0 s -> forall x, In x (s_fakes s) -> blamed E Hm x.
Proof.
  intros E Hm s0 s GM G0 F0 H x Hx. destruct (gentle_blamed E Hm GM s0 s G0 H) as [_ M].
  destruct (M x Hx) as [K|K]; [|exact K]. rewrite F0 in K. destruct K.
Qed.

(** The hooks that every graph starts with are of that kind. *)
Lemma inert_do Hm a k : inert a = true -> (forall ans, gentle Hm (k ans)) -> gentle Hm (PDo a k).
Proof. intros H K. constructor; [now constructor|exact K]. Qed.
Lemma mypyc_gentle Hm P id : gentle Hm (mypyc_hook P id).
Proof.
  unfold mypyc_hook. apply inert_do; [reflexivity|]. intros [| | |g mem| | | |]; try constructor.
  destruct (gfind g id) as [n|]; [|constructor]. destruct (extension_file n); [|constructor]. destruct (n_dist n); [|constructor].
  destruct (helper_of P d); [|constructor]. unfold mypyc_found. apply inert_do; [reflexivity|].
  intros [| | | | | |[|]|]; try constructor; [now constructor|].
  intros [|e|h| | | | |]; try constructor; [now constructor|].
  unfold mypyc_source.
  assert (X : gentle Hm (PDo (AParseFile (source_next_to P s)) (fun a => match a with
      | AnsErr ESyntax => PRet None
      | AnsErr e => PRaise e
      | AnsImports ((_ :: _) as imports) =>
          PDo (AProcessImports id imports) (fun a =>
            match a with
            | AnsErr e => PRaise e
            | _ => PDo ARunStack (fun a => match a with AnsErr e => PRaise e | _ => PRet None end)
            end)
      | _ => PRet None
      end))).
  { apply inert_do; [reflexivity|]. intros [|e| | | | | |l]; try constructor; [destruct e; constructor|].
    destruct l; [constructor|]. apply inert_do; [reflexivity|].
    intros [|e| | | | | |]; try constructor; try (now constructor); intros [|e| | | | | |]; constructor. }
  intros [|e| | | | | |]; first [exact X|constructor].
Qed.
Lemma swig_gentle : gentle_missing (eq swig_hook).
Proof. intros h <-. now left. Qed.
Lemma builtin_gentle P win32 ospath data : gentle_hooks (eq swig_hook) (builtin_start P win32 ospath data).
Proof. split; cbn; intros h [<-|[]]; [apply mypyc_gentle|reflexivity]. Qed.

Corollary C67_builtin_partial : forall E P win32 ospath data s,
  gentle_history E (eq swig_hook) (builtin_start P win32 ospath data) s ->
  forall x, In x (s_fakes s) -> blamed E (eq swig_hook) x.
Proof. intros E P w o d s H. eapply C67_blamed_partial; [apply swig_gentle|apply builtin_gentle|reflexivity|exact H]. Qed.

(** Without missing hooks, in an environment where importlib finds modules or says
    that there are none, [sys.modules] is left alone. *)
Theorem C67_quiet_partial : forall E implies post s,
  (forall t f name e, e_find_spec E t f name = RErr e -> e = ENotFound false \/ e = EInterrupt) ->
  (forall h, In h post -> forall n, gentle (fun _ => False) (h n)) ->
  gentle_history E (fun _ => False) (init implies post []) s -> s_fakes s = [].
Proof.
  intros E implies post s Q G H. destruct (s_fakes s) as [|x l] eqn:Ef; [reflexivity|exfalso].
  assert (B : blamed E (fun _ => False) x).
  { apply (C67_blamed_partial E (fun _ => False) (init implies post []) s); [intros h []|split; [exact G|intros h []]|reflexivity|exact H|].
    rewrite Ef. now left. }
  destruct B as [name t f e _ A1 A2 A3 _|name k im s1 e s2 [h []] _ _ _ _ _|name t f sp [] _ _].
  destruct (Q _ _ _ _ A1) as [->| ->]; [now apply A3|discriminate].
Qed.

(** ** The SWIG hook *)

(** Fake packages are only taken away. *)
Definition less {A} (m : M A) : Prop := forall s r s', m s = Some (r, s') -> incl (s_fakes s') (s_fakes s).
Lemma less_same {A} (m : M A) : (forall s r s', m s = Some (r, s') -> s_fakes s' = s_fakes s) -> less m.
Proof. intros H s r s' K. rewrite (H _ _ _ K). apply incl_refl. Qed.
Lemma less_bind {A B} (m : M A) (f : A -> M B) : less m -> (forall a, less (f a)) -> less (bind m f).
Proof.
  intros H K s r s' H1. unfold bind in H1. destruct (m s) as [[[a|e] s1]|] eqn:Em; [| |discriminate].
  - eapply incl_tran; [eapply K; exact H1|eapply H; exact Em].
  - injection H1 as <- <-. eapply H; exact Em.
Qed.
Lemma less_attempt {A} (m : M A) : less m -> less (attempt m).
Proof. intros H s r s' H1. unfold attempt in H1. destruct (m s) as [[a s1]|] eqn:Em; [|discriminate]. injection H1 as <- <-. eapply H; exact Em. Qed.
Ltac same_tac := apply less_same; let H := fresh in intros ? ? ? H; now injection H as <- <-.
Lemma less_del E name : less (del_sysmod E name).
Proof.
  apply less_bind; [same_tac|]. intros [|]; [|same_tac]. intros s r s' H. injection H as <- <-. cbn.
  intros x Hx. apply filter_In in Hx. apply Hx.
Qed.
Lemma less_oof {A} : less (@out_of_fuel A).
Proof. intros s r s' H. discriminate. Qed.
Ltac less_tac :=
  repeat (cbv beta zeta; first
    [ match goal with
      | |- less (bind _ _) => apply less_bind; [|intros ?]
      | |- less (attempt _) => apply less_attempt
      | |- less (ret _) => same_tac
      | |- less (raise _) => same_tac
      | |- less (of_result _) => same_tac
      | |- less (askr _) => same_tac
      | |- less (ask _) => same_tac
      | |- less (find_spec _ _) => same_tac
      | |- less (del_sysmod _ _) => apply less_del
      | |- less out_of_fuel => apply less_oof
      | |- less (assert ?b) => destruct b; same_tac
      | H : forall sp, less _ |- less _ => apply H
      | |- less (match ?x with _ => _ end) => destruct x
      end ]).
Lemma less_nfs E k : forall sp, less (f_nfs (exec E k) sp).
Proof.
  induction k as [|k IH]; intros sp; [apply less_oof|]. change (less (nfs_body E (f_nfs (exec E k)) sp)).
  unfold nfs_body, wrap_package, dist_of, source_imports, code_info, six_spec, vendor_spec, distutils_spec, dist_of. less_tac.
Qed.
Lemma less_call E r a : less (do_action E r a) -> less (call E r a).
Proof. intros H. unfold call. apply less_bind; [now apply less_attempt|]. intros [x|e]; [same_tac|]. apply less_bind; [same_tac|]. intros _. same_tac. Qed.
Lemma less_prog E r p : (forall a k, p = PDo a k -> less (call E r a)) ->
  (forall a k ans, p = PDo a k -> less (run_prog E r (k ans))) -> less (run_prog E r p).
Proof. intros H K. destruct p as [o|e|a k]; cbn [run_prog]; [same_tac|same_tac|]. apply less_bind; [now eapply H|]. intros ans. now eapply K. Qed.
Lemma less_found E k name o : less (run_prog E (exec E k) (swig_found name o)).
Proof.
  unfold swig_found. destruct o as [sp|]; [|same_tac]. cbn [run_prog]. apply less_bind.
  - apply less_call. cbn [do_action]. apply less_bind; [apply less_nfs|]. intros x. same_tac.
  - intros [|e| | | |n imports| |]; try same_tac. destruct (negb _); [same_tac|]. destruct imports; [|same_tac]. cbn [run_prog].
    apply less_bind.
    + apply less_call. cbn [do_action]. apply less_bind; [same_tac|]. intros _. apply less_bind; [|intros _; same_tac].
      unfold user_add_node. apply less_same. intros s r s'. unfold lift_graph. destruct (gadd_node _ _); intros H; now injection H as <- <-.
    + intros [|e| | | | | |]; same_tac.
Qed.

(** [x] is a fake package while [name] is looked up in it, and that raises [e]. *)
Definition retry_raises (E : env) (x name : string) (e : err) : Prop :=
  (x = "" /\ e = EImport) \/ exists t f, In x f /\ e_find_spec E t f (x ++ "." ++ name) = RErr e.

(** The hook takes its fake package away again, unless the lookup that it was
    made for raises an exception. *)
Theorem C67_swig_partial : forall E k importing name s r s',
  run_prog E (exec E k) (swig_hook importing name) s = Some (r, s') ->
  incl (s_fakes s') (s_fakes s) \/
  exists id n pkg e, importing = Some id /\ gfind (s_graph s) id = Some n /\ package_of n pkg
    /\ r = RErr e /\ retry_raises E pkg name e /\ incl (s_fakes s') (pkg :: s_fakes s).
Proof.
  intros E k importing name s r s' H. unfold swig_hook in H. destruct importing as [id|].
  2:{ injection H as <- <-. left. apply incl_refl. }
  apply prog_do in H as (ans & s1 & Hc & H). apply call_split in Hc as [Hc|(e & s3 & K & _)]; [|discriminate]. injection Hc as <- <-.
  destruct (gfind (s_graph s) id) as [n|] eqn:Eg; [|injection H as <- <-; left; apply incl_refl].
  destruct (negb _); [injection H as <- <-; left; apply incl_refl|].
  destruct (negb _); [injection H as <- <-; left; apply incl_refl|].
  destruct (negb _); [injection H as <- <-; left; apply incl_refl|].
  pose proof (swig_package_of n) as Hp. set (pkg := swig_package n) in *.
  assert (Rel : forall t ans t', call E (exec E k) (AFindSpecRel name pkg) t = Some (ROk ans, t') -> s_fakes t' = s_fakes t).
  { intros t ans t' X. now apply rel_fakes in X. }
  apply prog_do in H as (ans & s2 & Hc & H). pose proof (Rel _ _ _ Hc) as F2.
  destruct ans as [|e| | |o| | |]; try (injection H as <- <-; left; rewrite F2; apply incl_refl).
  2:{ left. rewrite <- F2. eapply less_found; exact H. }
  destruct (is_import_error e); [|injection H as <- <-; left; rewrite F2; apply incl_refl].
  unfold swig_retry in H. apply prog_do in H as (ans & s3 & Hc3 & H).
  assert (F3 : s_fakes s3 = s_fakes s).
  { rewrite <- F2. apply call_split in Hc3 as [Hc3|(e0 & s4 & Hc3 & _ & ->)]; cbn [do_action] in Hc3; unfold bind, find_spec in Hc3;
      destruct (e_find_spec _ _ _ _); try discriminate; now injection Hc3 as <- <-. }
  destruct ans as [| | | |[sp|]| | |]; try (injection H as <- <-; left; rewrite F3; apply incl_refl).
  destruct (sp_origin sp); [|injection H as <- <-; left; rewrite F3; apply incl_refl].
  apply prog_do in H as (ans & s4 & Hc4 & H). apply call_split in Hc4 as [Hc4|(e0 & s5 & K & _)]; [|discriminate].
  injection Hc4 as <- <-. set (s4 := set_fakes s3 (set_add pkg (s_fakes s3))) in *.
  assert (F4 : incl (s_fakes s4) (pkg :: s_fakes s) /\ In pkg (s_fakes s4)).
  { unfold s4. cbn. unfold set_add. rewrite F3. destruct (memb pkg (s_fakes s)) eqn:Em.
    - split; [intros z Hz; now right|now apply memb_In].
    - split; [|apply in_or_app; right; now left]. intros z Hz. apply in_app_or in Hz as [Hz|[<-|[]]]; [now right|now left]. }
  destruct F4 as [F4 In4].
  apply prog_do in H as (ans & s5 & Hc5 & H). pose proof (Rel _ _ _ Hc5) as F5.
  destruct ans as [|e0| | |o| | |].
  2:{ right. injection H as <- <-. exists id, n, pkg, e0. split; [reflexivity|]. split; [exact Eg|]. split; [exact Hp|]. split; [reflexivity|].
      rewrite F5. split; [|exact F4].
      apply call_split in Hc5 as [Hc5|(e1 & s6 & Hc5 & K & _)]; cbn [do_action] in Hc5.
      - exfalso. destruct (seqb pkg ""); [discriminate|]. unfold bind, find_spec in Hc5. destruct (e_find_spec _ _ _ _); discriminate.
      - injection K as <-. destruct (seqb pkg "") eqn:Ex; [apply seqb_eq in Ex; injection Hc5 as <- _; now left|].
        unfold bind, find_spec in Hc5. destruct (e_find_spec _ _ _ _) as [y|e2] eqn:Ef; [discriminate|]. injection Hc5 as <- _.
        right. eauto. }
  4:{ apply prog_do in H as (ans & s6 & Hc6 & H).
      assert (X : ans = AnsUnit /\ s_fakes s6 = remove_name pkg (s_fakes s5)).
      { assert (Hx : memb pkg (s_fakes s5) = true) by (rewrite F5; now apply memb_In).
        unfold call, bind, attempt in Hc6. cbn [do_action] in Hc6. unfold del_sysmod, bind, in_sysmod in Hc6. rewrite Hx in Hc6.
        cbn in Hc6. injection Hc6 as <- <-. now split. }
      destruct X as [-> F6]. left. intros z Hz. apply (less_found _ _ _ _ _ _ _ H) in Hz. rewrite F6 in Hz.
      unfold remove_name in Hz. apply filter_In in Hz as [K1 K2]. rewrite F5 in K1. destruct (F4 z K1) as [<-|K]; [|exact K].
      unfold seqb in K2. rewrite String.eqb_refl in K2. discriminate. }
  all: exfalso; apply call_split in Hc5 as [Hc5|(e1 & s6 & _ & K & _)]; [|discriminate]; cbn [do_action] in Hc5;
    destruct (seqb pkg ""); try discriminate; unfold bind, find_spec in Hc5; destruct (e_find_spec _ _ _ _); discriminate.
Qed.

(** ** Examples *)

(** [C67_blamed_partial] and [C67_builtin_partial] for the state above. *)
Example C67_blamed_nonvacuous : In "a" (s_fakes failing_state) /\ blamed failing_world (eq swig_hook) "a".
Proof.
  split; [vm_compute; now left|]. eapply C67_builtin_partial; [exact failing_history|]. vm_compute. now left.
Qed.
(** [C67_quiet_partial]: a package that can be imported. *)
Definition fine_world : env := world [("a", ESource true [] []); ("a.b", ESource false [imp "c"] []); ("c", ESource false [] [])] [] [].
Definition fine_state : st := Eval vm_compute in snd (the_calls fine_world [AAddModule "a.b"] new).
Lemma world_raises w scripts files t f name e : forallb (fun x => match snd x with EFail _ => false | _ => true end) w = true ->
  e_find_spec (world w scripts files) t f name <> RErr e.
Proof.
  intros H. cbn. induction w as [|[n x] w IH]; cbn; [discriminate|]. cbn in H. apply andb_true_iff in H as [H1 H2].
  destruct (seqb name n); [destruct x; cbn; discriminate|]. now apply IH.
Qed.
Example C67_quiet_nonvacuous : List.length (g_nodes (s_graph fine_state)) = 3 /\ s_fakes fine_state = [].
Proof.
  split; [reflexivity|]. eapply (C67_quiet_partial fine_world [] []).
  - intros t f name e H. exfalso. revert H. now apply world_raises.
  - intros h [].
  - destruct (calls fine_world 60 [AAddModule "a.b"] new) as [[l s]|] eqn:Ec; [|now vm_compute in Ec].
    assert (Hs : s = fine_state) by (vm_compute in Ec; injection Ec as _ <-; reflexivity). subst s.
    eapply calls_gentle; [|apply gh_init|exact Ec]. repeat constructor.
Qed.

(** The SWIG hook with a package that cannot be imported: the fake package is
    taken away after a lookup that succeeds, and stays after one that raises. *)
Definition swig_failing (e : err) (always : bool) : env := Env
  (fun t f n => if seqb n "a._a" && (always || negb (memb "a" f)) then RErr (if memb "a" f then e else EImport)
                else e_find_spec swig_world t f n)
  (e_sysmod swig_world) (e_dist_for_file swig_world) (e_dist_named swig_world) (e_parse swig_world) (e_script swig_world)
  (e_import swig_world) (e_location swig_world) (e_suffixes swig_world) (e_glob_py swig_world) (e_subdirs swig_world)
  (e_is_file swig_world) (e_read swig_world)
  (e_parent swig_world) (e_isidentifier swig_world) (e_names_order swig_world) (e_order swig_world) (e_ge311 swig_world).
Definition swig_outcome (E : env) : option (result (option string) * list string) :=
  option_map (fun x => (fst x, s_fakes (snd x))) (run_prog E (exec E 5) (swig_hook (Some "a") "_a") swig_alone).
Example C67_swig_clean : swig_outcome (swig_failing ERuntime false) = Some (ROk (Some "_a"), []).
Proof. reflexivity. Qed.
Example C67_swig_stays : swig_outcome (swig_failing ERuntime true) = Some (RErr ERuntime, ["a"]).
Proof. reflexivity. Qed.

Print Assumptions C67_refuted.
Print Assumptions C67_blamed_partial.
Print Assumptions C67_builtin_partial.
Print Assumptions C67_quiet_partial.
Print Assumptions C67_swig_partial.
