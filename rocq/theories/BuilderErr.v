(** C83: exceptions of the builder. *)
From Verif Require Export ErrSpec.
From Verif Require Import PyStrFacts.
Open Scope string_scope.

(** ** The scan of a code object *)

Lemma rb_err {A B} (r : result A) (f : A -> result B) e : rbind r f = RErr e -> r = RErr e \/ exists a, r = ROk a /\ f a = RErr e.
Proof. destruct r; cbn [rbind]; [eauto|intros [= <-]; now left]. Qed.
Lemma oe_err {A} (o : option A) d e : or_err o d = RErr e -> e = d.
Proof. now destruct o; intros [= <-]. Qed.
Ltac scan := repeat match goal with
  | H : rbind _ _ = RErr _ |- _ => apply rb_err in H as [H|(? & _ & H)]
  | H : op_back _ _ _ = RErr _ |- _ => unfold op_back in H
  | H : or_err _ _ = RErr _ |- _ => apply oe_err in H; subst
  | H : context [match ?x with _ => _ end] |- _ => destruct x
  | H : ROk _ = RErr _ |- _ => discriminate
  | H : RErr _ = RErr _ |- _ => injection H as <-
  end; try solve [now left|right; now left|right; now right].
Lemma decode_scanned c offset inst fn e : decode_import c offset inst fn = RErr e -> scanned e.
Proof. unfold decode_import. intros H. scan. Qed.
Lemma function_scanned v c offset e : decode_function v c offset = RErr e -> scanned e.
Proof. unfold decode_function. intros H. scan. Qed.
Lemma step_scanned v c fn cls offset inst acc e : single_step v c fn cls offset inst acc = RErr e -> scanned e.
Proof.
  unfold single_step, name_arg, global_arg. destruct acc as [im wr rd fs cs]. destruct (i_op inst); intros H; try discriminate.
  all: repeat match goal with
  | H : rbind _ _ = RErr _ |- _ => apply rb_err in H as [H|([? ?] & _ & H)] || apply rb_err in H as [H|(? & _ & H)]
  | H : decode_import _ _ _ _ = RErr _ |- _ => now apply decode_scanned in H
  | H : decode_function _ _ _ = RErr _ |- _ => now apply function_scanned in H
  end; scan.
Qed.
Lemma loop_scanned v c fn cls rest : forall offset acc e, single_loop v c fn cls offset rest acc = RErr e -> scanned e.
Proof.
  induction rest as [|i rest IH]; cbn [single_loop]; [discriminate|]. intros offset acc e H. apply rb_err in H as [H|(a & _ & H)]; [now apply step_scanned in H|now apply IH in H].
Qed.
Lemma info_scanned v l : forall acc e, info_loop v l acc = RErr e -> scanned e.
Proof.
  induction l as [|[c ps] l IH]; cbn [info_loop]; [discriminate|]. intros [im wr rd fs cs] e H. apply rb_err in H as [H|([? ? ? ? ?] & _ & H)]; [now apply loop_scanned in H|now apply IH in H].
Qed.
Lemma bytecode_scanned v c e : extract_bytecode_info v c = Some (RErr e) -> scanned e.
Proof. unfold extract_bytecode_info. destruct (all_code_objects c); [|discriminate]. destruct (info_loop v l found0) eqn:Ei; [discriminate|]. intros [= <-]. now apply info_scanned in Ei. Qed.

(** ** The builder *)

Section err.
  Variable E : env.
  Variable X : err -> Prop.
  Hypothesis HO : forall e, own e -> X e.
  Hypothesis HH : forall e, heard E e -> X e.

  (** The hooks of the graph keep to [X]. *)
  Definition hooked (s : st) : Prop := (forall h n, In h (s_post s) -> within E X (h n))
    /\ (forall h importing name, In h (s_missing s) -> within E X (h importing name)).
  (** Exceptions of [m] are in [Y], results in [Q]. *)
  Definition safe_in (Y : err -> Prop) {A} (m : M A) (Q : A -> Prop) : Prop := forall s r s', hooked s -> m s = Some (r, s') ->
    hooked s' /\ match r with ROk a => Q a | RErr e => Y e end.
  Notation safe := (safe_in X).
  Definition any {A} (a : A) : Prop := True.

  Lemma sf_weak (Y Y' : err -> Prop) {A} (m : M A) (Q Q' : A -> Prop) : safe_in Y m Q -> (forall e, Y e -> Y' e) -> (forall a, Q a -> Q' a) -> safe_in Y' m Q'.
  Proof. intros H K L s r s' Hs Hm. destruct (H s r s' Hs Hm) as [A1 A2]. split; [exact A1|]. destruct r; auto. Qed.
  Lemma sf_any Y {A} (m : M A) Q : safe_in Y m Q -> safe_in Y m any.
  Proof. intros H. eapply sf_weak; [exact H|auto|now intros]. Qed.
  Lemma sf_ret Y {A} (a : A) (Q : A -> Prop) : Q a -> safe_in Y (ret a) Q.
  Proof. intros H s r s' Hs [= <- <-]. now split. Qed.
  Lemma sf_raise (Y : err -> Prop) {A} e (Q : A -> Prop) : Y e -> safe_in Y (raise e) Q.
  Proof. intros H s r s' Hs [= <- <-]. now split. Qed.
  Lemma sf_bind Y {A B} (m : M A) (f : A -> M B) P Q : safe_in Y m P -> (forall a, P a -> safe_in Y (f a) Q) -> safe_in Y (bind m f) Q.
  Proof.
    intros H K s r s' Hs. unfold bind. destruct (m s) as [[[a|e] s1]|] eqn:Em; [| |discriminate].
    - destruct (H s _ s1 Hs Em) as [A1 A2]. now apply (K a A2).
    - intros [= <- <-]. exact (H s _ s1 Hs Em).
  Qed.
  Lemma sf_attempt Y Y' {A} (m : M A) (Q : A -> Prop) : safe_in Y m Q -> safe_in Y' (attempt m) (fun r => match r with ROk a => Q a | RErr e => Y e end).
  Proof.
    intros H s r s' Hs. unfold attempt. destruct (m s) as [[x s1]|] eqn:Em; [|discriminate]. intros [= <- <-]. exact (H s _ s1 Hs Em).
  Qed.
  Lemma sf_fuel Y {A} (Q : A -> Prop) : safe_in Y out_of_fuel Q.
  Proof. intros s r s' _ K. discriminate. Qed.
  Lemma sf_gets Y {A} (f : st -> A) : safe_in Y (gets f) any.
  Proof. intros s r s' Hs [= <- <-]. now split. Qed.
  Lemma sf_modify Y f : (forall s, hooked s -> hooked (f s)) -> safe_in Y (modify f) any.
  Proof. intros H s r s' Hs [= <- <-]. split; [auto|exact I]. Qed.
  Lemma sf_result (Y : err -> Prop) {A} (r : result A) : (forall e, r = RErr e -> Y e) -> safe_in Y (of_result r) any.
  Proof. intros H s x s' Hs [= <- <-]. split; [exact Hs|]. destruct r; [exact I|now apply H]. Qed.
  Lemma sf_assert b : safe (assert b) any.
  Proof. unfold assert. destruct b; [now apply sf_ret|apply sf_raise, HO; now left]. Qed.
  Lemma hooked_tick s : hooked s -> hooked (tick s).
  Proof. intros H. exact H. Qed.
  Lemma sf_ask Y {A} (f : nat -> A) : safe_in Y (ask f) any.
  Proof. intros s r s' Hs [= <- <-]. now split. Qed.
  Lemma sf_askr (Y : err -> Prop) {A} (f : nat -> result A) : (forall t e, f t = RErr e -> Y e) -> safe_in Y (askr f) any.
  Proof. intros H s r s' Hs [= <- <-]. split; [exact Hs|]. destruct (f (s_clock s)) eqn:Ef; [exact I|now apply (H (s_clock s))]. Qed.
  Lemma sf_find name : safe (find_spec E name) (fun o => match o with Some sp => exists t fakes, e_find_spec E t fakes name = ROk (Some sp) | None => True end).
  Proof.
    intros s r s' Hs [= <- <-]. split; [exact Hs|]. destruct (e_find_spec E (s_clock s) (s_fakes s) name) as [[sp|]|e] eqn:Ef; [eauto|exact I|].
    apply HH. eapply hd_find. exact Ef.
  Qed.
  Lemma sf_iter Y {A} (f : A -> M unit) l : (forall x, safe_in Y (f x) any) -> safe_in Y (iter f l) any.
  Proof. intros H. induction l as [|x l IH]; cbn [iter]; [now apply sf_ret|]. eapply sf_bind; [apply H|]. intros _ _. exact IH. Qed.
  Lemma sf_lift f : (forall g e, f g = RErr e -> X e) -> safe (lift_graph f) any.
  Proof.
    intros H s r s' Hs. unfold lift_graph. destruct (f (s_graph s)) as [g|e] eqn:Ef; intros [= <- <-]; (split; [exact Hs|]); [exact I|]. eapply H. exact Ef.
  Qed.
  Lemma sf_gnode n : safe (lift_graph (fun g => gadd_node g n)) any.
  Proof. apply sf_lift. intros g e. unfold gadd_node. destruct (ghas g (n_name n)); [|discriminate]. intros [= <-]. apply HO. right. now right. Qed.
  Lemma sf_edge a b d : safe (add_edge a b d) any.
  Proof. apply sf_lift. intros g e. unfold gadd_edge. destruct (_ && _); [discriminate|]. intros [= <-]. apply HO. right. now left. Qed.
  Lemma sf_root a : safe (add_root a) any.
  Proof. apply sf_lift. intros g e. unfold gadd_root. destruct (ghas g a); [discriminate|]. intros [= <-]. apply HO. right. now left. Qed.
  Lemma sf_node n l : safe (add_node n l) any.
  Proof. unfold add_node. eapply sf_bind; [apply sf_gnode|]. intros _ _. now apply sf_modify. Qed.
  Lemma sf_sched id l : safe (process_import_list id l) any.
  Proof. apply sf_modify. intros s H. unfold schedule. cbn [s_seen log]. destruct (memb id (s_seen s)); exact H. Qed.
  Lemma sf_get id : safe (get_node id) any.
  Proof. apply sf_gets. Qed.
  Lemma sf_kind p id : safe (kind_test p id) any.
  Proof. unfold kind_test. eapply sf_bind; [apply sf_get|]. intros a _. now apply sf_ret. Qed.
  Lemma sf_split name : safe (of_result (split_package name)) any.
  Proof.
    apply sf_result. intros e. unfold split_package. destruct (seqb name ""); [intros [= <-]; apply HO; right; now right|].
    destruct (_ || _); [intros [= <-]; apply HO; right; now right|]. destruct (rpartition dot (lstrip dot name)). discriminate.
  Qed.
  Lemma sf_insysmod name : safe (in_sysmod E name) any.
  Proof. intros s r s' Hs. unfold in_sysmod. intros [= <- <-]. split; [exact Hs|exact I]. Qed.
  Lemma sf_del name : safe (del_sysmod E name) any.
  Proof.
    unfold del_sysmod. eapply sf_bind; [apply sf_insysmod|]. intros b _. destruct b; [now apply sf_modify|]. apply sf_raise, HO. right. now left.
  Qed.
  Lemma sf_module id : safe (find_module id) any.
  Proof.
    unfold find_module. eapply sf_bind; [apply sf_get|]. intros [n|] _; [|now apply sf_ret]. eapply sf_bind; [apply sf_assert|]. intros _ _. now apply sf_ret.
  Qed.
  Lemma sf_note Y e : safe_in Y (note e) any.
  Proof. now apply sf_modify. Qed.
  Lemma sf_written a l : safe (add_written a l) any.
  Proof. now apply sf_modify. Qed.
  Lemma sf_push a b : safe (push_package a b) any.
  Proof. now apply sf_modify. Qed.
  Lemma sf_insert a b : safe (insert_work a b) any.
  Proof. now apply sf_modify. Qed.
  Lemma sf_pop name : safe (pop_lazy name) any.
  Proof. intros s r s' Hs. unfold pop_lazy. destruct (assoc name (s_lazy s)); intros [= <- <-]; now split. Qed.
  Lemma sf_reexported m nm : safe (reexported m nm) any.
  Proof. apply sf_gets. Qed.
  Lemma sf_saved {A} (m : M A) Q : safe m Q -> safe (saved_stack m) Q.
  Proof.
    intros H s r s' Hs. unfold saved_stack. destruct (m (set_saved (set_stack s []) (s_stack s :: s_saved s))) as [[x s1]|] eqn:Em; [|discriminate].
    intros [= <- <-]. assert (K : hooked (set_saved (set_stack s []) (s_stack s :: s_saved s))) by exact Hs. exact (H _ _ _ K Em).
  Qed.

  (** ** Specs *)

  Section nfs.
    Variable rec : spec -> M (node * list iinfo).
    Hypothesis HR : forall sp, importable E sp -> safe (rec sp) any.
    (** [sp] need not be one of the import system. *)
    Definition of_spec (sp : spec) (e : err) : Prop := X e \/ loader_fails E sp e.
    Lemma sf_dist (Y : err -> Prop) o use : (forall e, X e -> Y e) -> safe_in Y (dist_of E o use) any.
    Proof.
      intros HY. unfold dist_of. destruct o as [f|]; [|now apply sf_ret]. destruct use; [|now apply sf_ret]. apply sf_askr. intros t e K. apply HY, HH. eapply hd_dist. exact K.
    Qed.
    Lemma sf_source sp o : safe (source_imports E sp o) any.
    Proof.
      unfold source_imports. destruct o as [text|]; [|now apply sf_ret]. destruct (sp_origin sp) as [f|]; [|apply sf_raise, HO; now left].
      eapply sf_bind; [apply (sf_attempt (fun e => exists t, e_parse E t f text = RErr e)), sf_askr; eauto|]. intros [t|e] K.
      - destruct (extract_ast_info (e_names_order E) t); [now apply sf_ret|apply sf_fuel].
      - destruct K as [t K]. assert (G : e <> ESyntax -> X e) by (intros N; apply HH; eapply hd_parse; eassumption).
        destruct e; try (apply sf_raise, G; discriminate). now apply sf_ret.
    Qed.
    Lemma sf_code sp f gs gc : sp_loader sp = LInspect f gs gc -> safe_in (of_spec sp) (code_info E gc) any.
    Proof.
      intros L. unfold code_info. destruct gc as [[c|]|e].
      - destruct (extract_bytecode_info (e_ge311 E) c) as [[x|e]|] eqn:Ec; [now apply sf_ret| |apply sf_fuel].
        assert (G : of_spec sp e) by (right; eapply lf_scan; [exact L|]; now apply bytecode_scanned in Ec). destruct e; try (apply sf_raise, G). now apply sf_ret.
      - apply sf_raise. left. apply HO. now left.
      - assert (G : e <> ESyntax -> of_spec sp e) by (intros N; right; eapply lf_code; eassumption).
        destruct e; try (apply sf_raise, G; discriminate). now apply sf_ret.
    Qed.
    Lemma sf_wrap sp frozen source mk n l : safe_in (of_spec sp) (wrap_package E sp frozen source mk n l) any.
    Proof.
      unfold wrap_package. eapply sf_bind; [apply sf_result; intros e K; right; now apply lf_ispkg|]. intros p _. destruct p; cbn [negb]; [|now apply sf_ret].
      set (ex := _ && _). eapply (sf_bind _ _ _ any).
      - destruct ex; [|now apply sf_ret]. eapply sf_bind; [apply (sf_attempt (fun e => exists t, e_import E t (n_name n) = RErr e)), sf_askr; eauto|]. intros [t|e] K; [now apply sf_ret|].
        destruct K as [t K]. assert (G : is_import_error e = false -> of_spec sp e) by (intros N; left; apply HH; eapply hd_import; eassumption).
        destruct e; try (apply sf_raise, G; reflexivity); now apply sf_ret.
      - intros [locs|] _; [|apply sf_raise; left; apply HO; now left]. eapply (sf_bind _ _ _ any).
        + destruct (option_map _ _) as [d|]; [|now apply sf_ret]. apply sf_askr. intros t e. unfold contains_datafiles.
          destruct (e_location E t d) eqn:El; try discriminate. intros [= <-]. left. apply HH. eapply hd_location. exact El.
        + intros data _. now apply sf_ret.
    Qed.
    Lemma inl_spec sp e : X e -> of_spec sp e.
    Proof. now left. Qed.
    Lemma sf_moved sp moved (Q : node * list iinfo -> Prop) : (forall a, Q a) -> (match moved with Some m => exists name t fakes, e_find_spec E t fakes name = ROk (Some m) | None => True end) -> forall alt : node * list iinfo,
      safe (match moved with None => ret alt | Some m => do assert (negb (seqb (sp_name sp) (sp_name m))) ;; rec m end) Q.
    Proof.
      intros HQ H alt. destruct moved as [m|]; [|now apply sf_ret]. eapply sf_bind; [apply sf_assert|]. intros _ _. destruct H as (name & t & fakes & H).
      eapply sf_weak; [apply HR; now exists t, fakes, name|auto|auto].
    Qed.
    Lemma sf_six sp : safe (six_spec E rec sp) any.
    Proof.
      unfold six_spec. destruct (ends_with ".moves" (sp_name sp)).
      { eapply sf_bind; [apply sf_dist; auto|]. intros d _. now apply sf_ret. }
      destruct (assoc _ SIX_MOVES_TO) as [actual|]; [|now apply sf_ret]. eapply sf_bind; [apply sf_find|]. intros [m|] Hm; [|now apply sf_ret].
      eapply (sf_bind _ _ _ (fun o => match o with Some sp => exists name t fakes, e_find_spec E t fakes name = ROk (Some sp) | None => True end)).
      - destruct (seqb _ _).
        + eapply sf_bind; [apply sf_del|]. intros _ _. eapply sf_weak; [apply sf_find|auto|]. intros [q|]; eauto.
        + apply sf_ret. eauto.
      - intros o Ho. apply sf_moved; [now intros|exact Ho].
    Qed.
    Lemma sf_vendor sp a b : safe (vendor_spec E rec sp a b) any.
    Proof.
      unfold vendor_spec. eapply sf_bind.
      - apply (sf_attempt X _ _ (fun o => match o with Some sp => exists name t fakes, e_find_spec E t fakes name = ROk (Some sp) | None => True end)).
        eapply sf_bind; [apply sf_find|]. intros [m|] Hm; [|now apply sf_ret]. destruct (seqb _ _).
        + eapply sf_bind; [apply sf_del|]. intros _ _. eapply sf_weak; [apply sf_find|auto|]. intros [q|]; eauto.
        + apply sf_ret. eauto.
      - intros r Hr. eapply (sf_bind _ _ _ (fun o => match o with Some sp => exists name t fakes, e_find_spec E t fakes name = ROk (Some sp) | None => True end)).
        + destruct r as [o|e]; [now apply sf_ret|]. destruct e; try (now apply sf_raise). eapply sf_weak; [apply sf_find|auto|]. intros [q|]; eauto.
        + intros o Ho. apply sf_moved; [now intros|exact Ho].
    Qed.
    Lemma sf_distutils sp : safe (distutils_spec E rec sp) any.
    Proof.
      unfold distutils_spec. eapply sf_bind; [apply sf_assert|]. intros _ _. eapply sf_bind; [apply sf_del|]. intros _ _. eapply sf_bind; [apply sf_find|].
      intros o Ho. apply sf_moved; [now intros|]. destruct o; eauto.
    Qed.
    Lemma sf_nfs_body sp : safe_in (of_spec sp) (nfs_body E rec sp) any.
    Proof.
      unfold nfs_body. assert (Own : forall e, own e -> of_spec sp e) by (intros e K; left; now apply HO). pose proof (inl_spec sp) as HX.
      assert (Up : forall m : M (node * list iinfo), safe m any -> safe_in (of_spec sp) m any) by (intros m Hm; eapply sf_weak; [exact Hm|exact HX|auto]).
      destruct (sp_loader sp) as [| | | |frozen gs gc| |attrs| |] eqn:L.
      - destruct (sp_search sp); [now apply sf_ret|apply sf_raise, Own; now left].
      - destruct (sp_search sp); [now apply sf_ret|apply sf_raise, Own; now left].
      - apply sf_wrap.
      - eapply sf_bind; [now apply sf_dist|]. intros d _. apply sf_wrap.
      - destruct gs as [source|e].
        + eapply sf_bind; [eapply sf_weak; [apply sf_source|exact HX|intros a Ha; exact Ha]|]. intros si _. eapply sf_bind; [eapply sf_code; exact L|]. intros ci _.
          eapply sf_bind; [now apply sf_dist|]. intros d _. destruct (match ci with Some x => x | None => ([], [], []) end) as [[bi wr] rd]. apply sf_wrap.
        + assert (G : e <> ESyntax -> of_spec sp e) by (intros N; right; eapply lf_source; eassumption).
          destruct e; try (apply sf_raise, G; discriminate). eapply sf_bind; [now apply sf_dist|]. intros d _. now apply sf_ret.
      - apply Up, sf_six.
      - destruct attrs as [[a b]|]; [apply Up, sf_vendor|apply sf_raise, Own; now left].
      - apply Up, sf_distutils.
      - apply sf_raise. right. now apply lf_unknown.
    Qed.
  End nfs.

  (** ** Functions *)

  Record safe_funs (r : funs) : Prop := {
    sr_find : forall imp name b, safe (f_find r imp name b) any;
    sr_load : forall imp name, safe (f_load r imp name) any;
    sr_nfs : forall sp, safe_in (of_spec sp) (f_nfs r sp) any;
    sr_run : safe (f_run r) any;
    sr_prog : forall p, within E X p -> safe (f_prog r p) any;
    sr_post : forall i n, safe (f_post r i n) any;
    sr_miss : forall i imp name, safe (f_miss r i imp name) any
  }.

  Lemma sf_no_fuel : safe_funs no_fuel.
  Proof. constructor; intros; apply sf_fuel. Qed.

  Section bodies.
    Variable r : funs.
    Hypothesis R : safe_funs r.
    Ltac okay := intros _ _.
    Ltac step := match goal with
      | |- safe_in _ (bind (get_node _) _) _ => eapply sf_bind; [apply sf_get|]; intros ? _
      | |- safe_in _ (bind (kind_test _ _) _) _ => eapply sf_bind; [apply sf_kind|]; intros ? _
      | |- safe_in _ (bind (add_node _ _) _) _ => eapply sf_bind; [apply sf_node|]; intros _ _
      | |- safe_in _ (bind (add_edge _ _ _) _) _ => eapply sf_bind; [apply sf_edge|]; intros _ _
      | |- safe_in _ (bind (add_root _) _) _ => eapply sf_bind; [apply sf_root|]; intros _ _
      | |- safe_in _ (bind (process_import_list _ _) _) _ => eapply sf_bind; [apply sf_sched|]; intros _ _
      | |- safe_in _ (bind (note _) _) _ => eapply sf_bind; [apply sf_note|]; intros _ _
      | |- safe_in _ (bind (assert _) _) _ => eapply sf_bind; [apply sf_assert|]; intros _ _
      | |- safe_in _ (bind (gets _) _) _ => eapply sf_bind; [apply sf_gets|]; intros ? _
      | |- safe_in _ (bind (f_find _ _ _ _) _) _ => eapply sf_bind; [apply (sr_find _ R)|]; intros ? _
      | |- safe_in _ (bind (f_run _) _) _ => eapply sf_bind; [apply (sr_run _ R)|]; intros _ _
      | |- safe_in _ (bind (find_module _) _) _ => eapply sf_bind; [apply sf_module|]; intros ? _
      | |- safe_in _ (bind (of_result (split_package _)) _) _ => eapply sf_bind; [apply sf_split|]; intros ? _
      | |- safe_in _ (bind (in_sysmod _ _) _) _ => eapply sf_bind; [apply sf_insysmod|]; intros ? _
      | |- safe_in _ (bind (del_sysmod _ _) _) _ => eapply sf_bind; [apply sf_del|]; intros ? _
      | |- safe_in _ (bind (modify _) _) _ => eapply sf_bind; [now apply sf_modify|]; intros _ _
      | |- safe_in _ (bind (add_written _ _) _) _ => eapply sf_bind; [apply sf_written|]; intros _ _
      | |- safe_in _ (bind (reexported _ _) _) _ => eapply sf_bind; [apply sf_reexported|]; intros ? _
      | |- safe_in _ (bind (pop_lazy _) _) _ => eapply sf_bind; [apply sf_pop|]; intros ? _
      | |- safe_in _ (add_edge _ _ _) _ => apply sf_edge
      | |- safe_in _ (f_find _ _ _ _) _ => apply (sr_find _ R)
      | |- safe_in _ (f_load _ _ _) _ => apply (sr_load _ R)
      | |- safe_in _ (process_import_list _ _) _ => apply sf_sched
      | |- safe_in _ (assert _) _ => apply sf_assert
      | |- safe_in _ (add_written _ _) _ => apply sf_written
      | |- safe_in _ (push_package _ _) _ => apply sf_push
      | |- safe_in _ (insert_work _ _) _ => apply sf_insert
      | |- safe_in _ (ret _) any => apply sf_ret; exact I
      | |- safe_in _ (raise EAssert) _ => apply sf_raise, HO; now left
      | |- safe_in _ (raise EKey) _ => apply sf_raise, HO; right; now left
      | |- safe_in _ (raise EValue) _ => apply sf_raise, HO; right; now right
      end.
    Ltac go := repeat step.
    Notation hands sp := (exists t fakes name, e_find_spec E t fakes name = ROk (Some sp)).

    Lemma sf_create importing name : safe (create_missing r importing name) any.
    Proof. unfold create_missing. eapply sf_bind; [apply (sr_miss _ R)|]. intros [id|] _; go. Qed.
    Lemma sf_implied k name target : safe (implied_node r k name target) any.
    Proof. unfold implied_node. go. Qed.
    Lemma sf_references importing name : safe (implied_references r importing name) any.
    Proof.
      unfold implied_references. step. destruct a as [n|]; [go|]. step. destruct a as [[|a|a|refs]|]; go; try apply sf_implied.
      eapply sf_bind; [apply sf_iter; intros; go|]. intros _ _. go.
    Qed.
    Lemma sf_none name : safe (spec_or_none E name) (fun o => match o with Some sp => hands sp | None => True end).
    Proof.
      unfold spec_or_none. eapply sf_bind; [apply (sf_attempt X), sf_find|]. intros [x|e] Hx.
      - apply sf_ret. destruct x; [destruct Hx as (t & f & Hx); eauto|exact I].
      - destruct e; try (apply sf_raise; exact Hx).
        + step.
        + step. step. eapply sf_bind; [apply (sf_attempt X), sf_find|]. intros [y|e] Hy; repeat step; intros s0 r0 s1 Hs [= <- <-]; (split; [exact Hs|]); [|exact Hy].
          destruct y; [destruct Hy as (t & f & Hy); eauto|exact I].
        + now apply sf_ret.
    Qed.
    Lemma sf_failed importing name e : X e -> safe (load_failed E r importing name e) any.
    Proof.
      intros He. unfold load_failed. destruct (negb (is_exception e)); [now apply sf_raise|].
      assert (G : safe (b <- in_sysmod E (fst (rpartition dot name)) ;; do assert (negb b) ;; m <- find_spec E (fst (rpartition dot name)) ;;
             match m with
             | None => raise EAssert
             | Some sp => do assert (sp_inspect sp) ;; p <- of_result (sp_ispkg sp) ;;
                 if p : bool then match sp_origin sp with
                   | None => raise EAssert
                   | Some path => do assert (starts_with "__init__." (snd (rpartition slash path))) ;;
                       do modify (fun s => set_fakes s (set_add (fst (rpartition dot name)) (s_fakes s))) ;; f_load r importing name
                   end
                 else create_missing r importing name
             end) any).
      { step. step. eapply sf_bind; [apply sf_find|]. intros [sp|] Hsp; [|step]. step.
        eapply sf_bind; [apply sf_result; intros x Hx; apply HH; apply hd_loader with sp; [|now apply lf_ispkg]; destruct Hsp as (t & f & Hsp); now exists t, f, (fst (rpartition dot name))|].
        intros [|] _; [|apply sf_create]. destruct (sp_origin sp); go. }
      destruct e as [ | | | | | | | | | |[|] | | |u| ]; try exact G. apply sf_create.
    Qed.
    Lemma sf_nfs sp : hands sp -> safe (f_nfs r sp) any.
    Proof.
      intros H. eapply sf_weak; [apply (sr_nfs _ R)| |auto]. intros e [K|K]; [exact K|]. apply HH. eapply hd_loader; [|exact K]. exact H.
    Qed.
    Lemma sf_load_spec name sp : hands sp -> safe (load_spec r name sp) any.
    Proof.
      intros H. unfold load_spec. eapply sf_bind; [now apply sf_nfs|]. intros [n imports] _. destruct (negb _).
      - go. eapply (sf_bind _ _ _ any); [|intros _ _; go]. destruct a; go. destruct (fst a); go.
      - go. eapply (sf_bind _ _ _ any); [|intros _ _; go]. destruct (n_kind n) as [| | |? ? ? ? [ns|]| | | | | |]; go. destruct (memb _ _); go.
    Qed.
    Lemma sf_load_body importing name : safe (load_body E r importing name) any.
    Proof.
      unfold load_body. step. step. destruct a as [n|]; [go|]. eapply sf_bind; [apply (sf_attempt X), sf_none|]. intros [[sp|]|e] He.
      - now apply sf_load_spec.
      - eapply sf_bind; [apply (sf_attempt X), sf_create|]. intros [id|e] He'; [go|]. step. now apply sf_failed.
      - now apply sf_failed.
    Qed.
    Lemma sf_find_body importing name b : safe (find_body r importing name b) any.
    Proof.
      unfold find_body. step. destruct a as [n|]; [go|]. step. eapply (sf_bind _ _ _ any).
      - destruct (fst a); go. destruct a1; [eapply sf_bind; [apply sf_create|]; intros; go|]. step. destruct a1; go.
      - intros [parent found] _. eapply (sf_bind _ _ _ any).
        + destruct found; go. eapply sf_bind; [apply sf_references|]. intros [id|] _; go.
        + intros id _. step. eapply (sf_bind _ _ _ any); [|intros _ _; go]. destruct parent; go. destruct (_ || _); go.
    Qed.
    Lemma sf_process n i : safe (process_import r n i) any.
    Proof.
      unfold process_import. step. destruct (absolute_name n a i) as [invalid|name]; [|go]. step. eapply (sf_bind _ _ _ any); [|intros _ _; go]. destruct a0; go.
    Qed.
    Lemma sf_name n m k i nm : safe (process_name r n m k i nm) any.
    Proof.
      unfold process_name. step. eapply (sf_bind _ _ _ any).
      - destruct (memb _ _); [|go]. step. destruct a0; go.
      - intros [|] _; [go|]. do 3 step. destruct a1; [|go]. destruct (_ && _).
        + destruct (assoc _ _); go.
        + destruct (_ && _); go.
    Qed.
    Lemma sf_namelist n m i : safe (process_namelist r n m i) any.
    Proof.
      unfold process_namelist. step. step. step. destruct (ii_star i).
      { destruct a0 as [x|]; [|go]. destruct (_ || _); go. }
      destruct (ii_names i) as [|nm l]; [go|]. destruct a0 as [x|]; [|go].
      assert (G : forall k, safe (if is_package k || is_nspkg k || is_module k then do add_written n (map in_name (nm :: l)) ;; iter (process_name r n m k i) (nm :: l) else ret tt) any).
      { intros k. destruct (_ || _); [|go]. step. apply sf_iter. intros. apply sf_name. }
      destruct (n_kind x); try apply G. step. step. destruct a0 as [y|]; [|go]. destruct (_ || _); [|go]. step. apply sf_iter. intros. apply sf_name.
    Qed.
    Lemma inl_call a e : X e -> X e \/ of_call E a e.
    Proof. now left. Qed.
    Notation safe_call a := (safe_in (fun e => X e \/ of_call E a e)).
    Lemma sf_up a {A} (m : M A) Q : safe m Q -> safe_call a m Q.
    Proof. intros H. eapply sf_weak; [exact H|intros e; apply inl_call|auto]. Qed.
    Lemma sf_script path : safe_call (AAddScript path) (add_script E r path) any.
    Proof.
      unfold add_script. eapply sf_bind; [apply sf_up, sf_module|]. intros [n|] _; [apply sf_up; go|]. eapply sf_bind; [apply sf_askr; intros t e K; right; now exists t|].
      intros t _. apply sf_up. destruct (extract_ast_info _ t); [go|apply sf_fuel].
    Qed.
    Lemma sf_add_module name : safe (add_module r name) any.
    Proof. unfold add_module. step. eapply (sf_bind _ _ _ any); [|intros id _; go]. destruct a; go. Qed.
    Lemma sf_add_source text : safe_call (AAddSource text) (add_source E r text) any.
    Proof.
      unfold add_source. eapply sf_bind; [apply sf_askr; intros t e K; right; now exists t|]. intros t _. apply sf_up. destruct (extract_ast_info _ t) as [l|]; [|apply sf_fuel].
      apply sf_iter. intros i. eapply sf_bind; [apply sf_add_module|]. intros _ _. apply sf_iter. intros nm. eapply sf_bind; [apply sf_add_module|]. intros _ _. go.
    Qed.
    Lemma sf_add_dist d : safe (add_distribution E r d) any.
    Proof.
      unfold add_distribution. step. destruct a as [n|]; [go|]. eapply sf_bind; [apply sf_gnode|]. intros _ _. go.
      eapply sf_bind; [apply sf_iter; intros; go|]. intros _ _. go.
    Qed.
    Lemma sf_add_named name : safe_call (AAddDistNamed name) (add_distribution_named E r name) any.
    Proof.
      unfold add_distribution_named. eapply sf_bind; [apply sf_askr; intros t e K; right; now exists t|]. intros [d|] _; apply sf_up; [apply sf_add_dist|go].
    Qed.
    Lemma sf_import_module n name : safe (import_module r n name) any.
    Proof. unfold import_module. step. step. eapply (sf_bind _ _ _ any); [destruct a; go|]. intros id _. go. Qed.
    Lemma sf_directory id pkg path : safe (import_directory E r id pkg path) any.
    Proof.
      unfold import_directory. eapply sf_bind; [apply sf_askr; intros t e K; apply HH; eapply hd_modules; exact K|]. intros stems _.
      eapply sf_bind; [apply sf_iter; intros x; destruct (e_isidentifier E x); go|]. intros _ _.
      eapply sf_bind; [apply sf_askr; intros t e K; apply HH; eapply hd_dirs; exact K|]. intros dirs _.
      apply sf_iter; intros x; destruct (e_isidentifier E x); go.
    Qed.
    Lemma sf_package importing pkg : safe (import_package E r importing pkg) any.
    Proof.
      unfold import_package. step. eapply (sf_bind _ _ _ any).
      - apply sf_saved. eapply (sf_bind _ _ _ any); [destruct a; go|]. intros id _. go.
      - intros id _. step. step. destruct (negb a0); [go|]. eapply sf_bind; [apply sf_find|]. intros [sp|] _; [|go].
        eapply sf_bind; [apply sf_iter; intros; apply sf_directory|]. intros _ _. go.
    Qed.
    Lemma sf_context p : within E X p -> safe (hook_context r p) any.
    Proof.
      intros Hp. unfold hook_context. eapply sf_bind; [apply (sf_attempt X), (sr_prog _ R), Hp|]. intros [o|e] Ho; step; [go|now apply sf_raise].
    Qed.
    Lemma sf_action a : within_call E X a -> safe_call a (do_action E r a) (told E X a).
    Proof.
      intros W.
      assert (One : forall (m : M answer), safe_call a m (fun ans => (forall e, ans <> AnsErr e) /\ (forall o, ans <> AnsSpec o)) -> safe_call a m (told E X a)).
      { intros m Hm. eapply sf_weak; [exact Hm|auto|]. intros ans [K L]. destruct ans; try (destruct a; exact I); [now destruct (K e)|now destruct (L s)]. }
      assert (Ans : forall B (f : B -> answer) (m : M B), (forall b, (forall e, f b <> AnsErr e) /\ (forall o, f b <> AnsSpec o)) -> safe_call a m any ->
        safe_call a (b <- m ;; ret (f b)) (told E X a)).
      { intros B f m Hf Hm. apply One. eapply sf_bind; [exact Hm|]. intros b _. apply sf_ret, Hf. }
      destruct a; cbn [do_action].
      - apply One. intros s r0 s' Hs [= <- <-]. now split.
      - apply (Ans _ (fun _ => AnsUnit)); [now split|]. now apply sf_modify.
      - apply (Ans _ AnsId); [now split|]. apply sf_script.
      - apply (Ans _ AnsId); [now split|]. apply sf_up, sf_add_module.
      - apply (Ans _ (fun _ => AnsUnit)); [now split|]. apply sf_add_source.
      - apply (Ans _ AnsId); [now split|]. apply sf_up, sf_add_dist.
      - apply (Ans _ AnsId); [now split|]. apply sf_add_named.
      - apply (Ans _ (fun _ => AnsUnit)); [now split|]. apply sf_up, sf_context. inversion W; subst; [assumption|]. exfalso. eapply H; reflexivity.
      - apply (Ans _ AnsId); [now split|]. apply sf_up, sf_import_module.
      - apply One. eapply sf_bind; [apply sf_note|]. intros _ _. eapply sf_bind; [apply sf_up, sf_package|]. intros b _. now apply sf_ret.
      - apply (Ans _ (fun _ => AnsUnit)); [now split|]. apply sf_modify. intros s [Hp Hm]. split; [|exact Hm]. cbn [s_post set_post]. intros h n [<-|Hin]; [|now apply Hp].
        inversion W; subst; [auto|]. exfalso. eapply H0; reflexivity.
      - apply (Ans _ (fun _ => AnsUnit)); [now split|]. apply sf_modify. intros s [Hp Hm]. split; [exact Hp|]. cbn [s_missing set_missing]. intros h imp name [<-|Hin]; [|now apply Hm].
        inversion W; subst; [auto|]. exfalso. eapply H1; reflexivity.
      - apply (Ans _ (fun _ => AnsUnit)); [now split|]. now apply sf_modify.
      - apply (Ans _ (fun _ => AnsUnit)); [now split|]. now apply sf_modify.
      - apply One. eapply sf_bind; [apply sf_note|]. intros _ _. eapply sf_bind; [apply sf_up, sf_gnode|]. intros b _. now apply sf_ret.
      - apply One. eapply sf_bind; [apply sf_note|]. intros _ _. eapply sf_bind; [apply sf_up, sf_edge|]. intros b _. now apply sf_ret.
      - apply One. eapply sf_bind; [apply sf_note|]. intros _ _. eapply sf_bind; [apply sf_up, sf_root|]. intros b _. now apply sf_ret.
      - apply One. eapply sf_bind; [apply sf_up, sf_get|]. intros [n|] _; [|apply sf_up; step]. eapply sf_bind; [apply sf_note|]. intros _ _.
        eapply sf_bind; [apply sf_up, sf_sched|]. intros b _. now apply sf_ret.
      - apply (Ans _ (fun _ => AnsUnit)); [now split|]. apply sf_up, (sr_run _ R).
      - eapply sf_bind; [apply sf_up, sf_find|]. intros [sp|] Hsp; [|now apply sf_ret]. apply sf_ret. exact Hsp.
      - destruct (seqb package "") eqn:Ep; [apply sf_raise; right; split; [now apply seqb_eq|reflexivity]|].
        eapply sf_bind; [apply sf_up, sf_find|]. intros [sp|] Hsp; [|now apply sf_ret]. apply sf_ret. exact Hsp.
      - apply (Ans _ (fun _ => AnsUnit)); [now split|]. now apply sf_modify.
      - apply (Ans _ (fun _ => AnsUnit)); [now split|]. apply sf_up, sf_del.
      - apply One. eapply sf_bind; [eapply sf_weak; [apply (sr_nfs _ R)| |intros x _; exact I]; intros e K; exact K|]. intros [n l] _. now apply sf_ret.
      - apply (Ans _ AnsBool); [now split|]. apply sf_ask.
      - apply One. eapply sf_bind; [apply sf_askr; intros t e K; right; left; now exists t|]. intros text _.
        eapply sf_bind; [apply sf_askr; intros t e K; right; right; now exists t, text|]. intros t _. destruct (extract_ast_info _ t); [now apply sf_ret|apply sf_fuel].
    Qed.
    Lemma sf_call a : within_call E X a -> safe_in (fun _ => False) (call E r a) (told E X a).
    Proof.
      intros W. unfold call. eapply sf_bind; [eapply sf_attempt, sf_action, W|]. intros [ans|e] H; [now apply sf_ret|]. eapply sf_bind; [apply sf_note|]. intros _ _.
      apply sf_ret. destruct a; exact H.
    Qed.
    Lemma sf_prog : forall p, within E X p -> safe (run_prog E r p) any.
    Proof.
      fix IH 1. intros [o|e|a k] W; cbn [run_prog].
      - go.
      - apply sf_raise. now inversion W.
      - eapply sf_bind; [eapply sf_weak; [apply sf_call; now inversion W|now intros|intros x Hx; exact Hx]|]. intros ans Hans. apply IH. inversion W; subst. auto.
    Qed.
    Lemma sf_post i n : safe (post_body E r i n) any.
    Proof.
      unfold post_body. eapply (sf_bind _ _ _ (fun h => match h with Some h => forall n, within E X (h n) | None => True end)).
      - intros s r0 s' Hs [= <- <-]. split; [exact Hs|]. destruct (nth_error (s_post s) i) eqn:Eh; [|exact I]. intros x. apply (proj1 Hs). eapply nth_error_In. exact Eh.
      - intros [h|] Hh; [|go]. eapply sf_bind; [apply sf_prog, Hh|]. intros _ _. apply (sr_post _ R).
    Qed.
    Lemma sf_miss i imp name : safe (miss_body E r i imp name) any.
    Proof.
      unfold miss_body. eapply (sf_bind _ _ _ (fun h => match h with Some h => forall i n, within E X (h i n) | None => True end)).
      - intros s r0 s' Hs [= <- <-]. split; [exact Hs|]. destruct (nth_error (s_missing s) i) eqn:Eh; [|exact I]. intros j x. apply (proj2 Hs). eapply nth_error_In. exact Eh.
      - intros [h|] Hh; [|go]. eapply sf_bind; [apply sf_prog, Hh|]. intros [id|] _; [go|]. apply (sr_miss _ R).
    Qed.
    Lemma sf_work w : safe (do_work E r w) any.
    Proof.
      destruct w; cbn [do_work].
      - step. apply (sr_post _ R).
      - apply sf_process.
      - apply sf_namelist.
      - eapply sf_bind; [apply sf_package|]. intros _ _. go.
    Qed.
    Lemma sf_run : safe (run_body E r) any.
    Proof.
      intros s r0 s' Hs. unfold run_body. destruct (s_stack s) as [|w rest]; [intros [= <- <-]; now split|]. destruct (do_work E r w _) as [[[[]|e] s1]|] eqn:Ew; [| |discriminate].
      - destruct (sf_work w _ _ _ (Hs : hooked (log (set_run (set_stack s rest) (w :: s_run s)) (EvPop w))) Ew) as [A _]. apply (sr_run _ R). exact A.
      - destruct (sf_work w _ _ _ (Hs : hooked (log (set_run (set_stack s rest) (w :: s_run s)) (EvPop w))) Ew) as [A B]. intros [= <- <-]. split; [exact A|exact B].
    Qed.
  End bodies.

  Lemma sf_exec n : safe_funs (exec E n).
  Proof.
    induction n as [|n IH]; [exact sf_no_fuel|]. constructor; cbn [exec f_find f_load f_nfs f_run f_prog f_post f_miss]; intros.
    - now apply sf_find_body.
    - now apply sf_load_body.
    - apply sf_nfs_body. intros sp' Hsp. eapply sf_weak; [apply (sr_nfs _ IH)| |auto]. intros e [K|K]; [exact K|]. apply HH. now apply hd_loader with sp'.
    - now apply sf_run.
    - now apply sf_prog.
    - now apply sf_post.
    - now apply sf_miss.
  Qed.
  Lemma top_told fuel a s ans s' : hooked s -> within_call E X a -> top_call E fuel a s = Some (ans, s') -> hooked s' /\ told E X a ans.
  Proof.
    intros Hs W. unfold top_call. destruct (call E (exec E fuel) a s) as [[[x|e] s1]|] eqn:Ec; try discriminate. intros [= <- <-].
    exact (sf_call _ (sf_exec fuel) a W s _ _ Hs Ec).
  Qed.
  Lemma history_hooked s0 s : hooked s0 -> within_history E X s0 s -> hooked s.
  Proof. intros H. induction 1 as [|s fuel a ans s' _ IH W T]; [exact H|]. exact (proj1 (top_told fuel a s ans s' IH W T)). Qed.
End err.
