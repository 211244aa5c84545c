(** The same calls with other fake packages in [sys.modules]. *)
From Verif Require Export NextSpec BuilderFuel.
From Verif Require Import BuilderOther.
From Verif Require Import PyStrFacts NamesProofs.
Open Scope string_scope.

(** ** The packages of a name *)
Lemma rpart_shorter name : fst (rpartition dot name) <> "" -> String.length (fst (rpartition dot name)) < String.length name.
Proof.
  destruct (rpartition_cases dot name) as [[H ->]|(x & y & -> & H & ->)]; cbn [fst]; intros K; [now destruct K|].
  clear. induction x as [|a x IH]; cbn [append String.length]; lia.
Qed.
Lemma packages_n_enough n name : String.length name <= n -> packages_n n name = packages name.
Proof.
  unfold packages. revert name. induction n as [n IH] using lt_wf_ind. intros name H. destruct n as [|n].
  - destruct name; [reflexivity|cbn in H; lia].
  - destruct (String.length name) as [|k] eqn:El; [destruct name; [reflexivity|discriminate]|]. cbn [packages_n]. cbv zeta.
    destruct (seqb (fst (rpartition dot name)) "") eqn:Ep; [reflexivity|].
    assert (Hp : fst (rpartition dot name) <> "") by (intros X; rewrite X in Ep; discriminate).
    apply rpart_shorter in Hp. rewrite (IH n), (IH k); try lia. reflexivity.
Qed.
Lemma packages_step name : packages name = (let p := fst (rpartition dot name) in if seqb p "" then [] else packages p ++ [p])%list.
Proof.
  unfold packages at 1. destruct (String.length name) as [|n] eqn:El.
  - destruct name; [reflexivity|discriminate].
  - cbn [packages_n]. cbv zeta. destruct (seqb (fst (rpartition dot name)) "") eqn:Ep; [reflexivity|].
    assert (Hp : fst (rpartition dot name) <> "") by (intros X; rewrite X in Ep; discriminate).
    apply rpart_shorter in Hp. rewrite packages_n_enough; [reflexivity|lia].
Qed.
Lemma packages_shorter name p : In p (packages name) -> String.length p < String.length name.
Proof.
  remember (String.length name) as n eqn:En. revert name En. induction n as [n IH] using lt_wf_ind. intros name En H.
  rewrite packages_step in H. cbv zeta in H. destruct (seqb (fst (rpartition dot name)) "") eqn:Ep; [destruct H|].
  assert (Hp : fst (rpartition dot name) <> "") by (intros X; rewrite X in Ep; discriminate).
  apply rpart_shorter in Hp. apply in_app_iff in H as [H|[H|[]]]; [|subst; exact Hp].
  rewrite <- En in Hp. specialize (IH _ Hp _ eq_refl H). lia.
Qed.

(** ** Looking for a module *)
Lemma memb_set_add' n m l : memb n (set_add m l) = seqb n m || memb n l.
Proof.
  unfold set_add. destruct (memb m l) eqn:Em.
  - destruct (seqb n m) eqn:En; [|reflexivity]. apply String.eqb_eq in En. subst. now rewrite Em.
  - clear. induction l as [|x l IH]; cbn; [unfold seqb; now destruct (String.eqb n m)|]. destruct (String.eqb n x); [now rewrite orb_true_r|exact IH].
Qed.

Section python.
  Variable E : env.
  Variable base : string -> result (option spec).
  Variable breaks : string -> option err.
  Hypothesis HP : python E base breaks.

  Lemma breaking_none f l : breaking breaks f l = None <-> forall p e, In p l -> breaks p = Some e -> memb p f = true.
  Proof.
    unfold breaking. destruct (find _ l) as [p|] eqn:Ef.
    - apply find_some in Ef as [Hi Hb]. destruct (breaks p) as [e|] eqn:Eb; [|discriminate]. split; [discriminate|].
      intros H. rewrite (H p e Hi Eb) in Hb. discriminate.
    - split; [|reflexivity]. intros _ p e Hi Hb. pose proof (find_none _ _ Ef p Hi) as X. cbn beta in X. rewrite Hb in X. now apply negb_false_iff.
  Qed.
  Lemma breaking_some f l e : breaking breaks f l = Some e -> exists p, In p l /\ breaks p = Some e /\ memb p f = false.
  Proof.
    unfold breaking. destruct (find _ l) as [p|] eqn:Ef; [|discriminate]. intros Hb. apply find_some in Ef as [Hi Hf]. exists p.
    split; [exact Hi|]. split; [exact Hb|]. rewrite Hb in Hf. now apply negb_true_iff.
  Qed.
  Lemma breaking_incl f f' l : incl f f' -> breaking breaks f l = None -> breaking breaks f' l = None.
  Proof.
    intros Hi H. rewrite breaking_none in *. intros p e Hp Hb. apply memb_In, Hi, memb_In. eapply H; eassumption.
  Qed.
  (** The package that breaks is the last one. *)
  Lemma breaking_last f l p e : breaking breaks f (l ++ [p])%list = Some e -> breaking breaks f l = None -> breaks p = Some e /\ memb p f = false.
  Proof.
    intros H K. apply breaking_some in H as [q [Hq [Hb Hm]]]. apply in_app_iff in Hq as [Hq|[->|[]]]; [|now split].
    rewrite breaking_none in K. rewrite (K q e Hq Hb) in Hm. discriminate.
  Qed.
  Lemma breaking_snoc f l p : breaking breaks f l = None -> memb p f = true -> breaking breaks f (l ++ [p])%list = None.
  Proof.
    intros H Hm. rewrite breaking_none in *. intros q e Hq Hb. apply in_app_iff in Hq as [Hq|[<-|[]]]; [|exact Hm]. eapply H; eassumption.
  Qed.
  Lemma breaking_snoc_not f l p e : breaking breaks f l = None -> memb p f = false -> breaks p = Some e -> breaking breaks f (l ++ [p])%list = Some e.
  Proof.
    intros H Hm Hb. destruct (breaking breaks f (l ++ [p])%list) as [e'|] eqn:Er.
    - destruct (breaking_last _ _ _ _ Er H) as [X _]. congruence.
    - rewrite breaking_none in Er. rewrite (Er p e) in Hm; [discriminate|apply in_app_iff; right; now left|exact Hb].
  Qed.

  (** The packages that are faked. *)
  Definition faked (f : list string) : Prop := forall p, In p f -> (exists e, breaks p = Some e) /\ exists sp, base p = ROk (Some sp) /\ sp_ispkg sp = ROk true.
  Definition look (f : list string) (name : string) : result (option spec) :=
    match breaking breaks f (packages name) with
    | Some e => RErr e
    | None => match base name with RErr EAttrPath => ROk None | y => y end
    end.

  Lemma breaking_remove f name : breaking breaks (remove_name name f) (packages name) = breaking breaks f (packages name).
  Proof.
    unfold breaking. assert (X : forall l, (forall p, In p l -> String.length p < String.length name) ->
      find (fun p => match breaks p with Some _ => negb (memb p (remove_name name f)) | None => false end) l
      = find (fun p => match breaks p with Some _ => negb (memb p f) | None => false end) l).
    { induction l as [|p l IH]; intros Hl; [reflexivity|]. cbn [find].
      assert (Y : memb p (remove_name name f) = memb p f).
      { destruct (memb p f) eqn:Em.
        - apply memb_In. apply filter_In. split; [now apply memb_In|]. apply negb_true_iff. destruct (seqb p name) eqn:Es; [|reflexivity].
          apply String.eqb_eq in Es. subst. specialize (Hl name (or_introl eq_refl)). lia.
        - destruct (memb p (remove_name name f)) eqn:Er; [|reflexivity]. apply memb_In, filter_In in Er as [Er _]. apply memb_In in Er. congruence. }
      rewrite Y. destruct (breaks p) as [e|]; [destruct (negb (memb p f)); [reflexivity|]|]; apply IH; intros q Hq; apply Hl; now right. }
    rewrite X; [reflexivity|]. intros p. apply packages_shorter.
  Qed.

  Lemma spec_or_none_is name s : faked (s_fakes s) -> exists c, spec_or_none E name s = Some (look (s_fakes s) name, set_clock s c).
  Proof.
    intros Hf. unfold spec_or_none, bind at 1, attempt at 1, find_spec at 1. rewrite (py_find _ _ _ HP). unfold finds_of, look.
    destruct (memb name (s_fakes s)) eqn:Em.
    - apply memb_In in Em as Hi. destruct (Hf name Hi) as [[e He] [sp [Hb _]]].
      unfold bind at 1, gets at 1, del_sysmod, in_sysmod. unfold bind at 1. unfold bind at 1. cbn [tick s_fakes]. rewrite Em. cbn [orb modify].
      unfold bind at 1, attempt at 1, find_spec at 1. rewrite (py_find _ _ _ HP). cbn [set_fakes s_fakes tick s_clock]. unfold finds_of.
      assert (Er : memb name (remove_name name (s_fakes s)) = false).
      { destruct (memb name (remove_name name (s_fakes s))) eqn:X; [|reflexivity]. apply memb_In, filter_In in X as [_ X].
        unfold seqb in X. rewrite String.eqb_refl in X. discriminate. }
      rewrite Er, breaking_remove, Hb. unfold bind at 1. cbn [set_fakes s_fakes tick s_clock]. rewrite Er, (py_absent _ _ _ HP _ name e He). cbn [orb negb assert ret].
      exists (S (S (S (S (s_clock s))))). destruct (breaking breaks (s_fakes s) (packages name)); destruct s; reflexivity.
    - exists (S (s_clock s)). destruct (breaking breaks (s_fakes s) (packages name)) as [e|] eqn:Eb.
      + apply breaking_some in Eb as [p [_ [Hp _]]]. apply (py_error _ _ _ HP) in Hp. destruct e as [| | | | | | | | | |[]| | | |]; try discriminate Hp; destruct s; reflexivity.
      + destruct (py_base _ _ _ HP name) as [[o ->]|[-> | ->]]; destruct s; reflexivity.
  Qed.

  (** *** Only questions *)
  (** [m] only asks the environment, and gets the same answers whenever it asks. *)
  Definition ao {A} (m : M A) : Prop := forall s x t, m s = Some (x, t) -> (exists c, t = set_clock s c)
    /\ forall f c, exists c', m (set_clock (set_fakes s f) c) = Some (x, set_clock (set_fakes s f) c').
  Lemma ao_done {A} (x : result A) : ao (fun s => Some (x, s)).
  Proof. intros s y t H. injection H as <- <-. split; [exists (s_clock s); now destruct s|]. intros f c. now exists c. Qed.
  Lemma ao_ret {A} (a : A) : ao (ret a). Proof. apply ao_done. Qed.
  Lemma ao_raise {A} e : ao (@raise A e). Proof. apply ao_done. Qed.
  Lemma ao_of_result {A} (x : result A) : ao (of_result x). Proof. apply ao_done. Qed.
  Lemma ao_none {A} : ao (@out_of_fuel A). Proof. intros s x t H. discriminate. Qed.
  Lemma ao_assert b : ao (assert b). Proof. destruct b; apply ao_done. Qed.
  Lemma ao_bind {A B} (m : M A) (f : A -> M B) : ao m -> (forall a, ao (f a)) -> ao (bind m f).
  Proof.
    intros H K s x t Hb. unfold bind in *. destruct (m s) as [[[a|e] s1]|] eqn:Em; [| |discriminate]; destruct (H _ _ _ Em) as [[c1 ->] C].
    - destruct (K a _ _ _ Hb) as [[c2 ->] C2]. split; [now exists c2|]. intros g c. destruct (C g c) as [c' ->]. apply C2.
    - injection Hb as <- <-. split; [now exists c1|]. intros g c. destruct (C g c) as [c' ->]. now exists c'.
  Qed.
  Lemma ao_attempt {A} (m : M A) : ao m -> ao (attempt m).
  Proof.
    intros H s x t Hb. unfold attempt in *. destruct (m s) as [[y s1]|] eqn:Em; [|discriminate]. injection Hb as <- <-.
    destruct (H _ _ _ Em) as [C1 C]. split; [exact C1|]. intros g c. destruct (C g c) as [c' ->]. now exists c'.
  Qed.
  Lemma ao_askr {A} (f : nat -> result A) : (forall t t', f t = f t') -> ao (askr f).
  Proof.
    intros H s x t Hb. injection Hb as <- <-. split; [now exists (S (s_clock s))|]. intros g c. exists (S c). unfold askr. cbn [set_clock s_clock]. now rewrite (H c (s_clock s)).
  Qed.
  Ltac ao_step := first [ apply ao_ret | apply ao_raise | apply ao_of_result | apply ao_none | apply ao_assert
    | apply ao_askr; intros ? ?; first [apply (py_dist _ _ _ HP)|apply (py_parse _ _ _ HP)|apply (py_import _ _ _ HP)|f_equal; apply (py_location _ _ _ HP)]
    | apply ao_attempt | apply ao_bind; [|intros ?]
    | match goal with |- ao (match ?x with _ => _ end) => destruct x end ].
  Lemma ao_nfs rec sp : direct (sp_loader sp) = true -> ao (nfs_body E rec sp).
  Proof.
    intros Hd. unfold nfs_body, dist_of, source_imports, code_info, wrap_package. destruct (sp_loader sp); try discriminate Hd; repeat ao_step.
  Qed.

  (** *** Faked packages are broken ones *)
  Definition fit (s : st) : Prop := unhooked s /\ faked (s_fakes s).
  Definition kp {A} (m : M A) : Prop := forall s x t, fit s -> m s = Some (x, t) -> fit t.
  Lemma fit_clock s c : fit s -> fit (set_clock s c).
  Proof. intros H. exact H. Qed.
  Lemma kp_done {A} (x : result A) : kp (fun s => Some (x, s)).
  Proof. intros s y t H K. injection K as <- <-. exact H. Qed.
  Lemma kp_none {A} : kp (@out_of_fuel A). Proof. intros s x t _ H. discriminate. Qed.
  Lemma kp_gets {A} (f : st -> A) : kp (gets f). Proof. intros s x t H K. injection K as <- <-. exact H. Qed.
  Lemma kp_assert b : kp (assert b). Proof. destruct b; apply kp_done. Qed.
  Lemma kp_bind {A B} (m : M A) (f : A -> M B) : kp m -> (forall a, kp (f a)) -> kp (bind m f).
  Proof.
    intros H K s x t F Hb. unfold bind in *. destruct (m s) as [[[a|e] s1]|] eqn:Em; [| |discriminate]; pose proof (H _ _ _ F Em) as F1.
    - eapply K; eassumption.
    - now injection Hb as <- <-.
  Qed.
  Lemma kp_attempt {A} (m : M A) : kp m -> kp (attempt m).
  Proof. intros H s x t F Hb. unfold attempt in *. destruct (m s) as [[y s1]|] eqn:Em; [|discriminate]. injection Hb as <- <-. eapply H; eassumption. Qed.
  Lemma kp_modify f : (forall s, fit s -> fit (f s)) -> kp (modify f).
  Proof. intros H s x t F K. injection K as <- <-. auto. Qed.
  Lemma kp_askr {A} (f : nat -> result A) : kp (askr f).
  Proof. intros s x t F K. now injection K as <- <-. Qed.
  Lemma kp_find_spec name : kp (find_spec E name).
  Proof. intros s x t F K. now injection K as <- <-. Qed.
  Lemma kp_lift f : kp (lift_graph f).
  Proof. intros s x t F K. unfold lift_graph in K. destruct (f (s_graph s)); now injection K as <- <-. Qed.
  Lemma kp_schedule id l : kp (process_import_list id l).
  Proof. apply kp_modify. intros s F. unfold schedule. cbn. now destruct (memb id (s_seen s)). Qed.
  Lemma kp_pop name : kp (pop_lazy name).
  Proof. intros s x t F K. unfold pop_lazy in K. destruct (assoc name (s_lazy s)); now injection K as <- <-. Qed.
  Lemma kp_saved {A} (m : M A) : kp m -> kp (saved_stack m).
  Proof.
    intros H s x t F Hb. unfold saved_stack in *. destruct (m (set_saved (set_stack s []) (s_stack s :: s_saved s))) as [[y s1]|] eqn:Em; [|discriminate].
    injection Hb as <- <-. exact (H _ _ _ (F : fit (set_saved (set_stack s []) (s_stack s :: s_saved s))) Em).
  Qed.
  Lemma kp_iter {A} (f : A -> M unit) l : (forall a, kp (f a)) -> kp (iter f l).
  Proof. intros H. induction l as [|x l IH]; cbn [iter]; [apply kp_done|]. apply kp_bind; [apply H|]. intros _. exact IH. Qed.

  Record kps (r : funs) : Prop := {
    kp_find : forall im name link, kp (f_find r im name link);
    kp_load : forall im name, kp (f_load r im name);
    kp_nfs : forall sp, direct (sp_loader sp) = true -> kp (f_nfs r sp);
    kp_run : kp (f_run r);
    kp_post : forall n, kp (f_post r 0 n);
    kp_miss : forall im name, kp (f_miss r 0 im name)
  }.

  Section keep.
    Variable r : funs.
    Hypothesis H : kps r.
    Ltac kp_step := first
      [ apply kp_none | apply kp_done | apply kp_assert | apply kp_gets | apply kp_askr | apply kp_find_spec | apply kp_lift | apply kp_schedule | apply kp_pop
      | apply (kp_find _ H) | apply (kp_load _ H) | apply (kp_run _ H) | apply (kp_post _ H) | apply (kp_miss _ H)
      | (apply (kp_nfs _ H); assumption)
      | apply kp_bind; [|intros ?] | apply kp_attempt | apply kp_saved | apply kp_iter; intros ?
      | (apply kp_modify; let F := fresh in intros ? F; exact F)
      | match goal with |- kp (match ?x with _ => _ end) => destruct x end ].
    Ltac kp_unf := unfold create_missing, implied_references, implied_node, load_spec, find_body, process_import, process_namelist, process_name, reexported,
      add_script, add_module, add_source, add_distribution_named, add_distribution, import_module, import_package, import_directory, push_package, insert_work,
      find_module, kind_test, get_node, user_add_node, add_node, add_edge, add_root, add_written, note, do_work.
    Ltac kp_all := kp_unf; repeat kp_step.
    Lemma kp_create_missing im name : kp (create_missing r im name). Proof. kp_all. Qed.
    Lemma kp_load_spec name sp : direct (sp_loader sp) = true -> kp (load_spec r name sp). Proof. intros Hd. kp_all. Qed.
    Lemma kp_find_body im name link : kp (find_body r im name link). Proof. kp_all. Qed.
    Lemma kp_do_action a : plain_call a = true -> kp (do_action E r a).
    Proof. intros Ha. destruct a; try discriminate Ha; cbn [do_action]; kp_all. Qed.
    Lemma kp_do_work w : kp (do_work E r w). Proof. destruct w; cbn [do_work]; kp_all. Qed.
    Lemma create_missing_new im name s x t : unhooked s -> (forall im name s x t, unhooked s -> f_miss r 0 im name s = Some (x, t) -> x = ROk None /\ t = s) ->
      gfind (s_graph s) name = None -> create_missing r im name s = Some (x, t) -> exists a, x = ROk a.
    Proof.
      intros U HM Hg Hm. unfold create_missing, bind at 1 in Hm. destruct (f_miss r 0 im name s) as [[y u]|] eqn:Ef; [|discriminate].
      destruct (HM _ _ _ _ _ U Ef) as [-> ->]. unfold add_node, lift_graph, bind, gadd_node, ghas in Hm. cbn [plain_node n_name] in Hm. rewrite Hg in Hm.
      cbn in Hm. injection Hm as <- _. now eexists.
    Qed.
  End keep.

  (** *** A package that cannot be imported *)
  (** The module is in a package that cannot be imported, whose own packages can. *)
  Definition last_breaks (f : list string) (name : string) (e : err) : Prop :=
    let p := fst (rpartition dot name) in
    packages name = (packages p ++ [p])%list /\ breaks p = Some e /\ memb p f = false /\ breaking breaks f (packages p) = None.
  Definition after_failed (r : funs) (im : option string) (name : string) (sp : spec) : M string :=
    do assert (sp_inspect sp) ;;
    p <- of_result (sp_ispkg sp) ;;
    if p : bool then
      match sp_origin sp with
      | None => raise EAssert
      | Some path =>
          do assert (starts_with "__init__." (snd (rpartition slash path))) ;;
          do modify (fun s => set_fakes s (set_add (fst (rpartition dot name)) (s_fakes s))) ;;
          f_load r im name
      end
    else create_missing r im name.
  Lemma failed_is r im name e s sp : last_breaks (s_fakes s) name e -> base (fst (rpartition dot name)) = ROk (Some sp) ->
    load_failed E r im name e s = after_failed r im name sp (tick (tick s)).
  Proof.
    intros [Hpk [Hb [Hm Hn]]] Hsp. pose proof (py_error _ _ _ HP _ _ Hb) as We.
    assert (X : (b <- in_sysmod E (fst (rpartition dot name)) ;; do assert (negb b) ;; m <- find_spec E (fst (rpartition dot name)) ;;
        match m with None => raise EAssert | Some sp => after_failed r im name sp end) s = after_failed r im name sp (tick (tick s))).
    { unfold bind at 1, in_sysmod at 1. rewrite Hm, (py_absent _ _ _ HP _ _ e Hb). cbn [orb negb assert]. unfold bind at 1, ret at 1.
      unfold bind at 1, find_spec at 1. rewrite (py_find _ _ _ HP). unfold finds_of. cbn [tick s_fakes]. now rewrite Hm, Hn, Hsp. }
    unfold load_failed. destruct e as [| | | | | | | | | |[]| | | |]; try discriminate We; exact X.
  Qed.
  Lemma failed_or r im name e s : breaking breaks (s_fakes s) (packages name) = Some e ->
    last_breaks (s_fakes s) name e \/ exists er c, load_failed E r im name e s = Some (RErr er, set_clock s c).
  Proof.
    intros Hb. pose proof (packages_step name) as Hp. cbv zeta in Hp. set (p := fst (rpartition dot name)) in *.
    destruct (seqb p "") eqn:Es; [rewrite Hp in Hb; discriminate|].
    destruct (breaking breaks (s_fakes s) (packages p)) as [e'|] eqn:Ee; [right|left].
    - assert (We : worked_around e = true) by (apply breaking_some in Hb as [q [_ [Hq _]]]; eapply py_error; eassumption).
      assert (X : forall k, exists er c, (b <- in_sysmod E p ;; do assert (negb b) ;; m <- find_spec E p ;; (k m : M string)) s = Some (RErr er, set_clock s c)).
      { intros k. unfold bind at 1, in_sysmod at 1. destruct (memb p (s_fakes s)) eqn:Em; [cbn; do 2 eexists; reflexivity|].
        destruct (e_sysmod E (s_clock s) p); [cbn; do 2 eexists; reflexivity|]. cbn [orb negb assert]. unfold bind at 1, ret at 1.
        unfold bind at 1, find_spec at 1. rewrite (py_find _ _ _ HP). unfold finds_of. cbn [tick s_fakes]. rewrite Em, Ee. do 2 eexists. reflexivity. }
      unfold load_failed. destruct e as [| | | | | | | | | |[]| | | |]; try discriminate We; apply X.
    - rewrite Hp in Hb. destruct (breaking_last _ _ _ _ Hb Ee) as [H1 H2]. now split.
  Qed.
  Lemma last_base f name e : last_breaks f name e -> exists sp, base (fst (rpartition dot name)) = ROk (Some sp).
  Proof. intros [_ [Hb _]]. eapply py_there; eassumption. Qed.
  Lemma faked_add f p sp e : faked f -> breaks p = Some e -> base p = ROk (Some sp) -> sp_ispkg sp = ROk true -> faked (set_add p f).
  Proof.
    intros Hf Hb Hs Hi q Hq. unfold set_add in Hq. destruct (memb p f); [now apply Hf|]. apply in_app_iff in Hq as [Hq|[<-|[]]]; [now apply Hf|]. split; [now exists e|now exists sp].
  Qed.

  Section keep2.
    Variable r : funs.
    Hypothesis H : kps r.
    Hypothesis HM : forall im name s x t, unhooked s -> f_miss r 0 im name s = Some (x, t) -> x = ROk None /\ t = s.
    Lemma kp_load_body im name : kp (load_body E r im name).
    Proof.
      intros s x t [U F] Hl. unfold load_body in Hl. unfold bind at 1, assert at 1 in Hl. destruct (negb (starts_with "." name)); [|injection Hl as _ <-; now split].
      unfold ret at 1, bind at 1, get_node, gets at 1 in Hl. destruct (gfind (s_graph s) name) as [n|] eqn:Eg; [injection Hl as _ <-; now split|].
      unfold bind at 1, attempt at 1 in Hl. destruct (spec_or_none_is name s F) as [c Hc]. rewrite Hc in Hl. unfold look in Hl.
      assert (F1 : fit (set_clock s c)) by now split.
      destruct (breaking breaks (s_fakes s) (packages name)) as [e|] eqn:Eb.
      - destruct (failed_or r im name e (set_clock s c) Eb) as [Hlast|[er [c' Hr]]]; [|rewrite Hr in Hl; injection Hl as _ <-; now split].
        destruct (last_base _ _ _ Hlast) as [sp Hsp]. rewrite (failed_is _ _ _ _ _ _ Hlast Hsp) in Hl. unfold after_failed in Hl.
        assert (F2 : fit (tick (tick (set_clock s c)))) by now split. revert F2 Hl. generalize (tick (tick (set_clock s c))). intros u F2.
        unfold bind at 1, assert at 1. destruct (sp_inspect sp); [|intros Hl; injection Hl as _ <-; exact F2].
        unfold ret at 1, bind at 1, of_result. destruct (sp_ispkg sp) as [[]|er] eqn:Ei; [| |intros Hl; injection Hl as _ <-; exact F2].
        + destruct (sp_origin sp) as [path|]; [|intros Hl; injection Hl as _ <-; exact F2].
          unfold bind at 1, assert at 1. destruct (starts_with _ _); [|intros Hl; injection Hl as _ <-; exact F2].
          unfold ret at 1, bind at 1, modify. apply (kp_load _ H). destruct F2 as [U2 F2]. split; [exact U2|]. cbn [set_fakes s_fakes].
          destruct Hlast as [_ [Hb _]]. eapply faked_add; eassumption.
        + now apply kp_create_missing.
      - destruct (py_base _ _ _ HP name) as [[[sp|] Hb]|[Hb|Hb]]; rewrite Hb in Hl.
        + eapply kp_load_spec; [exact H|eapply py_direct; eassumption|exact F1|exact Hl].
        + unfold bind at 1, attempt at 1 in Hl. destruct (create_missing r im name (set_clock s c)) as [[y u]|] eqn:Em; [|discriminate].
          assert (F2 : fit u) by (eapply kp_create_missing; eassumption).
          destruct (create_missing_new r im name (set_clock s c) y u U HM Eg Em) as [a ->]. now injection Hl as _ <-.
        + unfold bind at 1, attempt at 1 in Hl. destruct (create_missing r im name (set_clock s c)) as [[y u]|] eqn:Em; [|discriminate].
          assert (F2 : fit u) by (eapply kp_create_missing; eassumption).
          destruct (create_missing_new r im name (set_clock s c) y u U HM Eg Em) as [a ->]. now injection Hl as _ <-.
        + cbn [load_failed is_exception negb] in Hl. eapply kp_create_missing; eassumption.
    Qed.
    Lemma kp_run_body : kp (run_body E r).
    Proof.
      intros s x t F Hm. unfold run_body in Hm. destruct (s_stack s) as [|w rest]; [now injection Hm as <- <-|].
      destruct (do_work E r w _) as [[[u|e] s1]|] eqn:Ew; [| |discriminate].
      - apply (kp_do_work r H) in Ew; [|exact F]. eapply (kp_run _ H); [|exact Hm]. exact Ew.
      - apply (kp_do_work r H) in Ew; [|exact F]. now injection Hm as <- <-.
    Qed.
  End keep2.
  Lemma miss_none n im name s x t : unhooked s -> f_miss (exec E n) 0 im name s = Some (x, t) -> x = ROk None /\ t = s.
  Proof.
    destruct n as [|n]; [discriminate|]. intros [U1 U2] Hm. cbn [exec f_miss] in Hm. unfold miss_body, bind, gets in Hm. rewrite U2 in Hm. cbn [nth_error] in Hm. now injection Hm as <- <-.
  Qed.
  Lemma kps_exec n : kps (exec E n).
  Proof.
    induction n as [|n IH]; [constructor; intros; apply kp_none|]. constructor; cbn [exec f_find f_load f_nfs f_run f_post f_miss].
    - intros. now apply kp_find_body.
    - intros. apply kp_load_body; [exact IH|]. apply miss_none.
    - intros sp Hd s x t F Hm. destruct (ao_nfs (f_nfs (exec E n)) sp Hd s x t Hm) as [[c ->] _]. exact F.
    - now apply kp_run_body.
    - intros m s x t [[U1 U2] F] Hm. unfold post_body, bind, gets in Hm. rewrite U1 in Hm. cbn [nth_error] in Hm. injection Hm as _ <-. now split.
    - intros im name s x t F Hm. assert (X : f_miss (exec E (S n)) 0 im name s = Some (x, t)) by exact Hm.
      destruct (miss_none (S n) _ _ _ _ _ (proj1 F) X) as [_ ->]. exact F.
  Qed.
  Lemma some_calls_fit s t : some_calls E s t -> fit s -> fit t.
  Proof.
    induction 1 as [s|a n ans s s1 t Ha Hc Hl IH]; intros F; [exact F|]. apply IH. unfold top_call, call, bind, attempt in Hc.
    destruct (do_action E (exec E n) a s) as [[[b|e] u]|] eqn:Ed; [| |discriminate]; pose proof (kp_do_action (exec E n) (kps_exec n) a Ha _ _ _ F Ed) as F1.
    - now injection Hc as _ <-.
    - cbn in Hc. now injection Hc as _ <-.
  Qed.
  Lemma process_faked f : process E f -> faked f.
  Proof.
    induction 1 as [|f c conf s Hf IH Hs]; [intros p []|]. apply (some_calls_fit _ _ Hs). now split.
  Qed.

  (** *** The same with more fake packages *)
  Definition no_packages (l : list work) : Prop := forall n p, ~ In (DoPackage n p) l.
  Definition calm (s : st) : Prop := fit s /\ no_packages (s_stack s).
  Definition over (s s' : st) : Prop := exists f c, s' = set_clock (set_fakes s f) c /\ incl (s_fakes s) f /\ faked f.
  Definition nx {A} (m m' : M A) : Prop := forall s s' a t, calm s -> over s s' -> m s = Some (ROk a, t) ->
    calm t /\ exists t', m' s' = Some (ROk a, t') /\ over t t'.

  Lemma nx_done {A} (x : result A) : nx (fun s => Some (x, s)) (fun s => Some (x, s)).
  Proof. intros s s' a t C O H. injection H as -> ->. split; [exact C|]. exists s'. auto. Qed.
  Lemma nx_none {A} (m : M A) : nx out_of_fuel m.
  Proof. intros s s' a t C O H. discriminate. Qed.
  Lemma nx_raise {A} e (m : M A) : nx (raise e) m.
  Proof. intros s s' a t C O H. discriminate. Qed.
  Lemma nx_gets {A} (f : st -> A) : (forall s g c, f (set_clock (set_fakes s g) c) = f s) -> nx (gets f) (gets f).
  Proof.
    intros H s s' a t C [g [c [-> O]]] K. injection K as <- <-. split; [exact C|]. eexists. split; [unfold gets; rewrite H; reflexivity|].
    exists g, c. auto.
  Qed.
  Lemma nx_assert b : nx (assert b) (assert b).
  Proof. destruct b; [apply nx_done|apply nx_raise]. Qed.
  Lemma nx_bind {A B} (m m' : M A) (f f' : A -> M B) : nx m m' -> (forall a, nx (f a) (f' a)) -> nx (bind m f) (bind m' f').
  Proof.
    intros H K s s' a t C O Hb. unfold bind in *. destruct (m s) as [[[b|e] s1]|] eqn:Em; [|discriminate|discriminate].
    destruct (H s s' b s1 C O Em) as [C1 [t1 [-> O1]]]. now apply (K b s1 t1).
  Qed.
  Lemma nx_modify f : (forall s, calm s -> calm (f s)) -> (forall s g c, f (set_clock (set_fakes s g) c) = set_clock (set_fakes (f s) g) c) -> (forall s, s_fakes (f s) = s_fakes s) ->
    nx (modify f) (modify f).
  Proof.
    intros H1 H2 H3 s s' a t C [g [c [-> [O1 O2]]]] K. injection K as <- <-. split; [auto|]. eexists. split; [unfold modify; rewrite H2; reflexivity|].
    exists g, c. rewrite H3. auto.
  Qed.
  Lemma nx_lift f : nx (lift_graph f) (lift_graph f).
  Proof.
    intros s s' a t C [g [c [-> O]]] K. unfold lift_graph in *. cbn [set_clock set_fakes s_graph]. destruct (f (s_graph s)) as [h|]; [|discriminate]. injection K as <- <-.
    split; [exact C|]. eexists. split; [reflexivity|]. now exists g, c.
  Qed.
  Lemma nx_pop name : nx (pop_lazy name) (pop_lazy name).
  Proof.
    intros s s' a t C [g [c [-> O]]] K. unfold pop_lazy in *. cbn [set_clock set_fakes s_lazy]. destruct (assoc name (s_lazy s)) as [i|]; injection K as <- <-;
      (split; [exact C|]; eexists; split; [reflexivity|now exists g, c]).
  Qed.
  Lemma nx_schedule id l : nx (process_import_list id l) (process_import_list id l).
  Proof.
    apply nx_modify.
    - intros s [F N]. unfold schedule. cbn [log s_seen]. destruct (memb id (s_seen s)); (split; [exact F|]); intros n p; cbn; rewrite in_app_iff, <- in_rev, in_map_iff.
      + intros [[y [Hy _]]|Hi]; [discriminate|]. now apply (N n p).
      + intros [[y [Hy _]]|[Hi|Hi]]; [discriminate|discriminate|]. now apply (N n p).
    - intros s g c. unfold schedule. cbn [log s_seen set_clock set_fakes]. now destruct (memb id (s_seen s)).
    - intros s. unfold schedule. cbn [log s_seen set_clock set_fakes]. now destruct (memb id (s_seen s)).
  Qed.
  Lemma nx_insert k n m i : nx (insert_work k (DoNames n m i)) (insert_work k (DoNames n m i)).
  Proof.
    apply nx_modify; [|reflexivity|reflexivity]. intros s [F N]. split; [exact F|]. cbn [set_stack s_stack]. intros n0 p Hi. apply in_app_iff in Hi as [Hi|[Hi|Hi]].
    - apply (N n0 p). rewrite <- (firstn_skipn (List.length (s_stack s) - k) (s_stack s)). apply in_app_iff. now left.
    - discriminate.
    - apply (N n0 p). rewrite <- (firstn_skipn (List.length (s_stack s) - k) (s_stack s)). apply in_app_iff. now right.
  Qed.
  Lemma nx_ao {A} (m : M A) : ao m -> nx m m.
  Proof.
    intros H s s' a t C [g [c [-> O]]] K. destruct (H _ _ _ K) as [[c1 ->] X]. split; [exact C|]. destruct (X g c) as [c' Hc]. eexists. split; [exact Hc|]. now exists g, c'.
  Qed.
  Lemma nx_iter {A} (f f' : A -> M unit) l : (forall a, nx (f a) (f' a)) -> nx (iter f l) (iter f' l).
  Proof. intros H. induction l as [|x l IH]; cbn [iter]; [apply nx_done|]. apply nx_bind; [apply H|]. intros tt1. exact IH. Qed.
  Lemma nx_le {A} (m m1 m2 : M A) : nx m m1 -> le_m m1 m2 -> nx m m2.
  Proof. intros H L s s' a t C O K. destruct (H s s' a t C O K) as [C1 [t' [Hm O1]]]. split; [exact C1|]. exists t'. split; [now apply L|exact O1]. Qed.

  Record nxs (r r' : funs) : Prop := {
    nx_find : forall im name link, nx (f_find r im name link) (f_find r' im name link);
    nx_load : forall im name, nx (f_load r im name) (f_load r' im name);
    nx_nfs : forall sp, direct (sp_loader sp) = true -> nx (f_nfs r sp) (f_nfs r' sp);
    nx_run : nx (f_run r) (f_run r');
    nx_post : forall n, nx (f_post r 0 n) (f_post r' 0 n);
    nx_miss : forall im name, nx (f_miss r 0 im name) (f_miss r' 0 im name)
  }.

  Section next.
    Variables r r' : funs.
    Hypothesis H : nxs r r'.
    Ltac nx_step := first
      [ apply nx_none | apply nx_raise | apply nx_done | apply nx_assert | (apply nx_gets; intros; reflexivity)
      | (apply nx_ao; apply ao_askr; intros ? ?; first [apply (py_named _ _ _ HP)|apply (py_parse _ _ _ HP)|apply (py_script _ _ _ HP)])
      | apply nx_lift | apply nx_schedule | apply nx_pop | apply nx_insert
      | apply (nx_find _ _ H) | apply (nx_load _ _ H) | apply (nx_run _ _ H) | apply (nx_post _ _ H) | apply (nx_miss _ _ H)
      | (apply (nx_nfs _ _ H); assumption)
      | apply nx_bind; [|intros ?] | apply nx_iter; intros ?
      | (apply nx_modify; [let F := fresh in intros ? F; exact F|reflexivity|reflexivity])
      | match goal with |- nx (match ?x with _ => _ end) (match ?x with _ => _ end) => destruct x end ].
    Ltac nx_unf := unfold create_missing, implied_references, implied_node, load_spec, find_body, process_import, process_namelist, process_name, reexported,
      add_script, add_module, add_source, add_distribution_named, add_distribution, import_module,
      find_module, kind_test, get_node, user_add_node, add_node, add_edge, add_root, add_written, note, do_work.
    Ltac nx_all := nx_unf; repeat nx_step.
    Lemma nx_create_missing im name : nx (create_missing r im name) (create_missing r' im name). Proof. nx_all. Qed.
    Lemma nx_load_spec name sp : direct (sp_loader sp) = true -> nx (load_spec r name sp) (load_spec r' name sp). Proof. intros Hd. nx_all. Qed.
    Lemma nx_find_body im name link : nx (find_body r im name link) (find_body r' im name link). Proof. nx_all. Qed.
    Lemma nx_do_action a : plain_call a = true -> for_package a = false -> nx (do_action E r a) (do_action E r' a).
    Proof. intros Ha Hp. destruct a; try discriminate Ha; try discriminate Hp; cbn [do_action]; nx_all. Qed.
    Lemma nx_do_work w : (forall n p, w <> DoPackage n p) -> nx (do_work E r w) (do_work E r' w).
    Proof. intros Hw. destruct w; cbn [do_work]; [nx_all|nx_all|nx_all|now destruct (Hw n pkg)]. Qed.
    Lemma nx_run_body : nx (run_body E r) (run_body E r').
    Proof.
      intros s s' a t [F N] O Hm. unfold run_body in *. assert (Hst : s_stack s' = s_stack s) by (destruct O as [g [c [-> _]]]; reflexivity). rewrite Hst.
      destruct (s_stack s) as [|w rest] eqn:Es.
      - injection Hm as <- <-. split; [split; [exact F|now rewrite Es]|]. exists s'. auto.
      - destruct (do_work E r w _) as [[[u|e] s1]|] eqn:Ew; [| discriminate|discriminate].
        assert (Hw : forall n p, w <> DoPackage n p) by (intros n p ->; apply (N n p); now left).
        set (v := log (set_run (set_stack s rest) (w :: s_run s)) (EvPop w)) in *. set (v' := log (set_run (set_stack s' rest) (w :: s_run s')) (EvPop w)).
        assert (Cv : calm v) by (split; [exact F|]; intros n p Hi; apply (N n p); now right).
        assert (Ov : over v v') by (destruct O as [g [c [-> O]]]; exists g, c; split; [reflexivity|exact O]).
        destruct (nx_do_work w Hw v v' u s1 Cv Ov Ew) as [C1 [t1 [-> O1]]].
        apply (nx_run _ _ H _ _ _ _ (C1 : calm (log (set_run s1 (tl (s_run s1))) (EvDone w)))); [|exact Hm].
        destruct O1 as [g [c [-> O1]]]. exists g, c. split; [reflexivity|exact O1].
    Qed.
    (** [_load_module]: more fuel is needed than where the package has been faked already. *)
    Hypothesis HM : forall im name s x t, unhooked s -> f_miss r 0 im name s = Some (x, t) -> x = ROk None /\ t = s.
    Hypothesis HL : forall im name, le_m (f_load r' im name) (load_body E r' im name).
    Lemma nx_load_body im name : nx (load_body E r im name) (load_body E r' im name).
    Proof.
      intros s s' a t [[U F] N] O Hl. assert (C0 : calm s) by (split; [now split|exact N]).
      assert (Hl0 := Hl). unfold load_body in Hl. unfold bind at 1, assert at 1 in Hl. destruct (negb (starts_with "." name)) eqn:Ed; [|discriminate].
      unfold ret at 1, bind at 1, get_node, gets at 1 in Hl. destruct O as [g [c0 [-> [O1 O2]]]].
      destruct (gfind (s_graph s) name) as [n|] eqn:Eg.
      { injection Hl as <- <-. split; [exact C0|]. unfold load_body. rewrite Ed. unfold assert, ret, bind at 1, get_node, bind at 1, gets at 1. cbn [set_clock set_fakes s_graph].
        rewrite Eg. eexists. split; [reflexivity|]. exists g, c0. auto. }
      unfold bind at 1, attempt at 1 in Hl. destruct (spec_or_none_is name s F) as [c Hc]. rewrite Hc in Hl. clear Hc. unfold look in Hl.
      destruct (spec_or_none_is name (set_clock (set_fakes s g) c0) O2) as [c' Hc'].
      assert (C1 : calm (set_clock s c)) by exact C0.
      assert (O : over (set_clock s c) (set_clock (set_clock (set_fakes s g) c0) c')) by (exists g, c'; auto).
      assert (Right : forall x, look g name = x -> load_body E r' im name (set_clock (set_fakes s g) c0)
        = match x with
          | RErr e => load_failed E r' im name e
          | ROk (Some sp) => load_spec r' name sp
          | ROk None => r1 <- attempt (create_missing r' im name) ;; match r1 with ROk id => ret id | RErr e => do note EvErr ;; load_failed E r' im name e end
          end (set_clock (set_clock (set_fakes s g) c0) c')).
      { intros x Hx. unfold load_body. rewrite Ed. unfold assert, ret at 1, bind at 1, get_node, bind at 1, gets at 1. cbn [set_clock set_fakes s_graph].
        rewrite Eg. unfold bind at 1, attempt at 1. change (St (s_graph s) (s_lazy s) (s_stack s) (s_seen s) (s_post s) (s_missing s) g (s_mem s) c0 (s_run s) (s_saved s) (s_log s)) with (set_clock (set_fakes s g) c0). 
        rewrite Hc'. cbn [set_clock set_fakes s_fakes]. now rewrite Hx. }
      destruct (breaking breaks (s_fakes s) (packages name)) as [e|] eqn:Eb.
      - destruct (failed_or r im name e (set_clock s c) Eb) as [Hlast|[er [c1 Hr]]]; [|rewrite Hr in Hl; discriminate].
        destruct (last_base _ _ _ Hlast) as [sp Hsp]. rewrite (failed_is _ _ _ _ _ _ Hlast Hsp) in Hl.
        destruct Hlast as [Hpk [Hb [Hm Hn]]]. cbn [set_clock s_fakes] in Hm, Hn.
        pose proof (breaking_incl _ g _ O1 Hn) as Hn'.
        destruct (memb (fst (rpartition dot name)) g) eqn:Eg'.
        + (* faked already *)
          apply memb_In in Eg' as Hi. destruct (O2 _ Hi) as [_ [sp' [Hsp' Hpkg]]]. rewrite Hsp in Hsp'. injection Hsp' as <-.
          unfold after_failed in Hl. unfold bind at 1, assert at 1 in Hl. destruct (sp_inspect sp); [|discriminate].
          unfold ret at 1, bind at 1, of_result in Hl. rewrite Hpkg in Hl. destruct (sp_origin sp) as [path|]; [|discriminate].
          unfold bind at 1, assert at 1 in Hl. destruct (starts_with "__init__." (snd (rpartition slash path))); [|discriminate].
          unfold ret at 1, bind at 1, modify in Hl. refine (nx_le _ _ _ (nx_load _ _ H im name) (HL im name) _ _ _ _ _ _ Hl).
          * split; [|exact N]. split; [exact U|]. cbn. eapply faked_add; eassumption.
          * exists g, c0. split; [reflexivity|]. split; [|exact O2]. cbn. intros q Hq. unfold set_add in Hq. destruct (memb _ (s_fakes s)); [now apply O1|].
            apply in_app_iff in Hq as [Hq|[<-|[]]]; [now apply O1|exact Hi].
        + (* the same *)
          assert (Lg : look g name = RErr e) by (unfold look; rewrite Hpk, (breaking_snoc_not _ _ _ e Hn' Eg' Hb); reflexivity).
          rewrite (Right _ Lg). cbv match. erewrite failed_is; [|split; [exact Hpk|split; [exact Hb|split; [exact Eg'|exact Hn']]]|exact Hsp].
          assert (C2 : calm (tick (tick (set_clock s c)))) by exact C0.
          assert (O3 : over (tick (tick (set_clock s c))) (tick (tick (set_clock (set_clock (set_fakes s g) c0) c')))) by (eexists g, _; split; [reflexivity|now split]).
          revert Hl C2 O3. generalize (tick (tick (set_clock s c))) (tick (tick (set_clock (set_clock (set_fakes s g) c0) c'))). intros u u' Hl C2 O3.
          unfold after_failed in *. unfold bind at 1, assert at 1 in Hl. unfold bind at 1, assert at 1. destruct (sp_inspect sp); [|discriminate].
          unfold ret at 1, bind at 1, of_result in Hl. unfold ret at 1, bind at 1, of_result. destruct (sp_ispkg sp) as [[]|er] eqn:Ei; [| |discriminate].
          * destruct (sp_origin sp) as [path|]; [|discriminate].
            unfold bind at 1, assert at 1 in Hl. unfold bind at 1, assert at 1. destruct (starts_with "__init__." (snd (rpartition slash path))); [|discriminate].
            unfold ret at 1, bind at 1, modify in Hl. unfold ret at 1, bind at 1, modify.
            destruct C2 as [[U2 F2] N2]. destruct O3 as [g3 [c3 [-> [I3 F3]]]]. refine (nx_load _ _ H im name _ _ _ _ _ _ Hl).
            -- split; [|exact N2]. split; [exact U2|]. cbn. eapply faked_add; eassumption.
            -- exists (set_add (fst (rpartition dot name)) g3), c3. split; [reflexivity|]. cbn [set_fakes s_fakes set_clock]. split; [|eapply faked_add; eassumption].
               intros q Hq. apply memb_In. apply memb_In in Hq. rewrite memb_set_add' in *. apply orb_true_iff in Hq as [Hq|Hq]; apply orb_true_iff; [now left|right].
               apply memb_In, I3, memb_In, Hq.
          * refine (nx_create_missing im name _ _ _ _ _ _ Hl); assumption.
      - pose proof (breaking_incl _ g _ O1 Eb) as Eb'.
        assert (Lg : look g name = match base name with RErr EAttrPath => ROk None | y => y end) by (unfold look; now rewrite Eb').
        rewrite (Right _ Lg). clear Right Lg.
        assert (Gone : forall v, (r1 <- attempt (create_missing r im name) ;; match r1 with ROk id => ret id | RErr e => do note EvErr ;; load_failed E r im name e end) (set_clock s c) = Some (ROk a, v) ->
          calm v /\ exists t', (r1 <- attempt (create_missing r' im name) ;; match r1 with ROk id => ret id | RErr e => do note EvErr ;; load_failed E r' im name e end) (set_clock (set_clock (set_fakes s g) c0) c') = Some (ROk a, t') /\ over v t').
        { intros v Hv. unfold bind at 1, attempt at 1 in Hv. destruct (create_missing r im name (set_clock s c)) as [[y u]|] eqn:Em; [|discriminate].
          destruct (create_missing_new r im name (set_clock s c) y u U HM Eg Em) as [b ->]. injection Hv as -> ->.
          destruct (nx_create_missing im name _ _ _ _ C1 O Em) as [C2 [t' [Ht O3]]]. split; [exact C2|]. exists t'. split; [|exact O3].
          unfold bind at 1, attempt at 1. now rewrite Ht. }
        destruct (py_base _ _ _ HP name) as [[[sp|] Hb]|[Hb|Hb]]; rewrite Hb in *.
        + refine (nx_load_spec name sp _ _ _ _ _ C1 O Hl). eapply py_direct; eassumption.
        + now apply Gone.
        + now apply Gone.
        + cbn [load_failed is_exception negb] in *. exact (nx_create_missing im name _ _ _ _ C1 O Hl).
    Qed.
  End next.
  Lemma nxs_exec n : nxs (exec E n) (exec E n).
  Proof.
    induction n as [|n IH]; [constructor; intros; apply nx_none|]. constructor; cbn [exec f_find f_load f_nfs f_run f_post f_miss].
    - intros. now apply nx_find_body.
    - intros. apply nx_load_body; [exact IH|apply miss_none|]. intros im0 name0. destruct n as [|n]; [intros s y Hm; discriminate|].
      change (le_m (load_body E (exec E n) im0 name0) (load_body E (exec E (S n)) im0 name0)). apply le_load_body. apply exec_le. lia.
    - intros sp Hd. apply nx_ao. now apply ao_nfs.
    - now apply nx_run_body.
    - intros m s s' x t [[[U1 U2] F] N] [g [c [-> O]]] Hm. unfold post_body, bind, gets in *. cbn [set_clock set_fakes s_post]. rewrite U1 in *. cbn [nth_error] in *. injection Hm as <- <-.
      split; [split; [split; [now split|exact F]|exact N]|]. eexists. split; [reflexivity|]. now exists g, c.
    - intros im name s s' x t [[[U1 U2] F] N] [g [c [-> O]]] Hm. unfold miss_body, bind, gets in *. cbn [set_clock set_fakes s_missing]. rewrite U2 in *. cbn [nth_error] in *. injection Hm as <- <-.
      split; [split; [split; [now split|exact F]|exact N]|]. eexists. split; [reflexivity|]. now exists g, c.
  Qed.
  Lemma next_call n a s s' ans t : plain_call a = true -> for_package a = false -> calm s -> over s s' -> top_call E n a s = Some (ans, t) -> (forall e, ans <> AnsErr e) ->
    calm t /\ exists t', top_call E n a s' = Some (ans, t') /\ over t t'.
  Proof.
    intros Ha Hp C O Hc He. unfold top_call, call, bind, attempt in *. destruct (do_action E (exec E n) a s) as [[[b|e] u]|] eqn:Ed; [| |discriminate].
    - injection Hc as <- <-. destruct (nx_do_action _ _ (nxs_exec n) a Ha Hp _ _ _ _ C O Ed) as [C1 [t' [-> O1]]]. split; [exact C1|]. now exists t'.
    - injection Hc as <- _. now destruct (He e).
  Qed.
End python.
