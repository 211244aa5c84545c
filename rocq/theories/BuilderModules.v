(** Proofs about [sys.modules] (C67): a fake package is either there already, or
    there is somebody to blame. *)
From Verif Require Import PyStrFacts NamesProofs BuilderCalls PropsHooks.
From Verif Require Export ModulesSpec.

Lemma parent_rpart name : parent_name name (fst (rpartition dot name)).
Proof.
  destruct (rpartition_cases dot name) as [[H ->]|(x & y & -> & H & ->)]; cbn [fst]; [right; auto|].
  left. exists y. split; [reflexivity|exact H].
Qed.

Section mods.
  Variable E : env.
  Variable Hm : missing_hook -> Prop.
  Hypothesis GM : gentle_missing Hm.
  Notation ok := (gentle_hooks Hm).
  Definition more (s s' : st) : Prop := forall x, In x (s_fakes s') -> In x (s_fakes s) \/ blamed E Hm x.
  Definition fk {A} (m : M A) : Prop := forall s r s', m s = Some (r, s') -> ok s -> ok s' /\ more s s'.

  Lemma more_trans s1 s2 s3 : more s1 s2 -> more s2 s3 -> more s1 s3.
  Proof. intros A B x H. destruct (B x H) as [K|K]; [now apply A|now right]. Qed.
  Lemma more_refl s : more s s.
  Proof. intros x H. now left. Qed.

  Lemma more_same s s' : s_fakes s' = s_fakes s -> more s s'.
  Proof. intros H x. rewrite H. now left. Qed.

  (** Steps that do not touch hooks and fake packages. *)
  Definition still (s s' : st) : Prop := s_post s' = s_post s /\ s_missing s' = s_missing s /\ s_fakes s' = s_fakes s.
  Lemma fk_still {A} (m : M A) : (forall s r s', m s = Some (r, s') -> still s s') -> fk m.
  Proof.
    intros H s r s' K [O1 O2]. destruct (H _ _ _ K) as (A1 & A2 & A3). split.
    - split; [now rewrite A1|now rewrite A2].
    - intros x. rewrite A3. now left.
  Qed.
  Ltac still_tac := apply fk_still; let H := fresh in intros ? ? ? H; now injection H as <- <-.
  Lemma fk_bind {A B} (m : M A) (f : A -> M B) : fk m -> (forall a, fk (f a)) -> fk (bind m f).
  Proof.
    intros H K s r s' H1 O. unfold bind in H1. destruct (m s) as [[[a|e] s1]|] eqn:Em; [| |discriminate].
    - destruct (H _ _ _ Em O) as [O1 M1]. destruct (K a _ _ _ H1 O1) as [O2 M2]. split; [exact O2|eapply more_trans; eassumption].
    - injection H1 as <- <-. eapply H; eassumption.
  Qed.
  Lemma fk_attempt {A} (m : M A) : fk m -> fk (attempt m).
  Proof.
    intros H s r s' H1 O. unfold attempt in H1. destruct (m s) as [[a s1]|] eqn:Em; [|discriminate].
    injection H1 as <- <-. eapply H; eassumption.
  Qed.
  Lemma fk_ret {A} (a : A) : fk (ret a). Proof. still_tac. Qed.
  Lemma fk_raise {A} e : fk (@raise A e). Proof. still_tac. Qed.
  Lemma fk_of_result {A} (x : result A) : fk (of_result x). Proof. still_tac. Qed.
  Lemma fk_oof {A} : fk (@out_of_fuel A). Proof. intros s r s' H. discriminate. Qed.
  Lemma fk_gets {A} (f : st -> A) : fk (gets f). Proof. still_tac. Qed.
  Lemma fk_assert b : fk (assert b). Proof. destruct b; [apply fk_ret|apply fk_raise]. Qed.
  Lemma fk_ask {A} (f : nat -> A) : fk (ask f). Proof. still_tac. Qed.
  Lemma fk_askr {A} (f : nat -> result A) : fk (askr f). Proof. still_tac. Qed.
  Lemma fk_find_spec name : fk (find_spec E name). Proof. still_tac. Qed.
  Lemma fk_in_sysmod name : fk (in_sysmod E name). Proof. still_tac. Qed.
  Lemma fk_note e : fk (note e). Proof. still_tac. Qed.
  Lemma fk_del name : fk (del_sysmod E name).
  Proof.
    apply fk_bind; [apply fk_in_sysmod|]. intros [|]; [|apply fk_raise]. intros s r s' H O. injection H as <- <-.
    split; [exact O|]. intros x K. cbn in K. apply filter_In in K as [K _]. now left.
  Qed.
  Lemma fk_iter {A} (f : A -> M unit) l : (forall a, fk (f a)) -> fk (iter f l).
  Proof. intros H. induction l as [|a l IH]; cbn; [apply fk_ret|]. apply fk_bind; [apply H|]. intros _. exact IH. Qed.
  Lemma fk_lift f : fk (lift_graph f).
  Proof. apply fk_still. intros s r s'. unfold lift_graph. destruct (f _); intros H; now injection H as <- <-. Qed.
  Lemma fk_add_node n l : fk (add_node n l).
  Proof. apply fk_bind; [apply fk_lift|]. intros _. still_tac. Qed.
  Lemma fk_add_written n l : fk (add_written n l). Proof. still_tac. Qed.
  Lemma fk_push n p : fk (push_package n p). Proof. still_tac. Qed.
  Lemma fk_insert k w : fk (insert_work k w). Proof. still_tac. Qed.
  Lemma fk_sched n l : fk (process_import_list n l).
  Proof.
    apply fk_still. intros s r s' H. injection H as <- <-. unfold schedule. cbn [s_seen log].
    destruct (memb _ _); split; [reflexivity|split; reflexivity|reflexivity|split; reflexivity].
  Qed.
  Lemma fk_pop name : fk (pop_lazy name).
  Proof. apply fk_still. intros s r s'. unfold pop_lazy. destruct (assoc _ _); intros H; now injection H as <- <-. Qed.
  Lemma fk_saved {A} (m : M A) : fk m -> fk (saved_stack m).
  Proof.
    intros H s r s' K O. unfold saved_stack in K. destruct (m _) as [[x s1]|] eqn:Em; [|discriminate]. injection K as <- <-.
    destruct (H _ _ _ Em O) as [O1 M1]. split; [exact O1|]. exact M1.
  Qed.
  Lemma fk_get_node id : fk (get_node id). Proof. apply fk_gets. Qed.
  Lemma fk_find_module id : fk (find_module id).
  Proof. apply fk_bind; [apply fk_get_node|]. intros [n|]; [|apply fk_ret]. apply fk_bind; [apply fk_assert|]. intros _. apply fk_ret. Qed.
  Lemma fk_kind_test p id : fk (kind_test p id).
  Proof. apply fk_bind; [apply fk_get_node|]. intros n. apply fk_ret. Qed.

  Record fks (r : funs) : Prop := {
    fk_find : forall i n b, fk (f_find r i n b);
    fk_load : forall i n, fk (f_load r i n);
    fk_nfs : forall sp, fk (f_nfs r sp);
    fk_run : fk (f_run r);
    fk_prog : forall p, gentle Hm p -> fk (f_prog r p);
    fk_post : forall i n, fk (f_post r i n);
    fk_miss : forall i im n, fk (f_miss r i im n)
  }.

  Section one.
    Variable m : nat.
    Let r := exec E m.
    Hypothesis R : fks r.

    Ltac go :=
      repeat (cbv beta zeta; first
        [ match goal with
          | |- fk (bind _ _) => apply fk_bind; [|intros ?]
          | |- fk (ret _) => apply fk_ret
          | |- fk (raise _) => apply fk_raise
          | |- fk out_of_fuel => apply fk_oof
          | |- fk (assert _) => apply fk_assert
          | |- fk (of_result _) => apply fk_of_result
          | |- fk (find_module _) => apply fk_find_module
          | |- fk (get_node _) => apply fk_get_node
          | |- fk (kind_test _ _) => apply fk_kind_test
          | |- fk (add_node _ _) => apply fk_add_node
          | |- fk (user_add_node _) => apply fk_lift
          | |- fk (add_edge _ _ _) => apply fk_lift
          | |- fk (add_root _) => apply fk_lift
          | |- fk (add_written _ _) => apply fk_add_written
          | |- fk (process_import_list _ _) => apply fk_sched
          | |- fk (push_package _ _) => apply fk_push
          | |- fk (pop_lazy _) => apply fk_pop
          | |- fk (insert_work _ _) => apply fk_insert
          | |- fk (f_find _ _ _ _) => apply (fk_find _ R)
          | |- fk (f_load _ _ _) => apply (fk_load _ R)
          | |- fk (f_nfs _ _) => apply (fk_nfs _ R)
          | |- fk (f_run _) => apply (fk_run _ R)
          | |- fk (f_post _ _ _) => apply (fk_post _ R)
          | |- fk (f_miss _ _ _ _) => apply (fk_miss _ R)
          | |- fk (note _) => apply fk_note
          | |- fk (askr _) => apply fk_askr
          | |- fk (ask _) => apply fk_ask
          | |- fk (gets _) => apply fk_gets
          | |- fk (find_spec _ _) => apply fk_find_spec
          | |- fk (in_sysmod _ _) => apply fk_in_sysmod
          | |- fk (del_sysmod _ _) => apply fk_del
          | |- fk (saved_stack _) => apply fk_saved
          | |- fk (attempt _) => apply fk_attempt
          | |- fk (iter _ _) => apply fk_iter; intros ?
          | |- fk (match ?x with _ => _ end) => destruct x
          | |- fk (if ?x then _ else _) => destruct x
          | |- fk (let '(_, _) := ?x in _) => destruct x
          end ]).

    Lemma fk_nfs_body sp : fk (nfs_body E (f_nfs r) sp).
    Proof.
      unfold nfs_body, wrap_package, dist_of, source_imports, code_info, six_spec, vendor_spec, distutils_spec, dist_of. go.
    Qed.
    Lemma fk_create_missing i n : fk (create_missing r i n).
    Proof. unfold create_missing. go. Qed.
    Lemma fk_implied i n : fk (implied_references r i n).
    Proof. unfold implied_references, implied_node. go. Qed.
    Lemma fk_spec_or_none n : fk (spec_or_none E n).
    Proof.
      intros s x s' H O. unfold spec_or_none, bind at 1, attempt at 1, find_spec at 1 in H.
      destruct (e_find_spec E (s_clock s) (s_fakes s) n) as [y|e]; [injection H as <- <-; split; [exact O|now apply more_same]|].
      destruct e; try (injection H as <- <-; split; [exact O|now apply more_same]).
      unfold bind at 1, gets in H. unfold bind at 1 in H.
      destruct (del_sysmod E n (tick s)) as [[[u|e] s1]|] eqn:Ed; [| |discriminate].
      2:{ injection H as <- <-. exact (fk_del n _ _ _ Ed O). }
      destruct (fk_del n _ _ _ Ed O) as [O1 M1]. unfold bind at 1, attempt, find_spec in H.
      unfold bind at 1, in_sysmod in H. destruct (_ || _)%bool; cbn in H.
      - injection H as <- <-. split; [exact O1|exact M1].
      - injection H as <- <-. split; [exact O1|]. intros y. cbn. now left.
    Qed.
    Lemma spec_or_none_raises n s e s' : spec_or_none E n s = Some (RErr e, s') -> is_exception e = true -> e <> ENotFound false ->
      exists t f e0, e_find_spec E t f n = RErr e0 /\ is_exception e0 = true /\ e0 <> ENotFound false.
    Proof.
      intros H X N. unfold spec_or_none, bind at 1, attempt at 1, find_spec at 1 in H.
      destruct (e_find_spec E (s_clock s) (s_fakes s) n) as [y|e0] eqn:Ef; [discriminate|].
      exists (s_clock s), (s_fakes s), e0. split; [exact Ef|].
      destruct e0; try (injection H as <- <-); try (split; [reflexivity|discriminate]); try (split; assumption).
    Qed.
    Lemma fk_load_failed i n e : (is_exception e = true -> e <> ENotFound false ->
        known_package E (fst (rpartition dot n)) -> blamed E Hm (fst (rpartition dot n))) ->
      fk (load_failed E r i n e).
    Proof.
      intros B. unfold load_failed. destruct (is_exception e) eqn:X; cbn [negb]; [|apply fk_raise].
      assert (K : e <> ENotFound false -> fk (
             let parent := fst (rpartition dot n) in
             b <- in_sysmod E parent ;;
             do assert (negb b) ;;
             q <- find_spec E parent ;;
             match q with
             | None => raise EAssert
             | Some sp =>
                 do assert (sp_inspect sp) ;;
                 p <- of_result (sp_ispkg sp) ;;
                 if p : bool then
                   match sp_origin sp with
                   | None => raise EAssert
                   | Some path =>
                       do assert (starts_with "__init__." (snd (rpartition slash path))) ;;
                       do modify (fun s => set_fakes s (set_add parent (s_fakes s))) ;;
                       f_load r i n
                   end
                 else create_missing r i n
             end)).
      { intros N. cbv zeta. apply fk_bind; [go|]. intros b. apply fk_bind; [go|]. intros _.
        intros s x s' H O. unfold bind at 1, find_spec at 1 in H.
        destruct (e_find_spec E (s_clock s) (s_fakes s) (fst (rpartition dot n))) as [[sp|]|e1] eqn:Ef;
          try (injection H as <- <-; split; [exact O|now apply more_same]).
        assert (F : fk (do assert (sp_inspect sp) ;;
                 p <- of_result (sp_ispkg sp) ;;
                 if p : bool then
                   match sp_origin sp with
                   | None => raise EAssert
                   | Some path =>
                       do assert (starts_with "__init__." (snd (rpartition slash path))) ;;
                       do modify (fun s => set_fakes s (set_add (fst (rpartition dot n)) (s_fakes s))) ;;
                       f_load r i n
                   end
                 else create_missing r i n)).
        { apply fk_bind; [go|]. intros _. destruct (sp_ispkg sp) as [[|]|e2] eqn:Ep.
          - apply fk_bind; [go|]. intros b1.
            assert (Bx : blamed E Hm (fst (rpartition dot n))) by (apply B; auto; exists (s_clock s), (s_fakes s), sp; auto).
            destruct b1; [|apply fk_create_missing]. destruct (sp_origin sp); [|go]. apply fk_bind; [go|]. intros _.
            apply fk_bind; [|intros _; go]. intros s1 y s2 H1 O1. injection H1 as <- <-. split; [exact O1|].
            intros z Hz. cbn in Hz. unfold set_add in Hz. destruct (memb _ _); [now left|].
            apply in_app_or in Hz as [Hz|[<-|[]]]; [now left|now right].
          - cbn. intros s1 y s2 H1 O1. unfold bind, of_result in H1. exact (fk_create_missing i n _ _ _ H1 O1).
          - intros s1 y s2 H1 O1. unfold bind, of_result in H1. injection H1 as <- <-. split; [exact O1|now apply more_same]. }
        exact (F (tick s) x s' H O). }
      destruct e as [| | | | | | | | | |[|]| | | |]; try (apply K; discriminate). apply fk_create_missing.
    Qed.
    Lemma fk_load_spec n sp : fk (load_spec r n sp).
    Proof. unfold load_spec. go. Qed.
    (** Without missing hooks an absent name becomes a missing module. *)
    Lemma missing_alone i n s e s' : s_missing s = [] -> gfind (s_graph s) n = None -> create_missing r i n s = Some (RErr e, s') -> False.
    Proof.
      intros M0 G H. unfold create_missing in H. unfold bind at 1 in H. unfold r in H. destruct m as [|m']; [discriminate|].
      cbn [exec f_miss] in H. unfold miss_body at 1 in H. unfold bind at 1, gets in H. rewrite M0 in H. cbn in H.
      unfold add_node, bind, lift_graph, gadd_node, ghas in H. cbn [n_name plain_node] in H. rewrite G in H. discriminate.
    Qed.
    Lemma fk_load_body i n : fk (load_body E r i n).
    Proof.
      unfold load_body. apply fk_bind; [go|]. intros _. intros s x s' H O. unfold bind at 1, get_node, gets in H.
      destruct (gfind (s_graph s) n) as [nd|] eqn:Eg; [injection H as <- <-; split; [exact O|now apply more_same]|].
      unfold bind at 1, attempt at 1 in H. destruct (spec_or_none E n s) as [[r0 s1]|] eqn:Es; [|discriminate].
      destruct (fk_spec_or_none n _ _ _ Es O) as [O1 M1].
      assert (Next : forall m0 : M string, fk m0 -> m0 s1 = Some (x, s') -> ok s' /\ more s s').
      { intros m0 F K. destruct (F _ _ _ K O1) as [O2 M2]. split; [exact O2|eapply more_trans; eassumption]. }
      destruct r0 as [[sp|]|e].
      - eapply Next; [|exact H]. apply fk_load_spec.
      - unfold bind at 1, attempt at 1 in H. destruct (create_missing r i n s1) as [[r1 s2]|] eqn:Ec; [|discriminate].
        destruct (fk_create_missing i n _ _ _ Ec O1) as [O2 M2]. destruct r1 as [id|e].
        + injection H as <- <-. split; [exact O2|eapply more_trans; eassumption].
        + unfold bind, note, modify in H. assert (F : fk (load_failed E r i n e)).
          { apply fk_load_failed. intros X N Kn.
            destruct (s_missing s1) as [|h l] eqn:Em.
            - exfalso. eapply missing_alone; [exact Em| |exact Ec].
              apply (envm_spec_or_none E n) in Es as (f & c & ->). exact Eg.
            - eapply bl_hook; [exists h; apply O1; rewrite Em; now left|apply parent_rpart|exact Ec|exact X|exact N|exact Kn]. }
          destruct (F _ _ _ H O2) as [O3 M3]. split; [exact O3|]. eapply more_trans; [exact M1|]. eapply more_trans; [exact M2|exact M3].
      - eapply Next; [|exact H]. apply fk_load_failed. intros X N Kn.
        destruct (spec_or_none_raises _ _ _ _ Es X N) as (t & f & e0 & A1 & A2 & A3).
        eapply bl_find; [apply parent_rpart|exact A1|exact A2|exact A3|exact Kn].
    Qed.
    Lemma fk_find_body i n b : fk (find_body r i n b).
    Proof. unfold find_body. go; first [apply fk_create_missing|apply fk_implied]. Qed.
    Lemma fk_process_import n i : fk (process_import r n i).
    Proof. unfold process_import. go. Qed.
    Lemma fk_process_name n q k i nm : fk (process_name r n q k i nm).
    Proof. unfold process_name, reexported. go. Qed.
    Lemma fk_process_namelist n q i : fk (process_namelist r n q i).
    Proof. unfold process_namelist. go; apply fk_process_name. Qed.
    Lemma fk_add_module n : fk (add_module r n).
    Proof. unfold add_module. go. Qed.
    Lemma fk_import_package n p : fk (import_package E r n p).
    Proof. unfold import_package, import_directory. go. Qed.
    Lemma fk_add_distribution d : fk (add_distribution E r d).
    Proof. unfold add_distribution. go. Qed.
    Lemma fk_action a : gentle_act Hm a -> fk (do_action E r a).
    Proof.
      intros G. inversion G as [b Hi|p Gp|h Gh|h Gh]; subst; cbn [do_action].
      - destruct a; try discriminate Hi; cbn [do_action]; try (unfold add_script, add_source, add_distribution_named, import_module; go; fail).
        all: unfold add_script, add_source, add_distribution_named; go.
        all: first [still_tac|apply fk_add_module|apply fk_add_distribution|apply fk_import_package].
      - unfold hook_context. go. now apply (fk_prog _ R).
      - go. intros s x s' H [O1 O2]. injection H as <- <-. split; [|now apply more_same]. split; [|exact O2].
        intros g [<-|Hg]; [exact Gh|now apply O1].
      - go. intros s x s' H [O1 O2]. injection H as <- <-. split; [|now apply more_same]. split; [exact O1|].
        intros g [<-|Hg]; [exact Gh|now apply O2].
    Qed.
    Lemma fk_call a : gentle_act Hm a -> fk (call E r a).
    Proof. intros G. unfold call. go. now apply fk_action. Qed.
    Lemma fk_run_prog p : gentle Hm p -> fk (run_prog E r p).
    Proof.
      induction p as [o|e|a k IH]; intros G; cbn [run_prog]; [go|go|]. inversion G as [| |b q Ga Gk]; subst.
      apply fk_bind; [now apply fk_call|]. intros ans. now apply IH.
    Qed.

    (** ** The SWIG hook *)
    Lemma fk_swig_found n o : fk (run_prog E r (swig_found n o)).
    Proof.
      apply fk_run_prog. unfold swig_found. destruct o as [sp|]; [|constructor]. constructor; [now constructor|].
      intros [| | | | |nd imports| |]; try constructor. destruct (negb _); [constructor|]. destruct imports; [|constructor].
      constructor; [now constructor|]. intros [| | | | | | |]; constructor.
    Qed.
    Lemma rel_fails n x s e s' : do_action E r (AFindSpecRel n x) s = Some (RErr e, s') -> lookup_fails E x n.
    Proof.
      cbn [do_action]. destruct (seqb x "") eqn:Ex; [apply seqb_eq in Ex; intros _; now left|].
      unfold bind, find_spec. destruct (e_find_spec _ _ _ _) as [y|e0] eqn:Ef; [discriminate|]. intros _. right. eauto.
    Qed.
    Lemma rel_fakes n x s ans s' : call E r (AFindSpecRel n x) s = Some (ROk ans, s') -> s_fakes s' = s_fakes s.
    Proof.
      intros H. apply call_split in H as [H|(e & s1 & H & _ & ->)]; cbn [do_action] in H;
        (destruct (seqb x ""); [try discriminate; now injection H as <- <-|]);
        unfold bind, find_spec in H; destruct (e_find_spec _ _ _ _); try discriminate; now injection H as <- <-.
    Qed.
    Lemma fk_swig_retry n x : Hm swig_hook -> fk (run_prog E r (swig_retry n x)).
    Proof.
      intros Hs s a s' H O. unfold swig_retry in H. apply prog_do in H as (ans & s1 & Hc & H).
      destruct (fk_call (AFindSpec x) ltac:(now constructor) _ _ _ Hc O) as [O1 M1].
      assert (Ret : forall o, Some (ROk o, s1) = Some (a, s') -> ok s' /\ more s s') by (intros o K; now injection K as <- <-).
      assert (Err : forall e, Some (RErr e, s1) = Some (a, s') -> ok s' /\ more s s') by (intros o K; now injection K as <- <-).
      destruct ans as [| | | |[sp|]| | |]; try (eapply Ret; exact H); try (eapply Err; exact H).
      destruct (sp_origin sp); [|eapply Err; exact H].
      assert (Hf : exists t f, e_find_spec E t f x = ROk (Some sp)).
      { apply call_split in Hc as [Hc|(e & s3 & _ & K & _)]; [|discriminate]. cbn [do_action] in Hc. unfold bind, find_spec in Hc.
        destruct (e_find_spec E (s_clock s) (s_fakes s) x) as [y|] eqn:Ey; [|discriminate]. injection Hc as -> _. eauto. }
      apply prog_do in H as (ans & s2 & Hc2 & H). apply call_split in Hc2 as [Hc2|(e & s3 & K & _)]; [|discriminate].
      injection Hc2 as <- <-. set (s2 := set_fakes s1 (set_add x (s_fakes s1))) in *.
      assert (O2 : ok s2) by exact O1.
      apply prog_do in H as (ans & s3 & Hc3 & H).
      destruct (fk_call (AFindSpecRel n x) ltac:(now constructor) _ _ _ Hc3 O2) as [O3 _].
      pose proof (rel_fakes _ _ _ _ _ Hc3) as F3.
      assert (Old : forall z, In z (s_fakes s2) -> z = x \/ In z (s_fakes s) \/ blamed E Hm z).
      { intros z Hz. unfold s2 in Hz. cbn in Hz. unfold set_add in Hz. destruct (memb _ _); [right; now apply M1|].
        apply in_app_or in Hz as [Hz|[<-|[]]]; [right; now apply M1|now left]. }
      destruct ans as [|e| | |o| | |].
      2:{ injection H as <- <-. split; [exact O3|]. intros z Hz. rewrite F3 in Hz. destruct (Old z Hz) as [->|K]; [right|exact K].
          destruct Hf as (t & f & Hf). apply call_split in Hc3 as [Hc3|(e1 & s4 & Hc3 & _ & _)].
          - exfalso. cbn [do_action] in Hc3. destruct (seqb x ""); [discriminate|]. unfold bind, find_spec in Hc3.
            destruct (e_find_spec _ _ _ _); discriminate.
          - eapply bl_swig; [exact Hs|eapply rel_fails; exact Hc3|exact Hf]. }
      4:{ apply prog_do in H as (ans & s4 & Hc4 & H).
          assert (X : ans = AnsUnit /\ s_fakes s4 = remove_name x (s_fakes s3) /\ ok s4).
          { assert (Hx : memb x (s_fakes s3) = true).
            { rewrite F3. unfold s2. cbn. apply memb_In. unfold set_add. destruct (memb x (s_fakes s1)) eqn:Em; [now apply memb_In|].
              apply in_or_app. right. now left. }
            unfold call, bind, attempt in Hc4. cbn [do_action] in Hc4. unfold del_sysmod, bind, in_sysmod in Hc4. rewrite Hx in Hc4.
            cbn in Hc4. injection Hc4 as <- <-. split; [reflexivity|]. split; [reflexivity|exact O3]. }
          destruct X as (-> & F4 & O4). destruct (fk_swig_found n o _ _ _ H O4) as [O5 M5]. split; [exact O5|].
          intros z Hz. destruct (M5 z Hz) as [K|K]; [|now right]. rewrite F4 in K. unfold remove_name in K.
          apply filter_In in K as [K1 K2]. rewrite F3 in K1. destruct (Old z K1) as [->|K]; [|exact K].
          unfold seqb in K2. rewrite String.eqb_refl in K2. discriminate. }
      all: exfalso; apply call_split in Hc3 as [Hc3|(e1 & s4 & _ & K & _)]; [|discriminate]; cbn [do_action] in Hc3;
        destruct (seqb x ""); try discriminate; unfold bind, find_spec in Hc3; destruct (e_find_spec _ _ _ _); discriminate.
    Qed.
    Lemma fk_swig i n : Hm swig_hook -> fk (run_prog E r (swig_hook i n)).
    Proof.
      intros Hs. unfold swig_hook. destruct i as [id|]; [|apply fk_ret]. cbn [run_prog].
      apply fk_bind; [apply fk_call; now constructor|]. intros [| | |g mem| | | |]; try apply fk_ret.
      destruct (gfind g id) as [nd|]; [|apply fk_ret]. destruct (negb _); [apply fk_ret|]. destruct (negb _); [apply fk_ret|].
      destruct (negb _); [apply fk_ret|]. cbn [run_prog]. apply fk_bind; [apply fk_call; now constructor|].
      intros [|e| | |o| | |]; try apply fk_ret; [|apply fk_swig_found].
      destruct (is_import_error e); [now apply fk_swig_retry|apply fk_raise].
    Qed.

    (** ** The rest of the loop *)
    Lemma fk_post_body i n : fk (post_body E r i n).
    Proof.
      unfold post_body. intros s x s' H O. unfold bind at 1, gets in H. destruct (nth_error (s_post s) i) as [h|] eqn:Eh.
      - revert s x s' H O Eh. intros s x s' H O Eh. assert (G : gentle Hm (h n)) by (apply O; eapply nth_error_In; exact Eh).
        assert (F : fk (do run_prog E r (h n) ;; f_post r (S i) n)) by (apply fk_bind; [now apply fk_run_prog|]; intros _; go).
        exact (F _ _ _ H O).
      - injection H as <- <-. split; [exact O|apply more_refl].
    Qed.
    Lemma fk_miss_body i im n : fk (miss_body E r i im n).
    Proof.
      unfold miss_body. intros s x s' H O. unfold bind at 1, gets in H. destruct (nth_error (s_missing s) i) as [h|] eqn:Eh.
      - assert (G : Hm h) by (apply O; eapply nth_error_In; exact Eh).
        assert (F : fk (a <- run_prog E r (h im n) ;; match a with Some id => ret (Some id) | None => f_miss r (S i) im n end)).
        { apply fk_bind.
          - destruct (GM _ G) as [->|Gh]; [now apply fk_swig|now apply fk_run_prog].
          - intros a. go. }
        exact (F _ _ _ H O).
      - injection H as <- <-. split; [exact O|apply more_refl].
    Qed.
    Lemma fk_do_work w : fk (do_work E r w).
    Proof.
      destruct w; cbn [do_work]; go; [apply fk_process_import|apply fk_process_namelist|apply fk_import_package].
    Qed.
    Lemma fk_run_body : fk (run_body E r).
    Proof.
      intros s x s' H O. unfold run_body in H. destruct (s_stack s) as [|w rest].
      - injection H as <- <-. split; [exact O|apply more_refl].
      - destruct (do_work E r w _) as [[[u|e] s1]|] eqn:Ew; [| |discriminate].
        + destruct (fk_do_work w _ _ _ Ew O) as [O1 M1]. destruct (fk_run _ R _ _ _ H O1) as [O2 M2]. split; [exact O2|].
          eapply more_trans; [exact M1|exact M2].
        + injection H as <- <-. destruct (fk_do_work w _ _ _ Ew O) as [O1 M1]. split; [exact O1|exact M1].
    Qed.
  End one.

  Lemma fks_exec n : fks (exec E n).
  Proof.
    induction n as [|n IH].
    - constructor; intros; cbn; apply fk_oof.
    - constructor; intros; cbn [exec f_find f_load f_nfs f_run f_prog f_post f_miss].
      + now apply fk_find_body.
      + now apply fk_load_body.
      + now apply fk_nfs_body.
      + now apply fk_run_body.
      + now apply fk_run_prog.
      + now apply fk_post_body.
      + now apply fk_miss_body.
  Qed.

  Theorem gentle_blamed s0 s : gentle_hooks Hm s0 -> gentle_history E Hm s0 s -> gentle_hooks Hm s /\ more s0 s.
  Proof.
    intros O H. induction H as [|s fuel a ans s' H [IH1 IH2] G C]; [split; [exact O|apply more_refl]|].
    unfold top_call in C. destruct (call E (exec E fuel) a s) as [[[an|e] s1]|] eqn:Ec; try discriminate. injection C as <- <-.
    destruct (fk_call fuel (fks_exec fuel) a G _ _ _ Ec IH1) as [O1 M1]. split; [exact O1|]. eapply more_trans; eassumption.
  Qed.
End mods.
