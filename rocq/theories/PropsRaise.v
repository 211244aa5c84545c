(** Theorems about exceptions of missing hooks: C68. *)
From Verif Require Import PyStrFacts NamesSpec BuilderCalls BuilderAbsent World.
Open Scope string_scope.

(** [add_module] of a name that is not there, while the newest missing hook raises
    an exception for it. *)
Record refused (E : env) (h : missing_hook) (rest : list missing_hook) (name : string) (e : err) (s : st) : Prop := {
  rf_hooks : s_missing s = h :: rest;
  rf_raises : h None name = PRaise e;
  rf_new : gfind (s_graph s) name = None;
  rf_plain : assoc name (s_lazy s) = None;
  rf_absent : forall t f, e_find_spec E t f name = ROk None
}.

(** The exception reaches the caller. *)
Definition C68_statement : Prop := forall E h rest name e s fuel ans s', refused E h rest name e s ->
  dotless name -> name <> "" -> top_call E fuel (AAddModule name) s = Some (ans, s') -> ans = AnsErr e.

(** importlib.util.find_spec on the empty name, in CPython: ValueError. *)
Definition empty_name (E : env) : Prop :=
  (forall t f, e_find_spec E t f "" = RErr EValue) /\ (forall t, e_sysmod E t "" = false).

(** What reaches the caller instead. *)
Definition answer_for (e : err) : err :=
  match e with EInterrupt | ENotFound false => e | _ => EValue end.

Lemma raise_miss E k h rest name e s : s_missing s = h :: rest -> h None name = PRaise e ->
  forall x s', f_miss (exec E k) 0 None name s = Some (x, s') -> x = RErr e /\ s' = s.
Proof.
  intros Hh He x s' H. destruct k as [|k]; [discriminate|]. cbn [exec f_miss] in H. unfold miss_body, bind, gets in H.
  rewrite Hh in H. cbn [nth_error] in H. rewrite He in H. cbn in H. now injection H as <- <-.
Qed.
Lemma raise_create E k h rest name e s : s_missing s = h :: rest -> h None name = PRaise e ->
  forall x s', create_missing (exec E k) None name s = Some (x, s') -> x = RErr e /\ s' = s.
Proof.
  intros Hh He x s' H. unfold create_missing, bind in H. destruct (f_miss (exec E k) 0 None name s) as [[y s1]|] eqn:Em; [|discriminate].
  destruct (raise_miss _ _ _ _ _ _ _ Hh He _ _ Em) as [-> ->]. now injection H as <- <-.
Qed.

Lemma bind_ok {A B} (m : M A) (f : A -> M B) s a s1 : m s = Some (ROk a, s1) -> bind m f s = f a s1.
Proof. intros H. unfold bind. now rewrite H. Qed.
Lemma bind_err {A B} (m : M A) (f : A -> M B) s e s1 : m s = Some (RErr e, s1) -> bind m f s = Some (RErr e, s1).
Proof. intros H. unfold bind. now rewrite H. Qed.
Lemma attempt_is {A} (m : M A) s x s1 : m s = Some (x, s1) -> attempt m s = Some (ROk x, s1).
Proof. intros H. unfold attempt. now rewrite H. Qed.
Lemma get_is name s : get_node name s = Some (ROk (gfind (s_graph s) name), s).
Proof. reflexivity. Qed.

(** The exception of the hook, in [_load_module]. *)
Lemma load_raises E k h rest name e s : refused E h rest name e s -> starts_with "." name = false ->
  forall x s', load_body E (exec E k) None name s = Some (x, s') ->
  load_failed E (exec E k) None name e (log (tick s) EvErr) = Some (x, s').
Proof.
  intros [Hh He Hn Hl Ha] Hs x s' H. unfold load_body in H. rewrite Hs in H. cbn [negb assert] in H.
  rewrite (bind_ok _ _ s tt s eq_refl) in H. rewrite (bind_ok _ _ _ _ _ (get_is name s)) in H. rewrite Hn in H.
  assert (Sp : spec_or_none E name s = Some (ROk None, tick s)).
  { unfold spec_or_none, bind, attempt, find_spec. now rewrite Ha. }
  rewrite (bind_ok _ _ _ _ _ (attempt_is _ _ _ _ Sp)) in H.
  destruct (create_missing (exec E k) None name (tick s)) as [[r1 s5]|] eqn:Ec.
  - destruct (raise_create _ _ h rest _ e (tick s) Hh He _ _ Ec) as [-> ->].
    rewrite (bind_ok _ _ _ _ _ (attempt_is _ _ _ _ Ec)) in H. exact H.
  - unfold bind at 1, attempt in H. now rewrite Ec in H.
Qed.
Lemma add_raises E k name s P : gfind (s_graph s) name = None ->
  (forall x s', f_find (exec E k) None name true s = Some (x, s') -> exists e, x = RErr e /\ P e s') ->
  forall ans s', top_call E k (AAddModule name) s = Some (ans, s') -> exists e s1, ans = AnsErr e /\ P e s1 /\ s' = log s1 EvErr.
Proof.
  intros Hn Hf ans s' H. unfold top_call in H.
  destruct (call E (exec E k) (AAddModule name) s) as [[[an|e1] s1]|] eqn:Hc; try discriminate. injection H as <- <-.
  unfold call in Hc. destruct (do_action E (exec E k) (AAddModule name) s) as [[x s2]|] eqn:Ed.
  2:{ unfold bind, attempt in Hc. now rewrite Ed in Hc. }
  rewrite (bind_ok _ _ _ _ _ (attempt_is _ _ _ _ Ed)) in Hc. cbn [do_action] in Ed.
  assert (X : exists e, x = RErr e /\ P e s2).
  { destruct (add_module (exec E k) name s) as [[y s3]|] eqn:Ea; [|unfold bind in Ed; now rewrite Ea in Ed].
    assert (Y : exists e, y = RErr e /\ P e s3).
    { unfold add_module in Ea. assert (N : ~ in_graph s name) by (unfold in_graph; congruence).
      rewrite (bind_ok _ _ _ _ _ (find_module_none name s N)) in Ea.
      destruct (f_find (exec E k) None name true s) as [[z s4]|] eqn:Ef; [|unfold bind in Ea; now rewrite Ef in Ea].
      destruct (Hf _ _ eq_refl) as (e & -> & Pe). rewrite (bind_err _ _ _ _ _ Ef) in Ea. injection Ea as <- <-. eauto. }
    destruct Y as (e & -> & Pe). rewrite (bind_err _ _ _ _ _ Ea) in Ed. injection Ed as <- <-. eauto. }
  destruct X as (e & -> & Pe). injection Hc as <- <-. exists e, s2. auto.
Qed.

(** For a top level name: the exceptions that [except Exception] does not catch
    and a ModuleNotFoundError without the usual text get through; all others turn
    into the ValueError of the attempt to find the package of the name. *)
Theorem C68_top_level_partial : forall E h rest name e s fuel ans s', refused E h rest name e s -> empty_name E ->
  s_fakes s = [] -> dotless name -> name <> "" -> top_call E fuel (AAddModule name) s = Some (ans, s') ->
  ans = AnsErr (answer_for e) /\ s_graph s' = s_graph s.
Proof.
  intros E h rest name e s fuel ans s' R [Em1 Em2] Hf Hd Hne H. pose proof R as [Hh He Hn Hl Ha].
  assert (Hs : starts_with "." name = false) by now apply dotless_starts.
  eapply add_raises with (P := fun e1 s1 => e1 = answer_for e /\ s_graph s1 = s_graph s) in H; [|exact Hn|].
  { destruct H as (e1 & s1 & -> & [-> Hg] & ->). split; [reflexivity|exact Hg]. }
  clear H ans s'. intros x s' H. destruct fuel as [|fuel]; [discriminate|]. cbn [exec f_find] in H. unfold find_body in H.
  assert (N : ~ in_graph s name) by (unfold in_graph; congruence).
  rewrite (bind_ok _ _ _ _ _ (find_module_none name s N)) in H.
  rewrite (top_split name Hd Hne) in H. rewrite (bind_ok _ _ s _ s eq_refl) in H. cbn [fst] in H.
  rewrite (bind_ok _ _ s _ s eq_refl) in H. cbv beta iota in H.
  destruct (f_load (exec E fuel) None name s) as [[y s1]|] eqn:Ef.
  2:{ exfalso. unfold bind at 1 in H. rewrite (bind_ok _ _ _ _ _ (implied_none _ None name s N Hl)) in H. now rewrite Ef in H. }
  assert (Y : y = RErr (answer_for e) /\ s_graph s1 = s_graph s).
  { clear H. destruct fuel as [|fuel]; [discriminate|]. cbn [exec f_load] in Ef.
    apply (load_raises _ _ _ _ _ _ _ R Hs) in Ef. unfold load_failed in Ef.
    assert (Go : negb (is_exception e) = false -> e <> ENotFound false -> y = RErr EValue /\ s_graph s1 = s_graph s).
    { intros X1 X2. rewrite X1 in Ef.
      replace (fst (rpartition dot name)) with "" in Ef.
      2:{ unfold rpartition. now rewrite (proj2 (rpart_None dot name) Hd). }
      cbv zeta in Ef.
      assert (Ef' : (b <- in_sysmod E "" ;; do assert (negb b) ;; m <- find_spec E "" ;; match m with
             | None => raise EAssert
             | Some sp => do assert (sp_inspect sp) ;;
                 p <- of_result (sp_ispkg sp) ;;
                 if p : bool then
                   match sp_origin sp with
                   | None => raise EAssert
                   | Some path =>
                       do assert (starts_with "__init__." (snd (rpartition slash path))) ;;
                       do modify (fun s => set_fakes s (set_add "" (s_fakes s))) ;;
                       f_load (exec E fuel) None name
                   end
                 else create_missing (exec E fuel) None name
             end) (log (tick s) EvErr) = Some (y, s1)).
      { destruct e as [| | | | | | | | | |[|]| | | |]; try exact Ef. now elim X2. }
      clear Ef. unfold bind, in_sysmod in Ef'. cbn [s_fakes log tick s_clock] in Ef'. rewrite Hf, Em2 in Ef'. cbn in Ef'.
      unfold find_spec in Ef'. rewrite Em1 in Ef'. now injection Ef' as <- <-. }
    destruct e as [| | | | | | | | | |[|]| | | |]; try (apply Go; [reflexivity|discriminate]).
    - cbn [is_exception negb] in Ef.
      destruct (raise_create E fuel h rest name (ENotFound false) (log (tick s) EvErr) Hh He _ _ Ef) as [-> ->]. now split.
    - cbn in Ef. injection Ef as <- <-. now split. }
  destruct Y as [-> Hg]. unfold bind at 1 in H. rewrite (bind_ok _ _ _ _ _ (implied_none _ None name s N Hl)) in H. rewrite Ef in H.
  injection H as <- <-. exists (answer_for e). auto.
Qed.

(** Below a package that is missing itself, every exception gets through. *)
Theorem C68_below_missing_partial : forall E h rest pkg c e s fuel ans s', refused E h rest (pkg ++ "." ++ c) e s ->
  member_name pkg c -> (exists n, gfind (s_graph s) pkg = Some n /\ n_kind n = MissingModule) ->
  top_call E (S fuel) (AAddModule (pkg ++ "." ++ c)) s = Some (ans, s') ->
  ans = AnsErr e /\ s_graph s' = s_graph s.
Proof.
  intros E h rest pkg c e s fuel ans s' R Hm (n & Hg & Hk) H. pose proof R as [Hh He Hn Hl Ha].
  eapply add_raises with (P := fun e1 s1 => e1 = e /\ s_graph s1 = s_graph s) in H; [|exact Hn|].
  { destruct H as (e1 & s1 & -> & [-> Hs] & ->). split; [reflexivity|exact Hs]. }
  clear H ans s'. intros x s' H. cbn [exec f_find] in H. unfold find_body in H.
  assert (N : ~ in_graph s (pkg ++ "." ++ c)) by (unfold in_graph; congruence).
  rewrite (bind_ok _ _ _ _ _ (find_module_none _ s N)) in H.
  rewrite (child_split pkg c Hm) in H. rewrite (bind_ok _ _ s _ s eq_refl) in H. cbn [fst] in H.
  assert (Fp : forall y s1, f_find (exec E fuel) None pkg true s = Some (y, s1) -> y = ROk pkg /\ s1 = s).
  { intros y s1 F. destruct fuel as [|fuel]; [discriminate|]. cbn [exec f_find] in F. unfold find_body, bind at 1, find_module, bind at 1, get_node, gets in F.
    rewrite Hg in F. rewrite Hk in F. cbn in F. now injection F as <- <-. }
  match type of H with bind ?m ?f s = _ => destruct (m s) as [[y s1]|] eqn:Em; [|unfold bind in H at 1; now rewrite Em in H] end.
  assert (Y : y = RErr e /\ s1 = s).
  { clear H. destruct (f_find (exec E fuel) None pkg true s) as [[z s2]|] eqn:Ef; [|unfold bind in Em; now rewrite Ef in Em].
    destruct (Fp _ _ eq_refl) as [-> ->]. rewrite (bind_ok _ _ _ _ _ Ef) in Em.
    assert (Kt : kind_test is_missing pkg s = Some (ROk true, s)).
    { unfold kind_test, bind, get_node, gets. rewrite Hg, Hk. reflexivity. }
    rewrite (bind_ok _ _ _ _ _ Kt) in Em. cbv iota in Em.
    destruct (create_missing (exec E fuel) None (pkg ++ "." ++ c) s) as [[q s3]|] eqn:Ec; [|unfold bind in Em; now rewrite Ec in Em].
    destruct (raise_create _ _ h rest _ e s Hh He _ _ Ec) as [-> ->]. rewrite (bind_err _ _ _ _ _ Ec) in Em. now injection Em as <- <-. }
  destruct Y as [-> ->]. rewrite (bind_err _ _ _ _ _ Em) in H. injection H as <- <-. exists e. auto.
Qed.

(** In a package that is there: importlib has the package in sys.modules, or it is
    found as a directory with an __init__ file. *)
Definition package_there (E : env) (pkg : string) : Prop := forall t, e_sysmod E t pkg = true
  \/ exists sp path, (forall t' f', e_find_spec E t' f' pkg = ROk (Some sp)) /\ sp_inspect sp = true /\ sp_ispkg sp = ROk true
     /\ sp_origin sp = Some path /\ starts_with "__init__." (snd (rpartition slash path)) = true.
Definition answer_below (e : err) : err :=
  match e with EInterrupt | ENotFound false => e | _ => EAssert end.

Lemma refused_fakes E h rest name e s s2 : refused E h rest name e s -> s_missing s2 = s_missing s -> s_graph s2 = s_graph s ->
  s_lazy s2 = s_lazy s -> refused E h rest name e s2.
Proof. intros [A B C D F] X Y Z. constructor; congruence. Qed.

Lemma rpart_child pkg c : dotless c -> fst (rpartition dot (pkg ++ "." ++ c)) = pkg.
Proof.
  intros H. change ("." ++ c) with (String dot c). unfold rpartition.
  assert (X : rpart dot (pkg ++ String dot c) = Some (pkg, c)).
  { induction pkg as [|a pkg IH].
    - cbn [append rpart]. now rewrite (proj2 (rpart_None dot c) H).
    - change (String a pkg ++ String dot c) with (String a (pkg ++ String dot c)). cbn [rpart]. now rewrite IH. }
  now rewrite X.
Qed.

(** The handler of [_load_module], when the hook is asked again and raises again. *)
Lemma handler_in E pkg c e h rest : dotless c -> package_there E pkg -> forall k s x s',
  refused E h rest (pkg ++ "." ++ c) e s -> starts_with "." (pkg ++ "." ++ c) = false ->
  f_load (exec E k) None (pkg ++ "." ++ c) s = Some (x, s') -> x = RErr (answer_below e) /\ s_graph s' = s_graph s.
Proof.
  intros Hc Hp. set (name := (pkg ++ "." ++ c)%string).
  assert (One : forall k s x s', refused E h rest name e s -> starts_with "." name = false ->
    (memb pkg (s_fakes s) = true \/
      forall s2 y s3, s_missing s2 = s_missing s -> s_graph s2 = s_graph s -> s_lazy s2 = s_lazy s -> memb pkg (s_fakes s2) = true ->
        f_load (exec E k) None name s2 = Some (y, s3) -> y = RErr (answer_below e) /\ s_graph s3 = s_graph s2) ->
    f_load (exec E (S k)) None name s = Some (x, s') -> x = RErr (answer_below e) /\ s_graph s' = s_graph s).
  { intros k s x s' R Hs Hf H. cbn [exec f_load] in H. apply (load_raises _ _ _ _ _ _ _ R Hs) in H. pose proof R as [Hh He Hn Hl Ha].
    unfold load_failed in H.
    assert (Go : negb (is_exception e) = false -> e <> ENotFound false -> x = RErr EAssert /\ s_graph s' = s_graph s).
    { intros X1 X2. rewrite X1 in H. replace (fst (rpartition dot name)) with pkg in H by (symmetry; now apply rpart_child).
      cbv zeta in H. set (s1 := log (tick s) EvErr) in H.
      assert (H' : (b <- in_sysmod E pkg ;; do assert (negb b) ;; m <- find_spec E pkg ;; match m with
             | None => raise EAssert
             | Some sp => do assert (sp_inspect sp) ;;
                 p <- of_result (sp_ispkg sp) ;;
                 if p : bool then
                   match sp_origin sp with
                   | None => raise EAssert
                   | Some path =>
                       do assert (starts_with "__init__." (snd (rpartition slash path))) ;;
                       do modify (fun s => set_fakes s (set_add pkg (s_fakes s))) ;;
                       f_load (exec E k) None name
                   end
                 else create_missing (exec E k) None name
             end) s1 = Some (x, s')).
      { destruct e as [| | | | | | | | | |[|]| | | |]; try exact H. now elim X2. }
      clear H. set (b := memb pkg (s_fakes s1) || e_sysmod E (s_clock s1) pkg).
      rewrite (bind_ok (in_sysmod E pkg) _ s1 b (tick s1) eq_refl) in H'. destruct b eqn:Eb.
      { cbn in H'. injection H' as <- <-. now split. }
      apply Bool.orb_false_iff in Eb as [Eb1 Eb2]. destruct (Hp (s_clock s1)) as [Q|(sp & path & S1 & S2 & S3 & S4 & S5)]; [congruence|].
      cbn [negb assert] in H'. rewrite (bind_ok _ _ (tick s1) tt (tick s1) eq_refl) in H'.
      assert (F : find_spec E pkg (tick s1) = Some (ROk (Some sp), tick (tick s1))) by (unfold find_spec; now rewrite S1).
      rewrite (bind_ok _ _ _ _ _ F) in H'. rewrite S2, S3, S4, S5 in H'. cbn [assert of_result] in H'.
      rewrite (bind_ok _ _ (tick (tick s1)) tt (tick (tick s1)) eq_refl) in H'.
      rewrite (bind_ok _ _ (tick (tick s1)) true (tick (tick s1)) eq_refl) in H'. cbv iota in H'.
      rewrite (bind_ok _ _ (tick (tick s1)) tt (tick (tick s1)) eq_refl) in H'.
      set (s2 := set_fakes (tick (tick s1)) (set_add pkg (s_fakes (tick (tick s1))))) in H'.
      rewrite (bind_ok _ _ _ tt s2 eq_refl) in H'.
      destruct Hf as [Hf|Hf]; [cbn in Eb1; congruence|].
      apply Hf in H'; try reflexivity.
      - destruct e as [| | | | | | | | | |[|]| | | |]; try exact H'; discriminate || now elim X2.
      - cbn [s2 set_fakes s_fakes]. apply memb_In. apply set_add_In. now left. }
    destruct e as [| | | | | | | | | |[|]| | | |]; try (apply Go; [reflexivity|discriminate]).
    - cbn [is_exception negb] in H.
      destruct (raise_create E k h rest name (ENotFound false) (log (tick s) EvErr) Hh He _ _ H) as [-> ->]. now split.
    - cbn in H. injection H as <- <-. now split. }
  intros k s x s' R Hs H. destruct k as [|k]; [discriminate|]. eapply One; [exact R|exact Hs| |exact H].
  right. intros s2 y s3 A B C D F. destruct k as [|k]; [discriminate|]. eapply One; [|exact Hs|now left|exact F].
  eapply refused_fakes; eassumption.
Qed.

(** For a module of a package that is in the graph and that exists: the caller gets
    an AssertionError. *)
Theorem C68_in_package_partial : forall E h rest pkg c e s fuel ans s' n, refused E h rest (pkg ++ "." ++ c) e s ->
  member_name pkg c -> gfind (s_graph s) pkg = Some n -> is_missing (n_kind n) = false -> is_excluded (n_kind n) = false ->
  is_distribution (n_kind n) = false -> package_there E pkg ->
  top_call E fuel (AAddModule (pkg ++ "." ++ c)) s = Some (ans, s') ->
  ans = AnsErr (answer_below e) /\ s_graph s' = s_graph s.
Proof.
  intros E h rest pkg c e s fuel ans s' n R Hm Hg K1 K2 K3 Hp H. pose proof R as [Hh He Hn Hl Ha]. set (name := (pkg ++ "." ++ c)%string) in *.
  assert (Hs : starts_with "." name = false).
  { destruct Hm as (M1 & M2 & M3 & _). now apply (starts_app name pkg ("." ++ c)). }
  eapply add_raises with (P := fun e1 s1 => e1 = answer_below e /\ s_graph s1 = s_graph s) in H; [|exact Hn|].
  { destruct H as (e1 & s1 & -> & [-> Hq] & ->). split; [reflexivity|exact Hq]. }
  clear H ans s'. intros x s' H. destruct fuel as [|fuel]; [discriminate|]. cbn [exec f_find] in H. unfold find_body in H.
  assert (N : ~ in_graph s name) by (unfold in_graph; congruence).
  rewrite (bind_ok _ _ _ _ _ (find_module_none _ s N)) in H. unfold name at 1 in H.
  rewrite (child_split pkg c Hm) in H. rewrite (bind_ok _ _ s _ s eq_refl) in H. cbn [fst] in H.
  assert (Fp : forall y s1, f_find (exec E fuel) None pkg true s = Some (y, s1) -> y = ROk pkg /\ s1 = s).
  { intros y s1 F. destruct fuel as [|fuel]; [discriminate|]. cbn [exec f_find] in F. unfold find_body, bind at 1, find_module, bind at 1, get_node, gets in F.
    rewrite Hg in F. rewrite K3 in F. cbn in F. now injection F as <- <-. }
  match type of H with bind ?m ?f s = _ => destruct (m s) as [[y s1]|] eqn:Em; [|unfold bind in H at 1; now rewrite Em in H] end.
  assert (Y : y = ROk (Some pkg, None) /\ s1 = s).
  { clear H. destruct (f_find (exec E fuel) None pkg true s) as [[z s2]|] eqn:Ef; [|unfold bind in Em; now rewrite Ef in Em].
    destruct (Fp _ _ eq_refl) as [-> ->]. rewrite (bind_ok _ _ _ _ _ Ef) in Em.
    assert (Kt : forall p, kind_test p pkg s = Some (ROk (p (n_kind n)), s)).
    { intros p. unfold kind_test, bind, get_node, gets. now rewrite Hg. }
    rewrite (bind_ok _ _ _ _ _ (Kt is_missing)) in Em. rewrite K1 in Em. cbv iota in Em.
    rewrite (bind_ok _ _ _ _ _ (Kt is_excluded)) in Em. rewrite K2 in Em. cbv iota in Em. now injection Em as <- <-. }
  destruct Y as [-> ->]. rewrite (bind_ok _ _ _ _ _ Em) in H. cbv iota beta in H.
  destruct (f_load (exec E fuel) None name s) as [[z s2]|] eqn:Ef.
  2:{ exfalso. unfold bind at 1 in H. rewrite (bind_ok _ _ _ _ _ (implied_none _ None name s N Hl)) in H. now rewrite Ef in H. }
  destruct (handler_in E pkg c e h rest (proj1 (proj2 Hm)) Hp fuel s z s2 R Hs Ef) as [-> Hq].
  unfold bind at 1 in H. rewrite (bind_ok _ _ _ _ _ (implied_none _ None name s N Hl)) in H. rewrite Ef in H.
  injection H as <- <-. exists (answer_below e). auto.
Qed.

(** ** Examples *)

(** A hook that refuses one name with its own exception, in an environment that
    treats the empty name as CPython does. *)
Definition refuse (name : string) (e : err) : missing_hook := fun _ n => if seqb n name then PRaise e else PRet None.
Definition strict_world : env := world [("", EFail EValue); ("a", ESource true [] [])] [] [].
Definition refusing (name : string) (e : err) : st := init [] [] [refuse name e].

Lemma refusing_refused name e : name <> "__main__" -> (forall t f, e_find_spec strict_world t f name = ROk None) ->
  refused strict_world (refuse name e) [] name e (refusing name e).
Proof.
  intros Nm H. constructor; try reflexivity; [|  |exact H].
  - unfold refuse. unfold seqb. now rewrite String.eqb_refl.
  - cbn. destruct (seqb name "__main__") eqn:Em; [apply seqb_eq in Em; contradiction|reflexivity].
Qed.

Example C68_replaced : fst (the_calls strict_world [AAddModule "z"] (refusing "z" (EUser "no"))) = [AnsErr EValue].
Proof. reflexivity. Qed.
Example C68_through : fst (the_calls strict_world [AAddModule "y"; AAddModule "y.z"] (refusing "y.z" (EUser "no"))) = [AnsId "y"; AnsErr (EUser "no")].
Proof. reflexivity. Qed.

Lemma strict_empty : empty_name strict_world.
Proof. split; reflexivity. Qed.
(** The hypotheses of the theorems hold for these calls. *)
Example C68_top_level_nonvacuous : exists ans s', top_call strict_world 60 (AAddModule "z") (refusing "z" EKey) = Some (ans, s')
  /\ ans = AnsErr (answer_for EKey).
Proof.
  destruct (top_call strict_world 60 (AAddModule "z") (refusing "z" EKey)) as [[ans s']|] eqn:Et; [|now vm_compute in Et].
  exists ans, s'. split; [reflexivity|].
  apply (C68_top_level_partial strict_world (refuse "z" EKey) [] "z" EKey (refusing "z" EKey) 60 ans s');
    [apply refusing_refused; [discriminate|reflexivity]|exact strict_empty|reflexivity|reflexivity|discriminate|exact Et].
Qed.
Definition below_state : st := Eval vm_compute in snd (the_calls strict_world [AAddModule "y"] (refusing "y.z" EKey)).
Example C68_below_nonvacuous : exists ans s', top_call strict_world 60 (AAddModule "y.z") below_state = Some (ans, s')
  /\ ans = AnsErr EKey.
Proof.
  destruct (top_call strict_world 60 (AAddModule ("y" ++ "." ++ "z")) below_state) as [[ans s']|] eqn:Et; [|now vm_compute in Et].
  exists ans, s'. split; [exact Et|].
  eapply (C68_below_missing_partial strict_world (refuse "y.z" EKey) [] "y" "z" EKey below_state 59 ans s'); [|  | |exact Et].
  - constructor; reflexivity.
  - repeat split; discriminate.
  - eexists. split; reflexivity.
Qed.

Definition inside_state : st := Eval vm_compute in snd (the_calls strict_world [AAddModule "a"] (refusing "a.z" EKey)).
Example C68_inside_nonvacuous : exists ans s', top_call strict_world 60 (AAddModule "a.z") inside_state = Some (ans, s')
  /\ ans = AnsErr EAssert.
Proof.
  destruct (top_call strict_world 60 (AAddModule ("a" ++ "." ++ "z")) inside_state) as [[ans s']|] eqn:Et; [|now vm_compute in Et].
  exists ans, s'. split; [exact Et|].
  eapply (C68_in_package_partial strict_world (refuse "a.z" EKey) [] "a" "z" EKey inside_state 60 ans s'); [| | | | | | |exact Et]; try reflexivity.
  - constructor; reflexivity.
  - repeat split; discriminate.
  - intros t. right. do 2 eexists. repeat split; reflexivity.
Qed.

Theorem C68_refuted : ~ C68_statement.
Proof.
  intros H. destruct (top_call strict_world 60 (AAddModule "z") (refusing "z" (EUser "no"))) as [[ans s']|] eqn:Et.
  - assert (A : ans = AnsErr (EUser "no")).
    { eapply H; [apply (refusing_refused "z"); [discriminate|reflexivity]|reflexivity|discriminate|exact Et]. }
    subst ans. vm_compute in Et. discriminate.
  - now vm_compute in Et.
Qed.

Print Assumptions C68_refuted.
Print Assumptions C68_top_level_partial.
Print Assumptions C68_below_missing_partial.
Print Assumptions C68_in_package_partial.
