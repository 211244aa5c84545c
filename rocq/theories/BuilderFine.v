(** No call raises in a well behaved environment. *)
From Verif Require Import PropsSource BuilderAttr BuilderWhy BuilderNames FineSpec.
From Verif Require PropsAttr.
Open Scope string_scope.

(** ** Names *)

Lemma mn_dotend n : module_name n -> forall a, n <> a ++ "." ++ "".
Proof.
  intros H a ->. remember (a ++ "." ++ "") as n eqn:Hn. destruct H as [x A B|p x Hp A B].
  - subst x. unfold dotless in B. rewrite has_char_app in B. cbn in B. rewrite orb_true_r in B. discriminate.
  - apply app_dot_inj in Hn as [_ ->]; [now apply (proj1 A)|exact B|reflexivity].
Qed.
Lemma mn_nodots n : module_name n -> forall a b, n <> a ++ ".." ++ b.
Proof.
  induction 1 as [x A B|p x Hp IH A B]; intros a b K.
  - subst x. unfold dotless in B. rewrite has_char_app in B. cbn in B. rewrite orb_true_r in B. discriminate.
  - destruct (rpart dot b) as [[b1 b2]|] eqn:Eb.
    + apply rpart_Some in Eb as [-> Hb]. assert (K' : p ++ "." ++ x = (a ++ ".." ++ b1) ++ "." ++ b2).
      { rewrite K, <- !app_assoc_s. reflexivity. }
      apply app_dot_inj in K' as [-> _]; [now apply (IH a b1)|exact B|exact Hb].
    + apply rpart_None in Eb. assert (K' : p ++ "." ++ x = (a ++ "." ++ "") ++ "." ++ b).
      { rewrite K, <- !app_assoc_s. reflexivity. }
      apply app_dot_inj in K' as [-> _]; [now apply (mn_dotend _ Hp a)|exact B|exact Eb].
Qed.
Lemma mn_start n : module_name n -> starts_with "." n = false /\ n <> "".
Proof.
  induction 1 as [x A B|p x Hp [IH1 IH2] A B]; [split; [now apply dotless_starts|apply A]|].
  destruct p as [|c p]; [now elim IH2|]. split; [|discriminate]. destruct (starts_with "." (String c p ++ "." ++ x)) eqn:Es; [|reflexivity]. apply starts_with_spec in Es as [t Et].
  injection Et as -> _. now destruct p.
Qed.
Lemma mn_wf n : module_name n -> wf_name 0 n.
Proof.
  intros H. destruct (mn_start n H) as [A B]. split; [|split]; auto.
  destruct (has_sub ".." n) eqn:Eh; [|reflexivity]. apply has_sub_occurs in Eh as (a & b & K). now elim (mn_nodots n H a b).
Qed.
Lemma mn_split n : module_name n -> (dotless n /\ split_package n = ROk (None, n)) \/
  exists p x, n = p ++ "." ++ x /\ module_name p /\ dotless x /\ split_package n = ROk (Some p, x).
Proof.
  intros H. destruct (split_package_valid 0 n (mn_wf n H)) as (po & y & K & _). cbn [repeat_char append] in K.
  destruct H as [x A B|p x Hp A B].
  - left. split; [exact B|]. rewrite K. pose proof (split_package_abs x po y K) as Q. destruct po as [q|].
    + exfalso. apply split_child_of in K. destruct K as [x _ _|k x -> _].
      2:{ unfold dotless in B. cbn in B. discriminate. }
      unfold dotless in B. rewrite has_char_app in B. cbn in B. rewrite orb_true_r in B. discriminate.
    + destruct Q as [<- _]. reflexivity.
  - right. exists p, x. repeat split; auto. pose proof (split_child_plain p x) as Q. rewrite K in Q. rewrite K, Q; auto.
    destruct (mn_start p Hp) as [C D]. rewrite lstrip_no by exact C. exact D.
Qed.
Lemma mn_app p q : module_name p -> module_name q -> module_name (p ++ "." ++ q).
Proof.
  intros Hp. induction 1 as [x A B|q x Hq IH A B]; [now constructor|].
  replace (p ++ "." ++ q ++ "." ++ x) with ((p ++ "." ++ q) ++ "." ++ x) by (rewrite <- !app_assoc_s; reflexivity). now constructor.
Qed.
Lemma mn_up k : forall n q, module_name n -> up k n q -> module_name q.
Proof.
  intros n q H U. induction U as [n|k p c q Hc U IH]; [exact H|]. apply IH.
  destruct (mn_split _ H) as [[A _]|(p' & x & E & Hp & Hx & _)].
  - unfold dotless in A. rewrite has_char_app in A. cbn in A. rewrite orb_true_r in A. discriminate.
  - apply app_dot_inj in E as [-> _]; auto.
Qed.

Definition part_b (x : string) : bool := negb (seqb x "") && negb (has_char slash x).
Lemma part_sound x : part_b x = true -> part x.
Proof.
  unfold part_b. intros H. apply andb_true_iff in H as [A B]. apply negb_true_iff in A, B. split; [|exact B]. intros ->. discriminate.
Qed.
Fixpoint mnb (fuel : nat) (n : string) : bool := match fuel with
  | 0 => false
  | S f => match rpart dot n with None => part_b n | Some (p, x) => part_b x && mnb f p end
  end.
Lemma mnb_sound f : forall n, mnb f n = true -> module_name n.
Proof.
  induction f as [|f IH]; intros n H; [discriminate|]. cbn [mnb] in H. destruct (rpart dot n) as [[p x]|] eqn:Er.
  - apply rpart_Some in Er as [-> Hx]. apply andb_true_iff in H as [A B]. apply (mn_sub p x); [now apply IH|now apply part_sound|exact Hx].
  - apply rpart_None in Er. apply mn_top; [now apply part_sound|exact Er].
Qed.
Lemma mn_slash n : module_name n -> has_char slash n = false.
Proof.
  induction 1 as [x [_ A] B|p x Hp IH [_ A] B]; [exact A|]. rewrite has_char_app, IH. exact A.
Qed.
(** A path with a slash. *)
Lemma label_slash id : has_char slash id = true -> label id.
Proof.
  intros H k m ->. rewrite has_char_app in H. assert (K : has_char slash (repeat_char dot k) = false) by (clear; induction k; auto).
  rewrite K in H. cbn [orb] in H. split; [intros ->; discriminate|]. intros Q. apply mn_slash in Q. congruence.
Qed.
Lemma label_no id : label id -> ~ module_name id.
Proof. intros H. now apply (H 0 id). Qed.
Lemma six_target name t : assoc name SIX_MOVES_TO = Some t -> module_name t.
Proof.
  intros H. apply assoc_In in H. assert (F : forallb (fun x => mnb 9 (snd x)) SIX_MOVES_TO = true) by (vm_compute; reflexivity).
  rewrite forallb_forall in F. apply (mnb_sound 9). exact (F _ H).
Qed.

(** ** Runs that do not raise *)

Definition fine {A} (m : M A) (Q : A -> st -> Prop) (s : st) : Prop :=
  match m s with Some (ROk a, s') => Q a s' | Some (RErr _, _) => False | None => True end.
Lemma fine_bind {A B} (m : M A) (f : A -> M B) Q s : fine m (fun a s' => fine (f a) Q s') s -> fine (bind m f) Q s.
Proof. unfold fine, bind. destruct (m s) as [[[a|e] s']|]; auto. Qed.
Lemma fine_weak {A} (m : M A) (Q Q' : A -> st -> Prop) s : fine m Q s -> (forall a s', Q a s' -> Q' a s') -> fine m Q' s.
Proof. unfold fine. destruct (m s) as [[[a|e] s']|]; auto. Qed.
Lemma fine_env {A} (m : M A) (Q : A -> st -> Prop) s : envm m -> fine m Q s -> fine m (fun a s' => Q a s' /\ env_only s s') s.
Proof. unfold fine. intros H. destruct (m s) as [[[a|e] s']|] eqn:Em; auto. intros K. split; [exact K|]. eapply H. exact Em. Qed.
Lemma fine_ret {A} (a : A) (Q : A -> st -> Prop) s : Q a s -> fine (ret a) Q s.
Proof. auto. Qed.
Lemma fine_ok {A} (a : A) (Q : A -> st -> Prop) s : Q a s -> fine (of_result (ROk a)) Q s.
Proof. auto. Qed.
Lemma fine_assert b (Q : unit -> st -> Prop) s : b = true -> Q tt s -> fine (assert b) Q s.
Proof. intros ->. auto. Qed.
Lemma fine_attempt {A} (m : M A) (Q : result A -> st -> Prop) s : fine m (fun a s' => Q (ROk a) s') s -> fine (attempt m) Q s.
Proof. unfold fine, attempt. destruct (m s) as [[[a|e] s']|]; tauto. Qed.
Lemma fine_gets {A} (f : st -> A) (Q : A -> st -> Prop) s : Q (f s) s -> fine (gets f) Q s.
Proof. auto. Qed.
Lemma fine_modify f (Q : unit -> st -> Prop) s : Q tt (f s) -> fine (modify f) Q s.
Proof. auto. Qed.

(** The calls that [ok] allows can be ranked and add scripts and distributions with
    such names only. *)
Record confined (E : env) (firm : string -> Prop) (rank : string -> nat) (ok : st -> action -> Prop) (L : string -> Prop) : Prop := {
  cf_tame : forall s a, ok s a -> tame E firm rank s a;
  cf_script : forall s f, ok s (AAddScript f) -> L f;
  cf_dist : forall s d, ok s (AAddDist d) -> L (dist_identifier d);
  cf_named : forall s name t d, ok s (AAddDistNamed name) -> e_dist_named E t name = ROk (Some d) -> L (dist_identifier d)
}.

Section fine.
  Variable E : env.
  Variable firm : string -> Prop.
  Variable rank : string -> nat.
  Hypothesis W : working E.
  Hypothesis HC : certain E firm.
  Hypothesis HR : ranked E firm rank.
  (** Calls that are made, and the scripts and distributions they add. *)
  Variable ok : st -> action -> Prop.
  Variable named_by : string -> Prop.
  Hypothesis OK : confined E firm rank ok named_by.

  (** The hook of SWIG can be there. *)
  Definition swig : Prop := swig_free E.

  Lemma firm_found t fakes name : firm name -> exists sp, e_find_spec E t fakes name = ROk (Some sp) /\ sp_name sp = name.
  Proof. apply HC. Qed.

  (** ** Nodes for specs *)

  Record nodeok (top : nat) (n : node) : Prop := {
    no_name : module_name (n_name n);
    no_rank : rank (n_name n) <= top;
    no_kind : match n_kind n with
              | Module _ | Package _ _ _ _ _ | NamespacePackage => True
              | MissingModule => ~ firm (n_name n)
              | _ => False
              end;
    no_tool : forall a b c d ty, n_kind n = Package a b c d (Some ty) -> library ty /\ rank ty <= rank (n_name n);
    no_pkg : is_package (n_kind n) = true -> exists sp, importable E sp /\ sp_name sp = n_name n
  }.
  Lemma nodeok_le a b n : a <= b -> nodeok a n -> nodeok b n.
  Proof. intros H [A B C D F]. constructor; auto. lia. Qed.

  Lemma fine_dist o u (Q : option dist -> st -> Prop) s : (forall d s', Q d s') -> fine (dist_of E o u) Q s.
  Proof.
    intros H. unfold dist_of. destruct o as [f|]; [destruct u|]; [|apply H..].
    unfold fine, askr. destruct (wk_dist E W (s_clock s) f) as [d ->]. apply H.
  Qed.

  Lemma fine_wrap sp b src mk n l s : importable E sp -> complete_spec E sp -> n_name n = sp_name sp -> n_kind n = Module mk ->
    (forall text, src = Some text -> exists fz code, sp_loader sp = LInspect fz (ROk (Some text)) code) ->
    fine (wrap_package E sp b src mk n l) (fun x _ => nodeok (rank (sp_name sp)) (fst x)) s.
  Proof.
    intros Hi Hc Hn Hk Hs. unfold wrap_package. destruct (cs_package E sp Hc) as (p & Hp & Hq). apply fine_bind. rewrite Hp.
    unfold fine at 1, of_result. destruct p; cbn [negb].
    2:{ apply fine_ret. cbn. constructor; rewrite Hn; [apply Hc|auto|rewrite Hk; exact I|intros; congruence|rewrite Hk; discriminate]. }
    set (explicit := (match src with Some _ => true | None => false end && memb "__import__" (n_read n)
                      && (has_sub "pkg_resources" (match src with Some t => t | None => "" end) || has_sub "pkgutil" (match src with Some t => t | None => "" end)))%bool).
    apply fine_bind. apply (fine_weak _ (fun o _ => o <> None)).
    { destruct explicit; [|now apply fine_ret, Hq]. apply fine_bind. unfold fine at 1, attempt, askr.
      destruct (e_import E (s_clock s) (n_name n)) as [locs|e] eqn:Ei; [now apply fine_ret|].
      destruct (wk_import E W _ _ _ Ei) as [->|[b' ->]]; now apply fine_ret, Hq. }
    intros search s1 Hse. destruct search as [locs|]; [|contradiction].
    apply fine_bind. apply (fine_weak _ (fun _ _ => True)).
    { destruct (option_map (e_parent E) (n_file n)) as [d|]; [|exact I]. unfold fine, askr.
      destruct (wk_files E W (s_clock s1) d) as [x ->]. exact I. }
    intros data s2 _. apply fine_ret. cbn [fst]. constructor; cbn [n_name n_kind]; [rewrite Hn; apply Hc|now rewrite Hn|exact I| |intros _; exists sp; now rewrite Hn].
    intros a b' c d ty [= <- <- <- <- Ht]. destruct explicit eqn:Ee; [|discriminate]. injection Ht as <-.
    unfold explicit in Ee. destruct src as [text|]; [|discriminate]. destruct (Hs text eq_refl) as (fz & code & Hl).
    apply andb_true_iff in Ee as [_ Ee]. destruct (has_sub "pkg_resources" text) eqn:Ea.
    - split; [now right|]. rewrite Hn. eapply (rk_tool E firm rank HR); [exact Hi|exact Hl|exact Hp|now right|now apply has_sub_occurs].
    - split; [now left|]. rewrite Hn. eapply (rk_tool E firm rank HR); [exact Hi|exact Hl|exact Hp|now left|now apply has_sub_occurs].
  Qed.

  Lemma found_spec t fakes name sp : module_name name -> name <> "__main__" -> e_find_spec E t fakes name = ROk (Some sp) ->
    importable E sp /\ complete_spec E sp /\ rank (sp_name sp) <= rank name.
  Proof.
    intros A B H. split; [now exists t, fakes, name|]. split; [|eapply HR; exact H].
    pose proof (wk_find E W t fakes name A B) as K. now rewrite H in K.
  Qed.
  Lemma absent_firm t fakes name : (forall sp, e_find_spec E t fakes name <> ROk (Some sp)) -> ~ firm name.
  Proof. intros H F. destruct (firm_found t fakes name F) as (sp & K & _). now apply (H sp). Qed.

  Lemma fine_nfs : forall k sp s, importable E sp -> complete_spec E sp ->
    fine (f_nfs (exec E k) sp) (fun x _ => nodeok (rank (sp_name sp)) (fst x)) s.
  Proof.
    induction k as [|k IH]; intros sp s Hi Hc; [exact I|]. cbn [exec f_nfs].
    assert (Plain : forall nm, module_name nm -> rank nm <= rank (sp_name sp) -> ~ firm nm -> nodeok (rank (sp_name sp)) (plain_node MissingModule nm)).
    { intros nm A B C. constructor; auto; discriminate. }
    assert (Tgt : forall nm, target sp nm -> module_name nm /\ nm <> "__main__" /\ rank nm <= rank (sp_name sp)).
    { intros nm T. destruct (cs_target E sp Hc nm T) as (A & B & _). repeat split; auto. now apply (rk_target E firm rank HR sp nm). }
    assert (Redirect : match sp_loader sp with LSix | LVendor _ | LDistutils => ~ firm (sp_name sp) | _ => True end).
    { destruct Hi as (t & f & name & Hi). pose proof (ct_plain E firm HC t f name sp Hi) as K.
      destruct (sp_loader sp); auto. }
    assert (Moved : forall nm t f m s, target sp nm -> e_find_spec E t f nm = ROk (Some m) -> sp_name m <> sp_name sp ->
      fine (do assert (negb (seqb (sp_name sp) (sp_name m))) ;; f_nfs (exec E k) m) (fun x _ => nodeok (rank (sp_name sp)) (fst x)) s).
    { intros nm t f m s' T F Nm. destruct (Tgt nm T) as (A & B & C). destruct (found_spec t f nm m A B F) as (A' & B' & C').
      apply fine_bind, fine_assert.
      - destruct (seqb (sp_name sp) (sp_name m)) eqn:Es; [|reflexivity]. apply seqb_eq in Es. congruence.
      - eapply fine_weak; [apply IH; assumption|]. intros [x y] s1 K. eapply nodeok_le; [|exact K]. lia. }
    unfold nfs_body. pose proof (cs_namespace E sp Hc) as Hns. pose proof (cs_target E sp Hc) as Htg. destruct (sp_loader sp) as [| | | |fz gs gc| |[[root vendor]|]| |] eqn:El.
    - destruct (sp_search sp) as [locs|]; [|elim Hns; auto]. apply fine_ret. constructor; cbn; auto; try discriminate; first [apply Hc|intros _; now exists sp].
    - destruct (sp_search sp) as [locs|]; [|elim Hns; auto]. apply fine_ret. constructor; cbn; auto; try discriminate; first [apply Hc|intros _; now exists sp].
    - apply fine_wrap; auto. discriminate.
    - apply fine_bind, fine_dist. intros d s1. apply fine_wrap; auto. discriminate.
    - pose proof (cs_source E sp Hc _ _ _ El) as Hsrc. destruct gs as [source|e].
      2:{ subst e. apply fine_bind, fine_dist. intros d s1. apply fine_ret. constructor; cbn; auto; try discriminate; first [apply Hc|intros _; now exists sp]. }
      apply fine_bind. apply (fine_weak _ (fun _ _ => True)).
      { unfold source_imports. destruct source as [text|]; [|exact I]. destruct (sp_origin sp) as [file|]; [|contradiction].
        unfold fine, bind, attempt, askr. pose proof (wk_parse E W (s_clock s) file text) as K.
        destruct (e_parse E (s_clock s) file text) as [tree|e]; [|now subst e].
        destruct (extract_ast_info _ tree); exact I. }
      intros si s1 _. apply fine_bind. apply (fine_weak _ (fun _ _ => True)).
      { unfold code_info. pose proof (cs_code E sp Hc _ _ _ El) as K. destruct gc as [[c|]|e]; [|contradiction|now subst e].
        destruct (extract_bytecode_info (e_ge311 E) c) as [[x|e]|]; [exact I| |exact I]. now rewrite (K e eq_refl). }
      intros ci s2 _. apply fine_bind, fine_dist. intros d s3. destruct (match ci with Some x => x | None => ([], [], []) end) as [[bi wr] rd].
      apply fine_wrap; auto. intros text ->. exists fz, gc. exact El.
    - unfold six_spec. destruct (ends_with ".moves" (sp_name sp)).
      { apply fine_bind, fine_dist. intros d s1. apply fine_ret. constructor; cbn; auto; try discriminate; first [apply Hc|intros _; now exists sp]. }
      destruct (assoc (six_relative (sp_name sp)) SIX_MOVES_TO) as [actual|] eqn:Ea.
      2:{ apply fine_ret. apply Plain; auto. apply Hc. }
      assert (T : target sp actual) by (unfold target; now rewrite El). destruct (Tgt actual T) as (A & B & C).
      apply fine_bind. unfold fine at 1, find_spec. destruct (Htg actual T) as (_ & _ & K). specialize (K (s_clock s) (s_fakes s)).
      destruct (e_find_spec E (s_clock s) (s_fakes s) actual) as [[m|]|e] eqn:Ef.
      + apply fine_bind. destruct (seqb (sp_name m) (sp_name sp)) eqn:Es; [now apply seqb_eq in Es|]. apply fine_ret. exact (Moved actual _ _ m _ T Ef K).
      + apply fine_ret. apply Plain; auto. eapply (absent_firm (s_clock s) (s_fakes s)). intros sp'. now rewrite Ef.
      + destruct K as (r & v & b & K & _). congruence.
    - unfold vendor_spec. set (rel := sdrop (String.length root + 1) (sp_name sp)). set (full := vendor ++ "." ++ rel).
      assert (T1 : target sp full) by (unfold target; rewrite El; now left).
      assert (T2 : target sp rel) by (unfold target; rewrite El; now right).
      destruct (Tgt full T1) as (A1 & B1 & C1). destruct (Tgt rel T2) as (A2 & B2 & C2).
      apply fine_bind. destruct (Htg full T1) as (_ & _ & K). specialize (K (s_clock s) (s_fakes s)).
      unfold fine at 1, attempt, bind at 1, find_spec at 1.
      destruct (e_find_spec E (s_clock s) (s_fakes s) full) as [[m|]|e] eqn:Ef.
      + destruct (seqb (sp_name m) (sp_name sp)) eqn:Es; [now apply seqb_eq in Es|]. unfold ret at 1. apply fine_bind, fine_ret. exact (Moved full _ _ m _ T1 Ef K).
      + unfold ret at 1. apply fine_bind, fine_ret. apply fine_ret. apply Plain; auto. eapply (absent_firm (s_clock s) (s_fakes s)). intros sp'. now rewrite Ef.
      + destruct K as (r' & v & b & _ & -> & _).
        apply fine_bind. destruct (Htg rel T2) as (_ & _ & K). specialize (K (s_clock (tick s)) (s_fakes (tick s))). unfold fine at 1, find_spec.
        destruct (e_find_spec E (s_clock (tick s)) (s_fakes (tick s)) rel) as [[m|]|e] eqn:Eg.
        * exact (Moved rel _ _ m _ T2 Eg K).
        * apply fine_ret. apply Plain; auto. eapply (absent_firm (s_clock s) (s_fakes s)). intros sp'. now rewrite Ef.
        * destruct K as (r & v' & b' & K & _ & K'). injection K as -> ->. now apply K'.
    - destruct (cs_known E sp Hc) as [_ K]. contradiction.
    - unfold distutils_spec. destruct (cs_distutils E sp Hc El) as [Dn Ds]. apply fine_bind, fine_assert; [now rewrite Dn|].
      assert (T : target sp "setuptools._distutils") by (unfold target; now rewrite El). destruct (Tgt _ T) as (A & B & C).
      apply fine_bind. unfold del_sysmod. apply fine_bind. unfold fine at 1, in_sysmod. rewrite Ds, orb_true_r. apply fine_modify.
      apply fine_bind. set (s1 := set_fakes _ _). unfold fine at 1, find_spec.
      destruct (Htg _ T) as (_ & _ & K). specialize (K (s_clock s1) (s_fakes s1)).
      destruct (e_find_spec E (s_clock s1) (s_fakes s1) "setuptools._distutils") as [[m|]|e] eqn:Ef.
      + exact (Moved _ _ _ m _ T Ef K).
      + apply fine_ret. rewrite <- Dn. apply Plain; auto. apply Hc.
      + destruct K as (r & v & b & K & _). congruence.
    - destruct (cs_known E sp Hc) as [K _]. contradiction.
  Qed.

  (** ** Statements *)

  Definition okinfo (i : iinfo) : Prop :=
    (ii_level i = 0 -> module_name (in_name (ii_module i)))
    /\ (ii_level i <> 0 -> in_name (ii_module i) = "" \/ module_name (in_name (ii_module i)))
    /\ forall nm, In nm (ii_names i) -> part (in_name nm) /\ dotless (in_name nm) /\ (swig -> in_name nm <> helper).
  Lemma proper_info w i : proper w -> (swig -> ~ In helper (map fst (w_names w))) -> states_what w i -> okinfo i.
  Proof.
    intros (A & B & C) F S. destruct w as [n a|m names level]; cbn in *.
    - destruct S as (S1 & S2 & S3 & _). unfold okinfo. rewrite S1, S2, S3. cbn. split; [auto|]. split; [auto|contradiction].
    - destruct S as (S1 & S2 & S3 & _). rewrite <- S2 in A, B. unfold okinfo. rewrite S1. cbn.
      split; [destruct m; exact A|]. split; [destruct m; exact B|].
      intros nm Hn. assert (Hi : In (in_name nm) (map fst names)) by (apply S3; now apply in_map).
      destruct (C _ Hi) as [C1 C2]. split; [exact C1|]. split; [exact C2|]. intros Hs K. apply (F Hs). now rewrite <- K.
  Qed.
  Lemma tree_info tree l : (forall p w, In (p, w) (sites [] tree) -> proper w) ->
    (swig -> forall p w, In (p, w) (sites [] tree) -> ~ In helper (map fst (w_names w))) -> extract_ast_info (e_names_order E) tree = Some l ->
    forall i, In i l -> okinfo i.
  Proof.
    intros H F K i Hi. destruct (tree_covers _ tree l (wk_names E W) K) as [_ C]. destruct (C i Hi) as (fn & opt & w & (p & Hp & _) & Hr & _).
    eapply proper_info; [eapply H; exact Hp| |exact Hr]. intros Hs. eapply F; [exact Hs|exact Hp].
  Qed.
  Lemma nfs_imports k sp s n l s' : importable E sp -> nodeok (rank (sp_name sp)) n -> f_nfs (exec E k) sp s = Some (ROk (n, l), s') ->
    (l <> [] -> is_module (n_kind n) || is_package (n_kind n) = true) /\ forall i, In i l -> okinfo i.
  Proof.
    intros Hi Hn H. pose proof (nfs_origin E k sp s n l s' Hi H) as O.
    assert (Kd : forall mk, code_kind n = Some mk -> is_module (n_kind n) || is_package (n_kind n) = true).
    { intros mk. unfold code_kind. now destruct (n_kind n). }
    split.
    - intros Hl. pose proof (no_kind _ _ Hn) as Nk. destruct O as [tree A _|c wr rd A _|A B]; [| |contradiction].
      + destruct A as [t A _|sp' fz tx co fi t mk A1 A2 A3 A4 A5 A6 A7 A8]; [rewrite A in Nk; contradiction|]. eapply Kd. exact A7.
      + destruct A as [sp' fz src mk A1 A2 A3 A4 A5]. eapply Kd. exact A4.
    - destruct O as [tree A B|c wr rd A B|A ->]; [| |intros i []].
      + destruct A as [t A _|sp' fz tx co fi t mk A1 A2 A3 A4 A5 A6 A7 A8].
        * pose proof (no_kind _ _ Hn) as Nk. rewrite A in Nk. contradiction.
        * apply (tree_info tree l); [| |exact B].
          -- intros p w Hp. pose proof (wk_parse E W t fi tx) as K. rewrite A5 in K. eapply K. exact Hp.
          -- intros Sf p w Hp. exact (sf_parse E Sf t fi tx tree p w A5 Hp).
      + destruct A as [sp' fz src mk A1 A2 A3 A4 A5]. intros i Hl.
        destruct (code_covers _ c l wr rd (wk_code E W _ _ _ _ A1 A3) B) as [_ C].
        destruct (C i Hl) as (fn & opt & w & T & Hr & _). eapply proper_info; [eapply (wk_says E W); eassumption| |exact Hr].
        intros Sf. eapply (sf_says E Sf); eassumption.
  Qed.

  (** ** The invariant *)

  Definition user (s : st) (n : string) : Prop := exists k, kind_of s n = Some k /\ is_module k || is_package k || is_script k = true.
  Definition okwork (s : st) (w : work) : Prop := match w with
    | DoPost n => kind_of s n <> None
    | DoImport n i => user s n /\ okinfo i /\ (ii_level i <> 0 -> module_name n)
    | DoNames n m i => user s n /\ okinfo i /\ kind_of s m <> None
    | DoPackage n pkg => listing_fine E /\ kind_of s n <> None /\ module_name pkg
    end.
  Definition okname (id : string) (k : kind) : Prop := match k with
    | Distribution => label id /\ named_by id
    | Script => (module_name id \/ label id) /\ named_by id /\ exists t tree, e_script E t id = ROk tree
    | InvalidRelativeImport => exists k m, id = repeat_char dot k ++ m /\ (m = "" \/ module_name m)
    | AliasNode t => module_name id /\ module_name t
    | Package _ _ _ _ _ => module_name id /\ exists sp, importable E sp /\ sp_name sp = id
    | _ => module_name id
    end.
  Definition okkind (id : string) (k : kind) : Prop := okname id k /\ (firm id -> is_missing k = false /\ is_excluded k = false).
  Definition clean (n : node) : Prop := (swig -> ~ In helper (n_written n))
    /\ (is_distribution (n_kind n) = false -> forall d, n_dist n = Some d -> exists t f, e_dist_for_file E t f = ROk (Some d)).
  Definition main (s : st) : Prop := assoc "__main__" (s_lazy s) = Some ImpNone \/ kind_of s "__main__" <> None.
  Record Inv (s : st) : Prop := {
    iv_kind : forall id k, kind_of s id = Some k -> okkind id k;
    iv_edge : forall a b ds, In (a, b, ds) (g_edges (s_graph s)) -> kind_of s b <> None;
    iv_stack : forall w, In w (s_stack s) -> okwork s w;
    iv_lazy : forall k i, assoc k (s_lazy s) = Some i -> named i /\ ranked_conf firm rank k i;
    iv_main : main s;
    iv_post : forall h, In h (s_post s) -> post_fine E ok h;
    iv_missing : forall h, In h (s_missing s) -> missing_fine E h;
    iv_clean : forall id n, gfind (s_graph s) id = Some n -> clean n
  }.

  Definition keepk (s s' : st) : Prop := forall id k, kind_of s id = Some k -> kind_of s' id = Some k.
  Record chg (s s' : st) : Prop := {
    ch_kinds : keepk s s';
    ch_edges : forall a b ds, In (a, b, ds) (g_edges (s_graph s')) -> (exists ds, In (a, b, ds) (g_edges (s_graph s))) \/ kind_of s' b <> None;
    ch_stack : forall w, In w (s_stack s') -> In w (s_stack s) \/ okwork s' w;
    ch_lazy : forall k i, assoc k (s_lazy s') = Some i -> assoc k (s_lazy s) = Some i;
    ch_main : main s -> main s';
    ch_hooks : s_post s' = s_post s /\ s_missing s' = s_missing s;
    ch_nodes : forall id n, gfind (s_graph s') id = Some n -> gfind (s_graph s) id = Some n \/ clean n
  }.
  Lemma user_keep s s' n : keepk s s' -> user s n -> user s' n.
  Proof. intros H (k & A & B). exists k. auto. Qed.
  Lemma in_keep s s' n : keepk s s' -> kind_of s n <> None -> kind_of s' n <> None.
  Proof. intros H A. destruct (kind_of s n) as [k|] eqn:Ek; [|contradiction]. rewrite (H _ _ Ek). discriminate. Qed.
  Lemma okwork_keep s s' w : keepk s s' -> okwork s w -> okwork s' w.
  Proof.
    intros H. destruct w; cbn; auto.
    - intros A. eapply in_keep; eassumption.
    - intros (A & B & C). split; [eapply user_keep; eassumption|]. now split.
    - intros (A & B & C). split; [eapply user_keep; eassumption|]. split; [exact B|eapply in_keep; eassumption].
    - intros (A & B & C). split; [exact A|]. split; [eapply in_keep; eassumption|exact C].
  Qed.
  Lemma inv_chg s s' : Inv s -> chg s s' -> (forall id k, kind_of s' id = Some k -> kind_of s id = Some k \/ okkind id k) -> Inv s'.
  Proof.
    intros [A1 A2 A3 A4 A5 A6 A7 A8] [B1 B2 B3 B4 B5 [B6 B7] B8] H. constructor; auto.
    - intros id k Hk. destruct (H id k Hk) as [K|K]; auto.
    - intros a b ds Hi. destruct (B2 a b ds Hi) as [[ds' K]|K]; [|exact K]. eapply in_keep; [exact B1|eapply A2; exact K].
    - intros w Hw. destruct (B3 w Hw) as [K|K]; [|exact K]. eapply okwork_keep; [exact B1|auto].
    - rewrite B6. exact A6.
    - rewrite B7. exact A7.
    - intros id n Hn. destruct (B8 id n Hn) as [K|K]; [|exact K]. eapply A8. exact K.
  Qed.

  Definition dang (s : st) (id t : string) : Prop := kind_of s id = Some (AliasNode t) /\ kind_of s t = None.
  Definition calm (s s' : st) : Prop := forall id t, dang s' id t -> dang s id t.
  Definition bound (r : nat) (s s' : st) : Prop := forall id, kind_of s' id <> None -> kind_of s id <> None \/ rank id <= r.
  Record grown (r : nat) (s s' : st) : Prop := { gw_inv : Inv s'; gw_keep : keepk s s'; gw_bound : bound r s s'; gw_calm : calm s s' }.
  Lemma keepk_trans a b c : keepk a b -> keepk b c -> keepk a c.
  Proof. unfold keepk. auto. Qed.
  Lemma bound_trans r a b c : bound r a b -> bound r b c -> bound r a c.
  Proof. intros A B id H. destruct (B id H) as [K|K]; auto. Qed.
  Lemma bound_le r r' a b : r <= r' -> bound r a b -> bound r' a b.
  Proof. intros L A id H. destruct (A id H) as [K|K]; auto. right. lia. Qed.
  Lemma grown_trans r a b c : grown r a b -> grown r b c -> grown r a c.
  Proof.
    intros [A1 A2 A3 A4] [B1 B2 B3 B4]. constructor; [exact B1|eapply keepk_trans; eassumption|eapply bound_trans; eassumption|].
    unfold calm in *. auto.
  Qed.
  Lemma grown_le r r' a b : r <= r' -> grown r a b -> grown r' a b.
  Proof. intros L [A1 A2 A3 A4]. constructor; auto. eapply bound_le; eassumption. Qed.
  Lemma grown_refl r s : Inv s -> grown r s s.
  Proof. intros H. constructor; [exact H|intros id k K; exact K|intros id K; now left|intros id t K; exact K]. Qed.
  (** Same nodes. *)
  Lemma grown_same r s s' : Inv s -> chg s s' -> (forall id, kind_of s' id = kind_of s id) -> grown r s s'.
  Proof.
    intros H K S. constructor.
    - eapply inv_chg; eauto. intros id k. rewrite S. auto.
    - apply K.
    - intros id. rewrite S. auto.
    - intros id t [A B]. rewrite S in A, B. now split.
  Qed.

  Lemma chg_env s s' : env_only s s' -> chg s s' /\ forall id, kind_of s' id = kind_of s id.
  Proof.
    intros (f & c & ->). split; [|reflexivity]. constructor; cbn; auto.
    - intros id k K. exact K.
    - intros a b ds K. left. now exists ds.
  Qed.
  Lemma grown_env r s s' : Inv s -> env_only s s' -> grown r s s'.
  Proof. intros H K. destruct (chg_env s s' K) as [A B]. now apply grown_same. Qed.
  Lemma grown_log r s e : Inv s -> grown r s (log s e).
  Proof.
    intros H. apply grown_same; [exact H| |reflexivity]. constructor; cbn; auto.
    - intros id k K. exact K.
    - intros a b ds K. left. now exists ds.
  Qed.

  (** ** Primitive steps *)

  Lemma kind_add g n id : gfind g (n_name n) = None ->
    option_map n_kind (gfind (Graph (g_nodes g ++ [n]) (g_edges g) (g_roots g)) id) = if seqb (n_name n) id then Some (n_kind n) else option_map n_kind (gfind g id).
  Proof.
    intros H. rewrite gfind_app. destruct (gfind g id) as [m|] eqn:Eg.
    - destruct (seqb (n_name n) id) eqn:Es; [|reflexivity]. apply seqb_eq in Es. congruence.
    - destruct (seqb (n_name n) id) eqn:Es; reflexivity.
  Qed.
  Definition added (s s' : st) (n : node) : Prop :=
    (forall id, kind_of s' id = if seqb (n_name n) id then Some (n_kind n) else kind_of s id)
    /\ g_edges (s_graph s') = g_edges (s_graph s) /\ s_stack s' = s_stack s /\ s_lazy s' = s_lazy s
    /\ s_post s' = s_post s /\ s_missing s' = s_missing s
    /\ forall id m, gfind (s_graph s') id = Some m -> gfind (s_graph s) id = Some m \/ m = n.
  Lemma fine_add n l s : kind_of s (n_name n) = None -> fine (add_node n l) (fun _ s' => added s s' n) s.
  Proof.
    intros H. assert (G : gfind (s_graph s) (n_name n) = None) by (unfold kind_of in H; now destruct (gfind (s_graph s) (n_name n))).
    unfold add_node. apply fine_bind. unfold fine at 1, lift_graph, gadd_node, ghas. rewrite G. apply fine_modify.
    split; [|repeat split].
    - intros id. unfold kind_of. cbn [log set_graph s_graph]. now apply kind_add.
    - intros id m. cbn [log set_graph s_graph]. rewrite gfind_app. destruct (gfind (s_graph s) id); [now left|].
      destruct (seqb (n_name n) id); [intros [= <-]; now right|discriminate].
  Qed.
  Lemma fine_user n s : kind_of s (n_name n) = None -> fine (user_add_node n) (fun _ s' => added s s' n) s.
  Proof.
    intros H. assert (G : gfind (s_graph s) (n_name n) = None) by (unfold kind_of in H; now destruct (gfind (s_graph s) (n_name n))).
    unfold user_add_node, fine, lift_graph, gadd_node, ghas. rewrite G. split; [|repeat split].
    - intros id. unfold kind_of. cbn [set_graph s_graph]. now apply kind_add.
    - intros id m. cbn [set_graph s_graph]. rewrite gfind_app. destruct (gfind (s_graph s) id); [now left|].
      destruct (seqb (n_name n) id); [intros [= <-]; now right|discriminate].
  Qed.
  Lemma added_keep s s' n : kind_of s (n_name n) = None -> added s s' n -> keepk s s'.
  Proof. intros H (A & _) id k K. rewrite A. destruct (seqb (n_name n) id) eqn:Es; [|exact K]. apply seqb_eq in Es. congruence. Qed.
  Lemma added_chg s s' n : kind_of s (n_name n) = None -> clean n -> added s s' n -> chg s s'.
  Proof.
    intros H Cn K. pose proof (added_keep s s' n H K) as Kk. destruct K as (A & B & C & D & F & G & N). constructor; auto.
    - intros a b ds. rewrite B. intros K. left. now exists ds.
    - intros w. rewrite C. auto.
    - intros k i. now rewrite D.
    - unfold main. rewrite D. intros [K|K]; [now left|right; eapply in_keep; eassumption].
    - intros id m K. destruct (N id m K) as [Q|Q]; [now left|subst m; now right].
  Qed.
  Lemma added_in s s' n : added s s' n -> kind_of s' (n_name n) = Some (n_kind n).
  Proof. intros (A & _). rewrite A. now rewrite (proj2 (seqb_eq _ _) eq_refl). Qed.
  Lemma added_inv s s' n : Inv s -> kind_of s (n_name n) = None -> clean n -> added s s' n -> okkind (n_name n) (n_kind n) -> Inv s'.
  Proof.
    intros H K Cn A O. eapply inv_chg; [exact H|now apply (added_chg s s' n)|]. intros id k. destruct A as (A & _). rewrite A.
    destruct (seqb (n_name n) id) eqn:Es; [|auto]. apply seqb_eq in Es. intros [= <-]. subst id. now right.
  Qed.
  Lemma added_bound s s' n r : added s s' n -> rank (n_name n) <= r -> bound r s s'.
  Proof.
    intros (A & _) L id. rewrite A. destruct (seqb (n_name n) id) eqn:Es; [|auto]. apply seqb_eq in Es. subst id. auto.
  Qed.
  (** New dangling aliases are that of the node. *)
  Lemma added_calm s s' n : kind_of s (n_name n) = None -> added s s' n -> forall id t, dang s' id t -> dang s id t \/ (id = n_name n /\ n_kind n = AliasNode t).
  Proof.
    intros H (A & _) id t [K1 K2]. rewrite A in K1, K2. destruct (seqb (n_name n) id) eqn:Es.
    - apply seqb_eq in Es. injection K1 as K1. right. auto.
    - left. split; [exact K1|]. destruct (seqb (n_name n) t); [discriminate|exact K2].
  Qed.
  Lemma added_grown s s' n r : Inv s -> kind_of s (n_name n) = None -> clean n -> added s s' n -> okkind (n_name n) (n_kind n) -> rank (n_name n) <= r ->
    (forall t, n_kind n <> AliasNode t) -> grown r s s'.
  Proof.
    intros H K Cn A O L N. constructor; [eapply added_inv; eassumption|eapply added_keep; eassumption|eapply added_bound; eassumption|].
    intros id t D. destruct (added_calm s s' n K A id t D) as [D'|[_ D']]; [exact D'|]. now elim (N t).
  Qed.

  Lemma fine_sched id l s r : Inv s -> kind_of s id <> None -> (l <> [] -> user s id) -> (forall i, In i l -> okinfo i /\ (ii_level i <> 0 -> module_name id)) ->
    fine (process_import_list id l) (fun _ s' => grown r s s' /\ (forall x, kind_of s' x = kind_of s x)) s.
  Proof.
    intros H Hid Hu Hi. apply fine_modify. assert (S : forall x, kind_of (schedule id l s) x = kind_of s x).
    { intros x. unfold schedule. cbn. now destruct (memb id (s_seen s)). }
    split; [|exact S]. apply grown_same; [exact H| |exact S]. constructor.
    - intros x k K. now rewrite S.
    - intros a b ds K. left. exists ds. unfold schedule in K. cbn in K. now destruct (memb id (s_seen s)).
    - intros w Hw. unfold schedule in Hw. cbn [set_stack s_stack log] in Hw. apply in_app_or in Hw as [Hw|Hw].
      + right. apply in_rev, in_map_iff in Hw as (i & <- & Hw). split; [|auto].
        assert (U : user s id) by (apply Hu; intros ->; destruct Hw). destruct U as (k & U1 & U2). exists k. now rewrite S.
      + cbn in Hw. destruct (memb id (s_seen s)); cbn in Hw; [now left|]. destruct Hw as [<-|Hw]; [right; cbn; now rewrite S|now left].
    - intros k i. unfold schedule. cbn. now destruct (memb id (s_seen s)).
    - unfold main. rewrite S. unfold schedule. cbn. now destruct (memb id (s_seen s)).
    - unfold schedule. cbn. now destruct (memb id (s_seen s)).
    - intros x n. unfold schedule. cbn. destruct (memb id (s_seen s)); now left.
  Qed.

  Lemma edges_add_ends l a b d : forall x y ds, In (x, y, ds) (edges_add l a b d) -> (x = a /\ y = b) \/ exists ds, In (x, y, ds) l.
  Proof.
    induction l as [|[[a' b'] ds0] l IH]; cbn; intros x y ds H.
    - destruct H as [H|[]]. injection H as <- <- _. now left.
    - destruct (seqb a a' && seqb b b') eqn:Es; cbn in H.
      + destruct H as [H|H]; [injection H as <- <- _; right; exists ds0; now left|right; exists ds; now right].
      + destruct H as [H|H]; [injection H as <- <- _; right; exists ds0; now left|]. apply IH in H as [H|[ds' H]]; [now left|right; exists ds'; now right].
  Qed.
  Lemma ghas_kind g id : option_map n_kind (gfind g id) <> None -> ghas g id = true.
  Proof. unfold ghas. destruct (gfind g id); [reflexivity|]. now cbn. Qed.
  Lemma fine_edge a b d s r : Inv s -> kind_of s a <> None -> kind_of s b <> None ->
    fine (add_edge a b d) (fun _ s' => grown r s s' /\ (forall x, kind_of s' x = kind_of s x)) s.
  Proof.
    intros H Ha Hb. unfold add_edge, fine, lift_graph, gadd_edge. rewrite (ghas_kind _ _ Ha), (ghas_kind _ _ Hb). cbn [andb].
    split; [|reflexivity]. apply grown_same; [exact H| |reflexivity]. constructor; cbn; auto.
    - intros x k K. exact K.
    - intros x y ds K. apply edges_add_ends in K as [[-> ->]|K]; [now right|now left].
  Qed.
  Lemma fine_root a s r : Inv s -> kind_of s a <> None -> fine (add_root a) (fun _ s' => grown r s s') s.
  Proof.
    intros H Ha. unfold add_root, fine, lift_graph, gadd_root. rewrite (ghas_kind _ _ Ha).
    apply grown_same; [exact H| |reflexivity]. constructor; cbn; auto.
    - intros x k K. exact K.
    - intros x y ds K. left. now exists ds.
  Qed.
  Lemma fine_written a l s r : Inv s -> (swig -> ~ In helper l) -> fine (add_written a l) (fun _ s' => grown r s s' /\ (forall x, kind_of s' x = kind_of s x)) s.
  Proof.
    intros H Hl. apply fine_modify. set (s' := set_graph s _). assert (S : forall x, kind_of s' x = kind_of s x).
    { intros x. unfold kind_of, s'. cbn [set_graph s_graph]. rewrite gfind_written. destruct (gfind (s_graph s) x) as [n|]; [|reflexivity].
      cbn. unfold upd_written. now destruct (seqb (n_name n) a). }
    split; [|exact S]. apply grown_same; [exact H| |exact S]. constructor; cbn; auto.
    - intros x k K. now rewrite S.
    - intros x y ds K. left. now exists ds.
    - unfold main. now rewrite S.
    - intros x n. change (gfind (gadd_written (s_graph s) a l) x = Some n -> gfind (s_graph s) x = Some n \/ clean n). rewrite gfind_written. destruct (gfind (s_graph s) x) as [m|] eqn:Em; [|discriminate]. cbn. intros [= <-]. right.
      destruct (iv_clean s H x m Em) as [C1 C2]. unfold upd_written. destruct (seqb (n_name m) a); [|now split]. split; [|exact C2].
      cbn [n_written]. intros Hs K. apply set_union_In in K as [K|K]; [now apply C1|now apply Hl].
  Qed.
  Lemma fine_find_module id s : Inv s -> ~ label id \/ kind_of s id = None -> fine (find_module id) (fun o s' => s' = s /\ option_map n_kind o = kind_of s id) s.
  Proof.
    intros H Hl. unfold find_module, get_node. apply fine_bind, fine_gets. unfold kind_of in *. destruct (gfind (s_graph s) id) as [n|] eqn:Eg; [|now split].
    destruct Hl as [Hl|Hl]; [|discriminate]. apply fine_bind, fine_assert; [|now split].
    destruct (iv_kind s H id (n_kind n)) as (K & _); [unfold kind_of; now rewrite Eg|]. destruct (n_kind n); try reflexivity. now destruct K.
  Qed.
  Lemma fine_kind p id s (Q : bool -> st -> Prop) : Q (match kind_of s id with Some k => p k | None => false end) s -> fine (kind_test p id) Q s.
  Proof. intros H. unfold kind_test, get_node. apply fine_bind, fine_gets, fine_ret. unfold kind_of in H. now destruct (gfind (s_graph s) id). Qed.

  (** ** Finding and loading modules *)

  Definition put (name : string) (s : st) (id : string) (s' : st) : Prop := id = name /\ grown (rank name) s s' /\ kind_of s' name <> None.
  Definition find_ok (r : funs) : Prop := forall imp name lm s, Inv s -> module_name name -> fine (f_find r imp name lm) (put name s) s.
  Definition load_ok (r : funs) : Prop := forall imp name s, Inv s -> module_name name ->
    kind_of s name <> None \/ assoc name (s_lazy s) = None -> fine (f_load r imp name) (put name s) s.

  Lemma plain_ok name k : module_name name -> is_distribution k || is_script k || is_invalid_rel k || is_package k = false -> (forall t, k = AliasNode t -> module_name t) -> (firm name -> is_missing k = false /\ is_excluded k = false) -> okkind name k.
  Proof. intros A B T C. split; [|exact C]. destruct k; cbn; auto; discriminate. Qed.

  (** A node without imports. *)
  Lemma clean_plain k name : clean (plain_node k name).
  Proof. split; [intros _ []|intros _ d; discriminate]. Qed.
  Lemma fine_plain n s r : Inv s -> kind_of s (n_name n) = None -> clean n -> okkind (n_name n) (n_kind n) -> rank (n_name n) <= r ->
    (forall t, n_kind n <> AliasNode t) ->
    fine (do add_node n [] ;; process_import_list (n_name n) []) (fun _ s' => grown r s s' /\ kind_of s' (n_name n) = Some (n_kind n)) s.
  Proof.
    intros H K Cn O L N. apply fine_bind. eapply fine_weak; [now apply fine_add|]. intros u s1 A.
    pose proof (added_grown s s1 n r H K Cn A O L N) as G. eapply fine_weak.
    - apply (fine_sched (n_name n) [] s1 r); [apply G|rewrite (added_in _ _ _ A); discriminate|congruence|intros i []].
    - intros u' s2 [G2 S]. split; [eapply grown_trans; eassumption|]. rewrite S. eapply added_in. exact A.
  Qed.
  Lemma then_plain {B} n (f : M B) s r (Q : B -> st -> Prop) : Inv s -> kind_of s (n_name n) = None -> clean n -> okkind (n_name n) (n_kind n) -> rank (n_name n) <= r ->
    (forall t, n_kind n <> AliasNode t) -> (forall s', grown r s s' -> kind_of s' (n_name n) = Some (n_kind n) -> fine f Q s') ->
    fine (do add_node n [] ;; do process_import_list (n_name n) [] ;; f) Q s.
  Proof.
    intros H K Cn O L N F. pose proof (fine_plain n s r H K Cn O L N) as P. unfold fine, bind in P |- *.
    destruct (add_node n [] s) as [[[u|e] s1]|]; [|exact P|exact I]. cbn in P |- *. destruct P as [P1 P2]. now apply F.
  Qed.

  (** A node that is followed by what it stands for. *)
  Lemma stands_grown s s2 s' n r : Inv s -> kind_of s (n_name n) = None -> added s s2 n -> okkind (n_name n) (n_kind n) -> rank (n_name n) <= r ->
    grown r s2 s' -> (forall t, n_kind n = AliasNode t -> kind_of s' t <> None) -> grown r s s'.
  Proof.
    intros H K A O L G T. destruct G as [G1 G2 G3 G4]. pose proof (added_keep s s2 n K A) as Ak. constructor; [exact G1|eapply keepk_trans; eassumption| |].
    - eapply bound_trans; [eapply added_bound; eassumption|exact G3].
    - intros id t D. destruct (added_calm s s2 n K A id t (G4 id t D)) as [D'|[_ D']]; [exact D'|]. destruct D as [_ D]. now elim (T t D').
  Qed.

  Definition still (s s' : st) : Prop := grown 0 s s' /\ forall x, kind_of s' x = kind_of s x.
  Lemma still_refl s : Inv s -> still s s.
  Proof. intros H. split; [now apply grown_refl|reflexivity]. Qed.
  Lemma still_trans a b c : still a b -> still b c -> still a c.
  Proof. intros [A1 A2] [B1 B2]. split; [eapply grown_trans; eassumption|]. intros x. now rewrite B2. Qed.
  Lemma fine_quiet r p : silent p -> forall s, Inv s -> fine (run_prog E r p) (fun o s' => o = None /\ still s s') s.
  Proof.
    induction p as [o|e|a k IH]; cbn [silent run_prog]; intros Hp s H.
    - apply fine_ret. split; [exact Hp|now apply still_refl].
    - contradiction.
    - destruct Hp as [Ha Hk]. apply fine_bind. unfold call. apply fine_bind.
      apply (fine_weak _ (fun x s' => (exists ans, x = ROk ans) /\ still s s')).
      + apply fine_attempt. destruct Ha as [->|[m ->]]; cbn [do_action].
        * apply fine_gets. split; [eexists; reflexivity|now apply still_refl].
        * apply fine_bind, fine_modify, fine_ret. split; [eexists; reflexivity|]. split; [|reflexivity]. apply grown_same; [exact H| |reflexivity]. constructor; cbn; auto.
          -- intros id kd K. exact K.
          -- intros x y ds K. left. now exists ds.
      + intros x s1 [[ans ->] G]. apply fine_ret. eapply fine_weak; [apply IH; [apply Hk|apply G]|]. intros o s2 [A B]. split; [exact A|]. eapply still_trans; eassumption.
  Qed.
  Lemma fine_swig r imp name s : Inv s -> swig -> fine (run_prog E r (swig_hook imp name)) (fun o s' => o = None /\ still s s') s.
  Proof.
    intros H Hs. destruct imp as [id|]; cbn [swig_hook run_prog]; [|apply fine_ret; split; [reflexivity|now apply still_refl]].
    apply fine_bind. unfold call. apply fine_bind, fine_attempt. cbn [do_action]. apply fine_gets, fine_ret.
    assert (N : fine (ret (@None string)) (fun o s' => o = None /\ still s s') s) by (apply fine_ret; split; [reflexivity|now apply still_refl]).
    destruct (gfind (s_graph s) id) as [n|] eqn:Eg; [|exact N].
    destruct (negb (is_module (n_kind n) || is_package (n_kind n))); [exact N|].
    destruct (negb (seqb name ("_" ++ snd (rpartition dot (n_name n))))); [exact N|].
    destruct (memb "swig_import_helper" (n_written n)) eqn:Em; [|exact N].
    apply memb_In in Em. now elim (proj1 (iv_clean s H id n Eg) Hs).
  Qed.
  Lemma fine_miss : forall k i imp name s, Inv s -> fine (f_miss (exec E k) i imp name) (fun o s' => o = None /\ still s s') s.
  Proof.
    induction k as [|k IH]; intros i imp name s H; [exact I|]. cbn [exec f_miss]. unfold miss_body. apply fine_bind, fine_gets.
    destruct (nth_error (s_missing s) i) as [h|] eqn:En; [|apply fine_ret; split; [reflexivity|now apply still_refl]].
    apply nth_error_In in En. apply fine_bind. eapply fine_weak.
    - destruct (iv_missing s H h En) as [[-> Hf]|Hq]; [now apply fine_swig|]. apply fine_quiet; [apply Hq|exact H].
    - intros o s1 [-> G]. eapply fine_weak; [apply IH; apply G|]. intros o s2 [A B]. split; [exact A|]. eapply still_trans; eassumption.
  Qed.
  Lemma fine_create k imp name s : Inv s -> module_name name -> kind_of s name = None -> ~ firm name ->
    fine (create_missing (exec E k) imp name) (put name s) s.
  Proof.
    intros H N K F. unfold create_missing. apply fine_bind. eapply fine_weak; [now apply fine_miss|]. intros o s0 (-> & G0 & Fk). apply (grown_le 0 (rank name)) in G0; [|lia].
    apply (then_plain (plain_node MissingModule name) (ret name) s0 (rank name)); [apply G0|cbn [n_name plain_node]; rewrite (Fk name); exact K|apply clean_plain| |apply le_n|discriminate|].
    - apply plain_ok; auto; [discriminate|contradiction].
    - intros s' G Kn. apply fine_ret. split; [reflexivity|]. split; [eapply grown_trans; eassumption|]. cbn in Kn. rewrite Kn. discriminate.
  Qed.

  Lemma tool_name ty : library ty -> module_name ty.
  Proof. intros [->| ->]; apply mn_top; repeat split; first [discriminate|reflexivity]. Qed.

  Lemma nfs_clean k sp s n l s' : importable E sp -> f_nfs (exec E k) sp s = Some (ROk (n, l), s') -> clean n.
  Proof.
    intros Hi Hf. destruct (nfs_attrs E k sp s n l s' Hi Hf) as [D Sc]. split.
    - intros Sf K. destruct (PropsAttr.scanned_told E n (wk_code E W) Sc) as (R & Wr & T & _ & Hw). apply Hw in K. destruct T as [c Hc|f ty Hk|Hn].
      + destruct Hc as [sp' fz src mk info K1 K2 K3 K4 K5 K6]. eapply (sf_code E Sf); eassumption.
      + cbn in K. decompose [or] K; try discriminate; contradiction.
      + contradiction.
    - intros _ d Hd. assert (T : forall o, dist_told E o (n_dist n) -> exists t f, e_dist_for_file E t f = ROk (Some d)).
      { intros o T. rewrite Hd in T. destruct o as [f|]; [|discriminate]. destruct T as [t T]. now exists t, f. }
      destruct D; try congruence; eapply T; eassumption.
  Qed.

  Lemma fine_load_spec k name sp s : find_ok (exec E k) -> Inv s -> module_name name -> kind_of s name = None ->
    importable E sp -> complete_spec E sp -> rank (sp_name sp) <= rank name ->
    fine (load_spec (exec E k) name sp) (put name s) s.
  Proof.
    intros HF H Hn K Hi Hc Hr. unfold load_spec. apply fine_bind.
    pose proof (fine_nfs k sp s Hi Hc) as N. unfold fine in N |- * at 1.
    destruct (f_nfs (exec E k) sp s) as [[[[n l]|e] s1]|] eqn:Ef; [|exact N|exact I]. cbn [fst] in N.
    pose proof (nfs_clean k sp s n l s1 Hi Ef) as Cn. destruct (nfs_imports k sp s n l s1 Hi N Ef) as [Nu Ni0].
    assert (Ni : forall i, In i l -> okinfo i /\ (ii_level i <> 0 -> module_name (n_name n))) by (intros i Hl; split; [now apply Ni0|intros _; apply N]).
    pose proof (envm_nfs_exec E k sp s _ s1 Ef) as Env.
    pose proof (grown_env (rank name) s s1 H Env) as G1. destruct (chg_env s s1 Env) as [_ S1].
    assert (K1 : kind_of s1 name = None) by now rewrite S1.
    assert (On : okkind (n_name n) (n_kind n)).
    { pose proof (no_kind _ _ N) as Nk. pose proof (no_pkg _ _ N) as Np. pose proof (no_name _ _ N) as Nn. split; [|intros F; now destruct (n_kind n)].
      destruct (n_kind n); try contradiction; cbn; auto. }
    assert (An : forall t, n_kind n <> AliasNode t) by (intros t Et; pose proof (no_kind _ _ N) as Nk; rewrite Et in Nk; contradiction).
    assert (Rn : rank (n_name n) <= rank name) by (pose proof (no_rank _ _ N); lia).
    assert (User : forall s', kind_of s' (n_name n) = Some (n_kind n) -> l <> [] -> user s' (n_name n)).
    { intros s' Ks Hl. exists (n_kind n). split; [exact Ks|]. now rewrite (Nu Hl). }
    destruct (seqb (n_name n) name) eqn:Es; cbn [negb].
    - apply seqb_eq in Es. apply fine_bind. eapply fine_weak; [apply fine_add; now rewrite Es|]. intros u s2 A.
      assert (G2 : grown (rank name) s1 s2) by (apply (added_grown s1 s2 n); [apply G1|now rewrite Es|exact Cn|exact A|exact On|exact Rn|exact An]).
      pose proof (added_in _ _ _ A) as A2. apply fine_bind. apply (fine_weak _ (fun _ s3 => grown (rank name) s2 s3)).
      { destruct (n_kind n) as [| | |a b c d ty| | | | | |] eqn:Ek; try (apply fine_ret, grown_refl; apply G2).
        destruct ty as [ty|]; [|apply fine_ret, grown_refl; apply G2].
        destruct (memb ty _); [|apply fine_ret, grown_refl; apply G2].
        destruct (no_tool _ _ N _ _ _ _ _ Ek) as [T1 T2].
        apply fine_bind. eapply fine_weak; [apply HF; [apply G2|now apply tool_name]|]. intros id s3 (-> & G3 & K3).
        apply (grown_le _ (rank name)) in G3; [|rewrite <- Es; exact T2].
        eapply fine_weak; [apply (fine_edge name ty default_dep s3 (rank name)); [apply G3| |exact K3]|].
        - rewrite <- Es. eapply in_keep; [apply G3|]. rewrite A2. discriminate.
        - intros u' s4 [G4 _]. eapply grown_trans; eassumption. }
      intros u' s3 G3. assert (K3 : kind_of s3 (n_name n) = Some (n_kind n)) by (apply G3; exact A2).
      apply fine_bind. eapply fine_weak; [apply (fine_sched name l s3 (rank name)); [apply G3|rewrite <- Es, K3; discriminate| |rewrite <- Es; exact Ni]|].
      + intros Hl. rewrite <- Es. now apply User.
      + intros u'' s4 [G4 S4]. apply fine_ret. split; [reflexivity|]. split.
        * eapply grown_trans; [exact G1|]. eapply grown_trans; [exact G2|]. eapply grown_trans; eassumption.
        * rewrite S4, <- Es, K3. discriminate.
    - apply fine_bind. eapply fine_weak; [now apply (fine_add (plain_node (AliasNode (n_name n)) name) [] s1)|]. intros u s2 A. cbv beta in A.
      assert (Oa : okkind name (AliasNode (n_name n))) by (apply plain_ok; auto; intros t [= <-]; apply N).
      assert (I2 : Inv s2) by (apply (added_inv s1 s2 (plain_node (AliasNode (n_name n)) name)); [apply G1|exact K1|apply clean_plain|exact A|exact Oa]).
      apply fine_bind. eapply fine_weak; [apply (fine_sched name [] s2 (rank name)); [exact I2| |congruence|intros i []]|].
      { pose proof (added_in _ _ _ A) as A2. cbn in A2. rewrite A2. discriminate. }
      intros u' s3 [G3 S3]. apply fine_bind, fine_gets. set (old := gfind (s_graph s3) (n_name n)).
      assert (Na : kind_of s3 name <> None) by (rewrite S3; pose proof (added_in _ _ _ A) as A2; cbn in A2; rewrite A2; discriminate).
      apply fine_bind. apply (fine_weak _ (fun _ s4 => grown (rank name) s3 s4 /\ kind_of s4 (n_name n) <> None)).
      { destruct old as [o|] eqn:Eo; unfold old in Eo.
        - apply fine_ret. split; [apply grown_refl, G3|]. unfold kind_of. rewrite Eo. discriminate.
        - assert (K3 : kind_of s3 (n_name n) = None) by (unfold kind_of; now rewrite Eo).
          apply fine_bind. eapply fine_weak; [now apply fine_add|]. intros v s4 B.
          assert (G4 : grown (rank name) s3 s4) by (apply (added_grown s3 s4 n); [apply G3|exact K3|exact Cn|exact B|exact On|exact Rn|exact An]).
          pose proof (added_in _ _ _ B) as B2. apply fine_bind. eapply fine_weak; [apply (fine_sched (n_name n) l s4 (rank name)); [apply G4|rewrite B2; discriminate|now apply User|exact Ni]|].
          intros v' s5 [G5 S5]. assert (G35 : grown (rank name) s3 s5) by (eapply grown_trans; eassumption).
          assert (K5 : kind_of s5 (n_name n) <> None) by (rewrite S5, B2; discriminate).
          destruct (mn_split _ (no_name _ _ N)) as [[_ Sp]|(p & x & Ep & Hp & Hx & Sp)]; rewrite Sp; apply fine_bind, fine_ok; cbn [fst].
          { now apply fine_ret. }
          assert (Rp : rank p <= rank name).
          { destruct (rk_package E firm rank HR p x) as [L|[_ L]]; [rewrite <- Ep; apply N|exact Hx| |]; rewrite <- Ep in L; lia. }
          apply fine_bind. eapply fine_weak; [apply HF; [apply G5|exact Hp]|]. intros id s6 (-> & G6 & K6).
          apply (grown_le _ (rank name)) in G6; [|exact Rp].
          eapply fine_weak; [apply (fine_edge (n_name n) p default_dep s6 (rank name)); [apply G6|eapply in_keep; [apply G6|exact K5]|exact K6]|].
          intros v'' s7 [G7 S7]. split; [eapply grown_trans; [exact G35|]; eapply grown_trans; eassumption|]. rewrite S7. eapply in_keep; [apply G6|exact K5]. }
      intros v s4 [G4 K4]. apply fine_bind.
      eapply fine_weak; [apply (fine_edge name (n_name n) default_dep s4 (rank name)); [apply G4|eapply in_keep; [apply G4|exact Na]|exact K4]|].
      intros v' s5 [G5 S5]. apply fine_ret. split; [reflexivity|]. split; [|rewrite S5; eapply in_keep; [apply G4|exact Na]].
      eapply grown_trans; [exact G1|]. eapply (stands_grown s1 s2 s5 (plain_node (AliasNode (n_name n)) name)); [apply G1|exact K1|exact A|exact Oa|apply le_n| |].
      + eapply grown_trans; [exact G3|]. eapply grown_trans; eassumption.
      + cbn. intros t [= <-]. now rewrite S5.
  Qed.

  Lemma rpartition_child p x : dotless x -> rpartition dot (p ++ "." ++ x) = (p, x).
  Proof. intros H. change (p ++ "." ++ x) with (p ++ String dot x). unfold rpartition. now rewrite rpart_app_char. Qed.
  Lemma rpartition_file dir file : has_char slash file = false -> rpartition slash (dir ++ "/" ++ file) = (dir, file).
  Proof. intros H. change (dir ++ "/" ++ file) with (dir ++ String slash file). unfold rpartition. now rewrite rpart_app_char. Qed.

  Lemma fine_load_failed k imp name e s : load_ok (exec E k) -> Inv s -> module_name name -> kind_of s name = None ->
    assoc name (s_lazy s) = None -> ~ firm name ->
    e = ENotFound false \/ (broken_package E (s_fakes s) name /\ e <> EInterrupt) ->
    fine (load_failed E (exec E k) imp name e) (put name s) s.
  Proof.
    intros HL H N K L F He. unfold load_failed.
    assert (Ex : is_exception e = true) by (destruct He as [->|[_ He]]; [reflexivity|now destruct e]). rewrite Ex. cbn [negb].
    pose proof (fine_create k imp name) as C. destruct He as [->|[Hb _]]; [now apply C|].
    pose (other := let parent := fst (rpartition dot name) in
             b <- in_sysmod E parent ;;
             do assert (negb b) ;;
             m <- find_spec E parent ;;
             match m with
             | None => raise EAssert
             | Some sp =>
                 do assert (sp_inspect sp) ;;
                 p <- of_result (sp_ispkg sp) ;;
                 if p : bool then
                   match sp_origin sp with
                   | None => raise EAssert
                   | Some path =>
                       do assert (starts_with "__init__." (snd (rpartition slash path))) ;;
                       do modify (fun s => set_fakes s (set_add parent (s_fakes s))) ;;
                       f_load (exec E k) imp name
                   end
                 else create_missing (exec E k) imp name
             end).
    assert (O : fine other (put name s) s).
    { destruct Hb as (p & x & -> & Hx & Hf & Hs). unfold other. rewrite rpartition_child by exact Hx. cbv zeta. cbn [fst].
      apply fine_bind. unfold fine at 1, in_sysmod. destruct (Hs (s_clock s)) as [-> _].
      assert (Mf : memb p (s_fakes s) = false) by (destruct (memb p (s_fakes s)) eqn:Em; [now apply memb_In in Em|reflexivity]).
      rewrite Mf. apply fine_bind, fine_assert; [reflexivity|]. apply fine_bind. unfold fine at 1, find_spec. cbn [tick s_clock s_fakes].
      destruct (Hs (S (s_clock s))) as [_ (sp & -> & Hin & Hp)]. apply fine_bind, fine_assert; [exact Hin|].
      assert (G0 : grown (rank (p ++ "." ++ x)) s (tick (tick s))) by (apply grown_env; [exact H|eexists _, _; reflexivity]).
      destruct Hp as [Hp|(Hp & dir & file & Ho & Hc & ext & Hi)]; rewrite Hp; apply fine_bind, fine_ok.
      - eapply fine_weak; [apply C; auto; apply G0|]. intros id s' (A & B & D). split; [exact A|]. split; [eapply grown_trans; eassumption|exact D].
      - rewrite Ho. rewrite rpartition_file by exact Hc. cbn [snd]. apply fine_bind, fine_assert.
        + apply starts_with_spec. now exists ext.
        + apply fine_bind, fine_modify. set (s1 := set_fakes _ _).
          assert (G1 : grown (rank (p ++ "." ++ x)) s s1) by (apply grown_env; [exact H|eexists _, _; reflexivity]).
          eapply fine_weak; [apply HL; [apply G1|exact N|right; exact L]|]. intros id s' (A & B & D).
          split; [exact A|]. split; [eapply grown_trans; eassumption|exact D]. }
    destruct e as [| | | | | | | | | |[|]| | | |]; try exact O. now apply C.
  Qed.

  Lemma not_main s name : Inv s -> kind_of s name = None -> assoc name (s_lazy s) = None -> name <> "__main__".
  Proof. intros H K L ->. destruct (iv_main s H) as [M|M]; congruence. Qed.

  Lemma fine_load_body k : find_ok (exec E k) -> load_ok (exec E k) -> forall imp name s, Inv s -> module_name name ->
    kind_of s name <> None \/ assoc name (s_lazy s) = None -> fine (load_body E (exec E k) imp name) (put name s) s.
  Proof.
    intros HF HL imp name s H N L. unfold load_body. destruct (mn_start name N) as [N1 N2]. apply fine_bind, fine_assert; [now rewrite N1|].
    unfold get_node. apply fine_bind, fine_gets. destruct (gfind (s_graph s) name) as [nd|] eqn:Eg.
    { apply fine_ret. split; [reflexivity|]. split; [now apply grown_refl|]. unfold kind_of. rewrite Eg. discriminate. }
    assert (K : kind_of s name = None) by (unfold kind_of; now rewrite Eg). destruct L as [L|L]; [contradiction|].
    pose proof (not_main s name H K L) as Nm. apply fine_bind. pose proof (wk_find E W (s_clock s) (s_fakes s) name N Nm) as Wf.
    assert (G0 : grown (rank name) s (tick s)) by (apply grown_env; [exact H|eexists _, _; reflexivity]).
    assert (Put : forall s0 id s', grown (rank name) s s0 -> put name s0 id s' -> put name s id s').
    { intros s0 id s' G (A & B & C). split; [exact A|]. split; [eapply grown_trans; eassumption|exact C]. }
    assert (Absent : (forall sp, e_find_spec E (s_clock s) (s_fakes s) name <> ROk (Some sp)) -> ~ firm name) by apply absent_firm.
    assert (Failed : forall s0 e, grown (rank name) s s0 -> kind_of s0 name = None -> assoc name (s_lazy s0) = None -> s_fakes s0 = s_fakes s ->
      ~ firm name -> e = ENotFound false \/ (broken_package E (s_fakes s) name /\ e <> EInterrupt) ->
      fine (load_failed E (exec E k) imp name e) (put name s) s0).
    { intros s0 e G K0 L0 F0 F He. eapply fine_weak; [apply (fine_load_failed k imp name e s0); auto; [apply G|now rewrite F0]|]. intros id s' P. now apply (Put s0). }
    assert (Missing : forall s0, grown (rank name) s s0 -> kind_of s0 name = None -> ~ firm name -> fine (r1 <- attempt (create_missing (exec E k) imp name) ;;
            match r1 with ROk id => ret id | RErr e => do note EvErr ;; load_failed E (exec E k) imp name e end) (put name s) s0).
    { intros s0 G K0 F. apply fine_bind, fine_attempt. eapply fine_weak; [apply (fine_create k imp name s0); auto; apply G|]. intros id s' P. apply fine_ret. now apply (Put s0). }
    unfold fine at 1, attempt at 1, spec_or_none, bind at 1, attempt at 1, find_spec at 1.
    destruct (e_find_spec E (s_clock s) (s_fakes s) name) as [[sp|]|e] eqn:Ef.
    - cbn [ret]. destruct (found_spec _ _ _ _ N Nm Ef) as (A & B & C).
      eapply fine_weak; [apply (fine_load_spec k name sp (tick s)); auto; apply G0|]. intros id s' P. now apply (Put (tick s)).
    - cbn [ret]. apply Missing; [exact G0|exact K|]. apply Absent. discriminate.
    - assert (F : ~ firm name) by (apply Absent; discriminate). destruct Wf as [->|[->|[(Wb & W1 & W2 & W3)|[-> (W1 & W2 & W3)]]]].
      + apply Failed; auto.
      + now apply Missing.
      + destruct e; try contradiction; try (apply Failed; [exact G0|exact K|exact L|reflexivity|exact F|right; split; [exact Wb|discriminate]]). now apply Missing.
      + unfold bind at 1, gets. unfold bind at 1, del_sysmod, bind at 1, in_sysmod at 1. cbn [tick s_fakes s_clock].
        assert (X : memb name (s_fakes s) || e_sysmod E (S (s_clock s)) name = true).
        { destruct W1 as [W1|W1]; [apply memb_In in W1; now rewrite W1|now rewrite W1, orb_true_r]. }
        rewrite X. unfold modify at 1. unfold bind at 1, attempt at 1, find_spec at 1. cbn [tick set_fakes s_fakes s_clock].
        set (s3 := tick (set_fakes (tick (tick s)) (remove_name name (s_fakes s)))).
        unfold bind at 1, in_sysmod at 1. assert (Y : memb name (s_fakes s3) || e_sysmod E (s_clock s3) name = false).
        { cbn. unfold tick in W2. change (3 + s_clock s) with (S (S (S (s_clock s)))) in W2. rewrite W2, orb_false_r.
          destruct (memb name (remove_name name (s_fakes s))) eqn:Em; [|reflexivity]. apply memb_In in Em. unfold remove_name in Em. apply filter_In in Em as [_ Em].
          now rewrite (proj2 (seqb_eq _ _) eq_refl) in Em. }
        rewrite Y. cbn [negb]. unfold bind at 1, assert at 1. unfold bind at 1, modify at 1.
        set (s5 := set_fakes (tick s3) (s_fakes s)).
        assert (G5 : grown (rank name) s s5) by (apply grown_env; [exact H|eexists _, _; reflexivity]).
        change (2 + s_clock s) with (S (S (s_clock s))) in W3.
        destruct (e_find_spec E (S (S (s_clock s))) (remove_name name (s_fakes s)) name) as [[sp|]|e] eqn:Eg2; cbn [of_result ret raise].
        * destruct (found_spec _ _ _ _ N Nm Eg2) as (A & B & C).
          eapply fine_weak; [apply (fine_load_spec k name sp s5); auto; apply G5|]. intros id s' P. now apply (Put s5).
        * now apply Missing.
        * subst e. apply Failed; auto.
  Qed.

  Lemma assoc_filter name (l : list (string * implied)) : forall k, assoc k (filter (fun x => negb (seqb (fst x) name)) l) = if seqb k name then None else assoc k l.
  Proof.
    intros k. induction l as [|[k' v] l IH]; cbn [filter assoc fst]; [now destruct (seqb k name)|]. destruct (seqb k' name) eqn:E1; cbn [negb assoc].
    - rewrite IH. destruct (seqb k name) eqn:E2; [reflexivity|]. destruct (seqb k k') eqn:E3; [|reflexivity].
      apply seqb_eq in E1, E3. subst. rewrite (proj2 (seqb_eq _ _) eq_refl) in E2. discriminate.
    - destruct (seqb k k') eqn:E3; [|exact IH]. apply seqb_eq in E3. subst. now rewrite E1.
  Qed.
  Definition popped (name : string) (i : implied) (s : st) : st :=
    log (set_lazy s (filter (fun x => negb (seqb (fst x) name)) (s_lazy s))) (EvImplied name i).
  Lemma popped_inv name i s : Inv s -> name <> "__main__" -> Inv (popped name i s).
  Proof.
    intros H Nm. eapply inv_chg; [exact H| |left; assumption]. constructor; cbn; auto.
    - intros id k K. exact K.
    - intros a b ds K. left. now exists ds.
    - intros k j. rewrite assoc_filter. destruct (seqb k name); [discriminate|auto].
    - unfold main. cbn. rewrite assoc_filter. destruct (seqb "__main__" name) eqn:Es; [|auto]. apply seqb_eq in Es. congruence.
  Qed.

  Lemma fine_implied_node k knd name t s : find_ok (exec E k) -> Inv s -> module_name name -> kind_of s name = None ->
    module_name t -> rank t <= rank name -> knd = AliasNode t \/ knd = VirtualNode t ->
    fine (implied_node (exec E k) knd name t) (fun o s' => exists id, o = Some id /\ put name s id s') s.
  Proof.
    intros HF H N K Nt Rt Hk. unfold implied_node, get_node. apply fine_bind, fine_gets.
    assert (Eg : gfind (s_graph s) name = None) by (unfold kind_of in K; now destruct (gfind (s_graph s) name)). rewrite Eg.
    apply fine_bind, fine_assert; [reflexivity|]. apply fine_bind. eapply fine_weak; [now apply (fine_add (plain_node knd name) [] s)|].
    intros u s1 A. cbv beta in A. assert (O : okkind name knd) by (apply plain_ok; destruct Hk; subst; auto; try discriminate; now intros t' [= <-]).
    assert (I1 : Inv s1) by (apply (added_inv s s1 (plain_node knd name)); auto using clean_plain).
    apply fine_bind. eapply fine_weak; [apply (fine_sched name [] s1 (rank name)); [exact I1| |congruence|intros i []]|].
    { pose proof (added_in _ _ _ A) as A2. cbn in A2. rewrite A2. discriminate. }
    intros u' s2 [G2 S2]. apply fine_bind. eapply fine_weak; [apply HF; [apply G2|exact Nt]|]. intros id s3 (-> & G3 & K3).
    apply (grown_le _ (rank name)) in G3; [|exact Rt].
    assert (Ka : kind_of s3 name <> None).
    { eapply in_keep; [apply G3|]. rewrite S2. pose proof (added_in _ _ _ A) as A2. cbn in A2. rewrite A2. discriminate. }
    apply fine_bind. eapply fine_weak; [apply (fine_edge name t default_dep s3 (rank name)); [apply G3|exact Ka|exact K3]|].
    intros u'' s4 [G4 S4]. apply fine_ret. exists name. split; [reflexivity|]. split; [reflexivity|]. split; [|now rewrite S4].
    apply (stands_grown s s1 s4 (plain_node knd name)); [exact H|exact K|exact A|exact O|apply le_n| |].
    - eapply grown_trans; [exact G2|]. eapply grown_trans; eassumption.
    - cbn. intros t' Et. destruct Hk as [->| ->]; [|discriminate]. injection Et as <-. now rewrite S4.
  Qed.

  Lemma fine_iter {A} (f : A -> M unit) (P : A -> Prop) (J : st -> Prop) : (forall x s, P x -> J s -> fine (f x) (fun _ s' => J s') s) ->
    forall l s, (forall x, In x l -> P x) -> J s -> fine (iter f l) (fun _ s' => J s') s.
  Proof.
    intros Hf. induction l as [|x l IH]; intros s Hl HJ; cbn [iter]; [now apply fine_ret|].
    apply fine_bind. eapply fine_weak; [apply Hf; [apply Hl; now left|exact HJ]|]. intros u s' HJ'. apply IH; [|exact HJ']. intros y Hy. apply Hl. now right.
  Qed.

  Lemma fine_implied k imp name s : find_ok (exec E k) -> Inv s -> module_name name ->
    fine (implied_references (exec E k) imp name) (fun o s' => match o with
      | None => s' = s /\ (kind_of s name <> None \/ assoc name (s_lazy s) = None)
      | Some id => put name s id s'
      end) s.
  Proof.
    intros HF H N. unfold implied_references, get_node. apply fine_bind, fine_gets. destruct (gfind (s_graph s) name) as [nd|] eqn:Eg.
    { apply fine_ret. split; [reflexivity|]. left. unfold kind_of. rewrite Eg. discriminate. }
    assert (K : kind_of s name = None) by (unfold kind_of; now rewrite Eg).
    apply fine_bind. unfold fine at 1, pop_lazy. destruct (assoc name (s_lazy s)) as [i|] eqn:El; [|now apply fine_ret; auto].
    fold (popped name i s). destruct (iv_lazy s H name i El) as [Hn Hr].
    assert (Same : forall x, kind_of (popped name i s) x = kind_of s x) by reflexivity.
    assert (Back : name <> "__main__" -> forall id s', put name (popped name i s) id s' -> put name s id s').
    { intros Nm id s' (A & [B1 B2 B3 B4] & C). split; [exact A|]. split; [|exact C]. now constructor. }
    assert (Nm : i <> ImpNone -> name <> "__main__").
    { intros Hi ->. destruct (iv_main s H) as [M|M]; congruence. }
    destruct i as [|t|t|refs].
    - apply fine_bind. eapply fine_weak; [now apply (fine_add (plain_node ExcludedModule name) [] (popped name ImpNone s))|].
      intros u s1 A. cbv beta in A. assert (O : okkind name ExcludedModule) by (apply plain_ok; auto; [discriminate|contradiction]).
      assert (G1 : grown (rank name) s s1).
      { pose proof (added_keep (popped name ImpNone s) s1 (plain_node ExcludedModule name) K A) as Kk. pose proof (added_in _ _ _ A) as Ai. cbn in Ai. constructor.
        - apply (inv_chg s s1 H).
          + destruct A as (A1 & A2 & A3 & A4 & A5 & A6 & A7). constructor.
            * exact Kk.
            * intros a b ds. rewrite A2. intros Q. left. now exists ds.
            * intros w. rewrite A3. auto.
            * intros k' j. rewrite A4. cbn. rewrite assoc_filter. destruct (seqb k' name); [discriminate|auto].
            * unfold main. rewrite A4. cbn. rewrite assoc_filter. intros M. destruct (seqb "__main__" name) eqn:Es.
              -- apply seqb_eq in Es. right. rewrite Es, Ai. discriminate.
              -- destruct M as [M|M]; [now left|right]. eapply in_keep; [exact Kk|exact M].
            * now split.
            * intros id m Q. destruct (A7 id m Q) as [Q'|Q']; [now left|subst m; right; apply clean_plain].
          + destruct A as (A1 & _). intros id k' Q. rewrite A1 in Q. cbn [n_name n_kind plain_node] in Q. destruct (seqb name id) eqn:Es; [|now left]. apply seqb_eq in Es. subst id. injection Q as <-. right. exact O.
        - exact Kk.
        - apply (added_bound (popped name ImpNone s) s1 _ (rank name) A). apply le_n.
        - intros id t D. destruct (added_calm (popped name ImpNone s) s1 (plain_node ExcludedModule name) K A id t D) as [D'|[_ D']]; [exact D'|discriminate]. }
      apply fine_bind. eapply fine_weak; [apply (fine_sched name [] s1 (rank name)); [apply G1| |congruence|intros j []]|].
      { pose proof (added_in _ _ _ A) as Ai. cbn in Ai. rewrite Ai. discriminate. }
      intros u' s2 [G2 S2]. apply fine_ret. split; [reflexivity|]. split; [eapply grown_trans; eassumption|].
      rewrite S2. pose proof (added_in _ _ _ A) as Ai. cbn in Ai. rewrite Ai. discriminate.
    - eapply fine_weak; [apply (fine_implied_node k (AliasNode t) name t); auto; apply popped_inv; auto; apply Nm; discriminate|].
      intros o s' (id & -> & P). apply Back; [apply Nm; discriminate|exact P].
    - eapply fine_weak; [apply (fine_implied_node k (VirtualNode t) name t); auto; apply popped_inv; auto; apply Nm; discriminate|].
      intros o s' (id & -> & P). apply Back; [apply Nm; discriminate|exact P].
    - apply fine_bind. eapply fine_weak; [apply HF; [apply popped_inv; auto; apply Nm; discriminate|exact N]|]. intros id s1 P.
      apply Back in P; [|apply Nm; discriminate]. destruct P as (-> & G1 & K1).
      apply fine_bind. apply (fine_weak _ (fun _ s' => grown (rank name) s s' /\ kind_of s' name <> None)).
      + apply (fine_iter _ (fun ref => In ref refs) (fun s' => grown (rank name) s s' /\ kind_of s' name <> None)); [|auto|auto].
        intros ref s2 Hin [G2 K2]. apply fine_bind. eapply fine_weak; [apply HF; [apply G2|now apply Hn]|]. intros id s3 (-> & G3 & K3).
        apply (grown_le _ (rank name)) in G3; [|now apply Hr].
        assert (Ka : kind_of s3 name <> None) by (eapply in_keep; [apply G3|exact K2]).
        eapply fine_weak; [apply (fine_edge name ref default_dep s3 (rank name)); [apply G3|exact Ka|exact K3]|].
        intros u s4 [G4 S4]. split; [|now rewrite S4]. eapply grown_trans; [exact G2|]. eapply grown_trans; eassumption.
      + intros u s2 [G2 K2]. apply fine_ret. now split.
  Qed.

  Lemma fine_find_body k : find_ok (exec E k) -> load_ok (exec E k) -> forall imp name lm s, Inv s -> module_name name ->
    fine (find_body (exec E k) imp name lm) (put name s) s.
  Proof.
    intros HF HL imp name lm s H N. unfold find_body. apply fine_bind. eapply fine_weak; [apply fine_find_module; [exact H|left; intros Q; now apply (label_no name)]|].
    intros o s' [-> Ho]. destruct o as [nd|].
    { apply fine_ret. split; [reflexivity|]. split; [now apply grown_refl|]. rewrite <- Ho. discriminate. }
    cbn in Ho. symmetry in Ho. apply fine_bind.
    assert (Rest : forall parent found s1, grown (rank name) s s1 -> (found = None \/ (found = Some name /\ kind_of s1 name <> None)) ->
      (forall p, parent = Some p -> kind_of s1 p <> None) ->
      fine (id <- match found with
              | Some id => ret id
              | None =>
                  i <- implied_references (exec E k) imp name ;;
                  match i with
                  | Some id => ret id
                  | None => f_load (exec E k) imp name
                  end
              end ;;
        m <- kind_test is_missing id ;;
        do match parent with
           | Some p => if lm || negb m then add_edge id p default_dep else ret tt
           | None => ret tt
           end ;;
        ret id) (put name s) s1).
    { intros parent found s1 G1 Hf Hp. apply fine_bind. apply (fine_weak _ (put name s1)).
      - destruct Hf as [->|[-> Hf]].
        2:{ apply fine_ret. split; [reflexivity|]. split; [apply grown_refl, G1|exact Hf]. }
        apply fine_bind. eapply fine_weak; [apply fine_implied; [exact HF|apply G1|exact N]|]. intros [id|] s2 P; [now apply fine_ret|].
        destruct P as [-> P]. apply HL; [apply G1|exact N|exact P].
      - intros id s2 (-> & G2 & K2). apply fine_bind, fine_kind. apply fine_bind.
        apply (fine_weak _ (fun _ s3 => grown (rank name) s2 s3 /\ kind_of s3 name <> None)).
        + destruct parent as [p|]; [|apply fine_ret; split; [apply grown_refl, G2|exact K2]].
          destruct (lm || _); [|apply fine_ret; split; [apply grown_refl, G2|exact K2]].
          eapply fine_weak; [apply (fine_edge name p default_dep s2 (rank name)); [apply G2|exact K2|eapply in_keep; [apply G2|now apply Hp]]|].
          intros u s3 [G3 S3]. split; [exact G3|now rewrite S3].
        + intros u s3 [G3 K3]. apply fine_ret. split; [reflexivity|]. split; [|exact K3].
          eapply grown_trans; [exact G1|]. eapply grown_trans; eassumption. }
    destruct (mn_split name N) as [[_ Sp]|(p & x & En & Hp & Hx & Sp)]; rewrite Sp; apply fine_ok; cbn [fst]; apply fine_bind.
    { apply fine_ret. apply (Rest None None s); [now apply grown_refl|now left|discriminate]. }
    assert (Rk : rank p < rank name \/ (firm p /\ rank p <= rank name)) by (rewrite En; apply (rk_package E firm rank HR); [now rewrite <- En|exact Hx]).
    apply fine_bind. eapply fine_weak; [now apply HF|]. intros id s1 (-> & G1 & K1).
    assert (G1' : grown (rank name) s s1) by (eapply grown_le; [|exact G1]; destruct Rk as [R|[_ R]]; lia).
    assert (Absent : forall kd, kind_of s1 p = Some kd -> is_missing kd || is_excluded kd = true -> kind_of s1 name = None /\ ~ firm name).
    { intros kd Hk Hb. destruct (iv_kind s1 (gw_inv _ _ _ G1) p kd Hk) as (_ & Fp).
      assert (Nf : ~ firm p) by (intros F; destruct (Fp F) as [Q1 Q2]; rewrite Q1, Q2 in Hb; discriminate). split.
      - destruct Rk as [R|[F _]]; [|contradiction]. destruct (kind_of s1 name) eqn:Ek; [|reflexivity]. exfalso.
        destruct (gw_bound _ _ _ G1 name) as [Q|Q]; [rewrite Ek; discriminate|congruence|lia].
      - intros F. apply Nf. apply (ct_package E firm HC p x); [now rewrite <- En|exact Hx]. }
    apply fine_bind, fine_kind. destruct (kind_of s1 p) as [kd|] eqn:Ek; [|contradiction].
    destruct (is_missing kd) eqn:Em.
    { destruct (Absent kd eq_refl) as [Kn Nf]; [now rewrite Em|]. apply fine_bind. eapply fine_weak; [apply fine_create; auto; apply G1|].
      intros id s2 (-> & G2 & K2). apply fine_ret. apply (Rest (Some p) (Some name) s2); [eapply grown_trans; eassumption|now right|].
      intros q [= <-]. eapply in_keep; [apply G2|]. rewrite Ek. discriminate. }
    apply fine_bind, fine_kind. rewrite Ek. destruct (is_excluded kd) eqn:Ee.
    { destruct (Absent kd eq_refl) as [Kn Nf]; [now rewrite Ee, orb_true_r|].
      apply (then_plain (plain_node ExcludedModule name) _ s1 (rank name)); [apply G1|exact Kn|apply clean_plain| |apply le_n|discriminate|].
      - apply plain_ok; auto; [discriminate|contradiction].
      - intros s2 G2 K2. apply fine_ret. apply (Rest (Some p) (Some name) s2); [eapply grown_trans; eassumption| |].
        + right. split; [reflexivity|]. cbn in K2. rewrite K2. discriminate.
        + intros q [= <-]. eapply in_keep; [apply G2|]. rewrite Ek. discriminate. }
    apply fine_ret. apply (Rest (Some p) None s1); [exact G1'|now left|]. intros q [= <-]. rewrite Ek. discriminate.
  Qed.

  Lemma fine_exec : forall k, find_ok (exec E k) /\ load_ok (exec E k).
  Proof.
    induction k as [|k [HF HL]]; [split; intros imp name *; intros; exact I|].
    split.
    - intros imp name lm s. cbn [exec f_find]. now apply fine_find_body.
    - intros imp name s. cbn [exec f_load]. now apply fine_load_body.
  Qed.

  (** ** Work *)

  Record moved (s s' : st) : Prop := { mv_inv : Inv s'; mv_keep : keepk s s'; mv_calm : calm s s' }.
  Lemma grown_moved r s s' : grown r s s' -> moved s s'.
  Proof. intros [A B _ D]. now constructor. Qed.
  Lemma moved_trans a b c : moved a b -> moved b c -> moved a c.
  Proof. intros [A1 A2 A3] [B1 B2 B3]. constructor; [exact B1|eapply keepk_trans; eassumption|]. unfold calm in *. auto. Qed.
  Lemma moved_refl s : Inv s -> moved s s.
  Proof. intros H. apply (grown_moved 0), grown_refl, H. Qed.
  Definition settled (s : st) : Prop := forall id t, ~ dang s id t.
  Lemma settled_moved s s' : settled s -> moved s s' -> settled s'.
  Proof. intros A B id t D. apply (A id t). now apply B. Qed.

  Lemma user_in s n : user s n -> kind_of s n <> None.
  Proof. intros (k & A & _). rewrite A. discriminate. Qed.

  Lemma fine_insert o w s : Inv s -> okwork s w -> fine (insert_work o w) (fun _ s' => moved s s') s.
  Proof.
    intros H Hw. apply fine_modify. apply (grown_moved 0). apply grown_same; [exact H| |reflexivity]. constructor; cbn; auto.
    - intros id k K. exact K.
    - intros a b ds K. left. now exists ds.
    - intros v Hv. apply in_app_or in Hv as [Hv|[<-|Hv]]; [|right; exact Hw|].
      all: left; rewrite <- (firstn_skipn (List.length (s_stack s) - o) (s_stack s)); apply in_or_app; auto.
  Qed.

  Lemma fine_import k n i s : Inv s -> user s n -> okinfo i -> (ii_level i <> 0 -> module_name n) -> fine (process_import (exec E k) n i) (fun _ s' => moved s s') s.
  Proof.
    intros H U O Mn. destruct (fine_exec k) as [HF _]. unfold process_import. apply fine_bind, fine_kind.
    set (b := match kind_of s n with Some kd => _ | None => false end). pose proof (absolute_name_spec n b i) as A. pose proof (BuilderKeep.absolute_dots n b i) as Dots.
    assert (Bad : forall bad, absolute_name n b i = inl bad -> exists m, bad = repeat_char dot (ii_level i) ++ m /\ (m = "" \/ module_name m)).
    { intros bad. unfold absolute_name. destruct O as (_ & O2 & _). destruct (Nat.eqb (ii_level i) 0) eqn:El; [discriminate|]. apply Nat.eqb_neq in El.
      destruct (relative_package n b (ii_level i)); [discriminate|]. intros [= <-]. exists (in_name (ii_module i)). split; [reflexivity|]. now apply O2. }
    destruct (absolute_name n b i) as [bad|name].
    - specialize (Dots bad eq_refl).
      assert (Nl : ~ label bad) by (intros L; destruct (Bad bad eq_refl) as (m & Em & Hm); destruct (L _ _ Em) as [L1 L2]; destruct Hm; contradiction).
      apply fine_bind. eapply fine_weak; [apply fine_find_module; [exact H|now left]|]. intros o s' [-> Ho].
      apply fine_bind. apply (fine_weak _ (fun _ s' => moved s s' /\ kind_of s' bad <> None)).
      + destruct o as [nd|]; cbn in Ho.
        * apply fine_assert; [|split; [now apply moved_refl|rewrite <- Ho; discriminate]].
          destruct (iv_kind s H bad (n_kind nd) (eq_sym Ho)) as (K & _).
          assert (Nm : ~ module_name bad) by (intros Q; destruct (mn_start bad Q) as [Q' _]; congruence).
          destruct (n_kind nd); cbn in K; try reflexivity; exfalso; try contradiction; first [now destruct K as [[K|K] _]|now destruct K as [K _]].
        * eapply fine_weak; [apply (fine_plain (plain_node InvalidRelativeImport bad) s (rank bad)); [exact H|now cbn|apply clean_plain| |apply le_n|discriminate]|].
          -- split; [|now split]. destruct (Bad bad eq_refl) as (m & Em & Hm). now exists (ii_level i), m.
          -- intros u s' [G K]. split; [eapply grown_moved; exact G|]. cbn in K. rewrite K. discriminate.
      + intros u s1 [G1 K1]. eapply fine_weak; [apply (fine_edge n bad _ s1 0); [apply G1| |exact K1]|].
        * eapply in_keep; [apply G1|now apply user_in].
        * intros u' s2 [G2 _]. eapply moved_trans; [exact G1|eapply grown_moved; exact G2].
    - assert (N : module_name name).
      { destruct O as (O1 & O2 & _). destruct A as [A|q A1 A2 A3|q A1 A2 A3].
        - auto.
        - eapply mn_up; [|exact A2]. now apply Mn.
        - apply mn_app; [eapply mn_up; [|exact A2]; now apply Mn|]. destruct (O2 A1); [contradiction|assumption]. }
      destruct (mn_start name N) as [N1 N2]. apply fine_bind, fine_assert.
      { rewrite N1. destruct (seqb name "") eqn:Es; [apply seqb_eq in Es; contradiction|]. cbn. now rewrite orb_true_r. }
      apply fine_bind, fine_gets. apply fine_bind. eapply fine_weak; [now apply HF|]. intros id s1 (-> & G1 & K1).
      assert (U1 : user s1 n) by (eapply user_keep; [apply G1|exact U]).
      apply fine_bind. eapply fine_weak; [apply (fine_edge n name _ s1 0); [apply G1|now apply user_in|exact K1]|]. intros u s2 [G2 S2].
      eapply fine_weak; [apply fine_insert; [apply G2|]|].
      + split; [eapply user_keep; [apply G2|exact U1]|]. split; [exact O|now rewrite S2].
      + intros u' s3 G3. eapply moved_trans; [eapply grown_moved; exact G1|]. eapply moved_trans; [eapply grown_moved; exact G2|exact G3].
  Qed.

  Lemma outgoing_in s m ds t : Inv s -> In (ds, t) (goutgoing (s_graph s) m) -> kind_of s t <> None.
  Proof.
    intros H K. apply in_flat_map in K as ([[a b] ds'] & K1 & K2). destruct (seqb a m); [|destruct K2]. destruct K2 as [K2|[]].
    injection K2 as <- <-. eapply iv_edge; eassumption.
  Qed.
  Lemma fine_name k n m kd i nm s : Inv s -> user s n -> kind_of s m = Some kd -> is_package kd || is_nspkg kd || is_module kd = true ->
    part (in_name nm) -> dotless (in_name nm) -> fine (process_name (exec E k) n m kd i nm) (fun _ s' => moved s s') s.
  Proof.
    intros H U Hm Hk N1 N2. destruct (fine_exec k) as [HF _].
    assert (Mm : module_name m) by (destruct (iv_kind s H m kd Hm) as (Q & _); destruct kd; try discriminate; apply Q).
    unfold process_name. apply fine_bind, fine_gets. set (written := match gfind (s_graph s) m with Some x => n_written x | None => [] end).
    set (dep := from_importinfo i true (in_asname nm)).
    apply fine_bind. apply (fine_weak _ (fun _ s' => moved s s')).
    { destruct (memb (in_name nm) written); [|now apply fine_ret, moved_refl]. apply fine_bind. unfold reexported. apply fine_gets.
      destruct (find _ (goutgoing (s_graph s) m)) as [[ds t]|] eqn:Ef; cbn [option_map snd]; [|now apply fine_ret, moved_refl].
      apply find_some in Ef as [Ef _]. apply fine_bind.
      eapply fine_weak; [apply (fine_edge n t dep s 0); [exact H|now apply user_in|eapply outgoing_in; eassumption]|].
      intros u s1 [G1 _]. apply fine_ret. eapply grown_moved. exact G1. }
    intros known s1 G1. destruct known; [now apply fine_ret|]. assert (M' : module_name (m ++ "." ++ in_name nm)) by now constructor.
    apply fine_bind. eapply fine_weak; [apply HF; [apply G1|exact M']|]. intros id s2 (-> & G2 & K2). apply grown_moved in G2.
    assert (G02 : moved s s2) by (eapply moved_trans; eassumption). set (sub := m ++ "." ++ in_name nm) in *.
    apply fine_bind, fine_kind. apply fine_bind, fine_gets.
    assert (Un : kind_of s2 n <> None) by (eapply in_keep; [apply G02|now apply user_in]).
    assert (Link : fine (do add_edge sub m default_dep ;; add_edge n sub dep) (fun _ s' => moved s s') s2).
    { apply fine_bind. eapply fine_weak; [apply (fine_edge sub m default_dep s2 0); [apply G02|exact K2|]|].
      - rewrite (mv_keep _ _ G02 m kd Hm). discriminate.
      - intros u s3 [G3 S3]. eapply fine_weak; [apply (fine_edge n sub dep s3 0); [apply G3|now rewrite S3|now rewrite S3]|].
        intros u' s4 [G4 _]. eapply moved_trans; [exact G02|]. eapply moved_trans; eapply grown_moved; eassumption. }
    destruct (match kind_of s2 sub with Some k0 => is_missing k0 | None => false end); [|exact Link].
    match goal with |- context [if is_package kd && ?b then _ else _] => destruct (is_package kd && b) end.
    - destruct (assoc (in_name nm) SIX_MOVES_TO) as [t|] eqn:Ea; [|exact Link]. apply six_target in Ea.
      apply fine_bind. eapply fine_weak; [apply HF; [apply G02|exact Ea]|]. intros id s3 (-> & G3 & K3).
      eapply fine_weak; [apply (fine_edge n t default_dep s3 0); [apply G3|eapply in_keep; [apply G3|exact Un]|exact K3]|].
      intros u s4 [G4 _]. eapply moved_trans; [exact G02|]. eapply moved_trans; eapply grown_moved; eassumption.
    - match goal with |- context [if ?b then ret tt else _] => destruct b end; [now apply fine_ret|exact Link].
  Qed.

  Lemma fine_names k n m kd i s : Inv s -> user s n -> okinfo i -> kind_of s m = Some kd -> is_package kd || is_nspkg kd || is_module kd = true ->
    forall names, (forall nm, In nm names -> In nm (ii_names i)) -> fine (iter (process_name (exec E k) n m kd i) names) (fun _ s' => moved s s') s.
  Proof.
    intros H U (_ & _ & O) Hm Hk names Hn. apply (fine_iter _ (fun nm => In nm (ii_names i)) (fun s' => moved s s')); [|exact Hn|now apply moved_refl].
    intros nm s1 Hi G1. destruct (O nm Hi) as (O1 & O2 & _).
    eapply fine_weak; [apply fine_name; auto; [apply G1|eapply user_keep; [apply G1|exact U]|now apply G1]|].
    intros u s2 G2. eapply moved_trans; eassumption.
  Qed.

  Lemma fine_namelist k n m i s : Inv s -> settled s -> user s n -> okinfo i -> kind_of s m <> None ->
    fine (process_namelist (exec E k) n m i) (fun _ s' => moved s s') s.
  Proof.
    intros H Hs U O Hm. unfold process_namelist. apply fine_bind, fine_kind. apply fine_bind, fine_assert.
    { destruct U as (kd & -> & U). exact U. }
    assert (Done : fine (ret tt) (fun _ s' => moved s s') s) by now apply fine_ret, moved_refl.
    apply fine_bind, fine_gets. destruct (ii_star i).
    - destruct (gfind (s_graph s) m) as [x|] eqn:Eg; [|exact Done]. destruct (is_package (n_kind x) || is_module (n_kind x)); [|exact Done].
      eapply fine_weak; [apply (fine_written n (n_written x) s 0 H); apply (iv_clean s H m x Eg)|]. intros u s1 [G _]. eapply grown_moved. exact G.
    - destruct (ii_names i) as [|nm0 names0] eqn:En; [exact Done|]. destruct (gfind (s_graph s) m) as [x|] eqn:Eg; [|exact Done].
      assert (Kx : kind_of s m = Some (n_kind x)) by (unfold kind_of; now rewrite Eg).
      assert (Hw : swig -> ~ In helper (map in_name (nm0 :: names0))).
      { intros Hsw Q. apply in_map_iff in Q as (nm & Q1 & Q2). destruct O as (_ & _ & O). rewrite <- En in Q2. destruct (O nm Q2) as (_ & _ & Q3). now elim (Q3 Hsw). }
      assert (Go : forall m' kd s1, moved s s1 -> kind_of s1 m' = Some kd -> is_package kd || is_nspkg kd || is_module kd = true ->
        fine (do add_written n (map in_name (nm0 :: names0)) ;; iter (process_name (exec E k) n m' kd i) (nm0 :: names0)) (fun _ s' => moved s s') s1).
      { intros m' kd s1 G1 K1 Hk. apply fine_bind. eapply fine_weak; [apply (fine_written n _ s1 0); [apply G1|exact Hw]|]. intros u s2 [G2 S2].
        eapply fine_weak; [apply fine_names; [apply G2|eapply user_keep; [apply G2|eapply user_keep; [apply G1|exact U]]|exact O|now rewrite S2|exact Hk|]|].
        - rewrite En. auto.
        - intros u' s3 G3. eapply moved_trans; [exact G1|]. eapply moved_trans; [eapply grown_moved; exact G2|exact G3]. }
      assert (Other : fine (if is_package (n_kind x) || is_nspkg (n_kind x) || is_module (n_kind x)
                 then do add_written n (map in_name (nm0 :: names0)) ;; iter (process_name (exec E k) n m (n_kind x) i) (nm0 :: names0)
                 else ret tt) (fun _ s' => moved s s') s).
      { destruct (is_package (n_kind x) || is_nspkg (n_kind x) || is_module (n_kind x)) eqn:Hk; [|exact Done]. apply Go; [now apply moved_refl|exact Kx|exact Hk]. }
      destruct (n_kind x) as [| | | | | | | |actual|] eqn:Ek; try exact Other.
      apply fine_bind. eapply fine_weak; [apply (fine_written n _ s 0 H Hw)|]. intros u s1 [G1 S1].
      assert (Ma : module_name actual) by (destruct (iv_kind s H m _ Kx) as ((_ & Q) & _); exact Q).
      apply fine_bind. eapply fine_weak; [apply fine_find_module; [apply G1|left; intros Q; now apply (label_no actual)]|]. intros o s' [-> Ho]. rewrite S1 in Ho.
      destruct o as [y|]; [|exfalso; apply (Hs m actual); split; [exact Kx|now symmetry]].
      destruct (is_package (n_kind y) || is_nspkg (n_kind y) || is_module (n_kind y)) eqn:Hk.
      + apply Go; [eapply grown_moved; exact G1| |exact Hk]. rewrite S1. now symmetry.
      + apply fine_ret. eapply grown_moved. exact G1.
  Qed.

  Definition run_ok (k : nat) : Prop := forall s, Inv s -> settled s -> fine (f_run (exec E k)) (fun _ s' => moved s s') s.
  Definition post_ok (k : nat) : Prop := forall i n s, Inv s -> settled s -> kind_of s n <> None -> fine (f_post (exec E k) i n) (fun _ s' => moved s s') s.

  (** ** Calls *)

  Lemma fine_note e s (Q : unit -> st -> Prop) : (grown 0 s (log s e) -> Q tt (log s e)) -> Inv s -> fine (note e) Q s.
  Proof. intros F H. unfold fine, note, modify. apply F. now apply grown_log. Qed.

  Lemma fine_module k name s : run_ok k -> Inv s -> settled s -> module_name name ->
    fine (add_module (exec E k) name) (fun id s' => moved s s' /\ id = name /\ kind_of s' name <> None) s.
  Proof.
    intros fine_run H Hs N. destruct (fine_exec k) as [HF _]. unfold add_module. apply fine_bind. eapply fine_weak; [apply fine_find_module; [exact H|left; intros Q; now apply (label_no name)]|].
    intros o s' [-> Ho]. apply fine_bind. apply (fine_weak _ (fun id s1 => id = name /\ moved s s1 /\ kind_of s1 name <> None)).
    - destruct o as [nd|].
      + apply fine_ret. split; [reflexivity|]. split; [now apply moved_refl|]. rewrite <- Ho. discriminate.
      + eapply fine_weak; [now apply HF|]. intros id s1 (A & B & C). split; [exact A|]. split; [eapply grown_moved; exact B|exact C].
    - intros id s1 (-> & G1 & K1). apply fine_bind, fine_note; [|apply G1]. intros G2. apply fine_bind.
      eapply fine_weak; [apply (fine_root name _ 0); [apply G2|exact K1]|]. intros u s3 G3. cbv beta in G3.
      assert (G : moved s s3) by (eapply moved_trans; [exact G1|]; eapply moved_trans; [eapply grown_moved; exact G2|eapply grown_moved; exact G3]).
      apply fine_bind. eapply fine_weak; [apply fine_run; [apply G|eapply settled_moved; eassumption]|]. intros u' s4 G4. apply fine_ret. split; [eapply moved_trans; eassumption|].
      split; [reflexivity|]. eapply in_keep; [apply G4|]. eapply in_keep; [apply G3|exact K1].
  Qed.

  Lemma fine_script k f s : run_ok k -> Inv s -> settled s -> script_fine E f -> named_by f -> kind_of s f = None ->
    (forall t, exists tree, e_script E t f = ROk tree /\ forall p w, In (p, w) (sites [] tree) -> proper w) ->
    fine (add_script E (exec E k) f) (fun _ s' => moved s s') s.
  Proof.
    intros fine_run H Hs N Nf K Ht. unfold add_script. apply fine_bind. eapply fine_weak; [apply fine_find_module; [exact H|now right]|].
    intros o s' [-> Ho]. rewrite K in Ho. destruct o as [nd|]; [discriminate|]. apply fine_bind. destruct (Ht (s_clock s)) as (tree & Hp & Hw).
    unfold fine at 1, askr. rewrite Hp. destruct (extract_ast_info (e_names_order E) tree) as [l|] eqn:El; [|exact I].
    assert (Li : forall i, In i l -> okinfo i).
    { apply (tree_info tree l Hw); [|exact El]. intros Sf p w Hq. exact (sf_script E Sf _ _ _ p w Hp Hq). }
    assert (Lf : forall i, In i l -> okinfo i /\ (ii_level i <> 0 -> module_name f)).
    { intros i Hi. split; [now apply Li|]. intros Hl. destruct N as [N|[_ N]]; [exact N|]. exfalso. apply Hl. destruct (tree_covers _ tree l (wk_names E W) El) as [_ C].
      destruct (C i Hi) as (fn & opt & w & (p & Hq & _) & Hr & _). specialize (N _ _ p w Hp Hq). destruct w; cbn in *; [apply Hr|]. destruct Hr as (_ & -> & _). exact N. }
    assert (Of : okkind f Script) by (split; [split; [destruct N as [N|[N _]]; [now left|now right]|split; [exact Nf|now exists (s_clock s), tree]]|now split]).
    assert (Cn : clean (Node f Script [] [] None (Some f) [] false)) by (split; [intros _ []|intros _ d; discriminate]). set (n := Node f Script [] [] None (Some f) [] false).
    assert (G0 : grown (rank f) s (tick s)) by (apply grown_env; [exact H|eexists _, _; reflexivity]).
    apply fine_bind. eapply fine_weak; [now apply (fine_add n l (tick s))|]. intros u s1 A. cbv beta in A.
    assert (G1 : grown (rank f) (tick s) s1) by (apply (added_grown (tick s) s1 n); [apply G0|exact K|exact Cn|exact A|exact Of|apply le_n|discriminate]).
    pose proof (added_in _ _ _ A) as K1. cbn in K1.
    apply fine_bind. eapply fine_weak; [apply (fine_sched f l s1 0); [apply G1|rewrite K1; discriminate| |exact Lf]|].
    { intros _. exists Script. now split. }
    intros u' s2 [G2 S2]. apply fine_bind, fine_note; [|apply G2]. intros G3. apply fine_bind.
    eapply fine_weak; [apply (fine_root f _ 0); [apply G3|]|].
    { change (kind_of s2 f <> None). rewrite S2, K1. discriminate. }
    intros u'' s4 G4. cbv beta in G4. assert (G : moved s s4).
    { eapply moved_trans; [eapply grown_moved; exact G0|]. eapply moved_trans; [eapply grown_moved; exact G1|].
      eapply moved_trans; [eapply grown_moved; exact G2|]. eapply moved_trans; [eapply grown_moved; exact G3|eapply grown_moved; exact G4]. }
    apply fine_bind. eapply fine_weak; [apply fine_run; [apply G|eapply settled_moved; eassumption]|]. intros v s5 G5. apply fine_ret. eapply moved_trans; eassumption.
  Qed.

  Lemma fine_source k src s : run_ok k -> Inv s -> settled s ->
    (forall t, exists tree, e_parse E t "-source-code-" src = ROk tree /\ forall p w, In (p, w) (sites [] tree) -> w_level w = 0) ->
    fine (add_source E (exec E k) src) (fun _ s' => moved s s') s.
  Proof.
    intros fine_run H Hs Ht. unfold add_source. apply fine_bind. destruct (Ht (s_clock s)) as (tree & Hp & Hl).
    pose proof (wk_parse E W (s_clock s) "-source-code-" src) as Hw. rewrite Hp in Hw. unfold fine at 1, askr. rewrite Hp.
    destruct (extract_ast_info (e_names_order E) tree) as [l|] eqn:El; [|exact I].
    assert (G0 : moved s (tick s)) by (apply (grown_moved 0), grown_env; [exact H|eexists _, _; reflexivity]).
    assert (Li : forall i, In i l -> okinfo i /\ ii_level i = 0).
    { intros i Hi. split; [apply (tree_info tree l Hw); [|exact El|exact Hi]; intros Sf p w Hq; exact (sf_parse E Sf _ _ _ _ p w Hp Hq)|]. destruct (tree_covers _ tree l (wk_names E W) El) as [_ C].
      destruct (C i Hi) as (fn & opt & w & (p & Hq & _) & Hr & _). specialize (Hl p w Hq). destruct w; cbn in *; [apply Hr|]. destruct Hr as (_ & -> & _). exact Hl. }
    apply (fine_iter _ (fun i => okinfo i /\ ii_level i = 0) (fun s' => moved s s')); [|exact Li|exact G0].
    intros i s1 [(O1 & _ & O3) L] G1. specialize (O1 L). apply fine_bind.
    eapply fine_weak; [apply fine_module; [exact fine_run|apply G1|eapply settled_moved; eassumption|exact O1]|]. intros id s2 [G2 _].
    apply (fine_iter _ (fun nm => In nm (ii_names i)) (fun s' => moved s s')); [|auto|eapply moved_trans; eassumption].
    intros nm s3 Hn G3. destruct (O3 nm Hn) as (N1 & N2 & _). apply fine_bind.
    eapply fine_weak; [apply fine_module; [exact fine_run|apply G3|eapply settled_moved; eassumption|now constructor]|]. intros id' s4 [G4 _].
    apply fine_ret. eapply moved_trans; eassumption.
  Qed.

  Lemma fine_distribution k d s : run_ok k -> Inv s -> settled s -> usable E d -> named_by (dist_identifier d) ->
    fine (add_distribution E (exec E k) d) (fun _ s' => moved s s') s.
  Proof.
    intros fine_run H Hs (Ld & Kd & Nd) Nb. destruct (fine_exec k) as [HF _]. unfold add_distribution, get_node. apply fine_bind, fine_gets.
    set (id := dist_identifier d) in *. destruct (gfind (s_graph s) id) as [x|] eqn:Eg.
    { apply fine_bind, fine_assert; [|now apply fine_ret, moved_refl]. destruct (iv_kind s H id (n_kind x)) as (Q & _); [unfold kind_of; now rewrite Eg|].
      pose proof (label_no id Ld) as No. destruct (n_kind x); cbn in Q; try contradiction; try reflexivity; exfalso.
      - destruct Q as (_ & _ & t & tree & Q). now apply (Kd t tree).
      - now destruct Q.
      - destruct Q as (k' & m & Q1 & Q2). destruct (Ld k' m Q1) as [L1 L2]. now destruct Q2.
      - now destruct Q. }
    assert (K : kind_of s id = None) by (unfold kind_of; now rewrite Eg). set (n := Node id Distribution [] [] (Some d) None [] false).
    assert (Cn : clean n) by (split; [intros _ []|discriminate]).
    apply fine_bind. eapply fine_weak; [apply (fine_user n s K)|]. intros u s1 A. cbv beta in A.
    assert (G1 : grown (rank id) s s1) by (apply (added_grown s s1 n); [exact H|exact K|exact Cn|exact A|split; [now split|now split]|apply le_n|discriminate]).
    pose proof (added_in _ _ _ A) as K1. change (kind_of s1 id = Some Distribution) in K1.
    apply fine_bind, fine_note; [|apply G1]. intros G2. apply fine_bind.
    eapply fine_weak; [apply (fine_root id _ 0); [apply G2|change (kind_of s1 id <> None); rewrite K1; discriminate]|]. intros u' s3 G3. cbv beta in G3.
    assert (G : moved s s3).
    { eapply moved_trans; [eapply grown_moved; exact G1|]. eapply moved_trans; [eapply grown_moved; exact G2|eapply grown_moved; exact G3]. }
    assert (K3 : kind_of s3 id <> None) by (eapply in_keep; [apply G3|]; eapply in_keep; [apply G2|]; rewrite K1; discriminate).
    apply fine_bind. apply (fine_weak _ (fun _ s' => moved s s' /\ kind_of s' id <> None)).
    - apply (fine_iter _ (fun x => module_name x) (fun s' => moved s s' /\ kind_of s' id <> None)); [|exact Nd|now split].
      intros x s4 Hx [G4 K4]. apply fine_bind. eapply fine_weak; [apply HF; [apply G4|exact Hx]|]. intros m s5 (-> & G5 & K5).
      assert (K5' : kind_of s5 id <> None) by (eapply in_keep; [apply G5|exact K4]).
      eapply fine_weak; [apply (fine_edge id x _ s5 0); [apply G5|exact K5'|exact K5]|]. intros v s6 [G6 S6]. split; [|now rewrite S6].
      eapply moved_trans; [exact G4|]. eapply moved_trans; eapply grown_moved; eassumption.
    - intros v s4 [G4 _]. apply fine_bind. eapply fine_weak; [apply fine_run; [apply G4|eapply settled_moved; eassumption]|]. intros v' s5 G5. apply fine_ret. eapply moved_trans; eassumption.
  Qed.

  Lemma fine_import_module k n name s : Inv s -> kind_of s n <> None -> module_name name -> fine (import_module (exec E k) n name) (fun _ s' => moved s s') s.
  Proof.
    intros H Hn N. destruct (fine_exec k) as [HF _]. unfold import_module. apply fine_bind, fine_note; [|exact H]. intros G0. set (s0 := log s _) in *.
    apply fine_bind. eapply fine_weak; [apply fine_find_module; [apply G0|left; intros Q; now apply (label_no name)]|].
    intros o s' [-> Ho]. apply fine_bind. apply (fine_weak _ (fun id s1 => id = name /\ moved s0 s1 /\ kind_of s1 name <> None)).
    - destruct o as [nd|].
      + apply fine_ret. split; [reflexivity|]. split; [apply moved_refl, G0|]. rewrite <- Ho. discriminate.
      + eapply fine_weak; [apply HF; [apply G0|exact N]|]. intros id s1 (A & B & C). split; [exact A|]. split; [eapply grown_moved; exact B|exact C].
    - intros id s1 (-> & G1 & K1). apply fine_bind.
      eapply fine_weak; [apply (fine_edge n name _ s1 0); [apply G1|eapply in_keep; [apply G1|]; exact Hn|exact K1]|]. intros u s2 [G2 _]. apply fine_ret.
      eapply moved_trans; [eapply grown_moved; exact G0|]. eapply moved_trans; [exact G1|eapply grown_moved; exact G2].
  Qed.

  (** Other work waits meanwhile. *)
  Lemma fine_saved (m : M string) name s : Inv s ->
    (forall s0, moved s s0 -> fine m (fun id s1 => moved s0 s1 /\ id = name /\ kind_of s1 name <> None) s0) ->
    fine (saved_stack m) (fun id s' => moved s s' /\ id = name /\ kind_of s' name <> None) s.
  Proof.
    intros H F. unfold fine, saved_stack. set (s0 := set_saved (set_stack s []) (s_stack s :: s_saved s)).
    assert (G0 : moved s s0).
    { apply (grown_moved 0). apply grown_same; [exact H| |reflexivity]. constructor; cbn; auto.
      - intros id k K. exact K.
      - intros a b ds K. left. now exists ds.
      - intros w []. }
    specialize (F s0 G0). unfold fine in F. destruct (m s0) as [[[id|e] s1]|]; [|contradiction|exact I]. destruct F as (G1 & -> & K1).
    assert (G01 : moved s s1) by (eapply moved_trans; eassumption).
    split; [|split; [reflexivity|exact K1]]. eapply moved_trans; [exact G01|]. apply (grown_moved 0). apply grown_same; [apply G01| |reflexivity]. constructor; cbn; auto.
    - intros id k K. exact K.
    - intros a b ds K. left. now exists ds.
    - intros w Hw. apply in_app_or in Hw as [Hw|Hw]; [now left|right]. apply (okwork_keep s s1); [apply G01|]. now apply (iv_stack s H).
  Qed.
  Lemma fine_push n pkg s : Inv s -> okwork s (DoPackage n pkg) -> fine (push_package n pkg) (fun _ s' => moved s s') s.
  Proof.
    intros H Hw. apply fine_modify. apply (grown_moved 0). apply grown_same; [exact H| |reflexivity]. constructor; cbn; auto.
    - intros id k K. exact K.
    - intros a b ds K. left. now exists ds.
    - intros v [<-|Hv]; [right; exact Hw|now left].
  Qed.
  Lemma fine_directory k id pkg path s : Inv s -> kind_of s id <> None -> module_name pkg -> listing_fine E ->
    fine (import_directory E (exec E k) id pkg path) (fun _ s' => moved s s') s.
  Proof.
    intros H Ki N L. destruct (fine_exec k) as [HF _]. unfold import_directory. apply fine_bind. destruct (lf_py E L (s_clock s) path) as (stems & Hp & Hx). unfold fine at 1, askr. rewrite Hp.
    assert (G0 : moved s (tick s)) by (apply (grown_moved 0), grown_env; [exact H|eexists _, _; reflexivity]).
    apply fine_bind. apply (fine_weak _ (fun _ s' => moved s s')).
    - apply (fine_iter _ (fun x => In x stems) (fun s' => moved s s')); [|auto|exact G0]. intros stem s1 Hi G1.
      destruct (e_isidentifier E stem) eqn:Ei; [|now apply fine_ret]. destruct (Hx stem Hi Ei) as [P1 P2]. set (name := pkg ++ "." ++ stem).
      assert (Nn : module_name name) by now constructor. apply fine_bind, fine_note; [|apply G1]. intros G2.
      apply fine_bind. eapply fine_weak; [apply HF; [apply G2|exact Nn]|]. intros m s3 (-> & G3 & K3).
      assert (Kd : kind_of s3 id <> None) by (eapply in_keep; [apply G3|]; eapply in_keep; [apply G2|]; eapply in_keep; [apply G1|exact Ki]).
      apply fine_bind. eapply fine_weak; [apply (fine_edge id name _ s3 0); [apply G3|exact Kd|exact K3]|]. intros u s4 [G4 S4].
      eapply fine_weak; [apply fine_push; [apply G4|]|].
      + split; [exact L|]. split; [now rewrite S4|exact Nn].
      + intros u' s5 G5. eapply moved_trans; [exact G1|]. eapply moved_trans; [eapply grown_moved; exact G2|]. eapply moved_trans; [eapply grown_moved; exact G3|].
        eapply moved_trans; [eapply grown_moved; exact G4|exact G5].
    - intros u s1 G1. apply fine_bind. destruct (lf_dirs E L (s_clock s1) path) as (dirs & Hd & Hy). unfold fine at 1, askr. rewrite Hd.
      assert (G2 : moved s (tick s1)) by (eapply moved_trans; [exact G1|]; apply (grown_moved 0), grown_env; [apply G1|eexists _, _; reflexivity]).
      apply (fine_iter _ (fun x => In x dirs) (fun s' => moved s s')); [|auto|exact G2]. intros dir s3 Hi G3.
      destruct (e_isidentifier E dir) eqn:Ei; [|now apply fine_ret]. destruct (Hy dir Hi Ei) as [P1 P2].
      apply fine_bind, fine_note; [|apply G3]. intros G4. eapply fine_weak; [apply fine_push; [apply G4|]|].
      + split; [exact L|]. split; [eapply in_keep; [apply G4|]; eapply in_keep; [apply G3|exact Ki]|now constructor].
      + intros u' s5 G5. eapply moved_trans; [exact G3|]. eapply moved_trans; [eapply grown_moved; exact G4|exact G5].
  Qed.
  Lemma fine_package k n pkg s : run_ok k -> Inv s -> settled s -> kind_of s n <> None -> module_name pkg -> listing_fine E ->
    fine (import_package E (exec E k) n pkg) (fun _ s' => moved s s') s.
  Proof.
    intros fine_run H Hs Hn N L. destruct (fine_exec k) as [HF _]. unfold import_package.
    apply fine_bind. eapply fine_weak; [apply fine_find_module; [exact H|left; intros Q; now apply (label_no pkg)]|]. intros o s' [-> Ho].
    apply fine_bind. eapply fine_weak; [apply (fine_saved _ pkg); [exact H|]|].
    - intros s0 G0. apply fine_bind. apply (fine_weak _ (fun id s1 => id = pkg /\ moved s0 s1 /\ kind_of s1 pkg <> None)).
      + destruct o as [nd|].
        * apply fine_ret. split; [reflexivity|]. split; [apply moved_refl, G0|]. eapply in_keep; [apply G0|]. rewrite <- Ho. discriminate.
        * eapply fine_weak; [apply HF; [apply G0|exact N]|]. intros id s1 (A & B & C). split; [exact A|]. split; [eapply grown_moved; exact B|exact C].
      + intros id s1 (-> & G1 & K1). apply fine_bind. eapply fine_weak; [apply fine_run; [apply G1|]|].
        * eapply settled_moved; [|exact G1]. eapply settled_moved; eassumption.
        * intros u s2 G2. apply fine_ret. split; [eapply moved_trans; eassumption|]. split; [reflexivity|]. eapply in_keep; [apply G2|exact K1].
    - intros id s1 (G1 & -> & K1). apply fine_bind.
      eapply fine_weak; [apply (fine_edge n pkg _ s1 0); [apply G1|eapply in_keep; [apply G1|exact Hn]|exact K1]|]. intros u s2 [G2 S2].
      assert (G02 : moved s s2) by (eapply moved_trans; [exact G1|eapply grown_moved; exact G2]).
      apply fine_bind, fine_kind. destruct (kind_of s2 pkg) as [kd|] eqn:Ek; [|now apply fine_ret]. destruct (is_package kd) eqn:Ep; [|now apply fine_ret]. cbn [negb].
      destruct (iv_kind s2 (mv_inv _ _ G02) pkg kd Ek) as [Q _].
      assert (Q' : exists sp, importable E sp /\ sp_name sp = pkg) by (destruct kd; try discriminate; apply Q). destruct Q' as (sp & Qi & Qn).
      apply fine_bind. unfold fine at 1, find_spec. destruct (lf_found E L sp Qi (s_clock s2) (s_fakes s2)) as [sp' Hf]. rewrite Qn in Hf. rewrite Hf.
      assert (G3 : moved s (tick s2)) by (eapply moved_trans; [exact G02|]; apply (grown_moved 0), grown_env; [apply G02|eexists _, _; reflexivity]).
      apply fine_bind. apply (fine_weak _ (fun _ s' => moved s s' /\ kind_of s' pkg <> None)).
      + apply (fine_iter _ (fun _ => True) (fun s' => moved s s' /\ kind_of s' pkg <> None)); [|auto|split; [exact G3|change (kind_of s2 pkg <> None); rewrite Ek; discriminate]].
        intros path s4 _ [G4 K4]. eapply fine_weak; [apply fine_directory; [apply G4|exact K4|exact N|exact L]|]. intros v s5 G5. split; [eapply moved_trans; eassumption|].
        eapply in_keep; [apply G5|exact K4].
      + intros v s4 [G4 _]. now apply fine_ret.
  Qed.

  Lemma conf_moved s l e : Inv s -> (forall k i, assoc k l = Some i -> assoc k (s_lazy s) = Some i \/ (named i /\ ranked_conf firm rank k i)) ->
    (assoc "__main__" (s_lazy s) = Some ImpNone -> assoc "__main__" l = Some ImpNone) -> moved s (log (set_lazy s l) e).
  Proof.
    intros [A1 A2 A3 A4 A5 A6 A7 A8] Hl Hm. constructor; [|intros id k K; exact K|intros id t D; exact D]. constructor; auto; cbn.
    - intros k i K. destruct (Hl k i K) as [Q|Q]; [now apply A4|exact Q].
    - destruct A5 as [M|M]; [left; cbn; now apply Hm|right; exact M].
  Qed.
  Lemma hooks_moved s s' : Inv s -> (forall h, In h (s_post s') -> post_fine E ok h) -> (forall h, In h (s_missing s') -> missing_fine E h) ->
    set_post (set_missing s' []) [] = set_post (set_missing s []) [] -> moved s s'.
  Proof.
    intros [A1 A2 A3 A4 A5 A6 A7 A8] B6 B7 Q. destruct s, s'. cbn in Q. injection Q as -> -> -> -> -> -> -> -> -> ->.
    constructor; [|intros id k K; exact K|intros id t D; exact D]. constructor; auto.
  Qed.
  Lemma excluded_assoc names : forall l k i, assoc k (add_excludes names l) = Some i -> assoc k l = Some i \/ (i = ImpNone /\ In k names).
  Proof.
    unfold add_excludes. induction names as [|nm names IH]; intros l k i; cbn [fold_left]; [auto|]. intros K.
    destruct (IH _ _ _ K) as [Q|[Q1 Q2]]; [|right; split; [exact Q1|now right]]. rewrite BuilderKinds.assoc_lazy_set in Q.
    destruct (seqb k nm) eqn:Es; [|now left]. apply seqb_eq in Es. subst. injection Q as <-. right. split; [reflexivity|now left].
  Qed.
  Lemma excluded_main names : forall l, assoc "__main__" l = Some ImpNone -> assoc "__main__" (add_excludes names l) = Some ImpNone.
  Proof.
    unfold add_excludes. induction names as [|nm names IH]; intros l; cbn [fold_left]; [auto|]. intros K. apply IH.
    rewrite BuilderKinds.assoc_lazy_set. now destruct (seqb "__main__" nm).
  Qed.
  Lemma implied_assoc imps : forall l k i, assoc k (add_implies imps l) = Some i -> assoc k l = Some i \/ In (k, i) imps.
  Proof.
    unfold add_implies. induction imps as [|[k0 i0] imps IH]; intros l k i; cbn [fold_left fst snd]; [auto|]. intros K.
    destruct (IH _ _ _ K) as [Q|Q]; [|right; now right].
    assert (R : assoc k (lazy_set k0 i0 l) = Some i -> assoc k l = Some i \/ In (k, i) ((k0, i0) :: imps)).
    { rewrite BuilderKinds.assoc_lazy_set. destruct (seqb k k0) eqn:Es; [|now left]. apply seqb_eq in Es. subst. intros [= <-]. right. now left. }
    destruct (assoc k0 l) as [[| | |]|]; auto.
  Qed.
  Lemma implied_main imps : forall l, assoc "__main__" l = Some ImpNone -> assoc "__main__" (add_implies imps l) = Some ImpNone.
  Proof.
    unfold add_implies. induction imps as [|[k0 i0] imps IH]; intros l; cbn [fold_left fst snd]; [auto|]. intros K. apply IH.
    assert (R : seqb "__main__" k0 = false -> assoc "__main__" (lazy_set k0 i0 l) = Some ImpNone) by (intros Q; now rewrite BuilderKinds.assoc_lazy_set, Q).
    destruct (seqb "__main__" k0) eqn:Es; [apply seqb_eq in Es; subst k0; now rewrite K|].
    destruct (assoc k0 l) as [[| | |]|]; auto.
  Qed.

  Definition prog_ok (k : nat) : Prop := forall s p, Inv s -> settled s -> polite E ok s p -> fine (f_prog (exec E k) p) (fun _ s' => moved s s') s.
  Lemma fine_action k a s : run_ok k -> prog_ok k -> Inv s -> settled s -> meant E ok s a -> ok s a -> fine (do_action E (exec E k) a) (fun ans s' => moved s s' /\ forall e, ans <> AnsErr e) s.
  Proof.
    intros fine_run Hprog H Hs Ha Hok. pose proof (cf_tame _ _ _ _ _ OK s a Hok) as Ht.
    assert (In_kind : forall id, in_graph s id -> kind_of s id <> None).
    { intros id K. unfold in_graph in K. unfold kind_of. destruct (gfind (s_graph s) id); [discriminate|contradiction]. }
    destruct Ha as [s name N|s f K Hp|s src Hp|s n name K N|s d Ud|s name Ud|s names|s l Hn|s|s m|s a b d Ka Kb|s a Ka|s|s n name K N L|s p Hp|s n Hn|s P HP|s h HP|s h HM]; cbn [do_action tame] in *.
    - apply fine_bind. eapply fine_weak; [now apply fine_module|]. intros id s' [G _]. apply fine_ret; split; [exact G|discriminate].
    - apply fine_bind. eapply fine_weak; [apply fine_script; auto; [now apply (cf_script _ _ _ _ _ OK s)|]|].
      + unfold in_graph in K. unfold kind_of. destruct (gfind (s_graph s) f); [elim K; discriminate|reflexivity].
      + intros id s' G. apply fine_ret; split; [exact G|discriminate].
    - apply fine_bind. eapply fine_weak; [now apply fine_source|]. intros u s' G. apply fine_ret; split; [exact G|discriminate].
    - apply fine_bind. eapply fine_weak; [apply fine_import_module; auto|].
      + intros id s' G. apply fine_ret; split; [exact G|discriminate].
    - apply fine_bind. eapply fine_weak; [apply fine_distribution; auto; now apply (cf_dist _ _ _ _ _ OK s)|]. intros id s' G. apply fine_ret; split; [exact G|discriminate].
    - apply fine_bind. unfold add_distribution_named. apply fine_bind. destruct (Ud (s_clock s)) as (d & Hd & U). unfold fine at 1, askr. rewrite Hd.
      assert (G0 : moved s (tick s)) by (apply (grown_moved 0), grown_env; [exact H|eexists _, _; reflexivity]).
      eapply fine_weak; [apply fine_distribution; [exact fine_run|apply G0|eapply settled_moved; eassumption|exact U|now apply (cf_named _ _ _ _ _ OK s name (s_clock s))]|].
      intros id s' G. apply fine_ret; split; [eapply moved_trans; eassumption|discriminate].
    - apply fine_bind, fine_modify, fine_ret. split; [|discriminate]. apply conf_moved; [exact H| |apply excluded_main].
      intros k' i Q. apply excluded_assoc in Q as [Q|[-> Q]]; [now left|right]. split; [exact I|]. now apply Ht.
    - apply fine_bind, fine_modify, fine_ret. split; [|discriminate]. apply conf_moved; [exact H| |apply implied_main].
      intros k' i Q. apply implied_assoc in Q as [Q|Q]; [now left|right]. split; [now apply (Hn k')|now apply Ht].
    - apply fine_gets. split; [now apply moved_refl|discriminate].
    - apply fine_bind, fine_modify, fine_ret. split; [|discriminate]. apply (grown_moved 0), grown_same; [exact H| |reflexivity]. constructor; cbn; auto.
      + intros id kd K. exact K.
      + intros x y ds K. left. now exists ds.
    - apply fine_bind, fine_note; [|exact H]. intros G0. apply fine_bind.
      eapply fine_weak; [apply (fine_edge a b d _ 0); [apply G0|now apply In_kind|now apply In_kind]|]. intros u s1 [G1 _]. apply fine_ret. split; [|discriminate].
      eapply grown_moved. eapply grown_trans; eassumption.
    - apply fine_bind, fine_note; [|exact H]. intros G0. apply fine_bind.
      eapply fine_weak; [apply (fine_root a _ 0); [apply G0|now apply In_kind]|]. intros u s1 G1. apply fine_ret. split; [|intros e; discriminate].
      eapply grown_moved. eapply grown_trans; [exact G0|exact G1].
    - apply fine_bind. eapply fine_weak; [now apply fine_run|]. intros u s1 G1. apply fine_ret. split; [exact G1|discriminate].
    - apply fine_bind, fine_note; [|exact H]. intros G0. apply fine_bind.
      eapply fine_weak; [apply fine_package; [exact fine_run|apply G0|eapply settled_moved; [exact Hs|eapply grown_moved; exact G0]|now apply In_kind|exact N|exact L]|].
      intros id s1 G1. apply fine_ret. split; [|discriminate]. eapply moved_trans; [eapply grown_moved; exact G0|exact G1].
    - apply fine_bind. unfold hook_context. apply fine_bind, fine_attempt. eapply fine_weak; [now apply Hprog|]. intros o s1 G1. cbv beta.
      apply fine_bind. eapply fine_weak; [apply fine_run; [apply G1|eapply settled_moved; eassumption]|]. intros u s2 G2. apply fine_ret. apply fine_ret.
      split; [exact (moved_trans s s1 s2 G1 G2)|intros e; discriminate].
    - apply fine_bind, fine_note; [|exact H]. intros G0. apply fine_bind. destruct Hn as [N1 N2 N3 N4 N5].
      assert (K : kind_of (log s (EvGiven (n_name n))) (n_name n) = None).
      { change (kind_of s (n_name n) = None). unfold in_graph in N1. unfold kind_of. destruct (gfind (s_graph s) (n_name n)); [elim N1; discriminate|reflexivity]. }
      eapply fine_weak; [exact (fine_user n _ K)|]. intros u s1 A. apply fine_ret. split; [|intros e; discriminate].
      eapply moved_trans; [eapply grown_moved; exact G0|]. apply (grown_moved (rank (n_name n))). apply (added_grown _ _ n); auto; [apply G0| | |].
      + split; [auto|]. intros _ d. rewrite N4. discriminate.
      + destruct N3 as [N3|[N3|N3]].
        * split; [|intros _; destruct (n_kind n); try discriminate; auto]. destruct (n_kind n); try discriminate; exact N2.
        * rewrite N3 in Ht |- *. split; [exact N2|]. intros F. now elim (Ht eq_refl).
        * rewrite N3 in Ht |- *. split; [exact N2|]. intros F. now elim (Ht eq_refl).
      + intros t Q. rewrite Q in N3. destruct N3 as [N3|[N3|N3]]; discriminate.
    - apply fine_bind, fine_modify, fine_ret. split; [|intros e; discriminate]. apply hooks_moved; [exact H| |apply H|reflexivity].
      intros h [<-|K]; [left; now exists P|now apply H].
    - apply fine_bind, fine_modify, fine_ret. split; [|intros e; discriminate]. apply hooks_moved; [exact H| |apply H|reflexivity].
      intros h' [<-|K]; [now right|now apply H].
    - apply fine_bind, fine_modify, fine_ret. split; [|intros e; discriminate]. apply hooks_moved; [exact H|apply H| |reflexivity].
      intros h' [<-|K]; [exact HM|now apply H].
  Qed.

  (** ** Hooks *)

  Lemma moved_later s s' : moved s s' -> later s s'.
  Proof.
    intros G id x K. assert (Q : kind_of s id = Some (n_kind x)) by (unfold kind_of; now rewrite K). apply (mv_keep _ _ G) in Q.
    unfold kind_of in Q. destruct (gfind (s_graph s') id) as [y|]; [|discriminate]. injection Q as Q. now exists y.
  Qed.
  Lemma fine_call k a s (Q : answer -> st -> Prop) : fine (do_action E (exec E k) a) Q s -> fine (call E (exec E k) a) Q s.
  Proof.
    intros F. unfold call. apply fine_bind, fine_attempt. eapply fine_weak; [exact F|]. intros ans s' K. now apply fine_ret.
  Qed.
  Lemma fine_polite k s p : run_ok k -> prog_ok k -> Inv s -> settled s -> polite E ok s p -> fine (run_prog E (exec E k) p) (fun _ s' => moved s s') s.
  Proof.
    intros Hr Hq H Hs Hp. revert H Hs. induction Hp as [s o|s a c Ha Ht Hk IH]; intros H Hs; cbn [run_prog].
    - apply fine_ret. now apply moved_refl.
    - apply fine_bind. eapply fine_weak; [apply fine_call, fine_action; eassumption|]. intros ans s1 [G1 Na].
      eapply fine_weak; [apply (IH ans s1 Na); [now apply moved_later|apply G1|eapply settled_moved; eassumption]|].
      intros o s2 G2. eapply moved_trans; eassumption.
  Qed.
  Lemma extension_user s id n file : gfind (s_graph s) id = Some n -> extension_file n = Some file -> user s id.
  Proof.
    intros Hg Hx. exists (n_kind n). split; [unfold kind_of; now rewrite Hg|]. unfold extension_file in Hx. now destruct (n_kind n).
  Qed.
  Lemma fine_mypyc P k s id : mypyc_fine E P -> run_ok k -> Inv s -> settled s -> fine (run_prog E (exec E k) (mypyc_hook P id)) (fun _ s' => moved s s') s.
  Proof.
    intros HF Hr H Hs. cbn [mypyc_hook run_prog]. apply fine_bind, fine_call. cbn [do_action]. apply fine_gets.
    assert (Done : forall s', moved s s' -> fine (ret (@None string)) (fun _ s' => moved s s') s') by (intros s' G; exact G).
    pose proof (Done s (moved_refl s H)) as D0.
    destruct (gfind (s_graph s) id) as [n|] eqn:Eg; [|exact D0]. destruct (extension_file n) as [file|] eqn:Ex; [|exact D0].
    destruct (n_dist n) as [d|] eqn:Ed; [|exact D0]. destruct (helper_of P d) as [hm|] eqn:Eh; [|exact D0].
    pose proof (extension_user s id n file Eg Ex) as U. assert (Kn : is_distribution (n_kind n) = false) by (unfold extension_file in Ex; now destruct (n_kind n)).
    assert (Mi : module_name id).
    { destruct (iv_kind s H id (n_kind n)) as [Q _]; [unfold kind_of; now rewrite Eg|]. unfold extension_file in Ex. destruct (n_kind n); try discriminate; apply Q. }
    destruct (proj2 (iv_clean s H id n Eg) Kn d Ed) as (td & fd & Hd).
    assert (Nh : module_name hm).
    { unfold helper_of in Eh. apply find_some in Eh as [Eh _]. apply (mf_order E P HF) in Eh. eapply (mf_names E P HF); eassumption. }
    set (source := source_next_to P file). unfold mypyc_found. cbn [run_prog]. apply fine_bind, fine_call. cbn [do_action]. apply fine_bind. unfold fine at 1, ask.
    destruct (e_is_file E (s_clock s) source) eqn:Ef; apply fine_ret.
    2:{ apply Done. apply (grown_moved 0), grown_env; [exact H|eexists _, _; reflexivity]. }
    assert (G0 : moved s (tick s)) by (apply (grown_moved 0), grown_env; [exact H|eexists _, _; reflexivity]).
    cbn [run_prog]. apply fine_bind, fine_call. cbn [do_action]. apply fine_bind.
    eapply fine_weak; [apply fine_module; [exact Hr|apply G0|eapply settled_moved; eassumption|exact Nh]|]. intros x s1 (G1 & -> & K1). apply fine_ret.
    assert (G01 : moved s s1) by (eapply moved_trans; eassumption).
    cbn [run_prog]. apply fine_bind, fine_call. cbn [do_action]. apply fine_bind, fine_note; [|apply G1]. intros G2. apply fine_bind.
    eapply fine_weak; [apply (fine_edge id hm _ _ 0); [apply G2|eapply in_keep; [apply G01|now apply user_in]|exact K1]|]. intros u s3 [G3 _]. apply fine_ret.
    assert (G03 : moved s s3) by (eapply moved_trans; [exact G01|]; eapply moved_trans; eapply grown_moved; eassumption).
    unfold mypyc_source. cbn [run_prog]. apply fine_bind. unfold call at 1. apply fine_bind. cbn [do_action].
    destruct (mf_read E P HF (s_clock s) (s_clock s3) source Ef) as [text Et].
    assert (G04 : moved s (tick s3)) by (eapply moved_trans; [exact G03|]; apply (grown_moved 0), grown_env; [apply G03|eexists _, _; reflexivity]).
    assert (G05 : moved s (tick (tick s3))) by (eapply moved_trans; [exact G04|]; apply (grown_moved 0), grown_env; [apply G04|eexists _, _; reflexivity]).
    unfold fine at 1, attempt, bind at 1, askr at 1. rewrite Et. unfold bind at 1, askr at 1.
    destruct (e_parse E (s_clock (tick s3)) source text) as [tree|e] eqn:Ep.
    2:{ pose proof (wk_parse E W (s_clock (tick s3)) source text) as K. rewrite Ep in K. subst e. apply fine_bind, fine_note; [|apply G05]. intros G6. apply fine_ret.
        apply Done. eapply moved_trans; [exact G05|eapply grown_moved; exact G6]. }
    destruct (extract_ast_info (e_names_order E) tree) as [l|] eqn:El; [|exact I].
    assert (Li : forall i, In i l -> okinfo i).
    { apply (tree_info tree l); [| |exact El].
      - pose proof (wk_parse E W (s_clock (tick s3)) source text) as K. rewrite Ep in K. exact K.
      - intros Sf p w Hq. exact (sf_parse E Sf _ _ _ _ p w Ep Hq). }
    apply fine_ret. destruct l as [|i l]; [now apply Done|]. cbn [run_prog]. apply fine_bind, fine_call. cbn [do_action]. unfold get_node. apply fine_bind, fine_gets.
    assert (U5 : user (tick (tick s3)) id) by (eapply user_keep; [apply G05|exact U]).
    destruct (gfind (s_graph (tick (tick s3))) id) as [y|] eqn:Ey.
    2:{ destruct U5 as (kd & U5 & _). unfold kind_of in U5. rewrite Ey in U5. discriminate. }
    apply fine_bind, fine_note; [|apply G05]. intros G6. apply fine_bind.
    eapply fine_weak; [apply (fine_sched id (i :: l) _ 0); [apply G6|now apply user_in|intros _; exact U5|intros j Hj; split; [now apply Li|auto]]|]. intros v s7 [G7 _]. apply fine_ret.
    assert (G07 : moved s s7) by (eapply moved_trans; [exact G05|]; eapply moved_trans; eapply grown_moved; eassumption).
    cbn [run_prog]. apply fine_bind, fine_call. cbn [do_action]. apply fine_bind. eapply fine_weak; [apply Hr; [apply G07|eapply settled_moved; eassumption]|].
    intros v' s8 G8. apply fine_ret. cbn [run_prog]. apply Done. eapply moved_trans; eassumption.
  Qed.

  Lemma fine_post k : run_ok k -> prog_ok k -> post_ok k -> post_ok (S k).
  Proof.
    intros Hr Hq Hp i n s H Hs Kn. cbn [exec f_post]. unfold post_body. apply fine_bind, fine_gets.
    destruct (nth_error (s_post s) i) as [h|] eqn:En; [|now apply fine_ret, moved_refl]. apply nth_error_In in En. apply fine_bind.
    apply (fine_weak _ (fun _ s' => moved s s')).
    - destruct (iv_post s H h En) as [(P & -> & F)|Q]; [now apply fine_mypyc|]. apply fine_polite; auto. apply Q.
      unfold in_graph. unfold kind_of in Kn. now destruct (gfind (s_graph s) n).
    - intros o s1 G1. eapply fine_weak; [apply Hp; [apply G1|eapply settled_moved; eassumption|eapply in_keep; [apply G1|exact Kn]]|].
      intros u s2 G2. eapply moved_trans; eassumption.
  Qed.
  Lemma fine_work k w s : run_ok k -> post_ok k -> Inv s -> settled s -> okwork s w -> fine (do_work E (exec E k) w) (fun _ s' => moved s s') s.
  Proof.
    intros Hr Hp H Hs Hw. destruct w as [n|n i|n m i|n pkg]; cbn [do_work okwork] in *.
    - apply fine_bind, fine_modify. pose proof (grown_moved _ _ _ (grown_log 0 s (EvHook n) H)) as G.
      eapply fine_weak; [apply Hp; [apply G|eapply settled_moved; eassumption|exact Hw]|]. intros u s' G'. eapply moved_trans; eassumption.
    - now apply fine_import.
    - now apply fine_namelist.
    - apply fine_bind. eapply fine_weak; [now apply fine_package|]. intros id s1 G1. now apply fine_ret.
  Qed.
  Lemma fine_round k : run_ok k -> post_ok k -> run_ok (S k).
  Proof.
    intros IH Hp s H Hs. cbn [exec f_run]. unfold run_body. destruct (s_stack s) as [|w rest] eqn:Est.
    { unfold fine. rewrite Est. now apply moved_refl. }
    set (s1 := log (set_run (set_stack s rest) (w :: s_run s)) (EvPop w)).
    assert (G1 : moved s s1).
    { apply (grown_moved 0). apply grown_same; [exact H| |reflexivity]. constructor; cbn; auto.
      - intros id kd K. exact K.
      - intros a b ds K. left. now exists ds.
      - intros v Hv. left. rewrite Est. now right. }
    pose proof (fine_work k w s1 IH Hp (mv_inv _ _ G1) (settled_moved _ _ Hs G1)) as Fw. unfold fine in Fw |- *. rewrite Est. fold s1.
    destruct (do_work E (exec E k) w s1) as [[[u|e] s2]|]; [|apply Fw|exact I].
    2:{ eapply okwork_keep; [apply G1|]. apply (iv_stack s H). rewrite Est. now left. }
    assert (G2 : moved s s2).
    { eapply moved_trans; [exact G1|]. apply Fw. eapply okwork_keep; [apply G1|]. apply (iv_stack s H). rewrite Est. now left. }
    set (s3 := log (set_run s2 (tl (s_run s2))) (EvDone w)).
    assert (G3 : moved s s3).
    { eapply moved_trans; [exact G2|]. apply (grown_moved 0). apply grown_same; [apply G2| |reflexivity]. constructor; cbn; auto.
      - intros id kd K. exact K.
      - intros a b ds K. left. now exists ds. }
    pose proof (IH s3 (mv_inv _ _ G3) (settled_moved _ _ Hs G3)) as Fr. unfold fine in Fr.
    destruct (f_run (exec E k) s3) as [[[u'|e] s4]|]; auto. eapply moved_trans; eassumption.
  Qed.
  Lemma fine_all : forall k, run_ok k /\ post_ok k /\ prog_ok k.
  Proof.
    induction k as [|k (A & B & C)]; [repeat split; repeat intro; exact I|]. split; [now apply fine_round|]. split; [now apply fine_post|].
    intros s p H Hs Hp. change (f_prog (exec E (S k)) p) with (run_prog E (exec E k) p). now apply fine_polite.
  Qed.

  Theorem top_fine fuel a s ans s' : Inv s -> settled s -> meant E ok s a -> ok s a -> top_call E fuel a s = Some (ans, s') ->
    (forall e, ans <> AnsErr e) /\ Inv s' /\ settled s'.
  Proof.
    intros H Hs Ha Ht. unfold top_call, call. pose proof (fine_action fuel a s (proj1 (fine_all fuel)) (proj2 (proj2 (fine_all fuel))) H Hs Ha Ht) as F. unfold fine in F.
    unfold bind, attempt. destruct (do_action E (exec E fuel) a s) as [[[x|e] s1]|]; [|contradiction|discriminate].
    destruct F as [F A]. intros [= <- <-]. split; [exact A|]. split; [apply F|eapply settled_moved; eassumption].
  Qed.

  (** A path that nobody adds. *)
  Lemma fresh_label s f : Inv s -> label f -> ~ named_by f -> ~ in_graph s f.
  Proof.
    intros H Hl Hn. unfold in_graph. destruct (gfind (s_graph s) f) as [x|] eqn:Eg; [|intros Q; now apply Q]. exfalso.
    destruct (iv_kind s H f (n_kind x)) as (Q & _); [unfold kind_of; now rewrite Eg|]. pose proof (label_no f Hl) as No.
    destruct (n_kind x); cbn in Q; try contradiction; try (now destruct Q).
    destruct Q as (k & m & Q1 & Q2). destruct (Hl k m Q1) as [L1 L2]. now destruct Q2.
  Qed.
  Lemma init_fine post missing implies : (forall h, In h post -> post_fine E ok h) -> (forall h, In h missing -> missing_fine E h) -> (forall k i, In (k, i) implies -> named i /\ ranked_conf firm rank k i) -> ~ firm "__main__" ->
    Inv (init implies post missing) /\ settled (init implies post missing).
  Proof.
    intros HP HM H F. split; [|intros id t [A _]; discriminate]. constructor; cbn; try reflexivity; try discriminate; try contradiction; try assumption.
    - intros k i K. apply implied_assoc in K as [K|K]; [|now apply H]. cbn [assoc] in K. destruct (seqb k "__main__") eqn:Es; [|discriminate].
      apply seqb_eq in Es. subst k. injection K as <-. now split.
    - left. now apply implied_main.
  Qed.
End fine.
