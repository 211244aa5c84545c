(** C77, C78, C79: missing modules, and modules that stand for others. *)
From Verif Require Export BuilderOrigin PropsBuilder World.
From Verif Require Import BuilderAttr.
Open Scope string_scope.

(** ** Names *)

Lemma find_sub_none p s : has_sub p s = false -> find_sub p s = None.
Proof.
  induction s as [|a s IH]; rewrite has_sub_eq; cbn [find_sub]; intros H; apply orb_false_elim in H as [A B]; rewrite A; [reflexivity|].
  now rewrite (IH B).
Qed.
Lemma starts_short p : forall a b, String.length p <= String.length a -> starts_with p (a ++ b) = starts_with p a.
Proof.
  induction p as [|c p IH]; intros a b H; [now destruct (a ++ b), a|]. destruct a as [|d a]; [cbn in H; lia|].
  unfold starts_with in *. cbn [append String.prefix]. cbn in H. destruct (ascii_dec c d); [apply IH; lia|reflexivity].
Qed.
Lemma find_sub_moves p x : has_sub ".moves." (p ++ ".moves") = false -> find_sub ".moves." (p ++ ".moves." ++ x) = Some (String.length p).
Proof.
  induction p as [|a p IH]; intros H; [now destruct x|].
  cbn [append] in H. rewrite has_sub_eq in H. apply orb_false_elim in H as [A B].
  change ((String a p ++ ".moves." ++ x)) with (String a (p ++ ".moves." ++ x)). cbn [find_sub].
  assert (Hs : starts_with ".moves." (String a (p ++ ".moves." ++ x)) = false).
  { replace (String a (p ++ ".moves." ++ x)) with (String a (p ++ ".moves") ++ "." ++ x).
    - rewrite starts_short; [exact A|]. cbn. rewrite length_app_s. cbn. lia.
    - cbn. f_equal. now rewrite <- app_assoc_s. }
  rewrite Hs, (IH B). reflexivity.
Qed.

Lemma six_relative_known l name : six_known l name -> ends_with ".moves" name = false ->
  exists p t, name = p ++ ".moves." ++ six_relative name /\ In (six_relative name, t) six_modules /\ ~ In (six_relative name) l.
Proof.
  intros [A|(p & x & t & A & B & C & D)] F; [congruence|]. exists p, t.
  assert (R : six_relative name = x).
  { unfold six_relative. rewrite A, find_sub_moves.
    - rewrite app_assoc_s. replace (String.length p + 7) with (String.length (p ++ ".moves.")) by (now rewrite length_app_s). apply sdrop_app.
    - apply not_true_iff_false. intros K. apply D. now apply has_sub_occurs. }
  now rewrite R.
Qed.
Lemma listed_table x t : In (x, t) six_modules -> ~ In x six_unlisted -> assoc x SIX_MOVES_TO <> None.
Proof.
  intros H K. assert (A : forallb (fun '(x, _) => memb x six_unlisted || match assoc x SIX_MOVES_TO with Some _ => true | None => false end) six_modules = true)
    by (vm_compute; reflexivity).
  rewrite forallb_forall in A. specialize (A _ H). cbn beta iota in A. apply orb_true_iff in A as [A|A]; [apply memb_In in A; contradiction|].
  destruct (assoc x SIX_MOVES_TO); discriminate.
Qed.
Lemma same_table x t : In (x, t) six_modules -> ~ In x (six_unlisted ++ six_changed)%list -> assoc x SIX_MOVES_TO = Some t.
Proof.
  intros H K. assert (A : forallb (fun '(x, t) => memb x (six_unlisted ++ six_changed)%list || match assoc x SIX_MOVES_TO with Some t' => seqb t' t | None => false end) six_modules = true)
    by (vm_compute; reflexivity).
  rewrite forallb_forall in A. specialize (A _ H). cbn beta iota in A. apply orb_true_iff in A as [A|A]; [apply memb_In in A; contradiction|].
  destruct (assoc x SIX_MOVES_TO) as [t'|]; [|discriminate]. apply seqb_eq in A. now subst.
Qed.
Lemma six_known_incl l l' name : incl l l' -> six_known l' name -> six_known l name.
Proof. intros I [A|(p & x & t & A & B & C & D)]; [now left|]. right. exists p, x, t. repeat split; auto. Qed.

(** ** The nodes for specs *)

Lemma moved_kind E sp n : moved E sp n -> real_kind (n_kind n) = true.
Proof. induction 1; auto. Qed.
Lemma moved_missing E name sp n : moved E sp n -> has_spec E name sp -> n_kind n = MissingModule ->
  unfound E (n_name n) \/ exists name' sp', has_spec E name' sp' /\ sp_name sp' = n_name n /\
    ((sp_loader sp' = LDistutils /\ unfound E "setuptools._distutils")
     \/ (sp_loader sp' = LSix /\ ends_with ".moves" (sp_name sp') = false /\ assoc (six_relative (sp_name sp')) SIX_MOVES_TO = None)).
Proof.
  intros H. revert name. induction H as [sp n A B C D|sp n A B C D F|sp A B C|sp t A B C D|sp t other n A B C D H IH|sp root vendor x A B C
    |sp root vendor x other n A B C H IH|sp root vendor x other n A B C D H IH|sp A B C|sp other n A B H IH]; intros name HS Hk; try contradiction.
  - right. exists name, sp. auto 6.
  - left. exact D.
  - eapply IH; eassumption.
  - left. cbn. destruct C as [C|[C _]]; [now apply none_unfound|exact C].
  - eapply IH; eassumption.
  - eapply IH; eassumption.
  - right. exists name, sp. auto 6.
  - eapply IH; eassumption.
Qed.
Lemma vendor_relative root x : sdrop (String.length root + 1) (root ++ "." ++ x) = x.
Proof. rewrite app_assoc_s. replace (String.length root + 1) with (String.length (root ++ ".")) by (now rewrite length_app_s). apply sdrop_app. Qed.
Lemma moved_stands E name sp n : regular E -> moved E sp n -> has_spec E name sp -> stands_for E sp (n_name n).
Proof.
  intros R H. revert name. induction H as [sp n A B C D|sp n A B C D F|sp A B C|sp t A B C D|sp t other n A B C D H IH|sp root vendor x A B C
    |sp root vendor x other n A B C H IH|sp root vendor x other n A B C D H IH|sp A B C|sp other n A B H IH]; intros name HS.
  - rewrite B. now apply sf_own.
  - rewrite C. now apply sf_moves.
  - exfalso. destruct (six_relative_known _ _ (rg_six E R _ _ HS A) B) as (p & t & P1 & P2 & P3).
    apply (listed_table _ _ P2); [|exact C]. intros K. apply P3. apply in_or_app. now left.
  - destruct (six_relative_known _ _ (rg_six E R _ _ HS A) B) as (p & t' & P1 & P2 & P3).
    pose proof (same_table _ _ P2 P3) as K. rewrite C in K. injection K as <-. apply sf_six_gone; [exact A|(exists p, (six_relative (sp_name sp)); split; assumption)|exact D].
  - destruct (six_relative_known _ _ (rg_six E R _ _ HS A) B) as (p & t' & P1 & P2 & P3).
    pose proof (same_table _ _ P2 P3) as K. rewrite C in K. injection K as <-. apply (sf_six E sp t other); [exact A|(exists p, (six_relative (sp_name sp)); split; assumption)|exact D|].
    eapply IH; exact D.
  - destruct (rg_vendor E R _ _ _ _ HS A) as (x' & X1 & X2). rewrite X1, vendor_relative in B. subst x'.
    eapply sf_vendor_gone; [exact A|exact X1| |].
    + destruct C as [C|[C _]]; [now apply none_unfound|exact C].
    + destruct C as [C|[_ C]]; auto.
  - destruct (rg_vendor E R _ _ _ _ HS A) as (x' & X1 & X2). rewrite X1, vendor_relative in B. subst x'.
    eapply sf_vendored; [exact A|exact X1|exact C|]. eapply IH; exact C.
  - destruct (rg_vendor E R _ _ _ _ HS A) as (x' & X1 & X2). rewrite X1, vendor_relative in B. subst x'.
    eapply sf_installed; [exact A|exact X1|exact C|exact D|]. eapply IH; exact D.
  - apply sf_distutils_gone; assumption.
  - eapply sf_distutils; [exact A|exact B|]. eapply IH; exact B.
Qed.

(** The origin of a node of the graph. *)
Lemma node_came E s0 s name k : order_ok E -> start s0 -> reach E s0 s -> kind_of s name = Some k -> ~ In (EvGiven name) (s_log s) ->
  k <> Distribution -> exists y, n_name y = name /\ n_kind y = k /\ came E s y.
Proof.
  intros HE H0 HR Hk Hg Hd. assert (Hb : built s name) by (exists k; auto).
  destruct (built_added E s0 s _ HE H0 HR Hb) as (l & A). unfold kind_of in Hk.
  destruct (gfind (s_graph s) name) as [x|] eqn:Ex; [|discriminate]. injection Hk as Hk.
  destruct (traced_reach E s0 s H0 HR) as (_ & T). destruct (T _ _ _ A Ex) as (y & (Y1 & Y2 & _) & Y3). exists y.
  apply gfind_name in Ex. repeat split; congruence.
Qed.

(** ** C77: missing modules *)

Definition C77_statement : Prop := forall E s0 s name, order_ok E -> start s0 -> reach E s0 s ->
  kind_of s name = Some MissingModule -> ~ In (EvGiven name) (s_log s) -> absent E s name.

Theorem C77_partial : forall E s0 s name, order_ok E -> start s0 -> reach E s0 s ->
  kind_of s name = Some MissingModule -> ~ In (EvGiven name) (s_log s) ->
  absent E s name \/ exists name' sp, has_spec E name' sp /\ sp_name sp = name /\ sp_loader sp = LSix /\ ~ six_known six_unlisted name.
Proof.
  intros E s0 s name HE H0 HR Hk Hg. destruct (node_came E s0 s name _ HE H0 HR Hk Hg) as (y & Y1 & Y2 & Y3); [discriminate|].
  subst name. destruct Y3 as [name|name A|a name A|a name A|name sp n A B C|path|name sp n A B C|name A|name c p A B C]; try discriminate Y2.
  - destruct (moved_missing E _ _ _ B A Y2) as [K|(name' & sp' & K1 & K2 & [(K3 & K4)|(K3 & K4 & K5)])].
    + left. now apply ab_unfound.
    + left. eapply ab_distutils; eassumption.
    + right. exists name', sp'. repeat split; auto. rewrite <- K2. intros K.
      destruct (six_relative_known _ _ K K4) as (p & t & P1 & P2 & P3). now apply (listed_table _ _ P2 P3).
  - left. now apply ab_unfound.
  - left. now apply (ab_package E s name c p).
Qed.

(** ** C78: aliases *)

Definition C78_statement : Prop := forall E s0 s name t, order_ok E -> start s0 -> reach E s0 s ->
  kind_of s name = Some (AliasNode t) -> ~ In (EvGiven name) (s_log s) ->
  In (EvImplied name (ImpAlias t)) (s_log s) \/ (t <> name /\ exists sp, has_spec E name sp /\ stands_for E sp t).

Theorem C78_partial : forall E s0 s name t, order_ok E -> start s0 -> reach E s0 s -> regular E ->
  kind_of s name = Some (AliasNode t) -> ~ In (EvGiven name) (s_log s) ->
  In (EvImplied name (ImpAlias t)) (s_log s) \/ (t <> name /\ exists sp, has_spec E name sp /\ stands_for E sp t).
Proof.
  intros E s0 s name t HE H0 HR R Hk Hg. destruct (node_came E s0 s name _ HE H0 HR Hk Hg) as (y & Y1 & Y2 & Y3); [discriminate|].
  subst name. destruct Y3 as [name|name A|a name A|a name A|name sp n A B C|path|name sp n A B C|name A|name c p A B C]; try discriminate Y2.
  - left. now injection Y2 as <-.
  - right. injection Y2 as <-. split; [exact C|]. exists sp. split; [exact A|]. eapply moved_stands; eassumption.
  - apply moved_kind in B. rewrite Y2 in B. discriminate.
Qed.

(** ** C79: modules that stand for others *)

Lemma moved_other E name sp n name' sp' : regular E -> stand_in E name sp -> moved E sp' n -> has_spec E name' sp' -> n_name n <> name.
Proof.
  intros R HI H. revert name'. induction H as [sp' n A B C D|sp' n A B C D F|sp' A B C|sp' t A B C D|sp' t other n A B C D H IH|sp' root vendor x A B C
    |sp' root vendor x other n A B C H IH|sp' root vendor x other n A B C D H IH|sp' A B C|sp' other n A B H IH]; intros name' HS Hn.
  - rewrite B in Hn. pose proof (si_only _ _ _ HI _ _ HS Hn) as ->. destruct (si_loader _ _ _ HI) as [(L & _)|(v & L)]; rewrite L in A; discriminate.
  - rewrite C in Hn. pose proof (si_only _ _ _ HI _ _ HS Hn) as ->. destruct (si_loader _ _ _ HI) as [(L & K)|(v & L)]; [|congruence].
    rewrite Hn in B. congruence.
  - destruct (six_relative_known _ _ (rg_six E R _ _ HS A) B) as (p & t & P1 & P2 & P3).
    apply (listed_table _ _ P2); [|exact C]. intros K. apply P3. apply in_or_app. now left.
  - cbn in Hn. subst t. destruct D as (t & f & D). apply (D sp). apply (si_found _ _ _ HI).
  - eapply IH; eassumption.
  - cbn [plain_node n_name] in Hn. assert (U : unfound E (vendor ++ "." ++ x)) by (destruct C as [C|[C _]]; [now apply none_unfound|exact C]).
    destruct U as (t & f & U). apply (U sp). rewrite Hn. apply (si_found _ _ _ HI).
  - eapply IH; eassumption.
  - eapply IH; eassumption.
  - cbn in Hn. pose proof (si_only _ _ _ HI _ _ HS Hn) as ->. destruct (si_loader _ _ _ HI) as [(L & _)|(v & L)]; congruence.
  - eapply IH; eassumption.
Qed.

Definition C79_statement : Prop := forall E s0 s name sp k, order_ok E -> start s0 -> reach E s0 s -> ~ In EvErr (s_log s) ->
  stand_in E name sp -> kind_of s name = Some k -> ~ In (EvGiven name) (s_log s) ->
  k <> Script -> k <> Distribution -> k <> ExcludedModule -> (forall i, ~ In (EvImplied name i) (s_log s)) -> starts_with "." name = false ->
  (forall c p, child_of c name -> resolves s c p -> kind_of s p <> Some MissingModule) ->
  exists t, k = AliasNode t /\ t <> name /\ stands_for E sp t /\ package_edge s name t.

Theorem C79_partial : forall E s0 s name sp k, order_ok E -> start s0 -> reach E s0 s -> ~ In EvErr (s_log s) -> regular E ->
  stand_in E name sp -> kind_of s name = Some k -> ~ In (EvGiven name) (s_log s) ->
  k <> Script -> k <> Distribution -> k <> ExcludedModule -> (forall i, ~ In (EvImplied name i) (s_log s)) -> starts_with "." name = false ->
  (forall c p, child_of c name -> resolves s c p -> kind_of s p <> Some MissingModule) ->
  exists t, k = AliasNode t /\ t <> name /\ stands_for E sp t /\ package_edge s name t.
Proof.
  intros E s0 s name sp k HE H0 HR Hn R HI Hk Hg K1 Kd K2 K3 K4 K5.
  destruct (node_came E s0 s name _ HE H0 HR Hk Hg Kd) as (y & Y1 & Y2 & Y3). subst name k.
  destruct Y3 as [name|name A|a name A|a name A|name sp' n A B C|path|name sp' n A B C|name A|name c p A B C]; cbn [n_name n_kind plain_node] in *; try congruence.
  - now elim (K3 _ A).
  - now elim (K3 _ A).
  - assert (sp' = sp) as ->.
    { destruct A as (t & f & A). rewrite (si_found _ _ _ HI) in A. congruence. }
    exists (n_name n). split; [reflexivity|]. split; [exact C|]. split; [eapply moved_stands; eassumption|].
    eapply C31_target_edges_partial; try eassumption; [|now left]. exists (AliasNode (n_name n)). repeat split; auto; discriminate.
  - now elim (moved_other E _ _ _ _ _ R HI B A).
  - destruct A as (t & f & A). elim (A sp). apply (si_found _ _ _ HI).
  - now elim (K5 c p).
Qed.

(** ** Refutations *)

Definition six_module (x : string) : string * entry := ("six.moves." ++ x, ESpec (Spec ("six.moves." ++ x) LSix None None false (ROk false))).
Definition six_top : list (string * entry) :=
  [("six", ESource true [] []); ("six.moves", ESpec (Spec "six.moves" LSix None (Some []) true (ROk true)))].

(** The specs in a world. *)
Definition specs (w : list (string * entry)) : list (string * spec) :=
  flat_map (fun '(n, e) => match spec_of n e with ROk (Some sp) => [(n, sp)] | _ => [] end) w.
Lemma world_specs w scripts files name sp : has_spec (world w scripts files) name sp -> In (name, sp) (specs w).
Proof.
  intros (t & f & H). unfold world, e_find_spec in H. destruct (assoc name w) as [e|] eqn:Ea; [|discriminate].
  apply assoc_In in Ea. apply in_flat_map. exists (name, e). split; [exact Ea|]. rewrite H. now left.
Qed.

(** six.moves.collections_abc: Python finds it, and the module it stands for. *)
Definition abc_world : env := world
  (six_top ++ [six_module "collections_abc"; ("collections", ESource true [] []); ("collections.abc", ESource false [] [])])%list
  [("main.py", [World.imp "six.moves.collections_abc"])] [].
Definition abc_end : st := Eval vm_compute in snd (the_calls abc_world [AAddScript "main.py"] new).
Lemma abc_reach : reach abc_world new abc_end.
Proof. apply (ran abc_world [AAddScript "main.py"]). vm_compute. reflexivity. Qed.
Theorem C77_refuted : ~ C77_statement.
Proof.
  intros H. specialize (H abc_world new abc_end "six.moves.collections_abc" (world_order _ _ _) new_start abc_reach).
  destruct H as [(t & f & H)|c p A B C|sp nm A B C D].
  - reflexivity.
  - cbn. intuition discriminate.
  - eapply H. reflexivity.
  - pose proof (split_child _ _ _ _ A eq_refl) as K. vm_compute in K. injection K as <-.
    destruct B as [->|B]; [discriminate C|]. cbn in B. intuition discriminate.
  - apply world_specs in A. vm_compute in A. repeat (destruct A as [A|A]; [injection A as <- <-; discriminate|]). destruct A.
Qed.

(** The targets that six has for a name. *)
Definition six_targets (name : string) : list string :=
  map snd (filter (fun '(x, _) => ends_with (".moves." ++ x) name) six_modules).
Lemma six_place_target name t : six_place name t -> In t (six_targets name).
Proof.
  intros (p & x & A & B). apply in_map_iff. exists (x, t). split; [reflexivity|]. apply filter_In. split; [exact B|].
  rewrite A. apply ends_with_app.
Qed.

(** six.moves.tkinter_filedialog stands for tkinter.filedialog. *)
Definition dialog_world : env := world
  (six_top ++ [six_module "tkinter_filedialog"; ("tkinter", ESource true [] []); ("tkinter.filedialog", ESource false [] [])])%list
  [("main.py", [World.imp "six.moves.tkinter_filedialog"])] [].
Definition dialog_end : st := Eval vm_compute in snd (the_calls dialog_world [AAddScript "main.py"] new).
Lemma dialog_reach : reach dialog_world new dialog_end.
Proof. apply (ran dialog_world [AAddScript "main.py"]). vm_compute. reflexivity. Qed.
Theorem C78_refuted : ~ C78_statement.
Proof.
  intros H. specialize (H dialog_world new dialog_end "six.moves.tkinter_filedialog" "tkinter.FileDialog" (world_order _ _ _) new_start dialog_reach).
  destruct H as [H|(_ & sp & (t & f & A) & H)].
  - reflexivity.
  - cbn. intuition discriminate.
  - cbn in H. intuition discriminate.
  - injection A as <-. inversion H as [? K|? K|? t' other y K1 K2 K3 K4|? t' K1 K2 K3| | | | |]; subst; try discriminate.
    + apply six_place_target in K2. destruct K2 as [<-|[]]. destruct K3 as (t2 & f2 & K3). injection K3 as <-.
      inversion K4; subst; discriminate.
    + apply six_place_target in K2. destruct K2 as [K2|[]]. discriminate K2.
Qed.

(** A module that setuptools does not have in its package of vendored modules, but
    that is installed. *)
Definition extern (x : string) : string * entry :=
  ("setuptools.extern." ++ x, ESpec (Spec ("setuptools.extern." ++ x) (LVendor (Some ("setuptools.extern", "setuptools._vendor"))) None None false (ROk false))).
Definition setuptools_top : list (string * entry) :=
  [("setuptools", ESource true [] []); ("setuptools.extern", ESource true [] []); ("setuptools._vendor", ESource true [] [])].
Definition vendor_world : env := world
  (setuptools_top ++ [extern "packaging"; ("packaging", ESource true [] [])])%list
  [("main.py", [World.imp "setuptools.extern.packaging"])] [].
Definition vendor_end : st := Eval vm_compute in snd (the_calls vendor_world [AAddScript "main.py"] new).
Lemma vendor_reach : reach vendor_world new vendor_end.
Proof. apply (ran vendor_world [AAddScript "main.py"]). vm_compute. reflexivity. Qed.
Theorem C78_vendor_refuted : kind_of vendor_end "setuptools.extern.packaging" = Some (AliasNode "setuptools._vendor.packaging")
  /\ kind_of vendor_end "setuptools._vendor.packaging" = Some MissingModule /\ kind_of vendor_end "packaging" = None
  /\ ~ exists sp, has_spec vendor_world "setuptools.extern.packaging" sp /\ stands_for vendor_world sp "setuptools._vendor.packaging".
Proof.
  split; [reflexivity|]. split; [reflexivity|]. split; [reflexivity|]. intros (sp & (t & f & A) & H). injection A as <-.
  inversion H as [? K| | | |? root vendor x other y K1 K2 K3 K4|? root vendor x other y K1 K2 K3 K4 K5|? root vendor x K1 K2 K3 K4 K5| |]; subst; try discriminate.
  - injection K1 as <- <-. injection K2 as <-. destruct K3 as (t2 & f2 & K3). discriminate K3.
  - injection K1 as <- <-. injection K2 as <-. destruct K4 as (t2 & f2 & K4). injection K4 as <-. inversion K5; subst; discriminate.
  - injection K1 as <- <-. injection K2 as <-. destruct K4 as (t2 & f2 & K4). eapply K4. reflexivity.
Qed.

(** Without configuration and without exceptions, six.moves.collections_abc is no alias. *)
Theorem C79_refuted : ~ C79_statement.
Proof.
  intros H. destruct (H abc_world new abc_end "six.moves.collections_abc" (Spec "six.moves.collections_abc" LSix None None false (ROk false))
    MissingModule (world_order _ _ _) new_start abc_reach) as (t & K & _); try discriminate; try reflexivity; try (cbn; intuition discriminate).
  - constructor; [reflexivity|reflexivity|left; now split|].
    intros nm sp A B. apply world_specs in A. vm_compute in A.
    repeat (destruct A as [A|A]; [injection A as <- <-; first [reflexivity|discriminate]|]). destruct A.
  - intros c p A B. pose proof (split_child _ _ _ _ A eq_refl) as K. vm_compute in K. injection K as <-.
    destruct B as [->|B]; [discriminate|]. cbn in B. intuition discriminate.
Qed.

(** ** The hypotheses can be met *)

Definition moves_list : list (string * entry) :=
  (six_top ++ setuptools_top ++
   [six_module "cPickle"; six_module "winreg"; six_module "urllib"; ("pickle", ESource false [] []); ("urllib", ESource true [] []);
    extern "packaging"; extern "six"; ("setuptools._vendor.six", ESource false [] []); extern "gone"; ("setuptools._vendor.packaging", ESource true [] [])])%list.
Definition moves_world : env := world moves_list
  [("main.py", [World.imp "six.moves.cPickle"; World.imp "six.moves.winreg"; World.imp "setuptools.extern.packaging"; World.imp "setuptools.extern.gone";
                World.imp "absent.part"])] [].
Definition moves_end : st := Eval vm_compute in snd (the_calls moves_world [AAddScript "main.py"] new).
Lemma moves_reach : reach moves_world new moves_end.
Proof. apply (ran moves_world [AAddScript "main.py"]). vm_compute. reflexivity. Qed.
Lemma moves_regular : regular moves_world.
Proof.
  constructor.
  - intros name sp H L. apply world_specs in H. vm_compute in H.
    repeat (destruct H as [H|H]; [injection H as <- <-; try discriminate L|]); try destruct H; try (left; reflexivity).
    + right. exists "six", "cPickle", "pickle". split; [reflexivity|]. split; [cbn; tauto|]. split; [cbn; intuition discriminate|].
      intros K. apply has_sub_occurs in K. discriminate.
    + right. exists "six", "winreg", "winreg". split; [reflexivity|]. split; [cbn; tauto|]. split; [cbn; intuition discriminate|].
      intros K. apply has_sub_occurs in K. discriminate.
    + right. exists "six", "urllib", "urllib". split; [reflexivity|]. split; [cbn; tauto|]. split; [cbn; intuition discriminate|].
      intros K. apply has_sub_occurs in K. discriminate.
  - intros name sp root vendor H L. apply world_specs in H. vm_compute in H.
    repeat (destruct H as [H|H]; [injection H as <- <-; try discriminate L; injection L as <- <-|]); try destruct H.
    + exists "packaging". split; [reflexivity|]. intros (t & f & K). discriminate K.
    + exists "six". split; [reflexivity|]. intros (t & f & K). discriminate K.
    + exists "gone". split; [reflexivity|]. intros _. exists 0, []. intros sp K. discriminate K.
Qed.

Lemma moves_stand_in name sp : In (name, sp) (specs moves_list) -> negb (direct (sp_loader sp)) = true -> ends_with ".moves" name = false -> stand_in moves_world name sp.
Proof.
  intros H L M. assert (U : forall n' sp', In (n', sp') (specs moves_list) -> sp_name sp' = name -> sp' = sp).
  { vm_compute in H. repeat (destruct H as [H|H]; [injection H as <- <-; try discriminate L; try discriminate M;
      intros n' sp' K Hn; vm_compute in K; repeat (destruct K as [K|K]; [injection K as <- <-; first [reflexivity|discriminate Hn]|]); destruct K|]). destruct H. }
  vm_compute in H. constructor.
  - repeat (destruct H as [H|H]; [injection H as <- <-; try discriminate L; try discriminate M; reflexivity|]). destruct H.
  - repeat (destruct H as [H|H]; [injection H as <- <-; try discriminate L; try discriminate M; reflexivity|]). destruct H.
  - repeat (destruct H as [H|H]; [injection H as <- <-; try discriminate L; try discriminate M; cbn; eauto|]). destruct H.
  - intros n' sp' K. unfold moves_world in K. apply world_specs in K. exact (U _ _ K).
Qed.

Example C79_applies : forall name sp, In (name, sp) (specs moves_list) -> negb (direct (sp_loader sp)) = true -> ends_with ".moves" name = false ->
  kind_of moves_end name <> None ->
  exists t, kind_of moves_end name = Some (AliasNode t) /\ t <> name /\ stands_for moves_world sp t /\ package_edge moves_end name t.
Proof.
  intros name sp H L M Hk. destruct (kind_of moves_end name) as [k|] eqn:Ek; [|now elim Hk].
  assert (G : forall n, ~ In (EvGiven n) (s_log moves_end)) by (intros n; cbn; intuition discriminate).
  assert (I : forall n i, ~ In (EvImplied n i) (s_log moves_end)) by (intros n i; cbn; intuition discriminate).
  assert (N : ~ In EvErr (s_log moves_end)) by (cbn; intuition discriminate).
  destruct (C79_partial moves_world new moves_end name sp k (world_order _ _ _) new_start moves_reach N moves_regular) as (t & -> & T); auto.
  - now apply moves_stand_in.
  - intros ->. vm_compute in H. repeat (destruct H as [H|H]; [injection H as <- <-; try discriminate L; try discriminate M; discriminate Ek|]). destruct H.
  - intros ->. vm_compute in H. repeat (destruct H as [H|H]; [injection H as <- <-; try discriminate L; try discriminate M; discriminate Ek|]). destruct H.
  - intros ->. vm_compute in H. repeat (destruct H as [H|H]; [injection H as <- <-; try discriminate L; try discriminate M; discriminate Ek|]). destruct H.
  - vm_compute in H. repeat (destruct H as [H|H]; [injection H as <- <-; try discriminate L; try discriminate M; reflexivity|]). destruct H.
  - intros c p A B. vm_compute in H.
    repeat (destruct H as [H|H]; [injection H as <- <-; try discriminate L; try discriminate M; pose proof (split_child _ _ _ _ A eq_refl) as K; vm_compute in K; injection K as <-;
      (destruct B as [->|B]; [discriminate|cbn in B; intuition discriminate])|]). destruct H.
  - exists t. auto.
Qed.
Example moves_nodes :
  kind_of moves_end "six.moves.cPickle" = Some (AliasNode "pickle") /\ kind_of moves_end "six.moves.winreg" = Some (AliasNode "winreg")
  /\ kind_of moves_end "setuptools.extern.packaging" = Some (AliasNode "setuptools._vendor.packaging")
  /\ kind_of moves_end "setuptools.extern.gone" = Some (AliasNode "setuptools._vendor.gone")
  /\ absent moves_world moves_end "winreg" /\ absent moves_world moves_end "absent.part" /\ absent moves_world moves_end "setuptools._vendor.gone".
Proof.
  assert (G : forall n, ~ In (EvGiven n) (s_log moves_end)) by (intros n; cbn; intuition discriminate).
  do 4 (split; [reflexivity|]).
  assert (X : forall n, kind_of moves_end n = Some MissingModule -> ~ In n (map (fun x => sp_name (snd x)) (specs moves_list)) -> absent moves_world moves_end n).
  { intros n Hn Hs. destruct (C77_partial moves_world new moves_end n (world_order _ _ _) new_start moves_reach Hn (G _)) as [K|(n' & sp & A & B & _)]; [exact K|].
    elim Hs. unfold moves_world in A. apply world_specs in A. rewrite <- B. exact (in_map (fun x => sp_name (snd x)) _ _ A). }
  split; [|split]; (apply X; [reflexivity|vm_compute; intuition discriminate]).
Qed.

Print Assumptions C77_refuted.
Print Assumptions C77_partial.
Print Assumptions C78_refuted.
Print Assumptions C78_vendor_refuted.
Print Assumptions C78_partial.
Print Assumptions C79_refuted.
Print Assumptions C79_partial.
