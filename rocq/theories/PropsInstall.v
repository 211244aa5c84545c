(** C96: what was found is found when more modules are installed. *)
From Verif Require Import ReportSpec BuilderSource BuilderHist BuilderInv BuilderCalls World AstProofs PropsBuilder PropsCalls PropsHooks PropsRoots PropsSource PropsReach SeedSpec BuilderSame PropsSame PropsSeed MoreSpec PropsMore InstallSpec.
Open Scope string_scope.

Definition C96_statement : Prop := forall E1 E2 find find2 DS conf1 conf2 s1 s2, growing E1 E2 find find2 DS conf1 conf2 s1 s2 ->
  same_code find find2 -> tidy s1 -> tidy s2 -> supplied (s_graph s1) (s_graph s2).

Theorem C96_nodes_partial : forall E1 E2 find find2 DS conf1 conf2 s1 s2, growing E1 E2 find find2 DS conf1 conf2 s1 s2 ->
  forall x n n', gfind (s_graph s1) x = Some n -> gfind (s_graph s2) x = Some n' -> n_kind n = MissingModule \/ akin n n'.
Proof.
  intros E1 E2 find find2 DS conf1 conf2 s1 s2 [A B C D F G H I J K L (i1 & M) (i2 & N) O _] x n n'.
  apply (more_alike E1 E2 find find2 A B C D i1 i2 conf1 conf2 F G H I J K s1 s2 L M N O).
Qed.
(** Modules may be installed and edited. *)
Theorem C96_edited_partial : forall E1 E2 find find2 DS conf1 conf2 s1 s2, growing E1 E2 find find2 DS conf1 conf2 s1 s2 ->
  no_repair E1 E2 find find2 s1 -> settled E1 find s1 -> settled E2 find2 s2 -> supplied (s_graph s1) (s_graph s2).
Proof.
  intros E1 E2 find find2 DS conf1 conf2 s1 s2 T NR Z1 Z2. pose proof (C96_nodes_partial _ _ _ _ _ _ _ _ _ T) as KN.
  destruct T as [A B C D F G H I J K L (i1 & M) (i2 & N) O P].
  pose proof (fun a b d => more_edge E1 E2 find find2 A B C D i1 i2 conf1 conf2 F G H I J K s1 s2 L M N O a b d NR Z1 Z2) as KE.
  assert (KR : forall x, reaches (s_graph s1) x -> reaches (s_graph s2) x).
  { intros x. induction 1 as [x Hx|a b ds Ha IH He].
    - apply re_root. auto.
    - assert (Q : ds <> []) by (eapply (one_full E1 i1 conf1 F s1 M); exact He). destruct ds as [|d ds]; [now elim Q|].
      assert (Hd : has_edge (s_graph s1) a b d) by (eexists; split; [exact He|now left]).
      apply KE in Hd as (ds' & Hd & _); [|exact IH]. eapply re_edge; [exact IH|exact Hd]. }
  intros x Hx. pose proof (KR x Hx) as Hx2. split; [exact Hx2|]. split; [|intros y d Hy; exact (KE _ _ _ Hy Hx2)].
  pose proof (one_reaches E1 i1 conf1 F s1 M x Hx) as I1. pose proof (one_reaches E2 i2 conf2 G s2 N x Hx2) as I2.
  destruct (gfind (s_graph s1) x) as [n|] eqn:En1; [|now elim I1]. destruct (gfind (s_graph s2) x) as [n'|] eqn:En2; [|now elim I2].
  exists n, n'. split; [reflexivity|]. split; [reflexivity|]. now apply (KN x).
Qed.

(** With the same code a module binds the same names. *)
Lemma same_no_repair : forall E1 E2 find find2 DS conf1 conf2 s1 s2, growing E1 E2 find find2 DS conf1 conf2 s1 s2 ->
  same_code find find2 -> no_repair E1 E2 find find2 s1.
Proof.
  intros E1 E2 find find2 DS conf1 conf2 s1 s2 [A B C D F G H I J K L (i1 & M) (i2 & N) O _] SC m x nd (n & i & nm & _ & _ & _ & G1 & G2) _ (sp & n2 & l2 & k2 & t & t' & B1 & B2 & B3).
  pose proof (one_JW E1 find i1 conf1 F H K s1 M) as W1.
  destruct (j_nodes _ _ _ _ _ (w_inv _ _ _ _ _ W1) _ _ G1) as (n1 & l1 & _ & P1 & (_ & Q1 & _)). rewrite Q1 in G2.
  destruct P1 as [t0 tree l0 P Q|d0 P Q|P|c k P Q R S|j k P Q R|P Q R|sp1 n0 l0 k u1 u2 P Q R S]; try discriminate G2.
  - destruct k; discriminate.
  - destruct j; cbn in R; try discriminate R; injection R as <-; discriminate G2.
  - pose proof (SC _ _ R) as R2. assert (sp1 = sp) by congruence. subst sp1. pose proof (sy_direct _ _ H _ _ R) as Hd.
    destruct (nfs_kept E1 E2 find find2 A B C D _ _ _ _ _ _ Hd S) as (l3 & S2 & _).
    pose proof (nfs_same E2 find2 I _ _ _ _ _ _ _ _ _ Hd S2 B2) as X. injection X as <- <-.
    exists sp, n0, l0, k, u1, u2. now split.
Qed.
Theorem C96_partial : forall E1 E2 find find2 DS conf1 conf2 s1 s2, growing E1 E2 find find2 DS conf1 conf2 s1 s2 ->
  same_code find find2 -> settled E1 find s1 -> settled E2 find2 s2 -> supplied (s_graph s1) (s_graph s2).
Proof.
  intros E1 E2 find find2 DS conf1 conf2 s1 s2 T SC. eapply C96_edited_partial; [exact T|]. eapply same_no_repair; eassumption.
Qed.

(** ** Examples *)

(** Package q has "from lib import *", a function that imports a module "name", and a
    module q.name; main.py has "from q import name".  Installing lib, which binds that
    name, removes q.name. *)
Definition star_modules : list (string * entry) :=
  [("q", ESource true [World.from "lib" ["*"] 0; AFunctionDef [World.imp "name"]] []); ("name", ESource false [] []); ("q.name", ESource false [] []); ("#", EText false "lib" [] [] [])].
Definition star_modules' : list (string * entry) :=
  [("q", ESource true [World.from "lib" ["*"] 0; AFunctionDef [World.imp "name"]] []); ("name", ESource false [] []); ("q.name", ESource false [] []); ("#", EText false "lib" [] [] []); ("lib", ESource false [] ["name"])].
Definition star_scripts : list (string * list ast) := [("main.py", [World.from "q" ["name"] 0])].
Definition star_world : env := world star_modules star_scripts [].
Definition star_world' : env := recoded star_world star_modules' star_scripts.
Definition star_1 : st := Eval vm_compute in snd (the_calls star_world [AAddModule "q"; AAddScript "main.py"] new).
Definition star_2 : st := Eval vm_compute in snd (the_calls star_world' [AAddModule "q"; AAddScript "main.py"] new).
Lemma installed_extended w w' scripts :
  same_code (found_in w) (found_in w') -> extended (world w scripts []) (recoded (world w scripts []) w' scripts) (found_in w) (found_in w').
Proof.
  intros H. constructor.
  - reflexivity.
  - intros x sp F. exists sp. split; [now apply H|now left].
  - intros t t' f tree tree' F F'. cbn in F, F'. rewrite F in F'. injection F' as <-. now intros p v.
Qed.
Lemma longer_code w v : same_code (found_in w) (found_in (w ++ v)%list).
Proof.
  intros x sp H. rewrite <- H. apply found_other. assert (K : assoc x w <> None) by (intros K; unfold found_in in H; rewrite K in H; discriminate).
  clear H. induction w as [|[y e] w IH]; [now elim K|]. cbn [app assoc] in *. destruct (seqb x y); [reflexivity|auto].
Qed.
Lemma installing w w' scripts l l' s1 s2 :
  same_code (found_in w) (found_in w') -> steady (world w scripts []) (found_in w) -> steady (world w' scripts []) (found_in w') -> plain_sources (world w scripts []) ->
  session (world w scripts []) [] main_conf s1 -> session (recoded (world w scripts []) w' scripts) [] main_conf s2 ->
  same_scripts s1 s2 -> g_roots (s_graph s1) = l -> g_roots (s_graph s2) = l' -> (forall x, In x l -> In x l') ->
  growing (world w scripts []) (recoded (world w scripts []) w' scripts) (found_in w) (found_in w') (fun _ => False) main_conf main_conf s1 s2.
Proof.
  intros SC S1 S2 P X1 X2 Q <- <- R. constructor.
  - now apply installed_extended.
  - intros k. apply Permutation_refl.
  - intros k. apply Permutation_refl.
  - exact P.
  - apply world_order.
  - intros k x. reflexivity.
  - exact S1.
  - now apply recoded_steady.
  - now intros x.
  - intros x i H. apply assoc_In in H. destruct H as [H|[]]. now injection H as <- <-.
  - intros d d' [].
  - now exists [].
  - now exists [].
  - exact Q.
  - exact R.
Qed.
Lemma star_growing : growing star_world star_world' (found_in star_modules) (found_in star_modules') (fun _ => False) main_conf main_conf star_1 star_2.
Proof.
  eapply installing; [exact (longer_code star_modules [("lib", ESource false [] ["name"])])|now apply world_steady|now apply world_steady|now apply world_plain| | | |reflexivity|reflexivity|vm_compute; tauto].
  - eapply (calls_session _ _ _ 60 [AAddModule "q"; AAddScript "main.py"]); [apply new_session|reflexivity|vm_compute; reflexivity|reflexivity].
  - eapply (calls_session _ _ _ 60 [AAddModule "q"; AAddScript "main.py"]); [apply new_session|reflexivity|vm_compute; reflexivity|reflexivity].
  - apply same_scripts_b. reflexivity.
Qed.
Theorem C96_refuted : ~ C96_statement.
Proof.
  intros H. pose proof (H _ _ _ _ _ _ _ _ _ star_growing) as K. destruct K with (x := "q.name") as [R _].
  - exact (longer_code star_modules [("lib", ESource false [] ["name"])]).
  - now apply tidy_bool.
  - now apply tidy_bool.
  - eapply (re_edge _ "main.py"); [apply re_root; vm_compute; tauto|]. vm_compute. repeat (try (left; reflexivity); right).
  - apply (closed_reaches _ ["main.py"; "q"; "name"; "lib"]) in R; [|vm_compute; reflexivity].
    destruct R as [R|[R|[R|[R|[]]]]]; discriminate R.
Qed.

(** A package with an optional module and an optional dependency: both are installed. *)
Definition app_old : list (string * entry) :=
  [("app", EText true "from .core import run" [World.from "core" ["run"] 1] [] ["run"]); ("app.core", ESource false [World.imp "speedups.c"] ["run"]); ("os", ESource false [] []);
   ("#", EText false "speedups" [World.imp "os"] [] []); ("#", EText false "app.extra" [World.imp "os"] [] [])].
Definition app_new : list (string * entry) :=
  (app_old ++ [("app.extra", ESource false [World.imp "os"] []); ("speedups", ESource true [World.imp "os"] []); ("speedups.c", EExtension)])%list.
Definition app_scripts : list (string * list ast) := [("main.py", [World.from "app" ["run"; "extra"] 0; World.imp "none"])].
Definition app_world : env := world app_old app_scripts [].
Definition app_world' : env := recoded app_world app_new app_scripts.
Definition app_1 : st := Eval vm_compute in snd (the_calls app_world [AAddScript "main.py"] new).
Definition app_2 : st := Eval vm_compute in snd (the_calls app_world' [AAddScript "main.py"] new).
Lemma app_same : same_code (found_in app_old) (found_in app_new).
Proof. apply longer_code. Qed.
Definition app_before : list string := ["main.py"; "none"; "app"; "app.core"; "speedups"; "speedups.c"; "app.extra"].
Definition app_after : list string := ("os" :: app_before)%list.
Lemma app_binds E find : find "app" = found_in app_old "app" -> (forall sp, found_in app_old "app" = Some sp -> f_nfs (exec E 1) sp new = f_nfs (exec app_world 1) sp new) ->
  forall m x, In (m, x) [("app", "run")] -> binds E find m x.
Proof.
  intros F N m x [H|[]]. injection H as <- <-. destruct (found_in app_old "app") as [sp|] eqn:Es; [|discriminate]. specialize (N _ eq_refl).
  destruct (f_nfs (exec app_world 1) sp new) as [[[[n l]|e] s']|] eqn:En; vm_compute in Es; injection Es as <-; vm_compute in En; try discriminate En.
  eexists _, n, l, 1, new, s'. split; [exact F|]. split; [rewrite N; reflexivity|]. injection En as <- <- <-. cbn. auto.
Qed.
Lemma app_growing : growing app_world app_world' (found_in app_old) (found_in app_new) (fun _ => False) main_conf main_conf app_1 app_2.
Proof.
  eapply installing; [exact app_same|now apply world_steady|now apply world_steady|now apply world_plain| | | |reflexivity|reflexivity|vm_compute; tauto].
  - eapply (calls_session _ _ _ 60 [AAddScript "main.py"]); [apply new_session|reflexivity|vm_compute; reflexivity|reflexivity].
  - eapply (calls_session _ _ _ 60 [AAddScript "main.py"]); [apply new_session|reflexivity|vm_compute; reflexivity|reflexivity].
  - apply same_scripts_b. reflexivity.
Qed.
Example C96_nonvacuous : growing app_world app_world' (found_in app_old) (found_in app_new) (fun _ => False) main_conf main_conf app_1 app_2
  /\ same_code (found_in app_old) (found_in app_new)
  /\ settled app_world (found_in app_old) app_1 /\ settled app_world' (found_in app_new) app_2
  /\ kind_of app_1 "app.extra" = Some MissingModule /\ option_map is_missing (kind_of app_2 "app.extra") = Some false
  /\ kind_of app_1 "speedups.c" = Some MissingModule /\ option_map is_missing (kind_of app_2 "speedups.c") = Some false /\ In ("main.py", "app.extra") (edge_pairs app_1).
Proof.
  split; [exact app_growing|]. split; [exact app_same|].
  split; [eapply (settled_bool _ _ _ _ _ _ app_before [("app", "run")]); [apply world_order| |vm_compute; reflexivity|apply app_binds; [reflexivity|intros sp Es; vm_compute in Es; injection Es as <-; vm_compute; reflexivity]]|].
  { eapply (calls_session _ _ _ 60 [AAddScript "main.py"]); [apply new_session|reflexivity|vm_compute; reflexivity|reflexivity]. }
  split; [eapply (settled_bool _ _ _ _ _ _ app_after [("app", "run")]); [intros l x; reflexivity| |vm_compute; reflexivity|apply app_binds; [reflexivity|intros sp Es; vm_compute in Es; injection Es as <-; vm_compute; reflexivity]]|].
  { eapply (calls_session _ _ _ 60 [AAddScript "main.py"]); [apply new_session|reflexivity|vm_compute; reflexivity|reflexivity]. }
  vm_compute. tauto.
Qed.

Print Assumptions C96_refuted.
Print Assumptions C96_nodes_partial.
Print Assumptions C96_edited_partial.
Print Assumptions C96_partial.
