(** C100: modules that the graph says to be needed cannot be left out. *)
From Verif Require Import BuilderRest PropsRest PropsDefault PropsSame PropsSeed PropsMore PropsMoreDefault.
From Verif Require Import BuilderHist BuilderSame SameSpec ReachSpec BuilderSpec SeedSpec MoreSpec NeedSpec World MustSpec PropsMust PropsMustDefault AstSpec LeaveSpec.
Open Scope string_scope.

Lemma part_inv F find code z : part_of F find -> inv F code z -> inv find code z.
Proof.
  intros P [A B C D]. constructor; try assumption.
  - intros x Hx K. destruct (F x) as [sp|] eqn:Ex; [|now elim (A x Hx)]. apply P in Ex. congruence.
  - intros x sp l Hx K. apply C; [exact Hx|]. destruct (F x) as [sp'|] eqn:Ex; [|now elim (A x Hx)]. apply P in Ex. congruence.
Qed.

(** ** Theorems *)

(** A script does not get to its end where a module is left out that the graph says to be
    needed by it. *)
Definition C100_statement : Prop := forall E find F code may DS conf f l s z z' b, tested E find code DS conf f l s -> part_of F find -> at_rest F code z ->
  needed (s_graph s) f b -> b <> f -> F b = None -> ~ run F code may (Lines f None l) z Next z'.

Theorem C100_partial : forall E find F code may DS conf f l s z z' b, tested E find code DS conf f l s -> part_of F find -> at_rest F code z ->
  Forall straight l -> (forall x c, code x = Some c -> Forall straight c) ->
  needed (s_graph s) f b -> b <> f -> F b = None -> run F code may (Lines f None l) z Next z' -> ~ sound_circles z'.
Proof.
  intros E find F code may DS conf f l s z z' b [A B C D X (i & G) H [I I'] K L M] P R S1 S2 Hb Hf Hn N S.
  destruct (run_inv _ _ _ _ _ _ _ N (rest_inv _ _ z R) Logic.I) as (V & _ & T).
  destruct (needed_loaded E find i conf code f l A B C D X s G True (fun _ => H) (fun _ => I) I' K L M (fun _ => S1) S2 z' (part_inv _ _ _ _ P V) (fun _ => T eq_refl)
    (fun x => sound_have _ _ _ _ _ _ _ x R N Logic.I S) f b) as [[_ Y]|(Y & _)]; [left; auto|exact Hb|contradiction|]. now apply (v_found _ _ _ V b Y).
Qed.
(** Nor can a module be imported there that needs it. *)
Theorem C100_import_partial : forall E find F code may DS conf s z z' x b, explored E find code DS conf s -> part_of F find -> at_rest F code z ->
  (forall x c, code x = Some c -> Forall straight c) -> modular s x ->
  needed (s_graph s) x b -> F b = None -> run F code may (Import x) z Next z' -> ~ sound_circles z'.
Proof.
  intros E find F code may DS conf s z z' x b [A B C D X (i & G) I K L M] P R S2 [Hm1 Hm2] Hb Hn N S.
  destruct (run_inv _ _ _ _ _ _ _ N (rest_inv _ _ z R) Logic.I) as (V & _ & T). specialize (T eq_refl). cbn [after] in T.
  assert (SH : forall y, have z' y -> In y (loaded z')) by (intros y; exact (sound_have _ _ _ _ _ _ _ y R N Logic.I S)).
  destruct (needed_loaded E find i conf code x [] A B C D X s G False (False_ind _) (False_ind _) I K L M (False_ind _) S2 z' (part_inv _ _ _ _ P V) (False_ind _)
    SH x b) as [[[] _]|(Y & _)]; [right; auto|exact Hb|]. now apply (v_found _ _ _ V b Y).
Qed.
Theorem C100_default_partial : forall E P find F code may DS conf f l s z z' b, default_tested E P find code DS conf f l s -> part_of F find -> at_rest F code z ->
  Forall straight l -> (forall x c, code x = Some c -> Forall straight c) ->
  needed (s_graph s) f b -> b <> f -> F b = None -> run F code may (Lines f None l) z Next z' -> ~ sound_circles z'.
Proof.
  intros E P find F code may DS conf f l s z z' b T Q R S1 S2 Hb Hf Hn N. destruct (default_tested_but _ _ _ _ _ _ _ _ _ T) as (u & U & G). rewrite <- G in Hb.
  eapply C100_partial; eassumption.
Qed.
Theorem C100_default_import_partial : forall E P find F code may DS conf s z z' x b, default_explored E P find code DS conf s -> part_of F find -> at_rest F code z ->
  (forall x c, code x = Some c -> Forall straight c) -> modular s x ->
  needed (s_graph s) x b -> F b = None -> run F code may (Import x) z Next z' -> ~ sound_circles z'.
Proof.
  intros E P find F code may DS conf s z z' x b T Q R S2 Hm Hb Hn N. destruct (default_explored_but _ _ _ _ _ _ _ T) as (u & U & G).
  unfold modular, kind_of in Hm. rewrite <- G in Hm, Hb. exact (C100_import_partial _ _ _ _ _ _ _ _ _ _ _ _ U Q R S2 Hm Hb Hn N).
Qed.

(** ** Examples *)

Theorem C100_refuted : ~ C100_statement.
Proof.
  intros H. refine (H (program_world [] with_script) _ _ _ anything _ _ _ _ with_graph _ (Mods [] [] [] []) "gone" _ (fun x sp K => K) (rest_new _ _) _ _ _ _).
  - eapply program_tested; vm_compute; reflexivity.
  - eapply ne_edge; [apply ne_start| | |]; [eexists; split; [vm_compute; left; reflexivity|left; reflexivity]|reflexivity|reflexivity].
  - discriminate.
  - reflexivity.
  - eapply rn_cons; [|apply rn_nil]. eapply rn_with; [apply rn_return| |apply rn_return|right; split; reflexivity].
    eapply rn_stop; [|discriminate]. apply rn_import_fails. apply gone_fails; [reflexivity|intros [[]|[]]].
Qed.

(** The program of C97 without module os, which it needs: it fails there. *)
Definition no_os (x : string) : option spec := if seqb x "os" then None else found_in (entries app_program) x.
Lemma no_os_pkg : run no_os (code_in app_program) anything (Import "pkg") (Mods [] [] [] []) Next (Mods ["pkg"; "pkg.sub"] [] [] ["pkg"]).
Proof.
  apply rn_top; [distinct|now apply no_child|reflexivity|]. refine (rn_load _ _ _ "pkg" _ _ _ (Mods ["pkg.sub"] ["pkg"] [] ["pkg"]) Next _ _ _ _); [distinct|reflexivity|reflexivity|].
  eapply rn_cons; [|apply rn_nil]. eapply (rn_from _ _ _ _ _ _ _ _ "pkg.sub"); [| |apply rn_return].
  * apply (mentions_relative _ _ (WFrom (Some "sub") [("x", None)] 1) "pkg"); [discriminate|constructor|discriminate].
  * eapply rn_child; [distinct|reflexivity|exact pkg_child|apply rn_loading; cbn; auto|].
    refine (rn_load _ _ _ "pkg.sub" _ _ _ (Mods [] ["pkg.sub"; "pkg"] [] ["pkg"]) Next _ _ _ _); [distinct|reflexivity|reflexivity|].
    eapply rn_cons; [apply rn_simple, rn_return|]. eapply rn_cons; [apply rn_def, rn_return|apply rn_nil].
Qed.
Example C100_nonvacuous : tested (program_world app_program app_script) (found_in (entries app_program)) (code_in app_program) (fun _ => False) main_conf "main.py" app_script app_graph
  /\ part_of no_os (found_in (entries app_program)) /\ at_rest no_os (code_in app_program) (Mods [] [] [] [])
  /\ Forall straight app_script /\ (forall x c, code_in app_program x = Some c -> Forall straight c)
  /\ needed (s_graph app_graph) "main.py" "os" /\ no_os "os" = None
  /\ exists z', run no_os (code_in app_program) anything (Lines "main.py" None app_script) (Mods [] [] [] []) Raise z' /\ sound_circles z' /\ loaded z' = ["pkg"; "pkg.sub"].
Proof.
  destruct C97_nonvacuous as (z' & A & _ & B & C & _ & _ & D & _). split; [exact A|]. split; [|split; [apply rest_new|split; [exact B|split; [exact C|split; [|split; [reflexivity|]]]]]].
  - intros x sp. unfold no_os. destruct (seqb x "os"); [discriminate|auto].
  - rewrite Forall_forall in D. apply D. right. right. now left.
  - exists (Mods ["pkg"; "pkg.sub"] [] [] ["pkg"]). split; [|split; [intros x _ []|reflexivity]].
    eapply rn_cons; [|eapply rn_stop; [|discriminate]].
    + eapply rn_class; [apply rn_return| |apply rn_return]. eapply rn_cons; [|apply rn_nil]. eapply rn_import; [|apply rn_import_nil].
      eapply rn_child; [distinct|reflexivity|exact pkg_child| |].
      2: apply rn_already; instantiate (1 := Mods ["pkg"; "pkg.sub"] [] [] ["pkg"]); cbn; tauto.
      exact no_os_pkg.
    + eapply rn_finally; [| |discriminate].
      * eapply rn_except; [|left; reflexivity|eapply rn_cons; [apply rn_simple, rn_return|apply rn_nil]].
        eapply rn_stop; [|discriminate]. apply rn_import_fails. apply gone_fails; [reflexivity|distinct].
      * eapply rn_stop; [|discriminate]. apply rn_import_fails. apply rn_top; [distinct|now apply no_child|reflexivity|]. apply rn_missing. reflexivity.
Qed.

Print Assumptions C100_partial.
Print Assumptions C100_import_partial.
Print Assumptions C100_default_partial.
Print Assumptions C100_default_import_partial.
Print Assumptions C100_refuted.
