(** Theorems about the end of graph building: C27. *)
From Verif Require Import BuilderEndCalls World PyStrFacts.
Open Scope string_scope.

(** ** C27: graph building terminates *)

(** [ModuleGraph] as made by a user, with hooks that do not keep adding work for
    ever ([good_hooks], EndSpec.v). *)
Definition graph_start (V : list string) (s : st) : Prop :=
  exists implies post missing, s = init implies post missing /\ good_hooks V s.

Definition C27_statement : Prop := forall E V s0 s a,
  finite_universe E V -> graph_start V s0 -> good_history E V s0 s ->
  (exists name, a = AAddModule name) \/ (exists path, a = AAddScript path) ->
  exists fuel ans s', top_call E fuel a s = Some (ans, s').

(** Two loaders that send [node_for_spec] back and forth. *)
Definition vendor_a : spec := Spec "a.x" (LVendor (Some ("a", "b"))) None None false (ROk false).
Definition vendor_b : spec := Spec "b.x" (LVendor (Some ("b", "a"))) None None false (ROk false).
Definition loop_names : list (string * entry) :=
  [("a", ESource true [] []); ("b", ESource true [] []); ("a.x", ESpec vendor_a); ("b.x", ESpec vendor_b)].
Definition loop_world : env := world loop_names [] [].

Lemma world_finite w scripts files : finite_universe (world w scripts files) (map fst w).
Proof.
  intros t f name sp. cbn. induction w as [|[k e] w IH]; cbn; [discriminate|].
  destruct (seqb name k) eqn:Hk; [apply seqb_eq in Hk as ->; now left|].
  intros H. right. apply IH. exact H.
Qed.

Lemma loop_nfs n : forall s, f_nfs (exec loop_world n) vendor_a s = None /\ f_nfs (exec loop_world n) vendor_b s = None.
Proof.
  induction n as [|n IH]; intros s; [now split|].
  change (f_nfs (exec loop_world (S n))) with (nfs_body loop_world (f_nfs (exec loop_world n))).
  split.
  - transitivity (f_nfs (exec loop_world n) vendor_b (tick s)); [reflexivity|apply IH].
  - transitivity (f_nfs (exec loop_world n) vendor_a (tick s)); [reflexivity|apply IH].
Qed.

Definition loop_state : st := Eval vm_compute in snd (the_calls loop_world [AAddModule "a"] new).
Lemma loop_history : good_history loop_world (map fst loop_names) new loop_state.
Proof.
  eapply (gh_call _ _ _ new 60 (AAddModule "a")); [apply gh_start| |vm_compute; reflexivity].
  apply g_other; discriminate.
Qed.

Lemma bind_none {A B} (m : M A) (f : A -> M B) s : m s = None -> bind m f s = None.
Proof. intros H. unfold bind. now rewrite H. Qed.
Lemma bind_next {A B} (m : M A) (f : A -> M B) s a s1 : m s = Some (ROk a, s1) -> f a s1 = None -> bind m f s = None.
Proof. intros H K. unfold bind. now rewrite H. Qed.
Lemma attempt_none {A} (m : M A) s : m s = None -> attempt m s = None.
Proof. intros H. unfold attempt. now rewrite H. Qed.

Lemma loop_load n s : gfind (s_graph s) "a.x" = None -> f_load (exec loop_world (S n)) None "a.x" s = None.
Proof.
  intros H. change (f_load (exec loop_world (S n))) with (load_body loop_world (exec loop_world n)). unfold load_body.
  eapply bind_next; [reflexivity|]. eapply bind_next; [unfold get_node, gets; rewrite H; reflexivity|]. cbv beta iota.
  eapply bind_next; [reflexivity|]. apply bind_none. apply loop_nfs.
Qed.
Lemma loop_never n : top_call loop_world n (AAddModule "a.x") loop_state = None.
Proof.
  destruct (top_call loop_world n (AAddModule "a.x") loop_state) as [y|] eqn:H; [|reflexivity]. exfalso.
  apply (top_call_more _ n (3 + n)) in H; [|lia]. revert H.
  enough (K : top_call loop_world (3 + n) (AAddModule "a.x") loop_state = None) by congruence.
  unfold top_call, call. rewrite bind_none; [reflexivity|]. apply attempt_none. cbn [do_action]. apply bind_none.
  unfold add_module. eapply bind_next; [reflexivity|]. cbv beta iota. apply bind_none.
  change (f_find (exec loop_world (3 + n))) with (find_body (exec loop_world (2 + n))). unfold find_body.
  eapply bind_next; [reflexivity|]. cbv beta iota. eapply bind_next; [reflexivity|]. cbn [fst].
  eapply bind_next.
  { cbv beta iota. change (f_find (exec loop_world (2 + n))) with (find_body (exec loop_world (1 + n))). reflexivity. }
  cbv beta iota. apply bind_none. eapply bind_next; [reflexivity|]. cbv beta iota. apply loop_load. reflexivity.
Qed.

(** [_node_for_spec] recurses without end: a RecursionError in Python. *)
Theorem C27_refuted : ~ C27_statement.
Proof.
  intros H. destruct (H loop_world (map fst loop_names) new loop_state (AAddModule "a.x")) as (fuel & ans & s' & K).
  - apply world_finite.
  - exists [], [], []. split; [reflexivity|]. split; intros h [].
  - exact loop_history.
  - left. now exists "a.x".
  - rewrite loop_never in K. discriminate.
Qed.
Print Assumptions C27_refuted.

(** Every call ends, [add_module] and [add_script] among them, for all module
    universes where the redirections of loaders end; the import statements, the
    aliases and implied references, the order of sets and the answers of the file
    system (which may change from one question to the next) are arbitrary.
    Missing: redirections that go on for ever, see above. *)
Theorem C27_ends_partial E V s0 s a :
  finite_universe E V -> redirects_end E -> graph_start V s0 -> good_history E V s0 s -> good_call V a ->
  exists fuel ans s', forall more, fuel <= more -> top_call E more a s = Some (ans, s').
Proof.
  intros FU RE (implies & post & missing & -> & HG) HH Ha.
  destruct (good_calls_end E V _ s a FU RE HG eq_refl HH Ha) as (fuel & ans & s' & K). exists fuel, ans, s'.
  intros more Hm. eapply top_call_more; eassumption.
Qed.
Print Assumptions C27_ends_partial.

Corollary C27_add_partial E V s0 s a :
  finite_universe E V -> redirects_end E -> graph_start V s0 -> good_history E V s0 s ->
  (exists name, a = AAddModule name) \/ (exists path, a = AAddScript path) ->
  exists fuel ans s', top_call E fuel a s = Some (ans, s').
Proof.
  intros FU RE H0 HH Ha. destruct (C27_ends_partial E V s0 s a FU RE H0 HH) as (fuel & ans & s' & K).
  - destruct Ha as [[x ->]|[x ->]]; apply g_other; discriminate.
  - exists fuel, ans, s'. now apply K.
Qed.
Print Assumptions C27_add_partial.

(** The hooks that the constructor installs meet the hypotheses, so any sequence of
    [add_module], [add_script], ... on a graph without other hooks ends. *)
Theorem C27_builtin_partial E V P win32 ospath sysconfigdata s a :
  finite_universe E V -> redirects_end E -> good_history E V (builtin_start P win32 ospath sysconfigdata) s -> good_call V a ->
  exists fuel ans s', top_call E fuel a s = Some (ans, s').
Proof.
  intros FU RE HH Ha.
  destruct (C27_ends_partial E V (builtin_start P win32 ospath sysconfigdata) s a FU RE) as (fuel & ans & s' & K); [|exact HH|exact Ha|].
  - exists (STDLIB_IMPLIES win32 ospath sysconfigdata), [mypyc_hook P], [swig_hook]. split; [reflexivity|apply builtin_hooks].
  - exists fuel, ans, s'. now apply K.
Qed.
Print Assumptions C27_builtin_partial.

(** Redirections end if a rank goes down. *)
Lemma ranked E (rank : spec -> nat) : (forall moved sp, redirects E moved sp -> rank moved < rank sp) -> redirects_end E.
Proof. intros H. apply (well_founded_lt_compat _ rank). exact H. Qed.

(** Modules that import each other, an alias cycle, implied references in a
    circle, a package that imports itself, a name moved by six and a script. *)
Definition ring : list (string * entry) := [
  ("p", ESource true [from "p" ["q"; "r"] 0; imp "p"] []);
  ("p.q", ESource false [imp "p.r"; imp "m"; imp "six.moves.cPickle"] []);
  ("p.r", ESource false [imp "p.q"; imp "al"; imp "nowhere.to.be.found"] []);
  ("m", ESource false [imp "n"] []); ("n", ESource false [imp "m"; imp "p"] []);
  ("six", ESource true [] []); ("six.moves", ESource true [] []);
  ("six.moves.cPickle", ESpec (Spec "six.moves.cPickle" LSix None None false (ROk false)));
  ("pickle", EExtension)].
Definition ring_world : env := world ring [("run.py", [imp "p"; imp "six.moves.cPickle"])] [].
Definition ring_implies : list (string * implied) :=
  [("al", ImpAlias "be"); ("be", ImpAlias "al"); ("m", ImpRefs ["n"; "m"]); ("n", ImpRefs ["m"]); ("v", ImpVirtual "v")].
Definition plain_paths : paths := Paths (fun x => x) (fun x => x) (fun a b => a ++ "/" ++ b) (fun l => l).
Definition ring_start : st := init ring_implies [mypyc_hook plain_paths] [swig_hook].
Definition ring_calls : list action := [AAddScript "run.py"; AAddModule "al"; AAddModule "p"; AAddModule "v"; AImportPackage "p" "p"].
Definition ring_state : st := snd (the_calls ring_world ring_calls ring_start).

Definition ring_rank (sp : spec) : nat :=
  match sp_loader sp with
  | LSix => if seqb (sp_name sp) "six.moves.cPickle" then 1 else 2
  | LVendor _ | LDistutils => 2
  | _ => 0
  end.
Lemma ring_redirects : redirects_end ring_world.
Proof.
  apply (ranked _ ring_rank). intros moved sp (name & t & f & Ht & Hf & _). cbn [ring_world world e_find_spec] in Hf.
  assert (Hm : forall nm, nm <> "six.moves.cPickle" -> e_find_spec ring_world t f nm = ROk (Some moved) -> ring_rank moved = 0).
  { intros nm Hn. cbn [ring_world world e_find_spec ring assoc].
    repeat (match goal with |- context [seqb nm ?k] => destruct (seqb nm k) eqn:? end; [try (intros H; injection H as <-; reflexivity)|]).
    all: try discriminate. apply seqb_eq in Heqb6. contradiction. }
  assert (H1 : ring_rank moved <= 1).
  { destruct (String.eqb_spec name "six.moves.cPickle") as [->|Hn]; [|rewrite (Hm name Hn Hf); lia]. vm_compute in Hf. injection Hf as <-. cbn. lia. }
  unfold target in Ht. unfold ring_rank at 2. destruct (sp_loader sp); try contradiction; try lia.
  destruct (seqb (sp_name sp) "six.moves.cPickle") eqn:E6; [|lia]. apply seqb_eq in E6. rewrite E6 in Ht. vm_compute in Ht. injection Ht as <-.
  rewrite (Hm "pickle"); [lia|discriminate|exact Hf].
Qed.
Fixpoint all_other (l : list action) : bool :=
  match l with
  | [] => true
  | (AHookContext _ | AAddPost _ | AAddMissing _) :: _ => false
  | _ :: r => all_other r
  end.
Lemma calls_history E V fuel l : forall s0 s anss s', all_other l = true -> good_history E V s0 s ->
  calls E fuel l s = Some (anss, s') -> good_history E V s0 s'.
Proof.
  induction l as [|a l IH]; intros s0 s anss s' Ho R H; cbn in H.
  - now injection H as <- <-.
  - destruct (top_call E fuel a s) as [[ans s1]|] eqn:E1; [|discriminate].
    destruct (calls E fuel l s1) as [[anss' s2]|] eqn:E2; [|discriminate]. injection H as <- <-.
    eapply IH; [|eapply (gh_call _ _ _ _ _ a); [exact R| |exact E1]|exact E2].
    + destruct a; try discriminate Ho; exact Ho.
    + apply g_other; intros x ->; discriminate Ho.
Qed.
Example C27_nonvacuous :
  finite_universe ring_world (map fst ring) /\ redirects_end ring_world /\ graph_start (map fst ring) ring_start /\
  good_history ring_world (map fst ring) ring_start ring_state /\
  map fst (node_list ring_state) = ["run.py"; "six"; "six.moves"; "six.moves.cPickle"; "pickle"; "p"; "p.q";
    "p.r"; "nowhere"; "nowhere.to"; "nowhere.to.be"; "nowhere.to.be.found"; "al"; "be"; "m"; "n"; "v"] /\
  fst (the_calls ring_world ring_calls ring_start) = [AnsId "run.py"; AnsId "al"; AnsId "p"; AnsId "v"; AnsId "p"].
Proof.
  split; [apply world_finite|]. split; [exact ring_redirects|]. split; [|split; [|split]].
  - exists ring_implies, [mypyc_hook plain_paths], [swig_hook]. split; [reflexivity|].
    split; cbn; intros h [<-|[]]; [apply mypyc_ok|apply swig_ok].
  - unfold ring_state, the_calls. destruct (calls ring_world 60 ring_calls ring_start) as [[anss s']|] eqn:H; [|apply gh_start].
    eapply calls_history; [|apply gh_start|exact H]. reflexivity.
  - vm_compute. reflexivity.
  - vm_compute. reflexivity.
Qed.
