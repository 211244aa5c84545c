(** C27 for whole histories of calls, and for the built-in hooks. *)
From Verif Require Export BuilderEnd BuilderFuel.
From Verif Require Import PyStrFacts NamesProofs.

(** ** Packages of the names *)
Fixpoint prefixes (x : string) : list string :=
  EmptyString :: match x with EmptyString => [] | String a r => map (String a) (prefixes r) end.
Lemma prefixes_app a b : In a (prefixes (a ++ b)).
Proof. induction a as [|x a IH]; [destruct b; now left|]. cbn. right. now apply in_map. Qed.
Lemma prefixes_trans x : forall c d, In c (prefixes x) -> In d (prefixes c) -> In d (prefixes x).
Proof.
  induction x as [|a x IH]; cbn; intros c d H K.
  - destruct H as [<-|[]]. exact K.
  - destruct H as [<-|H]; [destruct K as [<-|[]]; now left|]. apply in_map_iff in H as (y & <- & H). cbn in K.
    destruct K as [<-|K]; [now left|]. right. apply in_map_iff in K as (z & <- & K). apply in_map. now apply (IH y).
Qed.
Lemma split_prefix name c n : split_package name = ROk (Some c, n) -> In c (prefixes name).
Proof.
  intros H. destruct (lstrip_split dot name) as (k & E0 & Hst).
  assert (Hw : NamesSpec.wf_name k (lstrip dot name)).
  { unfold split_package in H. destruct (seqb name ""); [discriminate|].
    destruct (seqb (lstrip dot name) "") eqn:E1; [discriminate|].
    destruct (has_sub ".." (lstrip dot name)) eqn:E2; [discriminate|].
    split; [|split; assumption]. intros Q. rewrite Q in E1. discriminate. }
  destruct (split_package_valid k _ Hw) as (p & m & H' & _ & _ & G). rewrite <- E0 in H'. rewrite H in H'. injection H' as <- <-.
  rewrite <- E0 in G. rewrite <- G. unfold NamesSpec.glue. destruct (has_char dot _); [|apply prefixes_app].
  destruct k; apply prefixes_app.
Qed.
Definition with_packages (V : list string) : list string := flat_map prefixes V.
Lemma with_packages_incl V : incl V (with_packages V).
Proof. intros x H. apply in_flat_map. exists x. split; [exact H|]. rewrite <- (app_nil_r_s x) at 2. apply prefixes_app. Qed.
Lemma with_packages_closed E V : finite_universe E V -> closed_universe E (with_packages V).
Proof.
  intros H. constructor.
  - intros t f name sp K. apply with_packages_incl. eapply H. exact K.
  - intros name c n K L. apply in_flat_map in K as (x & K1 & K2). apply in_flat_map. exists x. split; [exact K1|].
    eapply prefixes_trans; [exact K2|]. eapply split_prefix. exact L.
Qed.

Lemma post_ok_more V V' id p : incl V V' -> post_ok V id p -> post_ok V' id p.
Proof.
  intros HV. induction 1; [now constructor..| | | |].
  - now apply p_plain.
  - now apply p_look.
  - apply p_add; [now apply HV|assumption].
  - apply p_import; [now apply HV|assumption].
Qed.
Lemma good_hooks_more V V' s : incl V V' -> good_hooks V s -> good_hooks V' s.
Proof. intros HV [H K]. split; [|exact K]. intros h Hh id. eapply post_ok_more; [exact HV|now apply H]. Qed.
Fixpoint good_call_more V V' a (HV : incl V V') (H : good_call V a) {struct H} : good_call V' a
with good_prog_more V V' p (HV : incl V V') (H : good_prog V p) {struct H} : good_prog V' p.
Proof.
  - destruct H as [p Hp|h Hh|h Hh|a H1 H2 H3].
    + apply g_context. exact (good_prog_more V V' p HV Hp).
    + apply g_post. intros id. eapply post_ok_more; [exact HV|now apply Hh].
    + now apply g_missing.
    + now apply g_other.
  - destruct H as [o|e|a k Ha Hk]; [constructor..|]. apply gp_do; [exact (good_call_more V V' a HV Ha)|].
    intros ans. exact (good_prog_more V V' (k ans) HV (Hk ans)).
Qed.

Lemma history_inv E V s0 s : finite_universe E V -> redirects_end E -> good_hooks V s0 -> s_stack s0 = [] ->
  good_history E V s0 s -> Inv (with_packages V) s.
Proof.
  intros FU RE H0 S0. pose proof (with_packages_incl V) as HV. induction 1 as [|s fuel a ans s' H IH Ha Hc].
  - split; [rewrite S0; now intros n []|]. now apply (good_hooks_more V).
  - destruct (top_call_ends E (with_packages V) (with_packages_closed E V FU) RE a s) as (f & ans2 & s2 & Hc2 & K); [|exact IH|].
    + now apply (good_call_more V).
    + pose proof (top_call_same E f fuel a s _ _ Hc2 Hc) as Q. injection Q as _ <-. exact K.
Qed.
Theorem good_calls_end E V s0 s a : finite_universe E V -> redirects_end E -> good_hooks V s0 -> s_stack s0 = [] ->
  good_history E V s0 s -> good_call V a -> exists fuel ans s', top_call E fuel a s = Some (ans, s').
Proof.
  intros FU RE H0 S0 H Ha. pose proof (history_inv E V s0 s FU RE H0 S0 H) as K.
  destruct (top_call_ends E (with_packages V) (with_packages_closed E V FU) RE a s) as (f & ans & s' & Hc & _); [|exact K|eauto].
  apply (good_call_more V); [apply with_packages_incl|exact Ha].
Qed.

(** ** The built-in hooks *)
Ltac bdone := first [apply b_ret|apply b_raise].
Ltac mdone := first [apply m_ret|apply m_raise].
Lemma mypyc_ok P V : post_hook_ok V (mypyc_hook P).
Proof.
  intros id. unfold mypyc_hook. apply p_look; intros g m Hc; cbn beta iota.
  - unfold compiled in Hc. destruct (gfind g id) as [n|]; [|discriminate].
    assert (Hf : extension_file n = None).
    { unfold extension_file. destruct (n_kind n); try reflexivity; match goal with k : mkind |- _ => destruct k end; try reflexivity; discriminate. }
    rewrite Hf. apply p_ret.
  - assert (Hb : forall file d, busy id match helper_of P d with Some helper => mypyc_found id (source_next_to P file) helper | None => PRet None end).
    { intros file d. destruct (helper_of P d) as [helper|]; [|bdone]. unfold mypyc_found.
      apply b_do; [exact I|]. intros [| | | | | |[|]|]; try apply b_ret.
      apply b_do; [exact I|]. intros []; try bdone.
      apply b_do; [exact I|].
      assert (Hs : busy id (mypyc_source id (source_next_to P file))).
      { unfold mypyc_source. apply b_do; [exact I|]. intros [|[]| | | | | |[|i l]]; try bdone. apply b_do; [reflexivity|].
        intros []; try apply b_raise; (apply b_do; [exact I|]; intros []; bdone). }
      intros []; try exact Hs. bdone. }
    destruct (gfind g id) as [n|]; [|bdone]. destruct (extension_file n), (n_dist n); try bdone. apply Hb.
Qed.

Lemma swig_found_ok parent missing_name o : parent = EmptyString -> missing_ok parent (swig_found missing_name o).
Proof.
  intros Hp. unfold swig_found. destruct o as [sp|]; [|mdone]. apply m_nfs; [exact Hp|].
  intros []; try mdone. destruct (negb _); [mdone|]. destruct imports; [|mdone].
  apply m_plain; [reflexivity|discriminate|discriminate|]. intros []; mdone.
Qed.
Lemma swig_retry_ok parent missing_name to_import : parent = EmptyString -> missing_ok parent (swig_retry missing_name to_import).
Proof.
  intros Hp. unfold swig_retry. apply m_plain; [reflexivity|discriminate|discriminate|].
  intros [| | | |[sp|]| | |]; try mdone. destruct (sp_origin sp); [|mdone].
  apply m_plain; [reflexivity|discriminate|discriminate|]. intros _. apply m_rel. intros ans Ha.
  destruct ans; try mdone. apply m_unfake; [intros ->; specialize (Ha Hp); discriminate|]. intros []; try (now apply swig_found_ok); mdone.
Qed.
Lemma swig_ok : missing_hook_ok swig_hook.
Proof.
  intros importing name. unfold swig_hook. destruct importing as [id|]; [|mdone].
  apply m_plain; [reflexivity|discriminate|discriminate|]. intros [| | |g m| | | |]; try mdone.
  destruct (gfind g id) as [n|]; [|mdone].
  destruct (negb (is_module (n_kind n) || is_package (n_kind n))); [mdone|].
  destruct (negb (seqb name _)) eqn:Hn; [mdone|]. destruct (negb (memb "swig_import_helper" (n_written n))); [mdone|].
  apply negb_false_iff, seqb_eq in Hn.
  assert (Hp : fst (rpartition dot name) = EmptyString).
  { rewrite Hn. destruct (rpartition_cases dot (n_name n)) as [[A B]|(x & y & A & B & C)].
    - rewrite B. cbn [snd]. destruct (rpartition_cases dot ("_" ++ n_name n)) as [[A' B']|(x & y & A' & B' & C')]; [now rewrite B'|].
      exfalso. apply (f_equal (has_char dot)) in A'. rewrite !has_char_app in A'. cbn in A'. rewrite A in A'. rewrite orb_true_r in A'. discriminate.
    - rewrite C. cbn [snd]. destruct (rpartition_cases dot ("_" ++ y)) as [[A' B']|(x' & y' & A' & B' & C')]; [now rewrite B'|].
      exfalso. apply (f_equal (has_char dot)) in A'. rewrite !has_char_app in A'. cbn in A'. rewrite B in A'. rewrite orb_true_r in A'. discriminate. }
  apply m_rel. intros ans Ha. destruct ans; try mdone.
  - destruct (is_import_error e); [|mdone]. now apply swig_retry_ok.
  - now apply swig_found_ok.
Qed.

Lemma builtin_hooks P V win32 ospath sysconfigdata : good_hooks V (builtin_start P win32 ospath sysconfigdata).
Proof.
  split; cbn; intros h [<-|[]]; [apply mypyc_ok|apply swig_ok].
Qed.
