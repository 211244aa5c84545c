(** C74: star imports and global names. *)
From Verif Require Import BuilderHist BuilderWhy BuilderNames SourceSpec PropsBuilder PropsSource World BuilderStar.
Local Open Scope list_scope.

(** When [n] imports all names of [m] and does not run before [m] is finished, its
    global names include those of [m]. *)
Definition C74_statement : Prop := forall E implies s n i m, order_ok E -> plain_history E implies True s ->
  scheduled s n i -> ii_star i = true -> names_come_from s n i m -> ~ runs_first s m n -> takes_over s n m.

(** ** Wrong: modules inside a package are worked on before the package itself *)

Definition star_world := world
  [("x", ESource false [] ["foo"]);
   ("a", ESource true [World.from "x" ["*"] 0] ["own"]);
   ("a.b", ESource true [World.from "a" ["*"] 0] ["mine"]);
   ("user", ESource false [World.from "a.b" ["foo"] 0] ["foo"])]%string [] [].
Definition star_end : st := Eval vm_compute in snd (the_calls star_world [AAddModule "user"%string] World.new).
Definition star_all (m : string) : iinfo := IInfo (IName m None) 0 [] true false false false.

Lemma star_plain : plain_history star_world [] True star_end.
Proof. eapply (ph_call _ _ _ (init [] [] []) 60 (AAddModule "user")); [apply ph_init, incl_refl|exact Logic.I|vm_compute; reflexivity|discriminate]. Qed.


Definition statements (s : st) : list (string * iinfo) :=
  flat_map (fun e => match e with EvSched n l => map (pair n) l | _ => [] end) (s_log s).
Lemma scheduled_statements s n i : scheduled s n i <-> In (n, i) (statements s).
Proof.
  unfold statements. rewrite in_flat_map. split.
  - intros (l & A & B). exists (EvSched n l). split; [exact A|]. now apply in_map.
  - intros ([] & A & B); try destruct B. apply in_map_iff in B as (x & B1 & B2). injection B1 as <- <-. eexists. split; eassumption.
Qed.
Lemma aims_absolute s n i m : ii_level i = 0 -> aims_at s n i m -> m = in_name (ii_module i).
Proof. intros L (b & _ & [K|q K|q K]); congruence. Qed.
Lemma aims_name s n i : in_graph s n -> ii_level i = 0 -> aims_at s n i (in_name (ii_module i)).
Proof.
  intros Hn L. unfold in_graph in Hn. destruct (gfind (s_graph s) n) as [x|] eqn:E; [|congruence].
  exists (is_package (n_kind x) || is_nspkg (n_kind x)). split; [|now apply imports_absolute]. exists (n_kind x). unfold kind_of. rewrite E. now split.
Qed.

Lemma star_runs u : runs_first star_end "a" u -> u = "a"%string \/ u = "x"%string.
Proof.
  induction 1 as [|u i t H IH Hs Ht|u c H IH Hc].
  - now left.
  - apply scheduled_statements in Hs. vm_compute in Hs.
    repeat (destruct Hs as [Hs|Hs]; [injection Hs as <- <-|]); try destruct Hs; try (destruct IH; discriminate).
    destruct Ht as [(m0 & Ha & Hm)|(m & nm & _ & [] & _)]. apply aims_absolute in Ha; [|reflexivity]. subst m0.
    destruct Hm as [->|Hm]; [now right|discriminate].
  - exfalso. destruct IH as [-> | ->]; [exact (split_none_no_child "a" "a" c eq_refl Hc)|exact (split_none_no_child "x" "x" c eq_refl Hc)].
Qed.

Theorem C74_refuted : ~ C74_statement.
Proof.
  intros H. specialize (H star_world [] star_end "a.b"%string (star_all "a") "a"%string (world_order _ _ _) star_plain).
  assert (K : takes_over star_end "a.b" "a").
  { apply H.
    - apply scheduled_statements. vm_compute. tauto.
    - reflexivity.
    - exists "a"%string. split; [|now left]. apply (aims_name star_end "a.b" (star_all "a")); [vm_compute; discriminate|reflexivity].
    - intros K. apply star_runs in K as [K|K]; discriminate. }
  specialize (K _ _ eq_refl eq_refl eq_refl "foo"%string). vm_compute in K. intuition discriminate.
Qed.

(** As a result a module that does not exist is reported as missing. *)
Example C74_false_report : kind_of star_end "a.b.foo" = Some MissingModule /\ has_edge (s_graph star_end) "user" "a.b.foo" (Dep false true true None).
Proof. split; [reflexivity|]. exists [Dep false true true None]. split; vm_compute; tauto. Qed.

(** ** Wrong: names of an alias *)

(** With an alias between the two modules. *)
Definition C74_alias_statement : Prop := forall E implies s n i m m', order_ok E -> plain_history E implies True s ->
  scheduled s n i -> ii_star i = true -> aims_at s n i m -> kind_of s m = Some (AliasNode m') ->
  ~ runs_first s m' n -> ~ waits s m' n -> takes_over s n m'.

(** The standard library has os.path as an alias. *)
Definition alias_world := world [("os", ESource false [] ["getcwd"]); ("posixpath", ESource false [] ["join"])]%string
  [("main.py", [World.from "os.path" ["*"] 0])]%string [].
Definition alias_implies : list (string * implied) := [("os.path", ImpAlias "posixpath")]%string.
Definition alias_end : st := Eval vm_compute in snd (the_calls alias_world [AAddScript "main.py"%string] (init alias_implies [] [])).
Lemma alias_plain : plain_history alias_world alias_implies True alias_end.
Proof. eapply (ph_call _ _ _ (init alias_implies [] []) 60 (AAddScript "main.py")); [apply ph_init, incl_refl|exact Logic.I|vm_compute; reflexivity|discriminate]. Qed.

Lemma no_code_runs u : runs_first alias_end "posixpath" u -> u = "posixpath"%string.
Proof.
  induction 1 as [|u i t H IH Hs Ht|u c H IH Hc].
  - reflexivity.
  - apply scheduled_statements in Hs. vm_compute in Hs. repeat (destruct Hs as [Hs|Hs]; [injection Hs as <- <-; discriminate|]). destruct Hs.
  - subst u. exfalso. exact (split_none_no_child "posixpath" "posixpath" c eq_refl Hc).
Qed.

(** ** Order of the nodes *)

Lemma older_trans s a b c : NoDup (map n_name (g_nodes (s_graph s))) -> older s a b -> older s b c -> older s a c.
Proof.
  intros N (l & l' & H1 & H2 & H3) (k & k' & K1 & K2 & K3). exists k, k'. split; [exact K1|]. split; [|exact K3].
  rewrite H1 in N, K1. clear H1. revert k K1 K2. induction l as [|x l IH]; intros k K1 K2; [destruct H2|].
  destruct k as [|y k]; [destruct K2|]. cbn in K1. injection K1 as -> K1. destruct H2 as [<-|H2]; [now left|right].
  cbn in N. inversion N as [|? ? N1 N2]. subst. apply IH; auto. destruct K2 as [<-|K2]; [|exact K2]. elim N1. apply in_or_app. now right.
Qed.
Lemma older_not s a : NoDup (map n_name (g_nodes (s_graph s))) -> ~ older s a a.
Proof.
  intros N (l & l' & H1 & H2 & H3). rewrite H1 in N. induction l as [|x l IH]; [destruct H2|]. cbn in N.
  inversion N as [|? ? N1 N2]. subst. destruct H2 as [->|H2]; [elim N1; apply in_or_app; now right|].
  clear - N2 H2 H3. induction l as [|y l IH]; [destruct H2|]. cbn in N2. inversion N2 as [|? ? M1 M2]. subst.
  destruct H2 as [->|H2]; [elim M1; apply in_or_app; now right|auto].
Qed.
Lemma waits_older s v u : NoDup (map n_name (g_nodes (s_graph s))) -> (forall x t, ~ tool_of s x t) ->
  waits s v u -> v = u \/ older s v u.
Proof.
  intros N T. induction 1 as [|u w H IH Hu]; [now left|right].
  assert (K : older s u w) by (destruct Hu; auto; now elim (T x t)).
  destruct IH as [->|IH]; [exact K|eapply older_trans; eassumption].
Qed.
Lemma plain_nodup E implies s : order_ok E -> plain_history E implies True s -> NoDup (map n_name (g_nodes (s_graph s))).
Proof.
  intros Ho H. destruct (plain_is_user _ _ _ _ H) as (first & HU). apply ok_ids.
  eapply (C20_well_formed E (init first [] [])); [exact Ho|now exists first, [], []|]. apply user_is_reach, HU.
Qed.

Theorem C74_alias_refuted : ~ C74_alias_statement.
Proof.
  intros H. specialize (H alias_world alias_implies alias_end "main.py"%string (star_all "os.path") "os.path"%string "posixpath"%string (world_order _ _ _) alias_plain).
  assert (K : takes_over alias_end "main.py" "posixpath").
  { apply H.
    - apply scheduled_statements. vm_compute. tauto.
    - reflexivity.
    - apply (aims_name alias_end "main.py" (star_all "os.path")); [vm_compute; discriminate|reflexivity].
    - reflexivity.
    - intros K. apply no_code_runs in K. discriminate.
    - intros K. pose proof (plain_nodup alias_world _ _ (world_order _ _ _) alias_plain) as N. apply waits_older in K as [K|K]; [discriminate| |exact N|].
      + apply (older_not alias_end "main.py" N). eapply older_trans; [exact N| |exact K].
        exists ["main.py"]%string. eexists. split; [reflexivity|]. vm_compute. tauto.
      + intros x t (_ & b & i & k & f & L). unfold kind_of in L. destruct (gfind (s_graph alias_end) x) as [nd|] eqn:En; [|discriminate].
        apply find_some in En as [En _]. vm_compute in En. repeat (destruct En as [<-|En]; [discriminate|]). destruct En. }
  specialize (K _ _ eq_refl eq_refl eq_refl "join"%string). vm_compute in K. intuition discriminate.
Qed.

(** ** Right: the imported module is not waiting for the importing one *)

Theorem C74_partial : forall E implies s n i m, order_ok E -> plain_history E implies True s ->
  scheduled s n i -> ii_star i = true -> aims_at s n i m -> ~ waits s m n -> in_graph s m /\ takes_over s n m.
Proof. intros E implies s n i m Ho. apply history_takes_over. intros l x. apply Ho. Qed.

(** That is so for all modules that were found later than the importing one,
    unless there are namespace packages with pkgutil or pkg_resources. *)
Theorem C74_later_partial : forall E implies s n i m, order_ok E -> plain_history E implies True s ->
  (forall x t, ~ tool_of s x t) -> scheduled s n i -> ii_star i = true -> aims_at s n i m -> older s n m -> takes_over s n m.
Proof.
  intros E implies s n i m Ho H T Hs Hst Ha Hold. pose proof (plain_nodup _ _ _ Ho H) as N. apply (C74_partial E implies s n i m); auto.
  intros K. apply waits_older in K as [->|K]; auto; [now apply (older_not s n N)|].
  apply (older_not s n N). eapply older_trans; eassumption.
Qed.

(** Star imports one after the other: the script gets the names of all modules. *)
Definition chain_world := world
  [("one", ESource false [World.from "two" ["*"] 0] ["a"]); ("two", ESource false [World.from "three" ["*"] 0; World.from "four" ["*"] 0] ["b"]);
   ("three", ESource false [] ["c"]); ("four", ESource false [] ["d"])]%string
  [("main.py", [World.from "one" ["*"] 0])]%string [].
Definition chain_end : st := Eval vm_compute in snd (the_calls chain_world [AAddScript "main.py"%string] World.new).
Example C74_nonvacuous : plain_history chain_world [] True chain_end /\ (forall x t, ~ tool_of chain_end x t)
  /\ (forall n m, In (n, m) [("main.py", "one"); ("one", "two"); ("two", "three"); ("two", "four")]%string ->
        scheduled chain_end n (star_all m) /\ aims_at chain_end n (star_all m) m /\ older chain_end n m /\ ~ waits chain_end m n)
  /\ exists x, gfind (s_graph chain_end) "main.py" = Some x /\ incl ["a"; "b"; "c"; "d"]%string (n_written x).
Proof.
  assert (P : plain_history chain_world [] True chain_end).
  { eapply (ph_call _ _ _ (init [] [] []) 60 (AAddScript "main.py")); [apply ph_init, incl_refl|exact Logic.I|vm_compute; reflexivity|discriminate]. }
  assert (T : forall x t, ~ tool_of chain_end x t).
  { intros x t (_ & b & i & k & f & L). unfold kind_of in L. destruct (gfind (s_graph chain_end) x) as [nd|] eqn:En; [|discriminate].
    apply find_some in En as [En _]. vm_compute in En. repeat (destruct En as [<-|En]; [discriminate|]). destruct En. }
  pose proof (plain_nodup chain_world _ _ (world_order _ _ _) P) as N.
  split; [exact P|]. split; [exact T|]. split.
  - intros n m H. assert (Ho : older chain_end n m).
    { repeat (destruct H as [H|H]; [injection H as <- <-|]); try destruct H;
      [exists ["main.py"]%string|exists ["main.py"; "one"]%string|exists ["main.py"; "one"; "two"]%string|exists ["main.py"; "one"; "two"]%string];
      eexists; (split; [reflexivity|]); vm_compute; tauto. }
    split; [|split; [|split; [exact Ho|]]].
    + apply scheduled_statements. repeat (destruct H as [H|H]; [injection H as <- <-; vm_compute; tauto|]). destruct H.
    + apply (aims_name chain_end n (star_all m)); [|reflexivity].
      repeat (destruct H as [H|H]; [injection H as <- <-; vm_compute; discriminate|]). destruct H.
    + intros K. apply waits_older in K as [->|K]; auto; [now apply (older_not chain_end n N)|].
      apply (older_not chain_end n N). eapply older_trans; eassumption.
  - eexists. split; [reflexivity|]. intros x Hx. vm_compute in Hx |- *. tauto.
Qed.

Print Assumptions C74_refuted.
Print Assumptions C74_alias_refuted.
Print Assumptions C74_partial.
Print Assumptions C74_later_partial.
