(** Histories of states as chains of primitive steps. *)
From Verif Require Export BuilderSteps.

(** ** What a finished work item has achieved *)

(** The from list name [nm] of statement [i] of [n], looked up in node [m]. *)
Definition name_done (s : st) (n m : string) (i : iinfo) (nm : iname) : Prop :=
  (* a name that [m] imports itself *)
  (exists nd t, gfind (s_graph s) m = Some nd /\ In (in_name nm) (n_written nd)
     /\ provides (s_graph s) m (in_name nm) t /\ has_edge (s_graph s) n t (name_dep i nm))
  (* not a package: the name is an attribute *)
  \/ (exists k, kind_of s m = Some (Module k))
  (* a submodule, possibly a missing one *)
  \/ (exists t, resolves s (m ++ "." ++ in_name nm)%string t
        /\ has_edge (s_graph s) n t (name_dep i nm) /\ has_edge (s_graph s) t m default_dep)
  (* a global of the package *)
  \/ (exists nd t, gfind (s_graph s) m = Some nd /\ is_package (n_kind nd) = true
        /\ In (in_name nm) (n_written nd)
        /\ resolves s (m ++ "." ++ in_name nm)%string t /\ kind_of s t = Some MissingModule)
  (* a function of six.moves *)
  \/ (exists b k f ty x t, kind_of s m = Some (Package b "@@SIX_MOVES@@" k f ty)
        /\ In (in_name nm, x) SIX_MOVES_TO /\ resolves s x t /\ has_edge (s_graph s) n t default_dep).

Definition nameable (k : kind) : bool := is_package k || is_nspkg k || is_module k.

Definition names_linked (s : st) (n m : string) (i : iinfo) : Prop :=
  if ii_star i then
    forall x, gfind (s_graph s) m = Some x -> is_package (n_kind x) || is_module (n_kind x) = true ->
      forall y, gfind (s_graph s) n = Some y -> incl (n_written x) (n_written y)
  else
    forall k src, kind_of s m = Some k ->
      (nameable k = true /\ src = m) \/ (k = AliasNode src /\ exists k', kind_of s src = Some k' /\ nameable k' = true) ->
      forall nm, In nm (ii_names i) ->
        name_done s n src i nm /\ forall y, gfind (s_graph s) n = Some y -> In (in_name nm) (n_written y).

(** Names imported through an alias node: the actual module is there. *)
Definition alias_there (s : st) (m : string) (i : iinfo) : Prop :=
  ii_star i = false -> ii_names i <> [] -> forall a, kind_of s m = Some (AliasNode a) -> in_graph s a.
Definition names_done (s : st) (n m : string) (i : iinfo) : Prop :=
  names_linked s n m i /\ alias_there s m i.

Definition work_done (s : st) (w : work) : Prop :=
  match w with
  | DoPost n => In (EvHook n) (s_log s)
  | DoImport n i =>
      (exists b, pkg_node s n b /\ beyond_top n b i /\ kind_of s (invalid_name i) = Some InvalidRelativeImport
         /\ has_edge (s_graph s) n (invalid_name i) (invalid_dep i))
      \/ (exists m, import_target s n i m /\ has_edge (s_graph s) n m (import_dep i)
           /\ In (DoNames n m i) (s_stack s))
  | DoNames n m i => names_done s n m i
  | DoPackage n pkg => exists m, resolves s pkg m /\ has_edge (s_graph s) n m default_dep
  end.

(** Only post processing hooks and import_package are active. *)
Definition calm_work (w : work) : bool :=
  match w with DoPost _ | DoPackage _ _ => true | _ => false end.
Definition quiet (s : st) : Prop := forall w, In w (s_run s) -> calm_work w = true.

(** Everything but the clock and the fake packages is as before. *)
Definition env_only (s s' : st) : Prop :=
  exists f c, s' = St (s_graph s) (s_lazy s) (s_stack s) (s_seen s) (s_post s) (s_missing s) f (s_mem s)
         c (s_run s) (s_saved s) (s_log s).

Definition plain_event (e : event) : bool :=
  match e with
  | EvErr | EvProc _ _ | EvReq _ _ | EvEdge _ _ _ | EvRoot _ | EvList _ _ | EvGiven _ => true
  | _ => false
  end.

Section policy.
  (** Whether missing hooks may process the work stack. *)
  Variable mrun : bool.

  (** Programs that process the work stack only if [q], and register only
      missing hooks that are allowed. *)
  Fixpoint prog_ok (q : bool) (p : prog) : Prop :=
    match p with
    | PRet _ | PRaise _ => True
    | PDo a k => act_ok q a /\ forall x, prog_ok q (k x)
    end
  with act_ok (q : bool) (a : action) : Prop :=
    match a with
    | AAddScript _ | AAddModule _ | AAddSource _ | AAddDist _ | AAddDistNamed _ | ARunStack
    | AImportPackage _ _ => q = true
    | AHookContext p => q = true /\ prog_ok q p
    | AAddPost h => forall n, prog_ok true (h n)
    | AAddMissing h => forall i n, prog_ok mrun (h i n)
    | _ => True
    end.

  Definition hooks_ok (s : st) : Prop :=
    (forall h, In h (s_post s) -> forall n, prog_ok true (h n)) /\
    (forall h, In h (s_missing s) -> forall i n, prog_ok mrun (h i n)).

  Inductive step (q : bool) (s : st) : st -> Prop :=
  | st_env s' : env_only s s' -> step q s s'
  | st_mem m : step q s (set_mem s m)
  | st_post h : (forall n, prog_ok true (h n)) -> step q s (set_post s (h :: s_post s))
  | st_missing h : (forall i n, prog_ok mrun (h i n)) -> step q s (set_missing s (h :: s_missing s))
  | st_excludes names : step q s (log (set_lazy s (add_excludes names (s_lazy s))) (EvConf names))
  | st_implies l : step q s (log (set_lazy s (add_implies l (s_lazy s))) (EvConf (map fst l)))
  | st_note e : plain_event e = true -> step q s (log s e)
  | st_subst name id : s_missing s <> [] -> step q s (log s (EvSubst name id))
  | st_pop_lazy name i : assoc name (s_lazy s) = Some i -> gfind (s_graph s) name = None -> i <> ImpNone ->
      step q s (log (set_lazy s (filter (fun x => negb (seqb (fst x) name)) (s_lazy s))) (EvImplied name i))
  | st_exclude name : assoc name (s_lazy s) = Some ImpNone -> gfind (s_graph s) name = None ->
      parent_fine s name ->
      step q s (log (set_graph
        (log (set_lazy s (filter (fun x => negb (seqb (fst x) name)) (s_lazy s))) (EvImplied name ImpNone))
        (Graph (g_nodes (s_graph s) ++ [plain_node ExcludedModule name]) (g_edges (s_graph s)) (g_roots (s_graph s))))
        (EvAdd name []))
  | st_node n l : gfind (s_graph s) (n_name n) = None -> node_reason s n l ->
      step q s (log (set_graph s
        (Graph (g_nodes (s_graph s) ++ [n]) (g_edges (s_graph s)) (g_roots (s_graph s)))) (EvAdd (n_name n) l))
  | st_user_node n : gfind (s_graph s) (n_name n) = None ->
      In (EvGiven (n_name n)) (s_log s) \/ n_kind n = Distribution ->
      step q s (set_graph s (Graph (g_nodes (s_graph s) ++ [n]) (g_edges (s_graph s)) (g_roots (s_graph s))))
  | st_edge a b d : gfind (s_graph s) a <> None -> gfind (s_graph s) b <> None -> justified s a b d ->
      step q s (set_graph s
        (Graph (g_nodes (s_graph s)) (edges_add (g_edges (s_graph s)) a b d) (g_roots (s_graph s))))
  | st_root id : gfind (s_graph s) id <> None -> In (EvRoot id) (s_log s) ->
      step q s (set_graph s
        (Graph (g_nodes (s_graph s)) (g_edges (s_graph s)) (set_add id (g_roots (s_graph s)))))
  | st_written id names : step q s (set_graph s (gadd_written (s_graph s) id names))
  | st_sched n l : gfind (s_graph s) n <> None -> In (EvAdd n l) (s_log s) \/ In (EvProc n l) (s_log s) ->
      step q s (schedule n l s)
  | st_names n m i a b : q = true -> s_stack s = a ++ b -> scheduled s n i -> In n (s_seen s) ->
      import_target s n i m -> has_edge (s_graph s) n m (import_dep i) -> mrun = true \/ ~ In (DoPost n) a ->
      step q s (set_stack s (a ++ DoNames n m i :: b))
  | st_package n pkg : q = true -> In (EvList n pkg) (s_log s) -> 
      step q s (log (set_stack s (DoPackage n pkg :: s_stack s)) (EvPush n pkg))
  | st_pop w rest : q = true -> s_stack s = w :: rest -> mrun = true \/ quiet s ->
      step q s (log (set_run (set_stack s rest) (w :: s_run s)) (EvPop w))
  | st_hook n l : q = true -> s_log s = EvPop (DoPost n) :: l -> step q s (log s (EvHook n))
  | st_done w rest : q = true -> s_run s = w :: rest -> work_done s w ->
      step q s (log (set_run s rest) (EvDone w))
  | st_fail w rest : q = true -> s_run s = w :: rest ->
      (forall n, w = DoPost n -> In (EvHook n) (s_log s)) ->
      step q s (log (set_run s rest) (EvFail w))
  | st_save : q = true -> step q s (set_saved (set_stack s []) (s_stack s :: s_saved s))
  | st_restore a rest : q = true -> s_saved s = a :: rest ->
      step q s (set_saved (set_stack s (s_stack s ++ a)) rest).

  Inductive chain (q : bool) (s : st) : st -> Prop :=
  | ch_refl : chain q s s
  | ch_step s1 s2 : chain q s s1 -> step q s1 s2 -> chain q s s2.

  Lemma chain_trans q s s1 s2 : chain q s s1 -> chain q s1 s2 -> chain q s s2.
  Proof. intros H K. induction K; [exact H|]. eapply ch_step; eassumption. Qed.
  Lemma chain_one q s s' : step q s s' -> chain q s s'.
  Proof. intros H. eapply ch_step; [apply ch_refl|exact H]. Qed.

  Lemma step_weaken q s s' : step q s s' -> step true s s'.
  Proof. intros H. destruct H; try (econstructor; (reflexivity || eassumption)). Qed.
  Lemma chain_weaken q s s' : chain q s s' -> chain true s s'.
  Proof.
    intros H. induction H as [|s1 s2 H IH K]; [apply ch_refl|].
    eapply ch_step; [exact IH|]. eapply step_weaken; eassumption.
  Qed.

  (** ** Steps only add *)

  Lemma grows_same s s' :
    grows_graph (s_graph s) (s_graph s') -> (exists l, s_log s' = l ++ s_log s) ->
    incl (s_seen s) (s_seen s') -> (exists l, s_post s' = l ++ s_post s) ->
    (exists l, s_missing s' = l ++ s_missing s) -> grows s s'.
  Proof. now constructor. Qed.

  Lemma step_grows q s s' : step q s s' -> grows s s'.
  Proof.
    intros H; destruct H; [destruct H as (f & c & ->)|..];
      try (constructor; cbn; first [apply grows_graph_refl|apply incl_refl|now exists []|now eexists [_]|idtac]).
    - apply grows_add_node.
    - exists [EvAdd name []; EvImplied name ImpNone]. reflexivity.
    - apply grows_add_node.
    - apply grows_add_node.
    - apply grows_add_edge.
    - apply grows_add_root.
    - apply grows_written.
    - unfold schedule. cbn. destruct (memb n (s_seen s)); apply grows_graph_refl.
    - unfold schedule. cbn. destruct (memb n (s_seen s)); now eexists [_].
    - unfold schedule. cbn. destruct (memb n (s_seen s)); cbn; [apply incl_refl|].
      intros x Hx. apply set_add_In. now right.
    - unfold schedule. cbn. destruct (memb n (s_seen s)); now exists [].
    - unfold schedule. cbn. destruct (memb n (s_seen s)); now exists [].
  Qed.
  Lemma chain_grows q s s' : chain q s s' -> grows s s'.
  Proof.
    intros H. induction H as [|s1 s2 H IH K]; [apply grows_refl|].
    eapply grows_trans; [exact IH|]. eapply step_grows; eassumption.
  Qed.

  (** ** The invariant needed while building *)

  Definition work_ok (s : st) (w : work) : Prop :=
    match w with
    | DoPost n => In n (s_seen s)
    | DoImport n i => scheduled s n i /\ In n (s_seen s)
    | DoNames n m i => scheduled s n i /\ In n (s_seen s) /\ import_target s n i m
        /\ has_edge (s_graph s) n m (import_dep i)
    | DoPackage n pkg => In (EvList n pkg) (s_log s)
    end.

  Record inv (s : st) : Prop := {
    inv_stack : forall w, In w (s_stack s) -> work_ok s w;
    inv_saved : forall l w, In l (s_saved s) -> In w l -> work_ok s w;
    inv_run : forall w, In w (s_run s) -> work_ok s w;
    inv_hooks : hooks_ok s;
    inv_sched : forall n l, In (EvSched n l) (s_log s) -> In n (s_seen s) /\ in_graph s n;
    inv_subst : forall x y, In (EvSubst x y) (s_log s) -> s_missing s <> []
  }.

  Lemma grows_work_ok s s' w : grows s s' -> work_ok s w -> work_ok s' w.
  Proof.
    intros G. destruct w as [n|n i|n m i|n pkg]; cbn.
    - apply (gw_seen _ _ G).
    - intros [H1 H2]. split; [eapply grows_scheduled; eassumption|now apply (gw_seen _ _ G)].
    - intros (H1 & H2 & H3 & H4). split; [eapply grows_scheduled; eassumption|].
      split; [now apply (gw_seen _ _ G)|]. split; [eapply grows_target; eassumption|eapply grows_edge; eassumption].
    - eapply grows_log; eassumption.
  Qed.

  Lemma not_nil_app {A} (l l' : list A) : l' <> [] -> l ++ l' <> [].
  Proof. intros H E. apply app_eq_nil in E as [_ E]. congruence. Qed.

  (** Steps that leave the work, the hooks and the log alone or nearly so. *)
  Lemma inv_keep s s' : inv s -> grows s s' ->
    (forall w, In w (s_stack s') -> In w (s_stack s) \/ work_ok s' w) ->
    (forall l w, In l (s_saved s') -> In w l -> (exists l', In l' (s_saved s) /\ In w l') \/ In w (s_stack s) \/ work_ok s' w) ->
    (forall w, In w (s_run s') -> In w (s_run s) \/ In w (s_stack s)) ->
    hooks_ok s' ->
    (forall n l, In (EvSched n l) (s_log s') -> In (EvSched n l) (s_log s) \/ (In n (s_seen s') /\ in_graph s' n)) ->
    (forall x y, In (EvSubst x y) (s_log s') -> In (EvSubst x y) (s_log s) \/ s_missing s <> []) ->
    inv s'.
  Proof.
    intros [I1 I2 I3 I4 I5 I6] G H1 H2 H3 H4 H5 H6. constructor; [| | |exact H4| |].
    - intros w Hw. apply H1 in Hw as [Hw|Hw]; [|exact Hw]. apply (grows_work_ok s); auto.
    - intros l w Hl Hw. destruct (H2 l w Hl Hw) as [(l' & A & B)|[A|A]].
      + apply (grows_work_ok s); [exact G|]. eapply I2; eassumption.
      + apply (grows_work_ok s); auto.
      + exact A.
    - intros w Hw. apply (grows_work_ok s); [exact G|]. destruct (H3 w Hw); auto.
    - intros n l Hn. destruct (H5 n l Hn) as [A|A]; [|exact A]. apply I5 in A as [A B].
      split; [now apply (gw_seen _ _ G)|]. eapply grows_in_graph; eassumption.
    - intros x y Hx. destruct (gw_missing _ _ G) as [l ->]. apply not_nil_app.
      destruct (H6 x y Hx) as [A|A]; [|exact A]. eapply I6; eassumption.
  Qed.

  Lemma step_inv q s s' : step q s s' -> inv s -> inv s'.
  Proof.
    intros H I. pose proof (step_grows _ _ _ H) as G. pose proof (inv_hooks _ I) as K.
    destruct H as [s' H|m|h H|h H|names|l|e H|name id H|name i H1 H2 H3|name H1 H2 H3|n l H1 H2|n H1 H2
                  |a b d H1 H2 H3|id H1 H2|id names|n l H1 H2|n m i a b H1 H2 H3 H4 H5 H6 H7|n pkg H1 H2|w rest H1 H2 H3
                  |n l H1 H2|w rest H1 H2 H3|w rest H1 H2 H3|H1|a rest H1 H2];
    [destruct H as (f & c & ->)|..]; (apply (inv_keep s); [exact I|exact G| | | | | |]; cbn;
      first [now auto|exact K|now eauto|idtac]).
    all: try (intros; match goal with H : _ \/ _ |- _ => destruct H as [H|H]; [try discriminate H|] end; auto; fail).
    - (* hooks *) destruct K as [K1 K2]. split; [|exact K2]. intros h' [<-|Hh]; auto.
    - destruct K as [K1 K2]. split; [exact K1|]. intros h' [<-|Hh]; auto.
    - intros n l [E|E]; [subst e; discriminate|auto].
    - intros n l [E|E]; [subst e; discriminate|auto].
    - intros n l [E|[E|E]]; try discriminate; auto.
    - intros n l [E|[E|E]]; try discriminate; auto.
    - (* schedule *)
      assert (Hs : In n (s_seen (schedule n l s))).
      { unfold schedule. cbn. destruct (memb n (s_seen s)) eqn:E; cbn; [now apply memb_In|].
        apply set_add_In. now left. }
      intros w Hw. assert (In w (rev (map (DoImport n) l)) \/ w = DoPost n \/ In w (s_stack s)) as [A|[->|A]].
      { unfold schedule in Hw. cbn in Hw. destruct (memb n (s_seen s)); cbn in Hw;
        apply in_app_iff in Hw as [Hw|Hw]; auto. destruct Hw; auto. }
      + right. apply in_rev in A. apply in_map_iff in A as [i [<- A]]. cbn. split; [|exact Hs].
        exists l. split; [|exact A]. unfold schedule. cbn. destruct (memb n (s_seen s)); now left.
      + right. exact Hs.
      + now left.
    - intros l' w Hl Hw. left. exists l'. split; [|exact Hw].
      unfold schedule in Hl. cbn in Hl. now destruct (memb n (s_seen s)).
    - intros w Hw. left. unfold schedule in Hw. cbn in Hw. now destruct (memb n (s_seen s)).
    - destruct K as [K1 K2]. unfold hooks_ok, schedule. cbn. destruct (memb n (s_seen s)); split; auto.
    - intros n' l' Hn.
      assert (EvSched n l = EvSched n' l' \/ In (EvSched n' l') (s_log s)) as [A|A].
      { unfold schedule in Hn. cbn in Hn. destruct (memb n (s_seen s)); exact Hn. }
      + right. injection A as <- <-. split.
        * unfold schedule. cbn. destruct (memb n (s_seen s)) eqn:E; cbn; [now apply memb_In|].
          apply set_add_In. now left.
        * eapply grows_in_graph; [exact G|]. exact H1.
      + now left.
    - intros x y Hn. left. unfold schedule in Hn. cbn in Hn. destruct (memb n (s_seen s)); destruct Hn as [Hn|Hn]; try discriminate; auto.
    - (* names *)
      intros w Hw. rewrite H2. apply in_app_iff in Hw as [Hw|[<-|Hw]].
      + left. apply in_app_iff. now left.
      + right. cbn. auto.
      + left. apply in_app_iff. now right.
    - intros w [<-|Hw]; [right; right; exact H2|now left].
    - intros w' Hw. rewrite H2. left. now right.
    - intros w' [<-|Hw]; [right; rewrite H2; now left|now left].
    - intros w' Hw. left. rewrite H2. now right.
    - intros w' Hw. left. rewrite H2. now right.
    - intros l w [<-|Hl] Hw; [right; now left|left; eauto].
    - intros w Hw. apply in_app_iff in Hw as [Hw|Hw]; [now left|right].
      apply (grows_work_ok s); [exact G|]. eapply (inv_saved _ I); [|exact Hw]. rewrite H2. now left.
    - intros l w Hl Hw. left. exists l. split; [|exact Hw]. rewrite H2. now right.
  Qed.
  Lemma chain_inv q s s' : chain q s s' -> inv s -> inv s'.
  Proof. intros H I. induction H as [|s1 s2 H IH K]; [exact I|]. eapply step_inv; eassumption. Qed.
End policy.
