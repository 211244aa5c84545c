(** Theorems about modules that do not exist: C32, C38. *)
From Verif Require Import BuilderAbsent World DistsProofs.

Lemma order_world w s f : order_ok (world w s f).
Proof. intros l x. reflexivity. Qed.

(** ** C32: add_module of a non-existing module *)

(** A name like [a.b.c]. *)
Definition good_name (name : string) : Prop :=
  exists l, l <> [] /\ Forall (fun x => dotless x /\ x <> ""%string) l /\ name = join "." l.

(** Nothing at all exists. *)
Definition C32_statement : Prop := forall E implies fuel name ans s',
  order_ok E -> (forall n, nonexistent E n) -> good_name name -> assoc name implies = None ->
  top_call E fuel (AAddModule name) (init implies [] []) = Some (ans, s') -> ok_answer ans = true.

(** From [STDLIB_IMPLIES] in modulegraph2/_implies.py: the entry for [turtledemo]
    lists its submodules. *)
Definition turtle_implies : list (string * implied) := [("turtledemo", ImpRefs ["turtledemo.bytedesign"; "turtledemo.clock"])].
Definition turtle_done : st := Eval vm_compute in
  snd (the_calls (world [] [] []) [AAddModule "turtledemo.clock"] (init turtle_implies [] [])).

Theorem C32_refuted : ~ C32_statement.
Proof.
  intros H. specialize (H (world [] [] []) turtle_implies 60 "turtledemo.clock"%string (AnsErr EValue) turtle_done).
  discriminate H.
  - apply order_world.
  - intros n t f. now left.
  - exists ["turtledemo"; "clock"]%string. split; [discriminate|]. split; [|reflexivity].
    repeat constructor; discriminate.
  - reflexivity.
  - vm_compute. reflexivity.
Qed.

(** From any state without hooks and without pending work, for names that are
    absent and not in the table of implied actions, nor one of their packages:
    the call ends, whatever the fuel was its answer is the name, and the node is
    a MissingModule that is a root. *)
Theorem C32_missing_partial : forall E s name,
  s_missing s = [] -> s_post s = [] -> s_stack s = [] -> absent E s name ->
  (exists fuel s', top_call E fuel (AAddModule name) s = Some (AnsId name, s'))
  /\ forall fuel ans s', top_call E fuel (AAddModule name) s = Some (ans, s') ->
       ans = AnsId name /\ kind_of s' name = Some MissingModule /\ In name (g_roots (s_graph s')).
Proof.
  intros E s name M P Z H.
  destruct (find_absent E s name M H) as [d Hd]. destruct (Hd None) as (s1 & F & T).
  destruct (a_stack _ _ _ T) as (l & L & Q). rewrite Z, app_nil_r in L.
  assert (X : exists fuel s2, top_call E fuel (AAddModule name) s = Some (AnsId name, s2)
     /\ kind_of s2 name = Some MissingModule /\ In name (g_roots (s_graph s2))).
  { set (s2 := set_graph (log s1 (EvRoot name)) (Graph (g_nodes (s_graph s1)) (g_edges (s_graph s1)) (set_add name (g_roots (s_graph s1))))).
    destruct (run_posts E l s2 L Q) as (s3 & R & G). { cbn. rewrite (a_post _ _ _ T). exact P. }
    set (f := Nat.max d (S (S (List.length l)))). exists f, s3.
    assert (F' : f_find (exec E f) None name true s = Some (ROk name, s1)).
    { apply (le_find _ _ (exec_le E d f (Nat.le_max_l _ _))). exact F. }
    assert (R' : f_run (exec E f) s2 = Some (ROk tt, s3)).
    { apply (le_run _ _ (exec_le E _ f (Nat.le_max_r _ _))). exact R. }
    split; [|split].
    - unfold top_call, call, attempt. cbn [do_action]. unfold add_module. unfold bind at 1 2 3.
      assert (N : ~ in_graph s name) by (destruct H; assumption).
      rewrite (find_module_none name s N). unfold bind at 1. rewrite F'.
      unfold bind at 1, note, modify. unfold bind at 1, add_root, lift_graph, gadd_root, ghas.
      destruct (kind_found _ _ _ (a_kind _ _ _ T)) as (n & Hn & _). cbn [s_graph log]. rewrite Hn.
      fold s2. unfold bind at 1. rewrite R'. reflexivity.
    - unfold kind_of. rewrite G. exact (a_kind _ _ _ T).
    - rewrite G. cbn. apply set_add_In. now left. }
  destruct X as (fuel & s2 & X1 & X2). split; [exists fuel, s2; exact X1|].
  intros fuel' ans s' K. pose proof (top_call_same E _ _ _ _ _ _ X1 K) as Y. injection Y as <- <-. auto.
Qed.

(** In particular in a new graph when nothing is installed. *)
Theorem C32_nothing_installed_partial : forall E implies l,
  (forall n, nonexistent E n) -> components l ->
  (forall l1 l2, l1 <> [] -> l = l1 ++ l2 ->
     ~ In (join "." l1) (map fst implies) /\ join "." l1 <> "__main__"%string) ->
  (exists fuel s', top_call E fuel (AAddModule (join "." l)) (init implies [] []) = Some (AnsId (join "." l), s'))
  /\ forall fuel ans s', top_call E fuel (AAddModule (join "." l)) (init implies [] []) = Some (ans, s') ->
       ans = AnsId (join "." l) /\ kind_of s' (join "." l) = Some MissingModule /\ In (join "." l) (g_roots (s_graph s')).
Proof.
  intros E implies l X C H. apply C32_missing_partial; try reflexivity. apply absent_join; auto.
  intros l1 l2 N Hl. split; [intros K; now apply K|]. destruct (H l1 l2 N Hl) as [A B]. cbn [init s_lazy].
  rewrite assoc_implies_other by exact A. unfold assoc. destruct (seqb (join "." l1) "__main__") eqn:Q; [|reflexivity].
  apply seqb_eq in Q. congruence.
Qed.

Example C32_nonvacuous :
  absent (world [] [] []) new "a.b.c" /\ top_call (world [] [] []) 60 (AAddModule "a.b.c") new <> None
  /\ absent (world [("m", ESource false [] [])] [] [])
       (snd (the_calls (world [("m", ESource false [] [])] [] []) [AAddModule "m"] new)) "m.x.y".
Proof.
  assert (X : forall w n, assoc n w = None -> nonexistent (world w [] []) n).
  { intros w n A t f. left. cbn. now rewrite A. }
  split; [|split].
  - apply (absent_child _ _ "a.b" "c"); [intros K; now apply K|repeat split; discriminate|].
    apply (absent_child _ _ "a" "b"); [intros K; now apply K|repeat split; discriminate|].
    apply absent_top; [intros K; now apply K|reflexivity|discriminate|now apply X|reflexivity].
  - vm_compute. discriminate.
  - apply (absent_child _ _ "m.x" "y"); [intros K; now apply K|repeat split; discriminate|].
    eapply (absent_in _ _ "m" "x"); [intros K; now apply K|repeat split; discriminate|vm_compute; reflexivity|discriminate|discriminate|now apply X|reflexivity].
Qed.

(** ** C38: distributions with unusual file names *)

(** Whatever RECORD contains, in a new graph and with nothing installed. *)
Definition C38_statement : Prop := forall F t df d fuel ans s',
  create_distribution F t df = ROk d -> top_call (world [] [] []) fuel (AAddDist d) new = Some (ans, s') ->
  ans <> AnsErr EValue.

(** A script that pip has put outside of site-packages. *)
Definition docutils : fsenv := FsEnv (fun _ _ => RErr EOS) (fun _ _ => ROk (Some "docutils"%string, Some "0.20"%string))
  (fun _ _ => ROk ["../../../bin/rst2html.py,sha256=x,643"%string; "docutils/__init__.py,sha256=y,12"%string])
  (fun a b => (a ++ "/" ++ b)%string) (fun _ r => r) [".so"%string].
Definition docutils_dist : dist := Eval vm_compute in
  match create_distribution docutils 0 "/lib/docutils.dist-info" with ROk d => d | RErr _ => Dist 0 "" "" "" [] [] end.
Definition docutils_done : st := Eval vm_compute in snd (the_calls (world [] [] []) [AAddDist docutils_dist] new).

Theorem C38_refuted : ~ C38_statement.
Proof.
  intros H. apply (H docutils 0 "/lib/docutils.dist-info"%string docutils_dist 60 (AnsErr EValue) docutils_done);
    [vm_compute; reflexivity|vm_compute; reflexivity|reflexivity].
Qed.

(** A distribution whose import names are absent, or in the graph already, can be added. *)
Theorem C38_no_raise_partial : forall E s d,
  s_missing s = [] -> s_post s = [] -> s_stack s = [] -> ~ in_graph s (dist_identifier d) ->
  let s1 := set_graph s (Graph (g_nodes (s_graph s) ++ [Node (dist_identifier d) Distribution [] [] (Some d) None [] false])
                           (g_edges (s_graph s)) (g_roots (s_graph s))) in
  (forall name, In name (e_order E (dist_import_names d)) -> fine_name E s1 name) ->
  (exists fuel s', top_call E fuel (AAddDist d) s = Some (AnsId (dist_identifier d), s'))
  /\ forall fuel ans s', top_call E fuel (AAddDist d) s = Some (ans, s') -> ans = AnsId (dist_identifier d).
Proof.
  intros E s d M P Z N s1 F.
  assert (X : exists fuel s', top_call E fuel (AAddDist d) s = Some (AnsId (dist_identifier d), s')).
  { set (id := dist_identifier d) in *.
    assert (Hn : gfind (s_graph s) id = None) by (unfold in_graph in N; destruct (gfind _ _); [elim N; discriminate|reflexivity]).
    set (s2 := set_graph (log s1 (EvRoot id)) (Graph (g_nodes (s_graph s1)) (g_edges (s_graph s1)) (set_add id (g_roots (s_graph s1))))).
    assert (A : alike s1 s2) by (constructor; reflexivity).
    assert (G1 : gfind (s_graph s1) id = Some (Node id Distribution [] [] (Some d) None [] false)).
    { apply (gfind_new s (Node id Distribution [] [] (Some d) None [] false)). exact Hn. }
    destruct (iter_fine E id (e_order E (dist_import_names d)) s2) as (k & s3 & I & P3 & l & L & Q).
    { exact M. }
    { intros n H. eapply alike_fine; [exact A|]. now apply F. }
    { unfold kind_of. rewrite (alike_find s1 s2 id A), G1. reflexivity. }
    change (s_stack s2) with (s_stack s) in L. rewrite Z, app_nil_r in L.
    destruct (run_posts E l s3 L Q) as (s4 & R & _). { rewrite P3. exact P. }
    set (f := Nat.max k (S (S (List.length l)))). exists f, s4.
    assert (I' : iter (fun name => m <- f_find (exec E f) None name true ;; add_edge id m default_dep)
       (e_order E (dist_import_names d)) s2 = Some (ROk tt, s3)).
    { revert I. apply le_iter. intros x. apply le_bind; [|intros y sx rx Hx; exact Hx].
      apply (le_find _ _ (exec_le E k f (Nat.le_max_l _ _))). }
    assert (R' : f_run (exec E f) s3 = Some (ROk tt, s4)) by (apply (le_run _ _ (exec_le E _ f (Nat.le_max_r _ _))); exact R).
    unfold top_call, call, attempt. cbn [do_action]. unfold add_distribution. fold id.
    unfold get_node, gets. unfold bind at 1 2 3. rewrite Hn. unfold user_add_node, lift_graph, gadd_node, ghas. cbn [n_name].
    unfold bind at 1. rewrite Hn. fold s1. unfold bind at 1, note, modify. unfold bind at 1, add_root, lift_graph, gadd_root, ghas.
    cbn [s_graph log]. change (s_graph (log s1 (EvRoot id))) with (s_graph s1). rewrite G1. fold s2.
    unfold bind at 1. rewrite I'. unfold bind at 1. rewrite R'. reflexivity. }
  destruct X as (fuel & s2 & X). split; [exists fuel, s2; exact X|].
  intros fuel' ans s' K. pose proof (top_call_same E _ _ _ _ _ _ X K) as Y. now injection Y as <- _.
Qed.

(** The usual case: the names of directories and files are made of non-empty
    parts without dots, like [a/b/c.py] and [a/b/c.cpython-311-darwin.so]; in a
    new graph, with nothing installed. *)
Definition usual_path (suffixes : list string) (path : string) : Prop :=
  exists dirs f, path = join "/" (dirs ++ [f]) /\ Forall (free slash) (dirs ++ [f])
    /\ Forall good_name dirs /\ (forall sfx base, In sfx suffixes -> f = (base ++ sfx)%string -> good_name base).

Lemma join_concat ls : Forall (fun l => l <> []) ls -> join "." (map (join ".") ls) = join "." (concat ls).
Proof.
  induction 1 as [|x ls N F IH]; [reflexivity|]. destruct ls as [|y ls].
  - cbn. now rewrite app_nil_r.
  - cbn [map]. rewrite join_cons_s by discriminate. cbn [map] in IH. rewrite IH. cbn [concat].
    assert (M : y ++ concat ls <> []) by (inversion F; destruct y; [congruence|discriminate]). revert M. generalize (y ++ concat ls).
    intros r M. clear - N M. induction x as [|a x IHx]; [congruence|]. destruct x as [|b x].
    + change ([a] ++ r) with (a :: r). now rewrite (join_cons_s "." a r M).
    + rewrite join_cons_s by discriminate. change ((a :: b :: x) ++ r) with (a :: ((b :: x) ++ r)).
      rewrite (join_cons_s "." a ((b :: x) ++ r)) by discriminate. rewrite <- IHx by discriminate. now rewrite !app_assoc_s.
Qed.
Lemma good_names l : l <> [] -> Forall good_name l -> good_name (join "." l).
Proof.
  intros N F. assert (X : exists ls, l = map (join ".") ls /\ Forall (fun x => x <> []) ls
    /\ Forall (fun x => dotless x /\ x <> ""%string) (concat ls)).
  { clear N. induction F as [|x l (c & N & C & ->) F (ls & -> & A & B)].
    - exists []. repeat split; constructor.
    - exists (c :: ls). repeat split; [now constructor|]. cbn [concat]. apply Forall_app. now split. }
  destruct X as (ls & -> & A & B). rewrite join_concat by exact A. exists (concat ls). split; [|now split].
  destruct ls as [|y ls]; [now elim N|]. inversion A. cbn [concat]. destruct y; [congruence|discriminate].
Qed.

Lemma usual_name exts path n : Forall (free slash) exts -> usual_path ([".py"; ".pyc"]%string ++ exts) path ->
  import_name_of exts path = Some n -> good_name n /\ free slash n.
Proof.
  intros X (dirs & f & -> & S1 & D & B) H. apply (import_name_of_spec exts dirs f X S1) in H as (_ & sfx & base & (l1 & l2 & Hs & _ & _) & Hf & ->).
  assert (G : good_name base). { apply (B sfx); [rewrite Hs; apply in_elt|exact Hf]. }
  apply Forall_app in S1 as [Sd Sf]. assert (Sb : free slash base).
  { inversion Sf as [|? ? Z _]; subst. unfold free in *. rewrite has_char_app, orb_false_iff in Z. tauto. }
  assert (J : forall l, Forall (free slash) l -> free slash (join "." l)).
  { induction 1 as [|x l Hx Hl IH]; [reflexivity|]. destruct l as [|y l]; [exact Hx|]. rewrite join_cons_s by discriminate.
    unfold free in *. rewrite !has_char_app, Hx, IH. reflexivity. }
  unfold module_name. destruct dirs as [|x dirs]; [now split|]. destruct (seqb base "__init__").
  - split; [apply good_names; [discriminate|exact D]|now apply J].
  - split; [apply good_names; [discriminate|]|apply J]; apply Forall_app; (split; [assumption|now constructor]).
Qed.

Theorem C38_new_graph_partial : forall E F t df d lines,
  (forall n, nonexistent E n) -> order_ok E -> Forall (free slash) (fs_ext_suffixes F) ->
  has_char slash df = true -> create_distribution F t df = ROk d -> fs_record F t df = ROk lines ->
  (forall ln, In ln lines -> usual_path ([".py"; ".pyc"]%string ++ fs_ext_suffixes F) (record_relpath ln)) ->
  (forall name, In name (dist_import_names d) -> name <> "__main__"%string /\ starts_with "__main__." name = false) ->
  exists fuel s', top_call E fuel (AAddDist d) new = Some (AnsId (dist_identifier d), s').
Proof.
  intros E F t df d lines X O Fx Sl Cd Rl U Nm.
  destruct (create_distribution_ok F t df d Cd) as (nm & ver & lines' & _ & Rl' & _ & Hid & _ & _ & _ & Hn).
  rewrite Rl in Rl'. injection Rl' as <-.
  apply (C38_no_raise_partial E new d); try reflexivity.
  - intros K. now apply K.
  - intros name I. left. apply (proj1 (O _ _)) in I. destruct (Nm name I) as [M1 M2].
    apply Hn in I as (ln & Hl & Hi). destruct (usual_name _ _ _ Fx (U ln Hl) Hi) as [(c & Nc & C & ->) Fr].
    apply absent_join; [exact X|now split|]. intros l1 l2 N1 ->. split.
    + unfold in_graph, gfind. cbn [find set_graph s_graph g_nodes app new init n_name empty_graph].
      destruct (seqb (dist_identifier d) (join "." l1)) eqn:Q; [|intros K; now apply K].
      apply seqb_eq in Q. exfalso. rewrite Hid in Q. rewrite Q in Sl. clear - Sl Fr N1. destruct l2 as [|y l2].
      * rewrite app_nil_r in Fr. unfold free in Fr. congruence.
      * assert (J : join "." (l1 ++ y :: l2) = (join "." l1 ++ "." ++ join "." (y :: l2))%string).
        { rewrite <- (app_nil_r (l1 ++ y :: l2)). clear - N1. rewrite app_nil_r.
          pose proof (join_concat [l1; y :: l2]) as K. cbn [concat map] in K. rewrite app_nil_r in K. rewrite <- K; [reflexivity|].
          repeat constructor; [exact N1|discriminate]. }
        rewrite J in Fr. unfold free in Fr. rewrite has_char_app, Sl in Fr. discriminate.
    + unfold new, init. cbn [s_lazy set_graph add_implies fold_left]. unfold assoc.
      destruct (seqb (join "." l1) "__main__") eqn:Q; [|reflexivity]. apply seqb_eq in Q. exfalso. destruct l2 as [|y l2].
      * rewrite app_nil_r in M1. congruence.
      * pose proof (join_concat [l1; y :: l2]) as K. cbn [concat map] in K. rewrite app_nil_r in K. rewrite <- K in M2.
        -- cbn [join] in M2. rewrite Q in M2. change (starts_with "__main__." ("__main__." ++ join "." (y :: l2)) = false) in M2.
           now rewrite starts_with_app in M2.
        -- repeat constructor; [exact N1|discriminate].
Qed.

Definition plain_record : fsenv := FsEnv (fun _ _ => RErr EOS) (fun _ _ => ROk (Some "plain"%string, Some "1"%string))
  (fun _ _ => ROk ["a/b.py,,"; "a/__init__.py,,"; "a/lib.cpython-311.so,,"; "a-1.dist-info/RECORD,,"]%string)
  (fun a b => (a ++ "/" ++ b)%string) (fun _ r => r) [".cpython-311.so"; ".so"]%string.
Definition plain_dist : dist := Eval vm_compute in
  match create_distribution plain_record 0 "/lib/a-1.dist-info" with ROk d => d | RErr _ => Dist 0 "" "" "" [] [] end.

Example C38_nonvacuous :
  create_distribution plain_record 0 "/lib/a-1.dist-info" = ROk plain_dist
  /\ dist_import_names plain_dist = ["a.b"; "a"; "a.lib"]%string
  /\ usual_path [".py"; ".pyc"; ".cpython-311.so"; ".so"]%string "a/b.py"
  /\ option_map fst (top_call (world [] [] []) 60 (AAddDist plain_dist) new) = Some (AnsId "/lib/a-1.dist-info").
Proof.
  split; [vm_compute; reflexivity|]. split; [reflexivity|]. split; [|vm_compute; reflexivity].
  exists ["a"]%string, "b.py"%string. split; [reflexivity|]. split; [repeat constructor|]. split.
  - repeat constructor. exists ["a"]%string. repeat split; [discriminate|repeat constructor; discriminate].
  - intros sfx base I Hf. assert (base = "b"%string).
    { destruct I as [<-|[<-|[<-|[<-|[]]]]].
      - change "b.py"%string with ("b" ++ ".py")%string in Hf. now apply app_inj_r in Hf.
      - exfalso. assert (K : ends_with ".pyc" "b.py" = true) by (rewrite Hf; apply ends_with_app). discriminate.
      - exfalso. assert (K : ends_with ".cpython-311.so" "b.py" = true) by (rewrite Hf; apply ends_with_app). discriminate.
      - exfalso. assert (K : ends_with ".so" "b.py" = true) by (rewrite Hf; apply ends_with_app). discriminate. }
    subst base. exists ["b"]%string. repeat split; [discriminate|repeat constructor; discriminate].
Qed.

Print Assumptions C32_refuted.
Print Assumptions C32_missing_partial.
Print Assumptions C32_nothing_installed_partial.
Print Assumptions C38_refuted.
Print Assumptions C38_no_raise_partial.
Print Assumptions C38_new_graph_partial.
