(** Theorems about the command line: C56, C57 and C60. *)
From Verif Require Import Cli ReportSpec ReportProofs PropsReport HtmlSpec PropsHtml BuilderKinds BuilderCalls World PropsBuilder PropsCalls PropsNodes BuiltinHooks PropsHooks PropsRoots.
From Coq Require Import Lia.
Open Scope string_scope.

(** ** The store *)

Lemma put_length a l cells : List.length (put a l cells) = List.length cells.
Proof. revert a. induction cells as [|x r IH]; intros [|a]; cbn; auto. Qed.
Lemma nth_put a b l cells : nth b (put a l cells) [] =
  if Nat.eqb a b then (if Nat.ltb a (List.length cells) then l else []) else nth b cells [].
Proof.
  revert a b. induction cells as [|x r IH]; intros a b.
  - cbn. destruct (Nat.eqb a b); destruct b; reflexivity.
  - destruct a as [|a], b as [|b]; cbn [put nth Nat.eqb]; try reflexivity.
    rewrite IH. destruct (Nat.eqb a b); [|reflexivity]. cbn [List.length].
    destruct (Nat.ltb_spec a (List.length r)), (Nat.ltb_spec (S a) (S (List.length r))); auto; lia.
Qed.
Lemma put_app a l xs ys : List.length xs <= a -> put a l (xs ++ ys) = (xs ++ put (a - List.length xs) l ys)%list.
Proof.
  revert a. induction xs as [|x r IH]; intros a H; cbn in *; [now rewrite Nat.sub_0_r|].
  destruct a as [|a]; [lia|]. cbn. now rewrite IH by lia.
Qed.

(** ** C57: options *)

(** What the options say. *)
Definition says_exclude (stdlib : list string) (o : opt) : list string :=
  match o with OExclude name => [name] | OStdlib => stdlib | _ => [] end.
Definition says_path (o : opt) : list string := match o with OPath p => [p] | _ => [] end.
Definition says_type (o : opt) : list node_type :=
  match o with OModule => [NTModule] | OScript => [NTScript] | ODistribution => [NTDistribution] | _ => [] end.
Definition says_format (o : opt) : list output_format :=
  match o with
  | OFormat s => if string_dec s "html" then [FHtml] else if string_dec s "dot" then [FGraphviz] else []
  | _ => []
  end.
Definition says_output (o : opt) : list (option string) := match o with OOutput f => [Some f] | _ => [] end.

Definition valid (o : opt) : Prop := forall s, o = OFormat s -> s = "html" \/ s = "dot".

(** The parsed arguments. *)
Record parsed (stdlib : list string) (l : list opt) (names : list string) (y y' : sys) (ns : namespace) : Prop := {
  pd_type : getattr ns "node_type" = Some (VType (last (flat_map says_type l) NTModule));
  pd_format : getattr ns "output_format" = Some (VFormat (last (flat_map says_format l) FHtml));
  pd_excludes : exists a, getattr ns "excludes" = Some (VList a) /\ List.length (y_lists y) <= a /\ cell a y' = flat_map (says_exclude stdlib) l;
  pd_path : exists a, getattr ns "path" = Some (VList a) /\ List.length (y_lists y) <= a /\ cell a y' = flat_map says_path l;
  pd_output : getattr ns "output_file" = Some (match last (flat_map says_output l) None with None => VNone | Some f => VText f end);
  pd_names : getattr ns "name" = Some (VNames names);
  (* nothing else has changed *)
  pd_old : exists new, y_lists y' = (y_lists y ++ new)%list;
  pd_same : y_path y' = y_path y /\ y_stdout y' = y_stdout y /\ y_files y' = y_files y
}.

(** The namespace while the options are read: [f] names the format. *)
Definition format_text (f : output_format) : string := match f with FHtml => "html" | FGraphviz => "dot" end.
Definition output_value (o : option string) : value := match o with None => VNone | Some f => VText f end.
Definition shape (t : node_type) (f : output_format) (a b : nat) (o : option string) : namespace :=
  [("node_type", VType t); ("output_format", VText (format_text f)); ("excludes", VList a); ("path", VList b);
   ("output_file", output_value o)].

Lemma last_app {A} (l m : list A) d : last (l ++ m) d = last m (last l d).
Proof.
  destruct m as [|x m]; [now rewrite app_nil_r|]. revert x. induction l as [|z l IH]; intros x; [cbn [app]|].
  - revert x. induction m as [|u m IHm]; intros x; [reflexivity|]. cbn [last]. apply (IHm u).
  - cbn [app]. transitivity (last (l ++ x :: m) d).
    + destruct (l ++ x :: m)%list eqn:E; [now destruct l|reflexivity].
    + rewrite IH. clear. revert x. induction m as [|u m IHm]; intros x; [reflexivity|]. cbn [last]. apply (IHm u).
Qed.

Lemma reading stdlib p c : 
  p_module p = Argument "node_type" (StoreConst (VType NTModule)) (VType NTModule) ->
  p_script p = Argument "node_type" (StoreConst (VType NTScript)) VNone ->
  p_distribution p = Argument "node_type" (StoreConst (VType NTDistribution)) VNone ->
  p_format p = Argument "output_format" (Store (Some ["html"; "dot"])) (VText "html") ->
  a_dest (p_exclude p) = "excludes" -> a_act (p_exclude p) = Append ->
  a_dest (p_stdlib p) = "excludes" -> a_act (p_stdlib p) = ExtendConst c ->
  a_dest (p_path p) = "path" -> a_act (p_path p) = Append ->
  p_output p = Argument "output_file" (Store None) VNone ->
  forall l old t f a b o y new,
  Forall valid l ->
  y_lists y = (old ++ new)%list -> List.length old <= a -> List.length old <= b -> 
  a < List.length (y_lists y) -> b < List.length (y_lists y) -> c < List.length (y_lists y) ->
  a <> b -> a <> c -> b <> c -> cell c y = stdlib ->
  exists a' b' y' new',
    take_actions p l (shape t f a b o) y =
      Some (ROk (shape (last (flat_map says_type l) t) (last (flat_map says_format l) f) a' b' (last (flat_map says_output l) o)), y') /\
    y_lists y' = (old ++ new')%list /\ List.length old <= a' /\ List.length old <= b' /\ cell a' y' = (cell a y ++ flat_map (says_exclude stdlib) l)%list /\
    cell b' y' = (cell b y ++ flat_map says_path l)%list /\ 
    y_path y' = y_path y /\ y_stdout y' = y_stdout y /\ y_files y' = y_files y.
Proof.
  intros P1 P2 P3 P4 P5 P5' P6 P6' P7 P7' P8. induction l as [|x l IH]; intros old t f a b o y new HV H Ha Hb La Lb Lc Nab Nac Nbc Hc.
  - exists a, b, y, new. cbn. rewrite !app_nil_r. auto 10.
  - inversion HV as [|x' l' V HV']; subst x' l'.
    assert (K : exists t1 f1 a1 b1 o1 y1 new1,
      take_action (fst (option_of p x)) (snd (option_of p x)) (shape t f a b o) y = Some (ROk (shape t1 f1 a1 b1 o1), y1) /\
      t1 = last (says_type x) t /\ f1 = last (says_format x) f /\ o1 = last (says_output x) o /\
      y_lists y1 = (old ++ new1)%list /\ List.length old <= a1 /\ List.length old <= b1 /\ 
      a1 < List.length (y_lists y1) /\ b1 < List.length (y_lists y1) /\ c < List.length (y_lists y1) /\
      a1 <> b1 /\ a1 <> c /\ b1 <> c /\ cell c y1 = stdlib /\
      cell a1 y1 = (cell a y ++ says_exclude stdlib x)%list /\ cell b1 y1 = (cell b y ++ says_path x)%list /\
      y_path y1 = y_path y /\ y_stdout y1 = y_stdout y /\ y_files y1 = y_files y).
    { unfold cell in *. assert (Lold : List.length old <= List.length (y_lists y)) by (rewrite H, app_length; lia).
      destruct x as [| | |s|name| |s|file]; cbn [option_of fst snd]; unfold take_action.
      - rewrite P1. exists NTModule, f, a, b, o. exists y, new. split; [reflexivity|]. cbn. rewrite !app_nil_r. repeat (split; [eauto|]). auto.
      - rewrite P2. exists NTScript, f, a, b, o. exists y, new. split; [reflexivity|]. cbn. rewrite !app_nil_r. repeat (split; [eauto|]). auto.
      - rewrite P3. exists NTDistribution, f, a, b, o. exists y, new. split; [reflexivity|]. cbn. rewrite !app_nil_r. repeat (split; [eauto|]). auto.
      - rewrite P4. destruct (V s eq_refl) as [-> | ->].
        + exists t, FHtml, a, b, o. exists y, new. split; [reflexivity|]. cbn. rewrite !app_nil_r. repeat (split; [eauto|]). auto.
        + exists t, FGraphviz, a, b, o. exists y, new. split; [reflexivity|]. cbn. rewrite !app_nil_r. repeat (split; [eauto|]). auto.
      - rewrite P5, P5'. exists t, f, (List.length (y_lists y)), b, o. eexists. exists (new ++ [nth a (y_lists y) [] ++ [name]])%list. split; [reflexivity|].
        cbn [y_lists y_path y_stdout y_files says_type says_format says_output says_exclude says_path last].
        rewrite H at 1. rewrite <- app_assoc, !app_length, app_nil_r. cbn [List.length].
        repeat (split; [first [reflexivity|lia|idtac]|]); auto.
        + rewrite app_nth1 by lia. exact Hc.
        + rewrite app_nth2, Nat.sub_diag by lia. reflexivity.
        + rewrite app_nth1 by lia. reflexivity.
      - rewrite P6, P6'. exists t, f, a, b, o. eexists. exists (put (a - List.length old) (nth a (y_lists y) [] ++ stdlib)%list new). split; [reflexivity|].
        cbn [y_lists y_path y_stdout y_files says_type says_format says_output says_exclude says_path last].
        rewrite !nth_put, !put_length, app_nil_r. rewrite H at 1. rewrite put_app by exact Ha.
        rewrite Nat.eqb_refl. destruct (Nat.eqb_spec a c); [lia|]. destruct (Nat.eqb_spec a b); [lia|].
        destruct (Nat.ltb_spec a (List.length (y_lists y))); [|lia]. unfold cell. rewrite Hc.
        repeat (split; [first [reflexivity|lia|idtac]|]); auto.
      - rewrite P7, P7'. exists t, f, a, (List.length (y_lists y)), o. eexists. exists (new ++ [nth b (y_lists y) [] ++ [s]])%list. split; [reflexivity|].
        cbn [y_lists y_path y_stdout y_files says_type says_format says_output says_exclude says_path last].
        rewrite H at 1. rewrite <- app_assoc, !app_length, app_nil_r. cbn [List.length].
        repeat (split; [first [reflexivity|lia|idtac]|]); auto.
        + rewrite app_nth1 by lia. exact Hc.
        + rewrite app_nth1 by lia. reflexivity.
        + rewrite app_nth2, Nat.sub_diag by lia. reflexivity.
      - rewrite P8. exists t, f, a, b, (Some file). exists y, new. split; [reflexivity|]. cbn. rewrite !app_nil_r. repeat (split; [eauto|]). auto. }
    destruct K as (t1 & f1 & a1 & b1 & o1 & y1 & new1 & E1 & Et & Ef & Eo & H1 & G1 & G2 & G3 & G4 & G5 & G6 & G7 & G8 & Hc1 & Ca & Cb & Y1 & Y2 & Y3).
    destruct (IH old t1 f1 a1 b1 o1 y1 new1 HV' H1 G1 G2 G3 G4 G5 G6 G7 G8 Hc1) as (a' & b' & y' & new' & E2 & H2 & Fa & Fb & Ca' & Cb' & Z1 & Z2 & Z3).
    exists a', b', y', new'. cbn [take_actions flat_map]. unfold io_bind. rewrite E1, E2, !last_app, <- Et, <- Ef, <- Eo.
    rewrite Ca', Cb', Ca, Cb, !app_assoc. repeat split; auto; congruence.
Qed.

Lemma reads stdlib l y : Forall valid l -> exists q y1 a b y' new',
  make_parser stdlib y = Some (ROk q, y1) /\
  p_format q = Argument "output_format" (Store (Some ["html"; "dot"])) (VText "html") /\
  take_actions q l (set_defaults (arguments q) []) y1 = 
    Some (ROk (shape (last (flat_map says_type l) NTModule) (last (flat_map says_format l) FHtml) a b (last (flat_map says_output l) None)), y') /\
  y_lists y' = (y_lists y ++ new')%list /\ List.length (y_lists y) <= a /\ List.length (y_lists y) <= b /\ cell a y' = flat_map (says_exclude stdlib) l /\ cell b y' = flat_map says_path l /\
  y_path y' = y_path y /\ y_stdout y' = y_stdout y /\ y_files y' = y_files y.
Proof.
  intros HV. destruct (make_parser stdlib y) as [[[p|e] y1]|] eqn:E; try discriminate. unfold make_parser, io_bind, alloc, io_ret in E.
  injection E as <- E. cbn [y_lists] in E. set (k := List.length (y_lists y)) in *.
  repeat rewrite app_length in *. cbn [List.length] in *. fold k in E |- *. rewrite <- !app_assoc in E. cbn [app] in E.
  match goal with |- context [Some (ROk ?p, y1)] => set (q := p) end.
  destruct (reading stdlib q (k + 1 + 1)) with (l := l) (old := y_lists y) (t := NTModule) (f := FHtml) (a := k) (b := k + 1 + 1 + 1)
    (o := None (A := string)) (y := y1) (new := [[]; []; stdlib; []] : list (list string)) as (a' & b' & y' & new' & E2 & H2 & Fa & Fb & Ca' & Cb' & Z1 & Z2 & Z3);
    try reflexivity; try (subst y1; cbn [y_lists]; rewrite ?app_length; cbn [List.length]; fold k; lia); auto.
  { now subst y1. }
  { subst y1. unfold cell. cbn [y_lists]. rewrite app_nth2 by lia. fold k. replace (k + 1 + 1 - k) with 2 by lia. reflexivity. }
  replace (cell k y1) with (@nil string) in Ca' by (subst y1; unfold cell; cbn [y_lists]; rewrite app_nth2 by lia; fold k; now rewrite Nat.sub_diag).
  replace (cell (k + 1 + 1 + 1) y1) with (@nil string) in Cb'
    by (subst y1; unfold cell; cbn [y_lists]; rewrite app_nth2 by lia; fold k; replace (k + 1 + 1 + 1 - k) with 3 by lia; reflexivity).
  cbn [app] in Ca', Cb'. subst y1. cbn [y_path y_stdout y_files] in *.
  exists q. eexists. exists a', b', y', new'. split; [reflexivity|]. split; [reflexivity|]. auto 11.
Qed.

(** C57: for every sequence of options the excludes are the names in order, as is
    the path; the last of the other options counts.  No list that was there
    before is changed. *)
Theorem C57_options : forall stdlib l names y,
  names <> [] -> Forall valid l ->
  exists ns y', parse_arguments stdlib l names y = Some (ROk ns, y') /\ parsed stdlib l names y y' ns.
Proof.
  intros stdlib l names y Hn HV. destruct (reads stdlib l y HV) as (q & y1 & a' & b' & y' & new' & E1 & _ & E2 & H2 & Fa & Fb & Ca & Cb & Z1 & Z2 & Z3).
  unfold parse_arguments, io_bind. rewrite E1, E2.
  destruct names as [|n0 names0]; [contradiction|]. clear Hn. set (names := n0 :: names0) in *.
  set (t := last (flat_map says_type l) NTModule). set (f := last (flat_map says_format l) FHtml). set (o := last (flat_map says_output l) None).
  exists [("node_type", VType t); ("output_format", VFormat f); ("excludes", VList a'); ("path", VList b');
          ("output_file", output_value o); ("name", VNames names)], y'. split.
  - destruct f; reflexivity.
  - split; try reflexivity; [now exists a'|now exists b'|now exists new'|auto].
Qed.

Lemma valid_split l : Forall valid l \/ exists l1 s l2, l = (l1 ++ OFormat s :: l2)%list /\ Forall valid l1 /\ s <> "html" /\ s <> "dot".
Proof.
  induction l as [|o l IH]; [left; constructor|].
  assert (D : valid o \/ exists s, o = OFormat s /\ s <> "html" /\ s <> "dot").
  { destruct o as [| | |s| | | |]; try (left; intros ? ?; discriminate).
    destruct (string_dec s "html") as [-> |N1]; [left; intros ? [= ->]; auto|].
    destruct (string_dec s "dot") as [-> |N2]; [left; intros ? [= ->]; auto|]. right. now exists s. }
  destruct D as [D|(s & -> & N1 & N2)]; [|right; exists [], s, l; auto].
  destruct IH as [IH|(l1 & s & l2 & -> & HV & N)]; [left; now constructor|].
  right. exists (o :: l1), s, l2. split; [reflexivity|]. auto.
Qed.
Lemma take_actions_app p l1 l2 ns y : take_actions p (l1 ++ l2) ns y = io_bind (take_actions p l1 ns) (take_actions p l2) y.
Proof.
  revert ns y. induction l1 as [|o l1 IH]; intros ns y; [reflexivity|]. cbn [app take_actions]. unfold io_bind.
  destruct (take_action _ _ ns y) as [[[ns1|e] y1]|]; try reflexivity. rewrite IH. reflexivity.
Qed.

(** A wrong format or no names: the usage message and exit code 2, and no list
    that was there before is changed. *)
Theorem C57_usage : forall stdlib l names y,
  names = [] \/ ~ Forall valid l ->
  exists y' new, parse_arguments stdlib l names y = Some (RErr (EUser "SystemExit(2)"), y') /\ y_lists y' = (y_lists y ++ new)%list /\
    y_path y' = y_path y /\ y_stdout y' = y_stdout y /\ y_files y' = y_files y.
Proof.
  intros stdlib l names y H. destruct (valid_split l) as [HV|(l1 & s & l2 & -> & HV & N1 & N2)].
  - destruct H as [-> |H]; [|contradiction].
    destruct (reads stdlib l y HV) as (q & y1 & a' & b' & y' & new' & E1 & _ & E2 & H2 & Fa & Fb & Ca & Cb & Z1 & Z2 & Z3).
    unfold parse_arguments, io_bind. rewrite E1, E2. exists y', new'. auto.
  - destruct (reads stdlib l1 y HV) as (q & y1 & a' & b' & y' & new' & E1 & P & E2 & H2 & Fa & Fb & Ca & Cb & Z1 & Z2 & Z3).
    unfold parse_arguments, io_bind at 1 2. rewrite E1, take_actions_app. unfold io_bind. rewrite E2. cbn [take_actions option_of fst snd].
    unfold io_bind, take_action. rewrite P. cbn [a_act].
    destruct (memb s ["html"; "dot"]) eqn:M; [|exists y', new'; auto].
    apply memb_In in M as [M|[M|[]]]; congruence.
Qed.

(** ** C56: the search path *)

Definition keeps_path (m : IO unit) : Prop := forall y r y', m y = Some (r, y') -> sys_path y' = sys_path y.
(** [sys.path] refers to a list. *)
Definition has_path (y : sys) : Prop := y_path y < List.length (y_lists y).

(** C56: the search path has its contents again, whatever the block does (it may
    change the list, bind [sys.path] to another list, raise), and the outcome is
    that of the block. *)
Theorem C56_saved : forall A invalidate (body : IO A) y r y',
  keeps_path invalidate -> (forall x y1, body y = Some (x, y1) -> has_path y1) ->
  saved_sys_path invalidate body y = Some (r, y') ->
  sys_path y' = sys_path y /\
  exists x y1, body y = Some (x, y1) /\
    (r = x \/ exists e y2, invalidate y2 = Some (RErr e, y') /\ r = RErr e).
Proof.
  intros A invalidate body y r y' HK HB H. unfold saved_sys_path in H.
  destruct (body y) as [[x y1]|] eqn:E; [|discriminate]. specialize (HB x y1 eq_refl).
  unfold io_bind, path_cell, write in H.
  set (y2 := Sys (put (y_path y1) (sys_path y) (y_lists y1)) (y_path y1) (y_stdout y1) (y_files y1)) in *.
  assert (K : sys_path y2 = sys_path y).
  { unfold y2, sys_path at 1, cell. cbn [y_lists y_path]. rewrite nth_put, Nat.eqb_refl.
    destruct (Nat.ltb_spec (y_path y1) (List.length (y_lists y1))); [reflexivity|unfold has_path in HB; lia]. }
  destruct (invalidate y2) as [[[[]|e] y3]|] eqn:E3; [| |discriminate]; injection H as <- <-.
  - split; [rewrite <- K; eapply HK; exact E3|]. exists x, y1. auto.
  - split; [rewrite <- K; eapply HK; exact E3|]. exists x, y1. split; [reflexivity|]. right. eauto.
Qed.

Lemma insert_paths_spec l : forall y, has_path y -> exists y', insert_paths l y = Some (ROk tt, y') /\ has_path y' /\
  sys_path y' = (rev l ++ sys_path y)%list /\ y_path y' = y_path y /\
  (forall a, a <> y_path y -> cell a y' = cell a y) /\ y_stdout y' = y_stdout y /\ y_files y' = y_files y.
Proof.
  induction l as [|p l IH]; intros y Hy; cbn [insert_paths]; [exists y; cbn; auto 8|].
  unfold io_bind, path_cell, read, write.
  set (y1 := Sys (put (y_path y) (p :: cell (y_path y) y) (y_lists y)) (y_path y) (y_stdout y) (y_files y)).
  assert (H1 : has_path y1) by (unfold has_path, y1; cbn [y_path y_lists]; rewrite put_length; exact Hy).
  destruct (IH y1 H1) as (y' & E & H2 & H3 & H4 & H5 & H6 & H7). exists y'. split; [exact E|]. split; [exact H2|]. split.
  - rewrite H3. unfold y1, sys_path, cell. cbn [y_lists y_path rev]. rewrite nth_put, Nat.eqb_refl.
    unfold has_path in Hy. destruct (Nat.ltb_spec (y_path y) (List.length (y_lists y))); [|lia]. now rewrite <- app_assoc.
  - split; [exact H4|]. split; [|auto]. intros a Na. rewrite H5 by exact Na. unfold cell, y1. cbn [y_lists]. rewrite nth_put.
    destruct (Nat.eqb_spec (y_path y) a); [congruence|reflexivity].
Qed.

(** C56: during [make_graph] the search path is the [-p] options in order, then
    what it was; afterwards it is what it was. *)
Theorem C56_make_graph : forall A invalidate (build : IO A) ns y a,
  keeps_path invalidate -> has_path y -> getattr ns "path" = Some (VList a) ->
  (forall y0 x y1, has_path y0 -> build y0 = Some (x, y1) -> has_path y1) ->
  exists y0, sys_path y0 = (cell a y ++ sys_path y)%list /\ y_stdout y0 = y_stdout y /\ y_files y0 = y_files y /\
    (forall b, b <> y_path y -> cell b y0 = cell b y) /\
    (build y0 = None -> make_graph_with invalidate build ns y = None) /\
    forall r y', make_graph_with invalidate build ns y = Some (r, y') ->
      sys_path y' = sys_path y /\
      exists x y1, build y0 = Some (x, y1) /\
        (r = x \/ exists e y2, invalidate y2 = Some (RErr e, y') /\ r = RErr e).
Proof.
  intros A invalidate build ns y a HK Hy Ha HB.
  destruct (insert_paths_spec (rev (cell a y)) y Hy) as (y0 & E & H1 & H2 & _ & H3 & H4 & H5). rewrite rev_involutive in H2.
  assert (X : (l <-- list_attr ns "path" ;; perform insert_paths (rev l) ;; build) y = build y0).
  { unfold io_bind, list_attr. rewrite Ha. unfold read. now rewrite E. }
  exists y0. split; [exact H2|]. split; [exact H4|]. split; [exact H5|]. split; [exact H3|]. split.
  - intros N. unfold make_graph_with, saved_sys_path. now rewrite X, N.
  - intros r y' H. unfold make_graph_with in H. apply C56_saved in H; [|exact HK|].
    + destruct H as [K (x & y1 & E1 & K2)]. split; [exact K|]. exists x, y1. split; [congruence|exact K2].
    + intros x y1 E1. rewrite X in E1. eapply HB; eassumption.
Qed.

(** ** C60: the program *)

(** The calls that a command line asks for. *)
Definition verb (t : node_type) : string -> action :=
  match t with NTModule => AAddModule | NTScript => AAddScript | NTDistribution => AAddDistNamed end.
Definition asked (stdlib : list string) (l : list opt) (names : list string) : list action :=
  AExcludes (flat_map (says_exclude stdlib) l) :: map (verb (last (flat_map says_type l) NTModule)) names.

(** Nothing was printed and no file was changed. *)
Definition silent (y y' : sys) : Prop := y_stdout y' = y_stdout y /\ y_files y' = y_files y.
Definition quiet (m : IO unit) : Prop := forall y r y', m y = Some (r, y') -> silent y y'.
Definition contents (y : sys) (file : string) : option string := assoc file (y_files y).

(** The text went where it should, or there was an OSError on the way. *)
Definition delivered (file : option string) (text : string) (y y' : sys) (r : result unit) : Prop :=
  match file with
  | None => y_files y' = y_files y /\
      (r = ROk tt /\ y_stdout y' = y_stdout y ++ text \/ r = RErr EOS /\ exists k, y_stdout y' = y_stdout y ++ stake k text)
  | Some f => y_stdout y' = y_stdout y /\ (forall f', f' <> f -> contents y' f' = contents y f') /\
      (r = ROk tt /\ contents y' f = Some text \/ 
       r = RErr (EUser "SystemExit(1)") /\ (contents y' f = contents y f \/ exists k, contents y' f = Some (stake k text)) \/
       (exists e, r = RErr e /\ e <> EOS) /\ contents y' f = contents y f)
  end.

Section program.
  Variables (envs : list string -> env) (start : st) (fuel : nat) (invalidate : IO unit) (stdlib : list string)
    (iter : nat -> graph -> list node) (opens : string -> result unit) (writes : option string -> string -> option nat).
  Let prog := main envs start fuel invalidate stdlib iter opens writes.

  Lemma graph_calls_spec E l : forall s y r y', graph_calls fuel E l s y = Some (r, y') -> y' = y /\
    match r with
    | ROk s' => exists anss, calls E fuel l s = Some (anss, s') /\ Forall (fun a => ok_answer a = true) anss
    | RErr e => exists l1 a l2 anss s1 s2, l = (l1 ++ a :: l2)%list /\ calls E fuel l1 s = Some (anss, s1) /\
        Forall (fun a => ok_answer a = true) anss /\ top_call E fuel a s1 = Some (AnsErr e, s2)
    end.
  Proof.
    induction l as [|a l IH]; intros s y r y' H; cbn [graph_calls] in H.
    - injection H as <- <-. split; [reflexivity|]. exists []. now split.
    - unfold io_bind, graph_call in H. destruct (top_call E fuel a s) as [[ans s1]|] eqn:E1; [|discriminate].
      destruct (ok_answer ans) eqn:Eo.
      + assert (H' : graph_calls fuel E l s1 y = Some (r, y')) by (destruct ans; try exact H; discriminate).
        apply IH in H' as [-> H']. split; [reflexivity|]. destruct r as [s'|e].
        * destruct H' as (anss & Hc & Hf). exists (ans :: anss). cbn [calls]. rewrite E1, Hc. split; [reflexivity|]. now constructor.
        * destruct H' as (l1 & a' & l2 & anss & s1' & s2 & -> & Hc & Hf & Ht).
          exists (a :: l1), a', l2, (ans :: anss), s1', s2. cbn [calls app]. rewrite E1, Hc. split; [reflexivity|]. split; [reflexivity|].
          split; [now constructor|exact Ht].
      + destruct ans; try discriminate. injection H as <- <-. split; [reflexivity|].
        exists [], a, l, [], s, s1. cbn. auto.
  Qed.

  Lemma assoc_filter f (l : list (string * string)) f' : f' <> f -> 
    assoc f' (filter (fun x => negb (seqb (fst x) f)) l) = assoc f' l.
  Proof.
    intros N. induction l as [|[a b] l IH]; [reflexivity|]. cbn [filter fst assoc].
    destruct (seqb a f) eqn:E; cbn [negb].
    - apply seqb_eq in E as ->. rewrite IH. cbn [assoc]. destruct (seqb f' f) eqn:E2; [apply seqb_eq in E2; contradiction|].
      destruct (seqb f f') eqn:E3; [apply seqb_eq in E3; congruence|reflexivity].
    - cbn [assoc]. now rewrite IH.
  Qed.

  Lemma build_graph_spec ns y excludes t names : list_attr ns "excludes" y = Some (ROk excludes, y) ->
    getattr ns "node_type" = Some (VType t) -> getattr ns "name" = Some (VNames names) ->
    forall r y', build_graph envs start fuel ns y = Some (r, y') -> 
    graph_calls fuel (envs (sys_path y)) (AExcludes excludes :: map (verb t) names) start y = Some (r, y').
  Proof.
    intros H1 H2 H3 r y' H. unfold build_graph, io_bind in H. rewrite H1, H2, H3 in H. cbn [graph_calls]. unfold io_bind.
    destruct (graph_call fuel (envs (sys_path y)) (AExcludes excludes) start y) as [[[s1|e] y1]|]; [|exact H..].
    destruct t; exact H.
  Qed.
  Lemma build_graph_same ns y r y' : build_graph envs start fuel ns y = Some (r, y') -> y' = y.
  Proof.
    intros H. unfold build_graph, io_bind, list_attr in H. 
    destruct (getattr ns "excludes") as [[| | | |a|]|]; try (cbn in H; injection H as <- <-; reflexivity).
    unfold read in H. unfold graph_call at 1 in H. destruct (top_call _ _ _ _) as [[ans s1]|]; [|discriminate].
    assert (K : forall t, (match ans with AnsErr e => Some (RErr e, y) | _ => graph_calls fuel (envs (sys_path y)) t s1 y end) = Some (r, y') -> y' = y).
    { intros t K. destruct (ok_answer ans) eqn:Eo.
      - apply (graph_calls_spec (envs (sys_path y)) t s1 y r y'). destruct ans; try discriminate; exact K.
      - destruct ans; try discriminate. injection K as <- <-. reflexivity. }
    assert (K2 : (match ans with AnsErr e => Some (RErr e, y) | _ => Some (RErr EAssert, y) end) = Some (r, y') -> y' = y).
    { destruct ans; intros [= <- <-]; reflexivity. }
    destruct (getattr ns "node_type") as [[|[]| | | |]|], (getattr ns "name") as [[| | | | |names]|]; 
      first [apply (K (map AAddModule names)); destruct ans; exact H|apply (K (map AAddScript names)); destruct ans; exact H
            |apply (K (map AAddDistNamed names)); destruct ans; exact H|apply K2; destruct ans; exact H].
  Qed.

  Lemma format_graph_spec ns s f o y r y' : getattr ns "output_format" = Some (VFormat f) ->
    getattr ns "output_file" = Some (output_value o) ->
    format_graph iter opens writes ns s y = Some (r, y') ->
    sys_path y' = sys_path y /\ delivered o (print_graph iter f (s_graph s)) y y' r.
  Proof.
    intros H1 H2 H. unfold format_graph in H. rewrite H1, H2 in H. set (text := print_graph iter f (s_graph s)) in *.
    destruct o as [file|]; cbn [output_value] in H.
    - unfold write_file in H. destruct (opens file) as [[]|e].
      + destruct (writes (Some file) text) as [k|]; injection H as <- <-; (split; [reflexivity|]); cbn [delivered y_stdout]; (split; [reflexivity|]);
          unfold contents; cbn [y_files assoc].
        * split; [|right; left; split; [reflexivity|right; exists k; now rewrite (proj2 (seqb_eq file file))]].
          intros f' N. destruct (seqb f' file) eqn:Ef; [apply seqb_eq in Ef; contradiction|now apply assoc_filter].
        * split; [|left; split; [reflexivity|now rewrite (proj2 (seqb_eq file file))]].
          intros f' N. destruct (seqb f' file) eqn:Ef; [apply seqb_eq in Ef; contradiction|now apply assoc_filter].
      + destruct e; injection H as <- <-; (split; [reflexivity|]); (split; [reflexivity|]); (split; [reflexivity|]); 
          first [right; right; split; [eexists; split; [reflexivity|discriminate]|reflexivity]|right; left; auto].
    - unfold write_stdout in H. destruct (writes None text) as [k|]; injection H as <- <-; (split; [reflexivity|]); cbn; (split; [reflexivity|]).
      + right. split; [reflexivity|]. now exists k.
      + now left.
  Qed.

  (** C60: the program makes the graph of what was asked for, with the excludes and
      the path of the command line, and writes its report to the right place; if a
      call raises, it stops with that exception and writes nothing. *)
  Theorem C60_main : forall l names y r y',
    keeps_path invalidate -> quiet invalidate -> has_path y -> names <> [] -> Forall valid l ->
    prog l names y = Some (r, y') ->
    let E := envs (flat_map says_path l ++ sys_path y)%list in
    sys_path y' = sys_path y /\
    ((exists anss s, calls E fuel (asked stdlib l names) start = Some (anss, s) /\ Forall (fun a => ok_answer a = true) anss /\
        delivered (last (flat_map says_output l) None) (print_graph iter (last (flat_map says_format l) FHtml) (s_graph s)) y y' r)
     \/ silent y y' /\ exists e, r = RErr e /\
        ((exists l1 a l2 anss s1 s2, asked stdlib l names = (l1 ++ a :: l2)%list /\ calls E fuel l1 start = Some (anss, s1) /\
            Forall (fun a => ok_answer a = true) anss /\ top_call E fuel a s1 = Some (AnsErr e, s2))
         \/ exists y1 y2, invalidate y1 = Some (RErr e, y2))).
  Proof.
    intros l names y r y' HK HQ Hy Hn HV H E.
    destruct (C57_options stdlib l names y Hn HV) as (ns & y1 & E1 & [P1 P2 (a & P3 & P3f & P3') (b & P4 & P4f & P4') P5 P6 (new & P7) (P8 & P9 & P10)]).
    unfold prog, main, io_bind at 1 in H. rewrite E1 in H. unfold io_bind in H.
    assert (Hy1 : has_path y1) by (unfold has_path in *; rewrite P7, P8, app_length; lia).
    assert (Hp1 : sys_path y1 = sys_path y) by (unfold has_path, sys_path, cell in *; now rewrite P7, P8, app_nth1).
    destruct (C56_make_graph st invalidate (build_graph envs start fuel ns) ns y1 b HK Hy1 P4) as (y0 & Q1 & Q2 & Q3 & Q4 & _ & Q5).
    { intros z x z' Hz Hx. apply build_graph_same in Hx as ->. exact Hz. }
    destruct (make_graph envs start fuel invalidate ns y1) as [[r1 y2]|] eqn:E2; [|discriminate].
    assert (S2 : silent y1 y2).
    { unfold make_graph, make_graph_with, saved_sys_path in E2. 
      set (body := (l0 <-- list_attr ns "path";; perform insert_paths (rev l0);; build_graph envs start fuel ns)) in E2.
      destruct (body y1) as [[x z]|] eqn:Eb; [|discriminate]. 
      assert (Sz : silent y1 z).
      { unfold body, io_bind, list_attr in Eb. rewrite P4 in Eb. unfold read in Eb.
        destruct (insert_paths_spec (rev (cell b y1)) y1 Hy1) as (z0 & F1 & _ & _ & _ & _ & F2 & F3). rewrite F1 in Eb.
        apply build_graph_same in Eb as ->. now split. }
      unfold io_bind, path_cell, write in E2. 
      destruct (invalidate _) as [[[[]|e] z2]|] eqn:E3; [| |discriminate]; injection E2 as <- <-; apply HQ in E3 as [G1 G2]; cbn in G1, G2;
        destruct Sz as [G3 G4]; split; congruence. }
    assert (S2' : silent y y2) by (destruct S2; split; congruence).
    destruct (Q5 r1 y2 E2) as [K1 (x & z & Eb & K2)].
    assert (La : list_attr ns "excludes" y0 = Some (ROk (flat_map (says_exclude stdlib) l), y0)).
    { unfold list_attr. rewrite P3. unfold read. rewrite Q4 by (unfold has_path in Hy; lia). now rewrite P3'. }
    apply (build_graph_spec ns y0 _ _ _ La P1 P6) in Eb. fold (asked stdlib l names) in Eb.
    rewrite Q1, P4', Hp1 in Eb. fold E in Eb. apply graph_calls_spec in Eb as [-> Eb].
    destruct K2 as [<-|(e & z2 & K2 & ->)].
    - destruct r1 as [s|e].
      + destruct Eb as (anss & Ec & Ef). apply (format_graph_spec ns s _ _ _ _ _ P2 P5) in H as [H1 H2]. split; [congruence|].
        left. exists anss, s. split; [exact Ec|]. split; [exact Ef|]. destruct S2' as [G1 G2]. unfold delivered, contents in *.
        now rewrite <- G1, <- G2.
      + injection H as <- <-. split; [congruence|]. right. split; [exact S2'|]. exists e. split; [reflexivity|]. left. exact Eb.
    - injection H as <- <-. split; [congruence|]. right. split; [exact S2'|]. exists e. split; [reflexivity|]. right. eauto.
  Qed.
End program.

(** *** What that means for the graph *)

Lemma calls_mid E s0 fuel l : forall s anss s' a, reach E s0 s -> calls E fuel l s = Some (anss, s') -> In a l ->
  exists s1 ans s2, reach E s0 s1 /\ top_call E fuel a s1 = Some (ans, s2) /\ In ans anss /\ reach E s2 s'.
Proof.
  induction l as [|b l IH]; intros s anss s' a R H Hi; [destruct Hi|]. cbn in H. destruct Hi as [<-|Hi].
  - destruct (top_call E fuel b s) as [[ans s1]|] eqn:E1; [|discriminate].
    destruct (calls E fuel l s1) as [[anss' s2]|] eqn:E2; [|discriminate]. injection H as <- <-.
    exists s, ans, s1. split; [exact R|]. split; [exact E1|]. split; [now left|]. eapply calls_reach; [apply reach_init|exact E2].
  - destruct (top_call E fuel b s) as [[ans s1]|] eqn:E1; [|discriminate].
    destruct (calls E fuel l s1) as [[anss' s2]|] eqn:E2; [|discriminate]. injection H as <- <-.
    destruct (IH s1 anss' s2 a) as (s3 & ans3 & s4 & A & B & C & D); [eapply reach_call; eassumption|exact E2|exact Hi|].
    exists s3, ans3, s4. split; [exact A|]. split; [exact B|]. split; [now right|exact D].
Qed.

Lemma reach_roots E s0 s1 s2 : order_ok E -> start s0 -> reach E s0 s1 -> reach E s1 s2 ->
  incl (g_roots (s_graph s1)) (g_roots (s_graph s2)) /\ reach E s0 s2.
Proof.
  intros HE H0 R1 R2. induction R2 as [|s fuel a ans s' R2 IH HC]; [split; [apply incl_refl|exact R1]|].
  destruct IH as [A B]. split; [|eapply reach_call; eassumption]. eapply incl_tran; [exact A|].
  intros x Hx. eapply oa_roots; [|exact Hx]. eapply C19_only_adds; eassumption.
Qed.

(** Every script that was asked for is a root, and so is the node of every module. *)
Theorem C60_roots : forall E fuel start0 stdlib l names anss s, order_ok E -> start start0 ->
  calls E fuel (asked stdlib l names) start0 = Some (anss, s) -> Forall (fun a => ok_answer a = true) anss ->
  forall name, In name names ->
  match last (flat_map says_type l) NTModule with
  | NTScript => In name (g_roots (s_graph s))
  | NTModule => exists id s1, reach E s1 s /\ resolves s1 name id /\ In id (g_roots (s_graph s))
  | NTDistribution => exists d s1, reach E start0 s1 /\ e_dist_named E (s_clock s1) name = ROk (Some d) /\
      (in_graph s1 (dist_identifier d) \/ In (dist_identifier d) (g_roots (s_graph s)))
  end.
Proof.
  intros E fuel start0 stdlib l names anss s HE H0 HC HF name Hn. rewrite Forall_forall in HF.
  destruct (calls_mid E start0 fuel _ start0 anss s (verb (last (flat_map says_type l) NTModule) name) (reach_init E start0) HC)
    as (s1 & ans & s2 & R1 & Ht & Ha & R2).
  { right. now apply in_map. }
  pose proof (reach_call E start0 s1 fuel _ ans s2 R1 Ht) as R1'.
  pose proof (C30_asked_are_roots E start0 s1 fuel _ ans s2 HE H0 R1 Ht (HF _ Ha)) as K.
  destruct (reach_roots E start0 s2 s HE H0 R1' R2) as [I _].
  destruct (last (flat_map says_type l) NTModule); cbn [verb] in K.
  - now apply I.
  - destruct K as (id & _ & K1 & K2). exists id, s2. split; [exact R2|]. split; [exact K1|]. now apply I.
  - destruct K as (d & K & K2). exists d, s1. split; [exact R1|]. split; [exact K|]. destruct K2 as [K2|K2]; [now left|right; now apply I].
Qed.

(** The Graphviz output on stdout, read back, is the graph (names without newline
    and double quote). *)
Theorem C60_dot_partial : forall envs start0 fuel invalidate stdlib iter opens writes l names y y',
  keeps_path invalidate -> quiet invalidate -> has_path y -> names <> [] -> Forall valid l ->
  main envs start0 fuel invalidate stdlib iter opens writes l names y = Some (ROk tt, y') ->
  let E := envs (flat_map says_path l ++ sys_path y)%list in
  order_ok E -> start start0 ->
  last (flat_map says_format l) FHtml = FGraphviz -> 
  exists anss s text, calls E fuel (asked stdlib l names) start0 = Some (anss, s) /\
    match last (flat_map says_output l) None with
    | None => y_stdout y' = y_stdout y ++ text
    | Some f => contents y' f = Some text
    end /\
    ((forall k, traversal (s_graph s) (iter k (s_graph s))) ->
     (forall n, reachable (s_graph s) n -> clean [newline; dquote] (n_name n) /\
        forall d, n_dist n = Some d -> clean [newline; dquote] (dist_name d)) ->
     exists is cs, read_dot text = Some (is, cs) /\ shows (s_graph s) is cs).
Proof.
  intros envs start0 fuel invalidate stdlib iter opens writes l names y y' HK HQ Hy Hn HV H E HE H0 HF.
  destruct (C60_main _ _ _ _ _ _ _ _ l names y _ y' HK HQ Hy Hn HV H) as [_ [(anss & s & Hc & _ & Hd)|(_ & e & K & _)]]; [|discriminate].
  exists anss, s, (print_graph iter FGraphviz (s_graph s)). split; [exact Hc|]. rewrite HF in Hd. split.
  - unfold delivered in Hd. destruct (last (flat_map says_output l) None) as [f|].
    + destruct Hd as (_ & _ & [[_ K]|[[K _]|[(e & K & _) _]]]); [exact K|discriminate..].
    + destruct Hd as (_ & [[_ K]|[K _]]); [exact K|discriminate].
  - intros HT Cl. cbn [print_graph]. apply C54_dot_partial; [|apply HT|apply HT|exact Cl].
    eapply (reach_sound E start0); [exact HE|exact H0|]. eapply calls_reach; [apply reach_init|exact Hc].
Qed.

(** The HTML output has a section for each module that can be reached, and links for
    the edges (names without [<] and double quote). *)
Theorem C60_html_partial : forall envs start0 fuel invalidate stdlib iter opens writes l names y y',
  keeps_path invalidate -> quiet invalidate -> has_path y -> names <> [] -> Forall valid l ->
  main envs start0 fuel invalidate stdlib iter opens writes l names y = Some (ROk tt, y') ->
  let E := envs (flat_map says_path l ++ sys_path y)%list in
  order_ok E -> start start0 ->
  last (flat_map says_format l) FHtml = FHtml ->
  exists anss s text, calls E fuel (asked stdlib l names) start0 = Some (anss, s) /\
    match last (flat_map says_output l) None with
    | None => y_stdout y' = y_stdout y ++ text
    | Some f => contents y' f = Some text
    end /\
    ((forall k, traversal (s_graph s) (iter k (s_graph s))) -> html_safe (s_graph s) ->
     (forall id, In id (anchors text) <-> exists n, reachable (s_graph s) n /\ n_name n = id /\ n_kind n <> Distribution) /\
     forall id, In id (hrefs text) <-> reaches (s_graph s) id /\ exists n ds, reachable (s_graph s) n /\ n_kind n <> Distribution
       /\ (In (n_name n, id, ds) (g_edges (s_graph s)) \/ In (id, n_name n, ds) (g_edges (s_graph s)))) /\
    ((forall k, traversal (s_graph s) (iter k (s_graph s))) -> html_plain (s_graph s) ->
     exists secs, read_html text = Some secs /\ html_tells false (s_graph s) secs).
Proof.
  intros envs start0 fuel invalidate stdlib iter opens writes l names y y' HK HQ Hy Hn HV H E HE H0 HF.
  destruct (C60_main _ _ _ _ _ _ _ _ l names y _ y' HK HQ Hy Hn HV H) as [_ [(anss & s & Hc & _ & Hd)|(_ & e & K & _)]]; [|discriminate].
  exists anss, s, (print_graph iter FHtml (s_graph s)). split; [exact Hc|]. rewrite HF in Hd. split.
  - unfold delivered in Hd. destruct (last (flat_map says_output l) None) as [f|].
    + destruct Hd as (_ & _ & [[_ K]|[[K _]|[(e & K & _) _]]]); [exact K|discriminate..].
    + destruct Hd as (_ & [[_ K]|[K _]]); [exact K|discriminate].
  - assert (So : sound (s_graph s)).
    { eapply (reach_sound E start0); [exact HE|exact H0|]. eapply calls_reach; [apply reach_init|exact Hc]. }
    split; intros HT Cl; cbn [print_graph]; [split; [apply C55_anchors|apply C55_hrefs]; auto|now apply C72_html_partial].
Qed.

(** ** Concrete cases *)

Definition some_options : list opt := [OExclude "a"; OStdlib; OPath "lib"; OScript; OExclude "b"; OStdlib; OModule; OFormat "dot"; OPath "src"].
Definition some_sys : sys := Sys [["other"]; ["/usr/lib"; ""]] 1 "" [].
Example C57_nonvacuous :
  Forall valid some_options /\
  match parse_arguments ["abc"; "os"] some_options ["m"; "n"] some_sys with
  | Some (ROk ns, y') => option_map (fun v => match v with VList a => cell a y' | _ => [] end) (getattr ns "excludes") =
      Some ["a"; "abc"; "os"; "b"; "abc"; "os"] /\
      option_map (fun v => match v with VList a => cell a y' | _ => [] end) (getattr ns "path") = Some ["lib"; "src"] /\
      getattr ns "node_type" = Some (VType NTModule)
  | _ => False
  end.
Proof. split; [|vm_compute; auto]. repeat (constructor; [intros s [= <-] || (intros s [=]); auto|]). constructor. Qed.

(** A block that changes the list, binds another one and raises. *)
Definition wild : IO unit := fun y => Some (RErr EKey, Sys (put 1 ["gone"] (y_lists y) ++ [["new"]])%list 2 (y_stdout y) (y_files y)).
Example C56_nonvacuous :
  let done := match saved_sys_path (io_ret tt) wild some_sys with Some (r, y') => (Some r, sys_path y') | None => (None, []) end in
  done = (Some (RErr EKey), ["/usr/lib"; ""]) /\ keeps_path (io_ret tt) /\ forall x y1, wild some_sys = Some (x, y1) -> has_path y1.
Proof.
  split; [vm_compute; reflexivity|]. split; [intros y r y' [= <- <-]; reflexivity|].
  intros x y1 [= <- <-]. vm_compute. auto.
Qed.

Definition cli_world : env := world [("m", ESource false [imp "n"; imp "b"] []); ("n", ESource false [] []); ("b", ESource false [] [])] [] [].
Definition cli_run : option (result unit * sys) :=
  main (fun _ => cli_world) new 60 (io_ret tt) ["abc"] (fun _ g => g_nodes g) (fun _ => ROk tt) (fun _ _ => None)
    [OExclude "b"; OFormat "dot"; OOutput "out"] ["m"] some_sys.
Example C60_nonvacuous :
  option_map (fun x => (fst x, match contents (snd x) "out" with Some t => read_dot t | None => None end)) cli_run =
  Some (ROk tt, Some ([RNode "m" (Some [("penwidth", "2"); ("root", "true"); ("shape", "rectangle")]); REdge "m" "b" (Some []);
    REdge "m" "n" (Some []); RNode "b" (Some []); RNode "n" (Some [("shape", "rectangle")])], [])).
Proof. vm_compute. reflexivity. Qed.

(** The hypotheses of [C60_dot_partial] hold in this case. *)
Definition cli_state : st := Eval vm_compute in snd (the_calls cli_world (asked ["abc"] [OExclude "b"; OFormat "dot"; OOutput "out"] ["m"]) new).
Example C60_hypotheses : traversal (s_graph cli_state) (g_nodes (s_graph cli_state)) /\
  (exists anss, calls cli_world 60 (asked ["abc"] [OExclude "b"; OFormat "dot"; OOutput "out"] ["m"]) new = Some (anss, cli_state)) /\
  forall n, reachable (s_graph cli_state) n -> clean [newline; dquote] (n_name n) /\ forall d, n_dist n = Some d -> clean [newline; dquote] (dist_name d).
Proof.
  split; [|split].
  - assert (R1 : reaches (s_graph cli_state) "m") by (apply re_root; now left).
    assert (R2 : reaches (s_graph cli_state) "n") by (eapply re_edge; [exact R1|right; now left]).
    assert (R3 : reaches (s_graph cli_state) "b") by (eapply re_edge; [exact R1|now left]).
    constructor; [cbn; repeat (apply NoDup_cons; [cbn; intuition discriminate|]); apply NoDup_nil|]. intros n. split.
    + intros H. split; [exact H|]. destruct H as [<-|[<-|[<-|[]]]]; assumption.
    + intros [H _]. exact H.
  - eexists. vm_compute. reflexivity.
  - intros n [H _]. assert (X : Forall (fun n => has_char newline (n_name n) = false /\ has_char dquote (n_name n) = false
      /\ n_dist n = None) (g_nodes (s_graph cli_state))).
    { repeat (constructor; [cbn; auto|]). constructor. }
    rewrite Forall_forall in X. destruct (X n H) as (A & B & C). split; [|intros d Hd; congruence].
    intros c [<-|[<-|[]]]; now apply no_char_has.
Qed.

Print Assumptions C56_saved.
Print Assumptions C56_make_graph.
Print Assumptions C57_options.
Print Assumptions C57_usage.
Print Assumptions C60_main.
Print Assumptions C60_roots.
Print Assumptions C60_dot_partial.
Print Assumptions C60_html_partial.
