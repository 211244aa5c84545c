(** C04-C08: the AST scan and import records. *)
From Verif Require Import PyStrFacts ImportInfo ImportInfoProofs AstSpec AstProofs.

(** C04: the records are, up to order, one for each imported thing of each
    import statement at any depth; the loop always ends. *)
Theorem C04_every_import_once : forall order t, set_order order ->
  exists out l, extract_ast_info order t = Some out
    /\ Permutation l out /\ Forall2 states (sites [] t) l.
Proof. exact extract_complete. Qed.

(** [sites] is the set of occurrences given by the containment relation. *)
Theorem C04_sites_are_occurrences : forall t p w,
  In (p, w) (sites [] t) <-> exists s, below p t s /\ In w (whats s).
Proof.
  intros t p w. rewrite sites_below. split.
  - intros (p' & s & -> & H). exists s. now rewrite app_nil_r.
  - intros (s & H). exists p, s. now rewrite app_nil_r.
Qed.

(** C05: flags of every record, in both directions. *)
Theorem C05_context_flags : forall order t, set_order order ->
  exists out, extract_ast_info order t = Some out
    /\ (forall p s w, below p t s -> In w (whats s) ->
          exists i, In i out /\ states_what w i /\ states_context p i)
    /\ (forall i, In i out ->
          exists p s w, below p t s /\ In w (whats s) /\ states_what w i /\ states_context p i).
Proof. exact extract_contexts. Qed.

Definition id_order (l : list (string * option string)) := l.
Lemma id_order_ok : set_order id_order.
Proof. intros l. apply Permutation_refl. Qed.

Definition sample : ast :=
  AOther [ AImport [("a", None); ("b.c", Some "x")];
           AIf [AFunctionDef [AImportFrom (Some "m") [("n", None); ("*", None)] 2]];
           ATry [AImport [("t", None)]] [AOther [AImport [("h", None)]]] [] [AImport [("f", None)]] ].

Example C04_C05_nonvacuous :
  extract_ast_info id_order sample =
  Some [ IInfo (IName "a" None) 0 [] false false false false;
         IInfo (IName "b.c" (Some "x")) 0 [] false false false false;
         IInfo (IName "t" None) 0 [] false false false true;
         IInfo (IName "f" None) 0 [] false false false false;
         IInfo (IName "m" None) 2 [IName "n" None] true true true false;
         IInfo (IName "h" None) 0 [] false false false true ]
  /\ below [KDef; KIf; KOther] sample (AImportFrom (Some "m") [("n", None); ("*", None)] 2).
Proof.
  split; [vm_compute; reflexivity|].
  apply (below_kid [KDef; KIf] sample KOther
           (AIf [AFunctionDef [AImportFrom (Some "m") [("n", None); ("*", None)] 2]])); [cbn; auto|].
  apply (below_kid [KDef] _ KIf (AFunctionDef [AImportFrom (Some "m") [("n", None); ("*", None)] 2]));
    [cbn; auto|].
  eapply (below_kid []); [cbn; auto|constructor].
Qed.

(** C06, full statement: an import in a non-finally part of any try statement,
    also one with except*, is flagged. *)
Definition C06_statement : Prop := forall order t out, set_order order ->
  extract_ast_info order t = Some out ->
  forall p s w, below p t s -> In w (whats s) -> In KTry p \/ In KTryStar p ->
  exists i, In i out /\ states_what w i /\ ii_in_tryexcept i = true.

Theorem C06_trystar_refuted : ~ C06_statement.
Proof.
  intros H.
  specialize (H id_order (ATryStar [AImport [("m", None)]] [] [] []) _ id_order_ok eq_refl
                [KTryStar] (AImport [("m", None)]) (WImport "m" None)).
  destruct H as (i & Hi & _ & Ht).
  - apply (below_kid [] _ KTryStar (AImport [("m", None)])); [cbn; auto|constructor].
  - cbn; auto.
  - cbn; auto.
  - cbn in Hi. destruct Hi as [<-|[]]. discriminate.
Qed.

(** The part of C06 that holds: statements with plain except clauses.  Missing:
    except* blocks, for which the code gives no flag. *)
Theorem C06_try_partial : forall order t out, set_order order ->
  extract_ast_info order t = Some out ->
  forall p s w, below p t s -> In w (whats s) -> In KTry p ->
  exists i, In i out /\ states_what w i /\ ii_in_tryexcept i = true /\ is_optional i = true.
Proof.
  intros order t out Ho E p s w Hb Hw Hp.
  destruct (extract_contexts order t Ho) as (out' & E' & A & _).
  rewrite E in E'. injection E' as <-.
  destruct (A p s w Hb Hw) as (i & Hi & Hs & _ & _ & Ht).
  exists i. repeat split; auto; try now apply Ht.
  unfold is_optional. apply Ht in Hp. rewrite Hp. now rewrite !orb_true_r.
Qed.

(** C07: names, star flag and as-names of a from-list. *)
Theorem C07_names : forall nm l lv a b c,
  let i := create_importinfo nm (Some l) lv a b c in
  (forall n, In n (map in_name (ii_names i)) <-> n <> "*" /\ In n (map fst l))
  /\ NoDup (map in_name (ii_names i))
  /\ (ii_star i = true <-> In "*" (map fst l))
  /\ (forall x, In x (ii_names i) -> In (in_name x, in_asname x) l).
Proof. exact create_importinfo_names. Qed.

Theorem C07_asname_kept : forall nm l lv a b c n asn,
  n <> "*" -> In (n, asn) l -> (forall asn', In (n, asn') l -> asn' = asn) ->
  In (IName n asn) (ii_names (create_importinfo nm (Some l) lv a b c)).
Proof. exact create_importinfo_asname. Qed.

Example C07_nonvacuous :
  create_importinfo ("m", None) (Some [("a", Some "x"); ("*", None); ("b", None)]) 1 true false false
  = IInfo (IName "m" None) 1 [IName "a" (Some "x"); IName "b" None] true true false false.
Proof. reflexivity. Qed.

(** C08, full statement, and its refutation: from m import a as x, a as y. *)
Definition C08_statement : Prop := forall nm l lv a b c n asn,
  n <> "*" -> In (n, asn) l -> In (IName n asn) (ii_names (create_importinfo nm (Some l) lv a b c)).

Theorem C08_asname_refuted : ~ C08_statement.
Proof.
  intros H.
  specialize (H ("m", None) [("a", Some "x"); ("a", Some "y")] 0 false false false "a" (Some "y")).
  cbn in H. destruct H as [H|[]]; auto; discriminate.
Qed.

Print Assumptions C04_every_import_once.
Print Assumptions C04_sites_are_occurrences.
Print Assumptions C05_context_flags.
Print Assumptions C06_trystar_refuted.
Print Assumptions C06_try_partial.
Print Assumptions C07_names.
Print Assumptions C07_asname_kept.
Print Assumptions C08_asname_refuted.
