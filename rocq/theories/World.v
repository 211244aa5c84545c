(** Small concrete environments, for the examples and counterexamples. *)
From Verif Require Export Builder.

(** A module as the examples describe it. *)
Inductive entry :=
| ESource (package : bool) (body : list ast) (writes : list string)  (* source module or package *)
| EText (package : bool) (text : string) (body : list ast) (reads writes : list string)
| EExtension
| ENamespace
| ESpec (sp : spec)
| EFail (e : err).

(** Code of a module body that reads and writes these names. *)
Definition code_of (reads writes : list string) : code :=
  Code 0 (reads ++ writes) [CNone]
    (map (fun i => Ins LOAD_NAME (Some i)) (seq 0 (List.length reads)) ++
     map (fun i => Ins STORE_NAME (Some i)) (seq (List.length reads) (List.length writes))).

Definition spec_of (name : string) (e : entry) : result (option spec) :=
  match e with
  | ESource p _ writes => ROk (Some (Spec name (LInspect false (ROk (Some name)) (ROk (Some (code_of [] writes))))
      (Some (name ++ (if p then "/__init__.py" else ".py"))%string) (if p then Some [name] else None) true (ROk p)))
  | EText p text _ reads writes => ROk (Some (Spec name (LInspect false (ROk (Some text)) (ROk (Some (code_of reads writes))))
      (Some (name ++ (if p then "/__init__.py" else ".py"))%string) (if p then Some [name] else None) true (ROk p)))
  | EExtension => ROk (Some (Spec name LExtension (Some (name ++ ".so")%string) None true (ROk false)))
  | ENamespace => ROk (Some (Spec name LNamespace None (Some [name]) true (ROk true)))
  | ESpec sp => ROk (Some sp)
  | EFail e => RErr e
  end.

Fixpoint text_of (w : list (string * entry)) (text : string) : option (list ast) :=
  match w with
  | [] => None
  | (name, ESource _ body _) :: r => if seqb name text then Some body else text_of r text
  | (_, EText _ t body _ _) :: r => if seqb t text then Some body else text_of r text
  | _ :: r => text_of r text
  end.

Section world.
  (** Modules, scripts and source texts, directories of packages. *)
  Variable w : list (string * entry).
  Variable scripts : list (string * list ast).
  Variable files : list (string * (list string * list string)).

  Definition world : env := Env
    (fun _ _ name => match assoc name w with Some e => spec_of name e | None => ROk None end)
    (fun _ _ => false)
    (fun _ _ => ROk None)
    (fun _ _ => ROk None)
    (fun _ _ text => match text_of w text with
                     | Some l => ROk (AOther l)
                     | None => match assoc text scripts with Some l => ROk (AOther l) | None => RErr ESyntax end
                     end)
    (fun _ path => match assoc path scripts with Some l => ROk (AOther l) | None => RErr EKey end)
    (fun _ _ => RErr EImport)
    (fun _ _ => OnDisk (TDir []))
    [".py"; ".so"]
    (fun _ path => match assoc path files with Some (stems, _) => ROk stems | None => ROk [] end)
    (fun _ path => match assoc path files with Some (_, dirs) => ROk dirs | None => ROk [] end)
    (fun _ _ => false)
    (fun _ path => ROk path)
    (fun f => fst (rpartition slash f))
    (fun x => negb (seqb x ""))
    (fun l => l)
    (fun l => l)
    true.
End world.

Definition imp (name : string) : ast := AImport [(name, None)].
Definition from (m : string) (names : list string) (level : nat) : ast :=
  AImportFrom (Some m) (map (fun n => (n, None)) names) level.

(** Several calls one after the other; the answers and the last state. *)
Fixpoint calls (E : env) (fuel : nat) (l : list action) (s : st) : option (list answer * st) :=
  match l with
  | [] => Some ([], s)
  | a :: r => match top_call E fuel a s with
              | None => None
              | Some (ans, s1) => match calls E fuel r s1 with
                                  | None => None
                                  | Some (anss, s2) => Some (ans :: anss, s2)
                                  end
              end
  end.

Definition edge_pairs (s : st) : list (string * string) := map fst (g_edges (s_graph s)).
Definition node_list (s : st) : list (string * kind) := map (fun n => (n_name n, n_kind n)) (g_nodes (s_graph s)).

Definition the_calls (E : env) (l : list action) (s : st) : list answer * st :=
  match calls E 60 l s with Some x => x | None => ([], s) end.

Lemma calls_reach E fuel l : forall s0 s anss s', reach E s0 s -> calls E fuel l s = Some (anss, s') -> reach E s0 s'.
Proof.
  induction l as [|a l IH]; intros s0 s anss s' R H; cbn in H.
  - now injection H as <- <-.
  - destruct (top_call E fuel a s) as [[ans s1]|] eqn:E1; [|discriminate].
    destruct (calls E fuel l s1) as [[anss' s2]|] eqn:E2; [|discriminate]. injection H as <- <-.
    eapply IH; [|exact E2]. eapply reach_call; eassumption.
Qed.
Lemma the_calls_reach E l s : reach E s (snd (the_calls E l s)).
Proof.
  unfold the_calls. destruct (calls E 60 l s) as [[anss s']|] eqn:H; [|apply reach_init].
  eapply calls_reach; [apply reach_init|exact H].
Qed.

Lemma ran E l s s' : snd (the_calls E l s) = s' -> reach E s s'.
Proof. intros <-. apply the_calls_reach. Qed.

Definition new : st := init [] [] [].

(** The same environment where every file belongs to the distribution [d] and
    these files exist. *)
Definition installed (E : env) (d : dist) (files : list string) : env := Env
  (e_find_spec E) (e_sysmod E) (fun _ _ => ROk (Some d)) (fun _ _ => ROk (Some d)) (e_parse E) (e_script E)
  (e_import E) (e_location E) (e_suffixes E) (e_glob_py E) (e_subdirs E) (fun _ f => memb f files) (e_read E)
  (e_parent E) (e_isidentifier E) (e_names_order E) (e_order E) (e_ge311 E).
