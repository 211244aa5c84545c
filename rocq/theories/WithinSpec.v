(** C98: what runs of programs can load. *)
From Verif Require Import CompileSpec.
From Verif Require Export MustSpec.
Open Scope string_scope.

(** Excluded and replaced modules are not there. *)
Definition kept (find : string -> option spec) (conf : list (string * implied)) (x : string) : option spec :=
  match assoc x conf with Some (ImpRefs _) | None => find x | _ => None end.

(** The statements are those of the sources of all modules, or of what their code objects
    were compiled from when there is no source; other modules have no statements. *)
Definition coded (E : env) (find : string -> option spec) (code : string -> option (list piece)) : Prop := forall x sp, find x = Some sp ->
  match sp_loader sp with
  | LInspect _ (ROk (Some text)) _ => exists file b, sp_origin sp = Some file /\ code x = Some b /\ forall t, e_parse E t file text = ROk (module_tree b)
  | LInspect _ (ROk None) (ROk (Some c)) => exists (dead : ast -> Prop) b, (forall t, dead t -> import_free [t]) /\ code x = Some b /\ compiles (e_ge311 E) dead false (module_tree b) c
  | LInspect _ (RErr ESyntax) _ => False
  | _ => code x = None
  end.
(** The same for script [f] and all modules. *)
Record assembled (E : env) (find : string -> option spec) (code : string -> option (list piece)) (f : string) (l : list piece) : Prop := {
  as_script : forall t, e_script E t f = ROk (module_tree l);
  as_modules : coded E find code
}.

Section calls.
  Variable find : string -> option spec.
  Variable conf : list (string * implied).
  Variable code : string -> option (list piece).
  Variable f : string.
  Variable l : list piece.
  Variable z0 : mods.

  (** The code of [n] has been started since [z0]. *)
  Definition begun (z : mods) (n : string) : Prop := ~ In n (loaded z0) /\ (In n (loaded z) \/ In n (loading z) \/ In n (failed z)).
  (** Calls and other expressions run functions of the script [f] and of modules that
      have been started, and get the names of from lists: what they import is what
      statements ask for. *)
  Inductive by_statement (z : mods) (x : string) : Prop :=
  | bs_script w : In w (flat_map imports l) -> w_level w = 0 -> requests find conf f false w x -> by_statement z x
  | bs_module n sp b w : begun z n -> find n = Some sp -> code n = Some b -> In w (flat_map imports b) -> requests find conf n (spec_pkg sp) w x ->
      by_statement z x.
End calls.
