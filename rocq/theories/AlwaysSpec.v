(** C103: how far a run gets, also when it has no end. *)
From Verif Require Export WithinSpec.
Open Scope string_scope.

Section gets.
  Variable find : string -> option spec.
  Variable code : string -> option (list piece).
  Variable may : mods -> string -> Prop.
  Notation run := (run find code may).

  (** A task that is begun gets to one of its parts, after those before it have been done. *)
  Inductive goes : task -> mods -> task -> mods -> Prop :=
  | go_line n k p l z : goes (Lines n k (p :: l)) z (Line n k p) z
  | go_next n k p l z z1 : run (Line n k p) z Next z1 -> goes (Lines n k (p :: l)) z (Lines n k l) z1
  | go_import n k x a l z : goes (Line n k (PImport ((x, a) :: l))) z (Import x) z
  | go_import_next n k x a l z z1 : run (Import x) z Next z1 -> goes (Line n k (PImport ((x, a) :: l))) z (Line n k (PImport l)) z1
  | go_from n k m names level t z : target n k (WFrom m names level) t -> goes (Line n k (PFrom m names level)) z (Import t) z
  | go_names n k m names level t z z1 : target n k (WFrom m names level) t -> run (Import t) z Next z1 -> goes (Line n k (PFrom m names level)) z Calls z1
  | go_simple n k z : goes (Line n k PSimple) z Calls z
  | go_evaluates n k p z : evaluates p = true -> goes (Line n k p) z Calls z
  | go_if n k a b c z z1 : run Calls z Next z1 -> c = a \/ c = b -> goes (Line n k (PIf a b)) z (Lines n k c) z1
  | go_loop n k a b z z1 : run Calls z Next z1 -> goes (Line n k (PLoop a b)) z (Turns n k a b) z1
  | go_with n k a z z1 : run Calls z Next z1 -> goes (Line n k (PWith a)) z (Lines n k a) z1
  | go_with_exit n k a z z1 z2 o : run Calls z Next z1 -> run (Lines n k a) z1 o z2 -> goes (Line n k (PWith a)) z Calls z2
  | go_match n k cs c z z1 : run Calls z Next z1 -> In c cs -> goes (Line n k (PMatch cs)) z (Lines n k c) z1
  | go_class n k a z z1 : run Calls z Next z1 -> goes (Line n k (PClass a)) z (Lines n k a) z1
  | go_class_end n k a z z1 z2 : run Calls z Next z1 -> run (Lines n k a) z1 Next z2 -> goes (Line n k (PClass a)) z Calls z2
  | go_try n k b h e f st z : goes (Line n k (PTry st b h e f)) z (Guarded n k b h e) z
  | go_finally n k b h e f st z z1 o : run (Guarded n k b h e) z o z1 -> goes (Line n k (PTry st b h e f)) z (Lines n k f) z1
  (* loops *)
  | go_end n k a b z : goes (Turns n k a b) z (Lines n k b) z
  | go_turn n k a b z : goes (Turns n k a b) z (Lines n k a) z
  | go_turn_next n k a b z z1 o : run (Lines n k a) z o z1 -> o <> Raise -> goes (Turns n k a b) z (Turns n k a b) z1
  | go_test n k a b z : goes (Turns n k a b) z Calls z
  | go_test_next n k a b z z1 : run Calls z Next z1 -> goes (Turns n k a b) z (Turns n k a b) z1
  (* try *)
  | go_body n k b h e z : goes (Guarded n k b h e) z (Lines n k b) z
  | go_else n k b h e z z1 : run (Lines n k b) z Next z1 -> goes (Guarded n k b h e) z (Lines n k e) z1
  | go_except n k b h e c z z1 : run (Lines n k b) z Raise z1 -> In c h -> goes (Guarded n k b h e) z (Lines n k c) z1
  (* expressions *)
  | go_call x z : may z x -> goes Calls z (Import x) z
  | go_call_next x z z1 o : may z x -> run (Import x) z o z1 -> goes Calls z Calls z1
  (* the import system *)
  | go_top x z : ~ known x z -> (forall p, ~ child_of p x) -> starts_with "." x = false -> goes (Import x) z (Loads x) z
  | go_package p x z : ~ known x z -> child_of p x -> goes (Import x) z (Import p) z
  | go_child p x z z1 : ~ known x z -> starts_with "." x = false -> child_of p x -> run (Import p) z Next z1 -> goes (Import x) z (Loads x) z1
  | go_load x sp l z : ~ known x z -> find x = Some sp -> code x = Some l -> goes (Loads x) z (Lines x (Some (spec_pkg sp)) l) (begin x z)
  | go_load_other x sp z : ~ known x z -> find x = Some sp -> code x = None -> goes (Loads x) z Calls (begin x z).

  (** The parts of parts as well. *)
  Inductive gets_to (t : task) (z : mods) : task -> mods -> Prop :=
  | gt_here : gets_to t z t z
  | gt_on t1 z1 t2 z2 : gets_to t z t1 z1 -> goes t1 z1 t2 z2 -> gets_to t z t2 z2.
End gets.
