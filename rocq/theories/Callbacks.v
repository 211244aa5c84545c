(** [_callback_list.py]: [CallbackList] and [FirstNotNone]. *)
From Verif Require Export Names.

Section callbacks.
  (** Callbacks, the rest of the program state, results. *)
  Variables F S R : Type.
  (** Effect of one callback; it may also change the callback list itself. *)
  Variable cb : F -> list F -> S -> result R * (list F * S).

  (** modulegraph2/_callback_list.py:36-43 and 87-94 [add]: [insert(0, f)]. *)
  Definition cb_add (f : F) (l : list F) : list F := f :: l.

  (** modulegraph2/_callback_list.py:45-50 and 96-100 [clear]. *)
  Definition cb_clear (l : list F) : list F := [].

  (** Registration calls. *)
  Inductive reg := Add (f : F) | Clear.
  Definition reg_step (l : list F) (r : reg) : list F :=
    match r with Add f => cb_add f l | Clear => cb_clear l end.
  (** [__init__] starts with an empty list (lines 33-34, 84-85). *)
  Definition registered (h : list reg) : list F := fold_left reg_step h [].

  (** modulegraph2/_callback_list.py:52-68 [CallbackList.__call__].  A Python
      for loop over a list keeps an index into the (live) list.  [None] is out
      of fuel; the last component lists the callbacks called. *)
  Fixpoint call_all (fuel i : nat) (l : list F) (s : S)
      : option (result unit * (list F * S) * list F) :=
    match fuel with
    | 0 => None
    | Datatypes.S fuel' =>
        match nth_error l i with
        | None => Some (ROk tt, (l, s), [])
        | Some f =>
            match cb f l s with
            | (RErr e, st) => Some (RErr e, st, [f])
            | (ROk _, (l', s')) =>
                match call_all fuel' (i + 1) l' s' with
                | Some (r, st, tr) => Some (r, st, f :: tr)
                | None => None
                end
            end
        end
    end.
End callbacks.
Arguments Add {F} f.
Arguments Clear {F}.
Arguments registered {F} h.
Arguments call_all {F S R} cb fuel i l s.

Section first.
  Variables F S R : Type.
  (** Here a callback answers [None] or a result. *)
  Variable cb : F -> list F -> S -> result (option R) * (list F * S).

  (** modulegraph2/_callback_list.py:102-121 [FirstNotNone.__call__]. *)
  Fixpoint call_first (fuel i : nat) (l : list F) (s : S)
      : option (result (option R) * (list F * S) * list F) :=
    match fuel with
    | 0 => None
    | Datatypes.S fuel' =>
        match nth_error l i with
        | None => Some (ROk None, (l, s), [])
        | Some f =>
            match cb f l s with
            | (RErr e, st) => Some (RErr e, st, [f])
            | (ROk (Some r), st) => Some (ROk (Some r), st, [f])
            | (ROk None, (l', s')) =>
                match call_first fuel' (i + 1) l' s' with
                | Some (r, st, tr) => Some (r, st, f :: tr)
                | None => None
                end
            end
        end
    end.
End first.
Arguments call_first {F S R} cb fuel i l s.
