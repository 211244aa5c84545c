(** C90: hooks that do nothing. *)
From Verif Require Export Builder.

(** Programs that only look at the graph and return such an answer. *)
Inductive only_looks (ret : option string -> Prop) : prog -> Prop :=
| ol_ret o : ret o -> only_looks ret (PRet o)
| ol_look k : (forall ans, only_looks ret (k ans)) -> only_looks ret (PDo ALook k).
Definition idle_post (h : post_hook) : Prop := forall n, only_looks (fun _ => True) (h n).
Definition idle_missing (h : missing_hook) : Prop := forall importing name, only_looks (fun o => o = None) (h importing name).

(** Lists that are the same but for idle hooks, here and there. *)
Inductive alike {H : Type} (idle : H -> Prop) : list H -> list H -> Prop :=
| ak_nil : alike idle [] []
| ak_both h l l' : alike idle l l' -> alike idle (h :: l) (h :: l')
| ak_left h l l' : idle h -> alike idle l l' -> alike idle (h :: l) l'
| ak_right h l l' : idle h -> alike idle l l' -> alike idle l (h :: l').

(** Programs that do not register hooks. *)
Definition no_hooks (a : action) : bool := match a with AAddPost _ | AAddMissing _ | AHookContext _ => false | _ => true end.
Inductive steady : prog -> Prop :=
| sd_ret o : steady (PRet o)
| sd_raise e : steady (PRaise e)
| sd_do a k : no_hooks a = true -> (forall ans, steady (k ans)) -> steady (PDo a k)
| sd_context p k : steady p -> (forall ans, steady (k ans)) -> steady (PDo (AHookContext p) k).
Definition steady_post (h : post_hook) : Prop := forall n, steady (h n).
Definition steady_missing (h : missing_hook) : Prop := forall importing name, steady (h importing name).
(** Calls by the user that do not make hooks register hooks. *)
Definition steady_call (a : action) : Prop :=
  match a with
  | AAddPost h => steady_post h
  | AAddMissing h => steady_missing h
  | AHookContext p => steady p
  | _ => True
  end.

(** Two histories with the same calls ([fine]), but for idle hooks that were there at
    the beginning or are registered by the user. *)
Inductive two (E : env) (fine : action -> Prop) (post : post_hook -> Prop) (missing : missing_hook -> Prop) : st -> st -> Prop :=
| tw_init implies p p' m m' : Forall post p -> Forall post p' -> Forall missing m -> Forall missing m' ->
    alike idle_post p p' -> alike idle_missing m m' -> two E fine post missing (init implies p m) (init implies p' m')
| tw_call s s' a n n' ans ans' t t' : two E fine post missing s s' -> fine a ->
    top_call E n a s = Some (ans, t) -> top_call E n' a s' = Some (ans', t') -> two E fine post missing t t'
| tw_post s s' h n ans t : two E fine post missing s s' -> idle_post h ->
    top_call E n (AAddPost h) s = Some (ans, t) -> two E fine post missing t s'
| tw_post' s s' h n ans t : two E fine post missing s s' -> idle_post h ->
    top_call E n (AAddPost h) s' = Some (ans, t) -> two E fine post missing s t
| tw_missing s s' h n ans t : two E fine post missing s s' -> idle_missing h ->
    top_call E n (AAddMissing h) s = Some (ans, t) -> two E fine post missing t s'
| tw_missing' s s' h n ans t : two E fine post missing s s' -> idle_missing h ->
    top_call E n (AAddMissing h) s' = Some (ans, t) -> two E fine post missing s t.

(** The next call has the same outcome: it finishes on both sides or on none, with the
    same answer and the same graph. *)
Definition next_same (E : env) (a : action) (s s' : st) : Prop :=
  (forall n ans t, top_call E n a s = Some (ans, t) -> exists n' t', top_call E n' a s' = Some (ans, t') /\ s_graph t' = s_graph t)
  /\ (forall n ans t, top_call E n a s' = Some (ans, t) -> exists n' t', top_call E n' a s = Some (ans, t') /\ s_graph t' = s_graph t)
  /\ forall n n' ans ans' t t', top_call E n a s = Some (ans, t) -> top_call E n' a s' = Some (ans', t') -> ans' = ans /\ s_graph t' = s_graph t.

(** The same calls, whatever they are, with idle hooks that were there before all others
    (the oldest hooks are the last ones of the lists). *)
Inductive oldest (E : env) : st -> st -> Prop :=
| od_init implies p m l l' k k' : Forall idle_post l -> Forall idle_post l' -> Forall idle_missing k -> Forall idle_missing k' ->
    oldest E (init implies (p ++ l) (m ++ k)) (init implies (p ++ l') (m ++ k'))
| od_call s s' a n n' ans ans' t t' : oldest E s s' ->
    top_call E n a s = Some (ans, t) -> top_call E n' a s' = Some (ans', t') -> oldest E t t'.
