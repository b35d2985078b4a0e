(** Data races, after the Go memory model: two accesses to one variable by different goroutines, at
    least one of them a write, neither of which happens before the other. *)
From Verif Require Import Race.

(** Event [n] of a trace, and by whom it is. *)
Definition at_pos (tr : list event) (n : nat) (e : event) : Prop := nth_error tr n = Some e.
Definition done_by (t : nat) (e : event) : Prop := match e with Did u _ => u = t | Forked u _ => u = t end.

(** Happens before. Program order; the release of a mutex before each later acquisition; the start of
    a goroutine before all it does. With [generous] every operation on a channel, atomic, WaitGroup or
    the chain's RWMutex also happens before all later ones on the same, which is more than Go says. *)
Inductive happens_before (generous : bool) (tr : list event) : nat -> nat -> Prop :=
| HbOrder m n e e' t : (m < n)%nat -> at_pos tr m e -> at_pos tr n e' -> done_by t e -> done_by t e' -> happens_before generous tr m n
| HbLock m n t u l : (m < n)%nat -> at_pos tr m (Did t (Rel l)) -> at_pos tr n (Did u (Acq l)) -> happens_before generous tr m n
| HbGo m n t u e : (m < n)%nat -> at_pos tr m (Forked t u) -> at_pos tr n e -> done_by u e -> happens_before generous tr m n
| HbSync m n t u c : generous = true -> (m < n)%nat -> at_pos tr m (Did t (Sync c)) -> at_pos tr n (Did u (Sync c)) ->
    happens_before generous tr m n
| HbTrans m k n : happens_before generous tr m k -> happens_before generous tr k n -> happens_before generous tr m n.

Definition accesses (a : act) (x : loc) : Prop := a = Rd x \/ a = Wr x.
(** A race on [x] between events [m] and [n]. *)
Definition race_at (generous : bool) (tr : list event) (x : loc) (m n : nat) : Prop :=
  exists t u a b, (m < n)%nat /\ t <> u /\ at_pos tr m (Did t a) /\ at_pos tr n (Did u b) /\
    accesses a x /\ accesses b x /\ (a = Wr x \/ b = Wr x) /\ ~ happens_before generous tr m n.
Definition race (generous : bool) (tr : list event) (x : loc) : Prop := exists m n, race_at generous tr x m n.
