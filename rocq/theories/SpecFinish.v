(** Specification for C128: executions after a disconnect has begun. *)
From Verif Require Import Shutdown SpecPeer.

Section Spec.
Context {X : Ext}.
(** Steps of goroutines that exist: nobody starts to use the peer. *)
Fixpoint own_path (s : lstate X) (path : list (lstate X)) : Prop :=
  match path with
  | [] => True
  | t :: path => lstep s t /\ List.length (p_others (l_peer t)) = List.length (p_others (l_peer s)) /\ own_path t path
  end.
(** In this step the handler of a message starts to send, to ban or to lock. *)
Definition undertakes (s t : lstate X) : bool :=
  match p_reader (l_peer s), p_reader (l_peer t) with
  | RHandle, RSend _ | RHandle, RBan _ => true
  | _, _ => negb (l_wants s) && l_wants t
  end.
(** In this step the handler of a message starts to ban or to lock. *)
Definition bans_or_locks (s t : lstate X) : bool :=
  match p_reader (l_peer s), p_reader (l_peer t) with
  | RHandle, RBan _ => true
  | _, _ => negb (l_wants s) && l_wants t
  end.
(** It is neither banning nor locking. *)
Definition harmless (s : lstate X) : Prop := (forall d, p_reader (l_peer s) <> RBan d) /\ l_wants s = false.
(** In this step the read handler gets a message. *)
Definition gets_message (s t : lstate X) : bool :=
  match p_reader (l_peer s), p_reader (l_peer t) with RRead, RHandle => true | _, _ => false end.
Fixpoint times (f : lstate X -> lstate X -> bool) (s : lstate X) (path : list (lstate X)) : nat :=
  match path with [] => 0 | t :: path => (if f s t then 1 else 0) + times f t path end.
(** Nobody that exists can do anything. *)
Definition at_an_end (s : lstate X) : Prop :=
  forall t, lstep s t -> List.length (p_others (l_peer t)) <> List.length (p_others (l_peer s)).
(** The two ways to wait for ever: the handler of a message bans its own peer (C44), or waits for a lock that is
    held by the goroutine that waits for it (C75). *)
Definition bans_itself (s : lstate X) : Prop := p_reader (l_peer s) = RBan DWait.
Definition closed_over (s : lstate X) : Prop := l_wants s = true /\ p_reader (l_peer s) = RHandle /\ exists k, l_lock s = LCloser k.
End Spec.
