(** The life of a peer from its creation on: p2p/peer.go:79-93, 118-123. connectPeer stores the peer in the
    record (pool.go:240) before it starts it (pool.go:255), so goroutines can use it before. *)
From Verif Require Export Peer.

Section WithExt.
Context (X : Ext).
(** peer.go:79-93 — a new peer: no handlers, the wait group at 0. A handler that does not exist is, for the others,
    like one that has ended: it does not take messages and does not do anything. *)
Definition p_new (bans : option nat) : pstate X :=
  PState X false 0 false 0 (WDisc DRet) (RDisc DRet) [] bans [] [] 0 None.
(** peer.go:119-123 — Start, as one step: what others do between Add(2) and the first actions of the handlers they
    could as well do after Start. *)
Definition started (s : pstate X) : pstate X :=
  PState X (p_flag s) (p_quits s) (p_closed s) (p_wg s + 2)%Z WSelect RTest (p_others s) (p_bans s) (p_taken s) (p_wire s)
    (p_sent s) (p_crash s).
(** What can happen to a peer that is started once, at any time. *)
Inductive life (bans : option nat) : pstate X -> Prop :=
| Lives e s : psteps (p_new bans) e -> p_crash e = None -> psteps (started e) s -> life bans s.
End WithExt.
Arguments p_new {X}. Arguments started {X}. Arguments life {X}.
