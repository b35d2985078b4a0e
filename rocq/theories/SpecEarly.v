(** Specification for C129: peers that are used before they are started. *)
From Verif Require Import Start SpecPeer.

Section Spec.
Context {X : Ext}.
(** The same goroutine, but for a Disconnect or WaitForDisconnect that has returned without waiting for the
    handlers: on the right it still waits for them. *)
Inductive but_returned : opc X -> opc X -> Prop :=
| BrSame o : but_returned o o
| BrDisc : but_returned (ODisc DRet) (ODisc DWait)
| BrWait : but_returned OWaited OWaitWg.
(** Two states with everything the same but for that. *)
Definition as_if (s t : pstate X) : Prop :=
  p_flag s = p_flag t /\ p_quits s = p_quits t /\ p_closed s = p_closed t /\ p_wg s = p_wg t /\ p_writer s = p_writer t /\
  p_reader s = p_reader t /\ p_bans s = p_bans t /\ p_taken s = p_taken t /\ p_wire s = p_wire t /\ p_sent s = p_sent t /\
  p_crash s = p_crash t /\ Forall2 but_returned (p_others s) (p_others t).
(** The read handler has not asked for anything and the write handler has not written anything: the connection was
    not used. *)
Definition unused (s : pstate X) : Prop :=
  p_wire s = [] /\ p_sent s = 0 /\
  (p_reader s = RTest \/ p_reader s = RDone \/ reader_left (p_reader s)) /\
  (p_writer s = WSelect \/ (exists m, p_writer s = WCheck m) \/ p_writer s = WDone \/ writer_left (p_writer s)).
End Spec.
