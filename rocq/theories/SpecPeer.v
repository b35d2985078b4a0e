(** Specifications for a started peer. *)
From Verif Require Import Peer.

Section Spec.
Context {X : Ext}.

(** A goroutine that has ended or returned. *)
Definition writer_ended (w : wpc X) : Prop := w = WDisc DRet.
Definition reader_ended (r : rpc X) : Prop := r = RDisc DRet.
Definition other_ended (o : opc X) : Prop := o = OSent \/ o = ODisc DRet \/ o = OWaited.
Definition all_ended (s : pstate X) : Prop :=
  writer_ended (p_writer s) /\ reader_ended (p_reader s) /\ Forall other_ended (p_others s).

(** A handler that has left its loop: it only runs Disconnect from here on, and does not touch the
    connection unless it is the one to close it. *)
Definition writer_left (w : wpc X) : Prop := exists d, w = WDisc d.
Definition reader_left (r : rpc X) : Prop := exists d, r = RDisc d.

(** The read handler is banning its own peer. *)
Definition banning (r : rpc X) : Prop := exists d, r = RBan d.

(** The bytes of a list of messages as complete frames. *)
Definition frames_of (ms : list (message X)) (fs : list bytes) : Prop :=
  Forall2 (fun m f => exists n, write_message X m = Ok (f, n)) ms fs.

(** A step of a goroutine that exists already. *)
Definition internal (s t : pstate X) : Prop := wstep s t \/ rstep s t \/ ostep s t.
(** Past a successful compare-and-swap, inside Disconnect. *)
Definition holding (d : dpc) : bool := match d with DQuit | DConn | DWait => true | _ => false end.

(** A message that the write handler has or that a goroutine wants to put on the send queue. *)
Definition unsent (s : pstate X) (m : message X) : Prop :=
  p_writer s = WCheck m \/ p_writer s = WWrite m \/ p_reader s = RSend m \/ In (OSend m) (p_others s).
(** All of these can be encoded. *)
Definition encodable (s : pstate X) : Prop := forall m, unsent s m -> exists f, write_message X m = Ok f.
End Spec.
