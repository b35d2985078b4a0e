(** A started peer as a system of goroutines: p2p/peer.go:118-165, 171-365, and Ban
    (p2p/pool.go:61-83) as called by the peer's own read handler.

    The initial state is the one after Start: both handlers running and the wait group at 2. Any
    number of other goroutines may at any time start calling Disconnect or Close, WriteMessage (the
    Send methods) or WaitForDisconnect. A step is one synchronisation action of one goroutine, or a
    rendezvous on the unbuffered send queue; what is between two of them is local. *)
From Verif Require Export Messages.

Section WithExt.
Context (X : Ext).

(** Points of Disconnect, peer.go:344-354. *)
Inductive dpc :=
| DCas                               (* line 345: before the compare-and-swap *)
| DQuit                              (* line 351: before close(p.quit) *)
| DConn                              (* line 352: before p.conn.Close() *)
| DWait                              (* line 353: in p.wg.Wait() *)
| DRet.                              (* returned *)

(** Points of writeHandler, peer.go:129-156. *)
Inductive wpc :=
| WSelect                            (* line 135 *)
| WCheck (m : message X)             (* line 138: has received m *)
| WWrite (m : message X)             (* line 143 *)
| WDone                              (* line 154: before p.wg.Done() *)
| WDisc (d : dpc).                   (* line 155: in Disconnect; WDisc DRet has ended *)

(** Points of readHandler, peer.go:171-341. [RHandle] is Syncer.ProcessMessage (or a message that is
    only logged): it may put messages on the send queue and may ban the peer, in any order and any
    number of times; what else it does is modelled in Sync.v. *)
Inductive rpc :=
| RTest                              (* line 177 *)
| RRead                              (* lines 178-197 *)
| RHandle                            (* lines 204-333 *)
| RSend (m : message X)              (* in WriteMessage, lines 160-164 *)
| RBan (d : dpc)                     (* pool.go:72: in Ban, in Close, in Disconnect *)
| RDone                              (* line 339: before p.wg.Done() *)
| RDisc (d : dpc).                   (* line 340: in Disconnect; RDisc DRet has ended *)

(** Other goroutines. *)
Inductive opc :=
| OSend (m : message X)              (* in WriteMessage, lines 160-164 *)
| OSent                              (* returned from WriteMessage *)
| ODisc (d : dpc)                    (* in Disconnect or Close *)
| OWait                              (* line 363: in WaitForDisconnect, receiving from p.quit *)
| OWaitWg                            (* line 364: in p.wg.Wait() *)
| OWaited.                           (* returned from WaitForDisconnect *)

(** Ways to take the process down: closing a closed channel, a negative wait group, writing to the
    nil map BannedPeers (pool.go:76), and a message that cannot be encoded. *)
Inductive peer_crash := CloseTwice | NegativeWg | NilMap | Encoding.

(** The shared state (peer.go:22-41). [p_quits] counts executions of close(p.quit); [p_bans] is the
    pool's BannedPeers, None for nil; [p_taken] are the messages received from the send queue, in
    order; [p_wire] what was written to the connection; [p_sent] is bytesSent. *)
Record pstate := PState {
  p_flag : bool; p_quits : nat; p_closed : bool; p_wg : Z;
  p_writer : wpc; p_reader : rpc; p_others : list opc;
  p_bans : option nat; p_taken : list (message X); p_wire : bytes; p_sent : N;
  p_crash : option peer_crash }.

(** peer.go:119-123 — after Start, on a peer whose fields have their initial values. *)
Definition p_start (bans : option nat) : pstate :=
  PState false 0 false 2 WSelect RTest [] bans [] [] 0 None.

(** Updates of single fields (no code of their own); [take] is the writer's receive from the send
    queue (line 136), [wrote] a completed write (lines 143-147), [crash] a panic or exit. *)
Definition set_flag s := PState true (p_quits s) (p_closed s) (p_wg s) (p_writer s) (p_reader s) (p_others s) (p_bans s) (p_taken s) (p_wire s) (p_sent s) (p_crash s).
Definition add_quit s := PState (p_flag s) (S (p_quits s)) (p_closed s) (p_wg s) (p_writer s) (p_reader s) (p_others s) (p_bans s) (p_taken s) (p_wire s) (p_sent s) (p_crash s).
Definition set_closed s := PState (p_flag s) (p_quits s) true (p_wg s) (p_writer s) (p_reader s) (p_others s) (p_bans s) (p_taken s) (p_wire s) (p_sent s) (p_crash s).
Definition set_writer s w := PState (p_flag s) (p_quits s) (p_closed s) (p_wg s) w (p_reader s) (p_others s) (p_bans s) (p_taken s) (p_wire s) (p_sent s) (p_crash s).
Definition set_reader s r := PState (p_flag s) (p_quits s) (p_closed s) (p_wg s) (p_writer s) r (p_others s) (p_bans s) (p_taken s) (p_wire s) (p_sent s) (p_crash s).
Definition set_others s o := PState (p_flag s) (p_quits s) (p_closed s) (p_wg s) (p_writer s) (p_reader s) o (p_bans s) (p_taken s) (p_wire s) (p_sent s) (p_crash s).
Definition set_bans s b := PState (p_flag s) (p_quits s) (p_closed s) (p_wg s) (p_writer s) (p_reader s) (p_others s) b (p_taken s) (p_wire s) (p_sent s) (p_crash s).
Definition take s m := PState (p_flag s) (p_quits s) (p_closed s) (p_wg s) (WCheck m) (p_reader s) (p_others s) (p_bans s) (p_taken s ++ [m]) (p_wire s) (p_sent s) (p_crash s).
Definition wrote s f n := PState (p_flag s) (p_quits s) (p_closed s) (p_wg s) (p_writer s) (p_reader s) (p_others s) (p_bans s) (p_taken s) (p_wire s ++ f) (w64 (p_sent s + n)) (p_crash s).
Definition crash s c := PState (p_flag s) (p_quits s) (p_closed s) (p_wg s) (p_writer s) (p_reader s) (p_others s) (p_bans s) (p_taken s) (p_wire s) (p_sent s) (Some c).
(** sync.WaitGroup.Done. *)
Definition wg_done s :=
  let s' := PState (p_flag s) (p_quits s) (p_closed s) (p_wg s - 1)%Z (p_writer s) (p_reader s) (p_others s) (p_bans s) (p_taken s) (p_wire s) (p_sent s) (p_crash s) in
  if (p_wg s - 1 <? 0)%Z then crash s' NegativeWg else s'.

(** One step of Disconnect, peer.go:344-354. *)
Inductive dstep : pstate -> dpc -> pstate -> dpc -> Prop :=
| DsLose s : p_flag s = true -> dstep s DCas s DRet
| DsWin s : p_flag s = false -> dstep s DCas (set_flag s) DQuit
| DsQuit s : p_quits s = O -> dstep s DQuit (add_quit s) DConn
| DsQuitAgain s : p_quits s <> O -> dstep s DQuit (crash s CloseTwice) DQuit
| DsConn s : dstep s DConn (set_closed s) DWait
| DsWait s : p_wg s = 0%Z -> dstep s DWait s DRet.

(** One step of the write handler. A write succeeds (on a connection that is not closed), fails
    after some of the bytes, or the message cannot be encoded. *)
Inductive wstep : pstate -> pstate -> Prop :=
| WsQuit s : p_writer s = WSelect -> p_quits s <> O -> wstep s (set_writer s WDone)
| WsDead s m : p_writer s = WCheck m -> p_flag s = true -> wstep s (set_writer s WDone)
| WsLive s m : p_writer s = WCheck m -> p_flag s = false -> wstep s (set_writer s (WWrite m))
| WsWritten s m f n : p_writer s = WWrite m -> p_closed s = false -> write_message X m = Ok (f, n) ->
    wstep s (set_writer (wrote s f n) WSelect)
| WsFailed s m f n part rest : p_writer s = WWrite m -> write_message X m = Ok (f, n) -> f = part ++ rest ->
    wstep s (set_writer (PState (p_flag s) (p_quits s) (p_closed s) (p_wg s) (p_writer s) (p_reader s) (p_others s)
                           (p_bans s) (p_taken s) (p_wire s ++ part) (p_sent s) (p_crash s)) WDone)
| WsBad s m : p_writer s = WWrite m -> (forall f, write_message X m <> Ok f) -> wstep s (crash s Encoding)
| WsDone s : p_writer s = WDone -> wstep s (set_writer (wg_done s) (WDisc DCas))
| WsDisc s d s' d' : p_writer s = WDisc d -> dstep s d s' d' -> wstep s (set_writer s' (WDisc d')).

(** One step of the read handler. *)
Inductive rstep : pstate -> pstate -> Prop :=
| RsStop s : p_reader s = RTest -> p_flag s = true -> rstep s (set_reader s RDone)
| RsGo s : p_reader s = RTest -> p_flag s = false -> rstep s (set_reader s RRead)
| RsMessage s : p_reader s = RRead -> rstep s (set_reader s RHandle)
| RsFailed s : p_reader s = RRead -> rstep s (set_reader s RDone)
| RsNext s : p_reader s = RHandle -> rstep s (set_reader s RTest)
| RsAnswer s m : p_reader s = RHandle -> rstep s (set_reader s (RSend m))
| RsSent s m : p_reader s = RSend m -> p_writer s = WSelect -> rstep s (set_reader (take s m) RHandle)
| RsQuit s m : p_reader s = RSend m -> p_quits s <> O -> rstep s (set_reader s RHandle)
| RsBan s : p_reader s = RHandle -> rstep s (set_reader s (RBan DCas))
| RsBanning s d s' d' : p_reader s = RBan d -> dstep s d s' d' -> rstep s (set_reader s' (RBan d'))
| RsBanned s n : p_reader s = RBan DRet -> p_bans s = Some n ->
    rstep s (set_reader (set_bans s (Some (S n))) RHandle)
| RsNilMap s : p_reader s = RBan DRet -> p_bans s = None -> rstep s (crash s NilMap)
| RsDone s : p_reader s = RDone -> rstep s (set_reader (wg_done s) (RDisc DCas))
| RsDisc s d s' d' : p_reader s = RDisc d -> dstep s d s' d' -> rstep s (set_reader s' (RDisc d')).

(** One step of another goroutine, or the start of one. *)
Inductive ostep : pstate -> pstate -> Prop :=
| OsSend s pre m post : p_others s = pre ++ OSend m :: post -> p_writer s = WSelect ->
    ostep s (set_others (take s m) (pre ++ OSent :: post))
| OsQuit s pre m post : p_others s = pre ++ OSend m :: post -> p_quits s <> O ->
    ostep s (set_others s (pre ++ OSent :: post))
| OsDisc s pre d post s' d' : p_others s = pre ++ ODisc d :: post -> dstep s d s' d' ->
    ostep s (set_others s' (pre ++ ODisc d' :: post))
| OsWait s pre post : p_others s = pre ++ OWait :: post -> p_quits s <> O ->
    ostep s (set_others s (pre ++ OWaitWg :: post))
| OsWaitWg s pre post : p_others s = pre ++ OWaitWg :: post -> p_wg s = 0%Z ->
    ostep s (set_others s (pre ++ OWaited :: post)).
(** The start of a goroutine that uses the peer: Disconnect or Close, WaitForDisconnect, a Send method. *)
Inductive ospawn : pstate -> pstate -> Prop :=
| OsNew s o : (o = ODisc DCas \/ o = OWait \/ exists m, o = OSend m) -> ospawn s (set_others s (p_others s ++ [o])).

(** A step of the system; nothing runs after a crash. *)
Inductive pstep (s s' : pstate) : Prop :=
| PsWriter : p_crash s = None -> wstep s s' -> pstep s s'
| PsReader : p_crash s = None -> rstep s s' -> pstep s s'
| PsOther : p_crash s = None -> ostep s s' -> pstep s s'
| PsSpawn : p_crash s = None -> ospawn s s' -> pstep s s'.
(** Any number of steps. *)
Inductive psteps : pstate -> pstate -> Prop :=
| PsNone s : psteps s s
| PsMore s t u : psteps s t -> pstep t u -> psteps s u.
End WithExt.

Arguments WSelect {X}. Arguments WCheck {X}. Arguments WWrite {X}. Arguments WDone {X}. Arguments WDisc {X}.
Arguments RTest {X}. Arguments RRead {X}. Arguments RHandle {X}. Arguments RSend {X}. Arguments RBan {X}.
Arguments RDone {X}. Arguments RDisc {X}. Arguments OSend {X}. Arguments OSent {X}. Arguments ODisc {X}.
Arguments OWait {X}. Arguments OWaitWg {X}. Arguments OWaited {X}.
Arguments p_flag {X}. Arguments p_quits {X}. Arguments p_closed {X}. Arguments p_wg {X}. Arguments p_writer {X}.
Arguments p_reader {X}. Arguments p_others {X}. Arguments p_bans {X}. Arguments p_taken {X}. Arguments p_wire {X}.
Arguments p_sent {X}. Arguments p_crash {X}.
Arguments pstep {X}. Arguments psteps {X}. Arguments wstep {X}. Arguments rstep {X}. Arguments ostep {X}. Arguments dstep {X}.
Arguments set_flag {X}. Arguments add_quit {X}. Arguments set_closed {X}. Arguments set_writer {X}. Arguments set_reader {X}.
Arguments set_others {X}. Arguments set_bans {X}. Arguments take {X}. Arguments wrote {X}. Arguments crash {X}. Arguments wg_done {X}.
