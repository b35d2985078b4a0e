(** Properties C43-C45 and C67: the goroutines of a started peer. Statements; proofs are in
    PeerProofs.v, specifications in SpecPeer.v. *)
From Verif Require Import Peer SpecPeer PeerProofs Instance LiveProofs.

(** * C43: disconnecting *)

(** The quit channel is closed at most once, the wait group stays between 0 and 2. *)
Theorem C43_once : forall X bans s, psteps (p_start X bans) s ->
  p_crash s <> Some CloseTwice /\ p_crash s <> Some NegativeWg /\ (p_quits s <= 1)%nat /\ (0 <= p_wg s <= 2)%Z.
Proof. exact once. Qed.
Print Assumptions C43_once.

(** WaitForDisconnect returns only when quit is closed and both handlers have left their loops. *)
Theorem C43_waited : forall X bans s, psteps (p_start X bans) s -> In OWaited (p_others s) ->
  p_quits s = 1%nat /\ writer_left (p_writer s) /\ reader_left (p_reader s).
Proof. exact waited. Qed.
Print Assumptions C43_waited.

(** A state in which no existing goroutine can move is one where all have ended, or one where the
    read handler waits for itself inside Ban (see C44). *)
Theorem C43_no_deadlock : forall X bans s, psteps (p_start X bans) s -> (forall t, ~ internal s t) ->
  p_reader s = RBan DWait \/ all_ended s.
Proof. exact no_deadlock. Qed.
Print Assumptions C43_no_deadlock.

(** A ping is sent and written, somebody closes, and everybody ends. *)
Example C43_case : exists s, psteps (p_start toy None) s /\ all_ended s /\ p_taken s = [MPing (PingMsg 5 7)] /\
  p_wire s = [x54; x34; x03; x00; x00; x00; x00; x00; x00; x00; x10;
              x00; x00; x00; x00; x00; x00; x00; x05; x00; x00; x00; x00; x00; x00; x00; x07] /\
  p_sent s = 27 /\ In OWaited (p_others s) /\ p_crash s = None.
Proof. apply (run_normal toy None (MPing (PingMsg 5 7)) _ 27). reflexivity. Qed.

(** * C44: a read handler that bans its own peer (refuted) *)

(** If it wins the compare-and-swap it never leaves Disconnect: the ban is never recorded and nobody
    waiting for the disconnect ever returns. This does not depend on the ban map. *)
Theorem C44_waits_for_itself_refuted : forall X bans s t d,
  psteps (p_start X bans) s -> p_reader s = RBan d -> holding d = true -> psteps s t ->
  (exists d', p_reader t = RBan d' /\ holding d' = true) /\ p_bans t = p_bans s /\ ~ In OWaited (p_others t).
Proof. exact ban_forever. Qed.
Print Assumptions C44_waits_for_itself_refuted.

(** If it loses, its next step takes the process down: the ban map is nil. *)
Theorem C44_nil_map_refuted : forall X (s t : pstate X), p_bans s = None -> p_reader s = RBan DRet -> rstep s t ->
  p_crash t = Some NilMap.
Proof. exact ban_lost. Qed.
Print Assumptions C44_nil_map_refuted.

(** So, with the map as newPeersPool leaves it, no ban is ever recorded, and a read handler that
    starts a ban is in it for ever. *)
Theorem C44_never_recorded_refuted : forall X s, psteps (p_start X None) s -> p_bans s = None.
Proof. exact never_banned. Qed.
Print Assumptions C44_never_recorded_refuted.
Theorem C44_never_returns_refuted : forall X s t, psteps (p_start X None) s -> banning (p_reader s) -> psteps s t ->
  banning (p_reader t).
Proof. exact ban_never_returns. Qed.
Print Assumptions C44_never_returns_refuted.

(** Both outcomes happen. *)
Example C44_hangs : exists s, psteps (p_start toy None) s /\ p_reader s = RBan DWait /\ p_crash s = None /\ p_closed s = true.
Proof. exact (run_ban_hangs toy None). Qed.
Example C44_panics : exists s t, psteps (p_start toy None) s /\ p_reader s = RBan DRet /\ p_bans s = None /\
  pstep s t /\ p_crash t = Some NilMap.
Proof.
  destruct (run_ban_lost toy None) as (s & R & E & C & B & _). exists s, (crash s NilMap).
  split; [exact R|]. split; [exact E|]. split; [exact B|]. split; [|reflexivity].
  apply PsReader; [exact C|]. now apply RsNilMap.
Qed.
(** With a map, a ban that loses the race is recorded: the model does not exclude bans as such. *)
Example C44_with_map : exists s t, psteps (p_start toy (Some 0%nat)) s /\ pstep s t /\ p_bans t = Some 1%nat /\ p_reader t = RHandle.
Proof.
  destruct (run_ban_lost toy (Some 0%nat)) as (s & R & E & C & B & _). exists s, (set_reader (set_bans s (Some 1%nat)) RHandle).
  split; [exact R|]. split; [|split; reflexivity]. apply PsReader; [exact C|]. now apply RsBanned.
Qed.

(** * C45: what is written *)

(** The messages received from the send queue so far are those written, as complete frames in that
    order, and at most one more, the current or last one. Of that one a proper part can only be on
    the wire when the write handler has given up. The counter is the length of the complete frames. *)
Theorem C45_wire : forall X bans s, psteps (p_start X bans) s ->
  exists written fs later tail, p_taken s = written ++ later /\ (List.length later <= 1)%nat /\ frames_of written fs /\
    p_wire s = concat fs ++ tail /\ p_sent s = lenN (concat fs) mod 2 ^ 64 /\
    (tail <> [] -> (p_writer s = WDone \/ writer_left (p_writer s)) /\
       exists m f n more, later = [m] /\ write_message X m = Ok (f, n) /\ f = tail ++ more).
Proof. exact wire_frames. Qed.
Print Assumptions C45_wire.

(** Once quit is closed, a send can return whatever the others do. *)
Theorem C45_send_returns : forall X (s : pstate X) pre m post, p_others s = pre ++ OSend m :: post ->
  p_quits s <> 0%nat -> p_crash s = None -> pstep s (set_others s (pre ++ OSent :: post)).
Proof. exact send_returns. Qed.
Print Assumptions C45_send_returns.

Example C45_case : exists s : pstate toy, p_others s = [] ++ OSend (MPing (PingMsg 5 7)) :: [] /\ p_quits s <> 0%nat /\ p_crash s = None.
Proof.
  exists (PState toy true 1 true 0 (WDisc DRet) (RDisc DRet) [OSend (MPing (PingMsg 5 7))] None [] [] 0 None).
  split; [reflexivity|]. split; [discriminate|reflexivity].
Qed.

(** * C67: Close returns only when the connection is closed (refuted) *)

(** A second Close, or the first one racing a handler's own Disconnect, returns while nothing has
    been closed and both handlers run. *)
Theorem C67_close_early_refuted : forall X bans, exists s, psteps (p_start X bans) s /\
  In (ODisc DRet) (p_others s) /\ p_crash s = None /\
  p_closed s = false /\ p_quits s = 0%nat /\ ~ writer_left (p_writer s) /\ ~ reader_left (p_reader s).
Proof. exact close_early. Qed.
Print Assumptions C67_close_early_refuted.

(** The caller that wins the compare-and-swap does wait: when it returns the connection is closed and
    both handlers have left their loops. *)
Theorem C67_winner_partial : forall X bans s t i, psteps (p_start X bans) s ->
  nth_error (p_others s) i = Some (ODisc DQuit) -> psteps s t -> nth_error (p_others t) i = Some (ODisc DRet) ->
  p_closed t = true /\ writer_left (p_writer t) /\ reader_left (p_reader t).
Proof. exact winner_waits. Qed.
Print Assumptions C67_winner_partial.

Example C67_case : exists s t, psteps (p_start toy None) s /\ nth_error (p_others s) 2 = Some (ODisc DQuit) /\
  psteps s t /\ nth_error (p_others t) 2 = Some (ODisc DRet).
Proof. eapply (run_winner toy None (MPing (PingMsg 5 7))). reflexivity. Qed.

(** * C98: a peer can always be brought to its end *)

(** From every state in which the read handler is not banning (C44), the goroutines that exist can all
    end, with the connection closed. *)
Theorem C98_can_end : forall X bans s, psteps (p_start X bans) s -> p_crash s = None -> ~ banning (p_reader s) -> encodable s ->
  exists t, psteps s t /\ p_crash t = None /\ all_ended t /\ p_closed t = true /\ List.length (p_others t) = List.length (p_others s).
Proof. exact can_end. Qed.
Print Assumptions C98_can_end.
(** When all have ended, quit is closed, the connection is closed and the wait group is at zero. *)
Theorem C98_ended : forall X bans t, psteps (p_start X bans) t -> all_ended t -> p_quits t = 1%nat /\ p_closed t = true /\ p_wg t = 0%Z.
Proof. exact ended_closed. Qed.
Print Assumptions C98_ended.

Example C98_case : exists s, psteps (p_start toy None) s /\ p_crash s = None /\ ~ banning (p_reader s) /\ encodable s /\
  p_writer s = WWrite (MPing (PingMsg 5 7)) /\ p_reader s = RSend (MPong (PingMsg 5 7)) /\ p_others s = [OSent; OWait].
Proof. eapply run_busy; reflexivity. Qed.
