(** Property C126: a peer that does not read what it is sent. Statements; proofs are in StallProofs.v, the
    specification in SpecStall.v. No deadline is set for writes (peer.go:143, protocol.go:32-53). *)
From Verif Require Import Peer SpecPeer PeerProofs Instance Sync SpecPool SpecSync SyncExamples PoolExamples SpecStall StallProofs.

(** * C126: a peer that does not read holds up nobody but itself, and for a bounded time (refuted) *)

(** While a write does not return, and until quit is closed, no send returns, neither those of other goroutines
    nor that of the read handler; nothing is taken off the queue. *)
Theorem C126_waits_refuted : forall X (s t : pstate X) m, p_writer s = WWrite m -> (exists f, write_message X m = Ok f) -> stalled_steps s t ->
  p_quits t = 0%nat ->
  p_writer t = WWrite m /\ p_taken t = p_taken s /\ p_wire t = p_wire s /\
  (forall i m', nth_error (p_others s) i = Some (OSend m') -> nth_error (p_others t) i = Some (OSend m')) /\
  (forall m', p_reader s = RSend m' -> p_reader t = RSend m').
Proof. exact (@stall_waits). Qed.
Print Assumptions C126_waits_refuted.
(** As soon as the read handler has something to answer, nothing changes any more but that further goroutines
    come to wait, unless somebody else calls Disconnect or Close: so the peer is never given up. In the code only
    a call of Stop or of Ban does that. *)
Theorem C126_frozen_refuted : forall X bans (s t : pstate X) m m', psteps (p_start X bans) s -> p_writer s = WWrite m ->
  (exists f, write_message X m = Ok f) -> p_reader s = RSend m' -> p_quits s = 0%nat -> stalled_steps s t -> ~ disconnecting t ->
  exists more, t = set_others s (p_others s ++ more) /\ Forall fresh more.
Proof. exact (@stall_frozen). Qed.
Print Assumptions C126_frozen_refuted.
(** There is no limit on how many they are and what they want to send. *)
Theorem C126_pile_refuted : forall X bans (m m' : message X) ms f n, write_message X m = Ok (f, n) ->
  exists s, psteps (p_start X bans) s /\ p_writer s = WWrite m /\ p_reader s = RSend m' /\ p_quits s = 0%nat /\ p_crash s = None /\
    ~ disconnecting s /\ waiting_sends s = ms /\ p_wire s = [].
Proof. exact (@pile). Qed.
Print Assumptions C126_pile_refuted.
Example C126_case : exists s t : pstate toy, psteps (p_start toy None) s /\ p_writer s = WWrite (MPing (PingMsg 5 7)) /\
  (exists f, write_message toy (MPing (PingMsg 5 7)) = Ok f) /\ p_reader s = RSend (MPong (PingMsg 5 7)) /\ p_quits s = 0%nat /\
  stalled_steps s t /\ ~ disconnecting t /\ p_quits t = 0%nat /\ waiting_sends t = [MPing (PingMsg 1 1); MPing (PingMsg 2 2)].
Proof.
  destruct (C126_pile_refuted toy None (MPing (PingMsg 5 7)) (MPong (PingMsg 5 7)) [MPing (PingMsg 1 1)] _ _ eq_refl) as (s & R & W & Rd & Q & C & D & Sd & _).
  exists s, (set_others s (p_others s ++ [OSend (MPing (PingMsg 2 2))])). split; [exact R|]. split; [exact W|].
  split; [eexists; reflexivity|]. split; [exact Rd|]. split; [exact Q|]. split; [|split; [|split; [exact Q|]]].
  - refine (StMore _ _ _ (StNone _) _ _); [|intros m Wm; exact Wm]. apply PsSpawn; [exact C|]. apply OsNew. eauto.
  - intros (d & I). apply in_app_or in I. destruct I as [I|[I|[]]]; [|discriminate]. apply D. now exists d.
  - unfold waiting_sends in *. cbn [set_others p_others]. now rewrite flat_map_app, Sd.
Qed.

(** Another peer can make them: every block at the height of the chain that is accepted starts one, also if it is
    always the same block, if the peer that does not read has told of less. *)
Theorem C126_relays_refuted : forall X S c (b : block X) cn a j y k (n : node X S) i x, sender c n i x ->
  fst (process_block (x_clock c 0%nat) (nd_chain n) b) = Ok tt -> h_height (b_header b) = c_height (nd_chain n) ->
  j <> i -> In (a, j) (pl_up (nd_pool n)) -> nth_error (pl_infos (nd_pool n)) j = Some y -> behind (b_header b) y -> i_peer y = Some cn ->
  (k <= count_occ Nat.eq_dec (relays c n (MBlock b) k) cn)%nat.
Proof. exact (@relayed_again). Qed.
Print Assumptions C126_relays_refuted.
(** On a Testnet4 node a block that copies the proof of the genesis block does, without any work. *)
Theorem C126_free_refuted : forall X lenient, exists c (n : node X (sql_storage X)) i x b cn, sender c n i x /\ received lenient (MBlock b) /\
  forall k, (k <= count_occ Nat.eq_dec (relays c n (MBlock b) k) cn)%nat.
Proof.
  intros X lenient. exists (first seed), (busy4 X), 1%nat. eexists. exists (junk X 0 65536), 1%nat.
  split; [apply busy4_sender|]. split; [apply junk_received|]. intro k.
  refine (C126_relays_refuted X (sql_storage X) (first seed) (junk X 0 65536) 1%nat addr_b 0%nat _ k (busy4 X) 1%nat _ (busy4_sender X seed) (junk_accepted X _ 0 65536) eq_refl _ _ eq_refl _ eq_refl).
  - discriminate.
  - left. reflexivity.
  - right. reflexivity.
Qed.
Print Assumptions C126_free_refuted.

(** What holds (missing: that writes return): if they do, every waiting send returns, in order. *)
Theorem C126_drain_partial : forall X (s : pstate X), p_flag s = false -> p_closed s = false -> p_crash s = None ->
  p_writer s = WSelect \/ (exists m, p_writer s = WWrite m /\ exists f, write_message X m = Ok f) ->
  (forall m, In m (waiting_sends s) -> exists f, write_message X m = Ok f) ->
  exists t, psteps s t /\ p_taken t = p_taken s ++ waiting_sends s /\ waiting_sends t = [] /\ p_crash t = None.
Proof. exact (@drain). Qed.
Print Assumptions C126_drain_partial.
Example C126_drain_case : exists s : pstate toy, psteps (p_start toy None) s /\ p_flag s = false /\ p_closed s = false /\ p_crash s = None /\
  (exists m, p_writer s = WWrite m /\ exists f, write_message toy m = Ok f) /\
  (forall m, In m (waiting_sends s) -> exists f, write_message toy m = Ok f) /\ waiting_sends s = [MPing (PingMsg 1 1); MPing (PingMsg 2 2)].
Proof.
  eexists. split.
  - eapply (psteps_cons toy). { apply PsSpawn; [reflexivity|]. apply (OsNew toy _ (OSend (MPing (PingMsg 5 7)))). eauto. } cbn.
    eapply (psteps_cons toy). { apply PsOther; [reflexivity|]. apply (OsSend toy _ [] (MPing (PingMsg 5 7)) []); reflexivity. } cbn.
    eapply (psteps_cons toy). { apply PsWriter; [reflexivity|]. apply (WsLive toy _ (MPing (PingMsg 5 7))); reflexivity. } cbn.
    eapply (psteps_cons toy). { apply PsSpawn; [reflexivity|]. apply (OsNew toy _ (OSend (MPing (PingMsg 1 1)))). eauto. } cbn.
    eapply (psteps_cons toy). { apply PsSpawn; [reflexivity|]. apply (OsNew toy _ (OSend (MPing (PingMsg 2 2)))). eauto. } cbn.
    apply PsNone.
  - do 3 (split; [reflexivity|]). split; [eexists; split; [reflexivity|eexists; reflexivity]|]. split; [|reflexivity].
    intros m [<-|[<-|[]]]; eexists; reflexivity.
Qed.
