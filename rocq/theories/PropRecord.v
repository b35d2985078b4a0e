(** Property C109: what the table says about a peer. Statements; proofs are in RecordProofs.v, executions
    in RecordExamples.v, the specification in SpecRecord.v. *)
From Coq Require Import Permutation.
From Verif Require Import Pool SpecPool SpecRecord RecordProofs PoolExamples RecordExamples.

(** * C109: records say what the peer said, and only addresses that were connected to are handed out *)

(** What is recorded when a connection is made, in two steps: the connection, and what its handshake said;
    the height is not known yet. *)
Theorem C109_connected : forall bans s t a i d, sys_steps (sys_start bans) s -> run_step s t -> y_run s = RuUpdate a i d ->
  y_run t = RuFill a i d /\
  exists x, nth_error (pl_infos (y_pool t)) i = Some x /\ i_status x = StConnected /\ i_peer x = Some (List.length (y_watch s)).
Proof. exact when_connected. Qed.
Print Assumptions C109_connected.
Theorem C109_told : forall bans s t a i d, sys_steps (sys_start bans) s -> run_step s t -> y_run s = RuFill a i d ->
  y_run t = RuUp a i /\ exists x, nth_error (pl_infos (y_pool t)) i = Some x /\ status_of (y_pool s) i = Some (i_status x) /\
    (exists c, connected_before bans s a i c d /\ i_peer x = Some c) /\
    i_version x = 1 /\ i_height x = 0 /\ i_td x = dl_td d /\ i_caps x = dl_caps d.
Proof. exact when_told. Qed.
Print Assumptions C109_told.
Example C109_connected_case : exists s t, sys_steps (sys_start None) s /\ run_step s t /\ y_run s = RuUpdate addr_a 0 good_peer /\ y_crash s = None.
Proof. exact run_update. Qed.
Example C109_told_case : exists s t, sys_steps (sys_start None) s /\ run_step s t /\ y_run s = RuFill addr_a 0 good_peer /\ y_crash s = None.
Proof. exact run_fill. Qed.

(** A connection whose peer has the protocol version is taken on, whatever happens meanwhile: it gets a goroutine
    that waits for its end, and Run does nothing else before. *)
Theorem C109_taken_on : forall s t a i d, y_run s = RuVersion a i d -> dl_version d = 1 -> sys_steps s t ->
  (taking_on a i d (y_run t) /\ List.length (y_watch t) = List.length (y_watch s)) \/
  exists w, nth_error (y_watch t) (List.length (y_watch s)) = Some w /\ wt_addr w = a /\ wt_info w = i.
Proof. exact taken_on. Qed.
Print Assumptions C109_taken_on.
Example C109_taken_on_case : exists s, sys_steps (sys_start None) s /\ y_run s = RuVersion addr_a 0 good_peer /\ dl_version good_peer = 1.
Proof.
  eexists. split.
  - add addr_a. run_dial [(addr_a, 0%nat)] addr_a 0%nat StNew.
    r ltac:(apply (RnDialled _ addr_a 0%nat good_peer); reflexivity). apply YsNone.
  - split; reflexivity.
Qed.

(** Whatever happens afterwards: a record without a connection is empty; one with a connection has the
    version and the capabilities that this connection's handshake gave, except between the two steps. *)
Theorem C109_recorded : forall bans s i x, sys_steps (sys_start bans) s -> nth_error (pl_infos (y_pool s)) i = Some x ->
  (forall a d, y_run s <> RuFill a i d) ->
  (i_peer x = None /\ i_version x = 0 /\ i_caps x = 0) \/
  (exists a c d, connected_before bans s a i c d /\ i_peer x = Some c /\ i_version x = 1 /\ i_caps x = dl_caps d).
Proof. exact recorded_from. Qed.
Print Assumptions C109_recorded.
(** Between them it may have those of an earlier connection of the same record. *)
Theorem C109_between : forall bans s a i d x, sys_steps (sys_start bans) s -> y_run s = RuFill a i d -> nth_error (pl_infos (y_pool s)) i = Some x ->
  (exists c, connected_before bans s a i c d /\ i_peer x = Some c) /\
  ((i_version x = 0 /\ i_caps x = 0) \/
   (exists a' c' d', connected_before bans s a' i c' d' /\ i_version x = 1 /\ i_caps x = dl_caps d')).
Proof. exact half_recorded. Qed.
Print Assumptions C109_between.
(** And it does: an address is handed out to one who asks for full nodes although its peer, who is connected,
    announced nothing. Peers does not take the lock of the record. *)
Theorem C109_stale_refuted : forall bans, exists s x, sys_steps (sys_start bans) s /\ y_crash s = None /\ y_run s = RuFill addr_a 0 plain_peer /\
  pl_table (y_pool s) = [(addr_a, 0%nat)] /\ nth_error (pl_infos (y_pool s)) 0 = Some x /\ i_status x = StConnected /\ i_peer x = Some 1%nat /\ i_caps x = 7 /\
  pool_peers (fun _ => home) 7 (pl_table (y_pool s)) (y_pool s) = [Addr [x7f; x00; x00; x01] 13414].
Proof. exact run_stale. Qed.
Print Assumptions C109_stale_refuted.

(** A peer that asks for capabilities is told only addresses that this node had itself a connection to
    and which announced all of them. *)
Theorem C109_handed_out : forall bans s resolve caps order n, sys_steps (sys_start bans) s -> Permutation order (pl_table (y_pool s)) -> caps <> 0 ->
  In n (pool_peers resolve caps order (y_pool s)) ->
  exists a i c d, connected_before bans s a i c d /\ resolve a = Some n /\ In (a, i) (pl_table (y_pool s)) /\
    (forall k, N.testbit caps k = true -> N.testbit (dl_caps d) k = true).
Proof. exact handed_out. Qed.
Print Assumptions C109_handed_out.
Example C109_case : exists s, sys_steps (sys_start None) s /\ y_crash s = None /\
  pl_table (y_pool s) = [(addr_b, 1%nat); (addr_a, 0%nat)] /\
  pool_peers (fun _ => home) 7 [(addr_b, 1%nat); (addr_a, 0%nat)] (y_pool s) = [Addr [x7f; x00; x00; x01] 13414] /\
  lenN (pool_peers (fun _ => home) 0 [(addr_b, 1%nat); (addr_a, 0%nat)] (y_pool s)) = 2.
Proof. exact run_told. Qed.
