(** C143: shutting down under a fair scheduler. *)
From Verif Require Import World SpecPeer SpecFair SpecPool SpecDone SpecTeam SpecSelect SpecShutAll PeerProofs WorldExactProofs WorldEndExamples ShutAllProofs ShutAllExamples ShutStuckExamples.

(** After Stop, Run stops and every goroutine it starts then (pool.go:304-311) comes to its end. *)
Theorem C143_stop : forall (X : Ext) pb bans (W : nat -> world X), world_run pb bans W -> (forall k, alive (W k)) -> peers_fair W ->
  forall n, run_fair (pool_of W) -> select_fair (pool_of W) -> (forall k, closer_calls k W) -> (forall k, closer_fair k W) ->
  y_quits (w_sys (W n)) <> O ->
  exists m, (n <= m)%nat /\ forall j, (m <= j)%nat -> y_run (w_sys (W j)) = RuStopped /\ all_closed (w_sys (W j)).
Proof. exact stop_closes. Qed.
Print Assumptions C143_stop.

(** One such goroutine, whatever becomes of the others. *)
Theorem C143_each : forall (X : Ext) pb bans (W : nat -> world X), world_run pb bans W -> (forall k, alive (W k)) -> peers_fair W ->
  forall k n, y_run (w_sys (W n)) = RuStopped -> closer_calls k W -> closer_fair k W -> closer k (W n) <> None ->
  exists m, (n <= m)%nat /\ forall j, (m <= j)%nat -> closer k (W j) = Some ClEnd.
Proof. exact closer_ends. Qed.
Print Assumptions C143_each.

(** The connection it is to close is closed, both handlers of its peer end, and it is cleaned up. *)
Theorem C143_connection : forall (X : Ext) pb bans (W : nat -> world X), world_run pb bans W -> (forall k, alive (W k)) -> peers_fair W ->
  forall n k i c, y_run (w_sys (W n)) = RuStopped -> closer_calls k W -> closer_fair k W ->
  closer k (W n) = Some (ClLock i) -> record_peer i c (W n) -> cleaner_fair c W ->
  exists m, (n <= m)%nat /\ forall j, (m <= j)%nat ->
    writer_ended (p_writer (conn_peer c (W j))) /\ reader_ended (p_reader (conn_peer c (W j))) /\ p_closed (conn_peer c (W j)) = true /\
    exists a r, cleaner c (W j) = Some (Watch a r WtEnd).
Proof. exact closed_conns. Qed.
Print Assumptions C143_connection.

(** That is so for every record that is listed when Run stops and has had a connection. *)
Theorem C143_listed : forall (X : Ext) pb bans (W : nat -> world X), world_run pb bans W -> (forall k, alive (W k)) -> peers_fair W ->
  forall n a i c, y_run (w_sys (W n)) <> RuStopped -> y_run (w_sys (W (S n))) = RuStopped ->
  (forall k, closer_calls k W) -> (forall k, closer_fair k W) ->
  In (a, i) (pl_table (y_pool (w_sys (W n)))) -> record_peer i c (W n) -> cleaner_fair c W ->
  exists m, (n <= m)%nat /\ forall j, (m <= j)%nat ->
    writer_ended (p_writer (conn_peer c (W j))) /\ reader_ended (p_reader (conn_peer c (W j))) /\ p_closed (conn_peer c (W j)) = true /\
    exists a r, cleaner c (W j) = Some (Watch a r WtEnd).
Proof. exact listed_conns. Qed.
Print Assumptions C143_listed.

(** Such runs exist from wherever the pool can be brought to its end (C135). *)
Theorem C143_possible : forall (X : Ext) bans (w : world X), world_steps None (world_start bans) w -> alive w -> Forall can_finish (w_peers w) ->
  (forall i, to_close (w_sys w) i -> peered (y_pool (w_sys w)) i) ->
  exists W : nat -> world X, W O = w /\ world_run None bans W /\ (forall k, alive (W k)) /\ peers_fair W /\
    run_fair (pool_of W) /\ select_fair (pool_of W) /\ (forall k, closer_calls k W) /\ (forall k, closer_fair k W) /\
    forall c n, connection c (W n) -> cleaner_fair c W.
Proof. exact shut_possible. Qed.
Print Assumptions C143_possible.

(** One in which Stop was called while a listed peer is connected and its handlers run. *)
Example C143_case : forall X : Ext, exists W : nat -> world X, world_run None None W /\ (forall k, alive (W k)) /\ peers_fair W /\
  run_fair (pool_of W) /\ select_fair (pool_of W) /\ (forall k, closer_calls k W) /\ (forall k, closer_fair k W) /\
  y_quits (w_sys (W O)) <> O /\ y_run (w_sys (W O)) = RuSelect /\ conn_peer 0 (W O) = up X None /\ to_close (w_sys (W O)) 0 /\ record_peer 0 0 (W O).
Proof. exact shut_case. Qed.

(** One in which Run stops at once, and the goroutine for that peer is then about to begin. *)
Example C143_pending : forall X : Ext, exists (W : nat -> world X) a k, world_run None None W /\ (forall j, alive (W j)) /\ peers_fair W /\
  (forall k, closer_calls k W) /\ (forall k, closer_fair k W) /\ cleaner_fair 0 W /\
  y_run (w_sys (W 0%nat)) = RuSelect /\ In (a, O) (pl_table (y_pool (w_sys (W 0%nat)))) /\ record_peer 0 0 (W 0%nat) /\
  y_run (w_sys (W 1%nat)) = RuStopped /\ closer k (W 1%nat) = Some (ClLock 0) /\ record_peer 0 0 (W 1%nat) /\ conn_peer 0 (W 1%nat) = up X None.
Proof. exact shut_pending. Qed.

(** Without the condition that the handling of each message ends it is false, however fair the scheduler: here a
    goroutine after Stop holds the lock of the record for ever and waits for a read handler that handles a message,
    as it may if it needs that lock (C75). *)
Theorem C143_handled_refuted : forall X : Ext, exists W : nat -> world X, world_run None None W /\ (forall k, alive (W k)) /\
  (forall c n, connection c (W n) -> (forall k, (n <= k)%nat -> ~ banning (p_reader (conn_peer c (W k)))) /\ fair (of_peer c n W)) /\
  run_fair (pool_of W) /\ select_fair (pool_of W) /\ (forall k, closer_calls k W) /\ (forall k, closer_fair k W) /\ cleaner_fair 0 W /\
  forall j, y_run (w_sys (W j)) = RuStopped /\ record_peer 0 0 (W j) /\ closer 0 (W j) = Some (ClClose 0) /\
    locked (y_pool (w_sys (W j))) 0 /\ conn_peer 0 (W j) = held X None.
Proof. exact shut_held. Qed.
Print Assumptions C143_handled_refuted.
