(** C142: the pool with its peers under a fair scheduler. *)
From Verif Require Import World SpecPeer SpecFair SpecPool SpecDone SpecTeam TeamProofs TeamExamples.

(** Within the pool the peer of a connection does what a started peer can do by itself, whatever the pool and the other
    peers do: what C140 says of endless runs of one peer holds of it. *)
Theorem C142_run : forall (X : Ext) pb bans (W : nat -> world X), world_run pb bans W ->
  forall c n, connection c (W n) -> run pb (of_peer c n W).
Proof. exact team_run. Qed.
Print Assumptions C142_run.

(** A connection that begins to end does end: both handlers, the connection, and the wait for it in the pool. *)
Theorem C142_ends : forall (X : Ext) pb bans (W : nat -> world X), world_run pb bans W -> forall c n, connection c (W n) ->
  (forall k, alive (W k)) -> (forall k, (n <= k)%nat -> ~ banning (p_reader (conn_peer c (W k)))) ->
  handled (of_peer c n W) -> fair (of_peer c n W) -> ending (conn_peer c (W n)) ->
  exists m, (n <= m)%nat /\ forall j, (m <= j)%nat ->
    writer_ended (p_writer (conn_peer c (W j))) /\ reader_ended (p_reader (conn_peer c (W j))) /\ p_closed (conn_peer c (W j)) = true /\
    wait_returned c (W j).
Proof. exact team_returns. Qed.
Print Assumptions C142_ends.

(** And the goroutine of the pool that cleans up after it comes to its end. *)
Theorem C142_cleaned : forall (X : Ext) pb bans (W : nat -> world X), world_run pb bans W -> forall c n, connection c (W n) ->
  (forall k, alive (W k)) -> (forall k, (n <= k)%nat -> ~ banning (p_reader (conn_peer c (W k)))) ->
  handled (of_peer c n W) -> fair (of_peer c n W) -> ending (conn_peer c (W n)) -> cleaner_fair c W ->
  exists m, (n <= m)%nat /\ forall j, (m <= j)%nat -> exists a i, cleaner c (W j) = Some (Watch a i WtEnd).
Proof. exact team_cleaned. Qed.
Print Assumptions C142_cleaned.

(** Such runs exist from wherever the pool can be brought to its end (C135). *)
Theorem C142_possible : forall (X : Ext) bans (w : world X), world_steps None (world_start bans) w -> alive w -> Forall can_finish (w_peers w) ->
  (forall i, to_close (w_sys w) i -> peered (y_pool (w_sys w)) i) ->
  exists W : nat -> world X, W O = w /\ world_run None bans W /\ (forall k, alive (W k)) /\
    forall c n, connection c (W n) -> (forall k, (n <= k)%nat -> ~ banning (p_reader (conn_peer c (W k)))) /\
      handled (of_peer c n W) /\ fair (of_peer c n W) /\ cleaner_fair c W.
Proof. exact team_possible. Qed.
Print Assumptions C142_possible.

(** One in which Disconnect was called on a peer whose handlers run and that the pool waits for. *)
Example C142_case : forall X : Ext, exists W : nat -> world X, world_run None None W /\ (forall k, alive (W k)) /\ connection 0 (W O) /\
  conn_peer 0 (W O) = called X /\ ending (called X) /\ (forall k, (0 <= k)%nat -> ~ banning (p_reader (conn_peer 0 (W k)))) /\
  handled (of_peer 0 0 W) /\ fair (of_peer 0 0 W) /\ cleaner_fair 0 W /\ exists a i, cleaner 0 (W O) = Some (Watch a i WtWait).
Proof. exact team_case. Qed.
