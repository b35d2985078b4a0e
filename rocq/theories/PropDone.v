(** Property C135: whether the pool with its peers can be brought to its end. Statements; proofs are in
    PeerEndProofs.v, LockEndProofs.v and WorldEndProofs.v, executions in WorldEndExamples.v, the specification in
    SpecDone.v. *)
From Verif Require Import World SpecPeer SpecPool SpecDone WorldExactProofs WorldEndProofs WorldEndExamples Instance.
Local Open Scope nat_scope.

(** From whatever the pool and its peers have got to, unless a read handler bans its own peer, a message cannot be
    encoded or a listed address never had a connection: Stop can be called, if it was not, and then everything can come
    to its end, without a crash. In particular no goroutines wait for each other. *)
Theorem C135_can_stop : forall X n bans (w : world X), world_steps n (world_start bans) w -> alive w -> Forall can_finish (w_peers w) ->
  (forall i, to_close (w_sys w) i -> peered (y_pool (w_sys w)) i) -> exists v, world_steps n w v /\ alive v /\ finished v.
Proof. exact can_stop. Qed.
Print Assumptions C135_can_stop.
(** As shipped, once Run has ended, the first and the last of these are needed. *)
Theorem C135_exact : forall X bans (w : world X), world_steps None (world_start bans) w -> alive w -> y_run (w_sys w) = RuStopped -> Forall encodable (w_peers w) ->
  ((exists v, world_steps None w v /\ alive v /\ finished v) <->
   Forall (fun p => ~ banning (p_reader p)) (w_peers w) /\ forall i, to_close (w_sys w) i -> peered (y_pool (w_sys w)) i).
Proof. exact stopped_exact. Qed.
Print Assumptions C135_exact.
(** After a read handler has begun to ban its own peer there is no way to the end, as shipped. *)
Theorem C135_self_ban_refuted : forall X, exists w : world X, world_steps None (world_start None) w /\ alive w /\
  (forall i, to_close (w_sys w) i -> peered (y_pool (w_sys w)) i) /\ Forall encodable (w_peers w) /\ forall v, world_steps None w v -> ~ finished v.
Proof. exact world_self_ban. Qed.
Print Assumptions C135_self_ban_refuted.
(** Nor is there one after Stop with an address that never had a connection. *)
Theorem C135_no_peer_refuted : forall X n bans, exists w : world X, world_steps n (world_start bans) w /\ alive w /\ y_run (w_sys w) = RuStopped /\ w_peers w = [] /\
  forall v, world_steps n w v -> ~ finished v.
Proof. exact world_no_peer. Qed.
Print Assumptions C135_no_peer_refuted.
(** A connection whose peer answers a ping, before Stop. *)
Example C135_case : exists w : world toy, world_steps None (world_start None) w /\ alive w /\ y_run (w_sys w) = RuSelect /\ y_quits (w_sys w) = 0 /\
  w_peers w = [answering toy None (MPong (PingMsg 5 7))] /\ (forall i, to_close (w_sys w) i <-> i = 0) /\ peered (y_pool (w_sys w)) 0.
Proof. exact (world_one toy None None _ (up_answering toy None _) eq_refl). Qed.
Example C135_case_finish : can_finish (answering toy None (MPong (PingMsg 5 7))).
Proof. apply answering_finish. eexists. reflexivity. Qed.
