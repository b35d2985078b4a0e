(** Property C88: the pool while an address does not answer. Statements; proofs are in SilentProofs.v,
    specifications in SpecPool.v. shakeByHand (handshake.go:231-264) sets no deadline, and it is called
    from connectPeer (pool.go:226), that is, by Run itself. *)
From Verif Require Import Pool SpecPool PoolProofs PoolExamples SilentProofs.

(** * C88: an address that does not answer does not stop the pool (refuted) *)

(** Full statement, false: while one address keeps NewPeer or the write of the first ping waiting, other
    connections are made and Stop closes the existing ones. Whatever happens meanwhile, Run stays where it is with
    the record locked; connections and entries of ConnectedPeers only go; and after Stop nothing is being closed. *)
Theorem C88_silent_refuted : forall bans s t i, sys_steps (sys_start bans) s -> at_network (y_run s) = Some i -> others_steps s t ->
  y_run t = y_run s /\ locked (y_pool t) i /\ y_close t = [] /\ (live t <= live s)%nat /\
  (forall kv, In kv (pl_up (y_pool t)) -> In kv (pl_up (y_pool s))).
Proof. exact silent. Qed.
Print Assumptions C88_silent_refuted.
(** A node with one connection dials a second address, which does not answer: Stop has been called, the
    peer has left, nobody is connected. *)
Theorem C88_alone_refuted : exists s t, sys_steps (sys_start None) s /\ y_run s = RuDial addr_b 1 /\ live s = 1%nat /\
  others_steps s t /\ y_crash t = None /\ y_quits t = 1%nat /\ live t = 0%nat /\ pl_up (y_pool t) = [] /\
  map fst (pl_table (y_pool t)) = [addr_b; addr_a].
Proof. exact silent_case. Qed.
Print Assumptions C88_alone_refuted.

(** The same at the other point: the second peer takes the connection and does not read; Stop is called, and the
    first peer leaves. *)
Theorem C88_unread_refuted : exists s t, sys_steps (sys_start None) s /\ y_run s = RuGo addr_b 1 /\ live s = 2%nat /\
  others_steps s t /\ y_crash t = None /\ y_quits t = 1%nat /\ live t = 1%nat /\ map fst (pl_up (y_pool t)) = [addr_b] /\
  map fst (pl_table (y_pool t)) = [addr_b; addr_a].
Proof. exact unread_case. Qed.
Print Assumptions C88_unread_refuted.

(** What holds (missing: that NewPeer and writes return): in no other place does Run get stuck, be it by a lock
    or by a channel. It waits only at its select, with every slot taken and Stop not called. *)
Theorem C88_progress_partial : forall bans s, sys_steps (sys_start bans) s -> at_rest s \/ exists t, run_step s t.
Proof. exact pool_progress. Qed.
Print Assumptions C88_progress_partial.
(** And from any state after Stop it can end by steps of its own. *)
Theorem C88_stop_partial : forall bans s, sys_steps (sys_start bans) s -> y_crash s = None -> y_quits s <> 0%nat ->
  exists t, run_steps s t /\ y_run t = RuStopped.
Proof. exact stop_reached. Qed.
Print Assumptions C88_stop_partial.
(** Such a state, in the middle of an attempt to connect. *)
Example C88_stop_case : exists s, sys_steps (sys_start None) s /\ y_crash s = None /\ y_quits s <> 0%nat /\ y_run s = RuDial addr_b 1.
Proof.
  destruct silent_case as (s & t & R & E & _ & O & C & Q & _). exists t. split; [exact (sys_app _ _ _ R (others_all s t O))|].
  split; [exact C|]. split; [rewrite Q; discriminate|]. destruct (others_many s t O) as (H & _). congruence.
Qed.
