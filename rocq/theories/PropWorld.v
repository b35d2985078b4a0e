(** Properties C130 and C131: the pool together with its peers. Statements; proofs are in WorldProofs.v,
    WorldExactProofs.v and WorldStopProofs.v, executions in WorldExamples.v, the specification in SpecWorld.v. *)
From Verif Require Import World SpecPeer SpecPool SpecWorld WorldProofs WorldExactProofs WorldStopProofs WorldExamples PoolExamples Instance.
Local Open Scope nat_scope.

(** * C130 *)

(** The pool goes through states of Pool.v, and each peer through states of Start.v: what is proved of those holds
    here. *)
Theorem C130_parts : forall X n bans (w : world X), world_steps n (world_start bans) w ->
  sys_steps (sys_start bans) (w_sys w) /\ Forall (fun p => psteps (p_new n) p \/ life n p) (w_peers w).
Proof. exact projects. Qed.
Print Assumptions C130_parts.
(** And Pool.v has no execution too many: whatever its goroutines do, there are peers with which they do. *)
Theorem C130_exact : forall X n bans s, sys_steps (sys_start bans) s <-> exists w : world X, world_steps n (world_start bans) w /\ w_sys w = s.
Proof. exact exact_world. Qed.
Print Assumptions C130_exact.
(** At most 15 peers have a handler in its loop; so at most 30 handlers are. *)
Theorem C130_limit : forall X n bans (w : world X), world_steps n (world_start bans) w ->
  List.length (filter served (w_peers w)) <= 15 /\ all_handlers (w_peers w) <= 30.
Proof. exact world_limit. Qed.
Print Assumptions C130_limit.
(** Not before both handlers of a peer have left their loops and its quit channel is closed does the pool clean up
    behind it, and give its slot to another. *)
Theorem C130_cleaned : forall X n bans (w : world X) k x p, world_steps n (world_start bans) w -> nth_error (y_watch (w_sys w)) k = Some x -> waiting x = false ->
  nth_error (w_peers w) k = Some p -> writer_left (p_writer p) /\ reader_left (p_reader p) /\ p_quits p = 1.
Proof. exact cleaned. Qed.
Print Assumptions C130_cleaned.

(** Fifteen peers and thirty handlers are possible. *)
Example C130_limit_case : exists w : world toy, world_steps None (world_start None) w /\ List.length (filter served (w_peers w)) = 15 /\ all_handlers (w_peers w) = 30.
Proof. exact (world_fifteen toy None None). Qed.
(** Also in the pool alone. *)
Example C46_limit_reached : exists s, sys_steps (sys_start None) s /\ y_run s = RuSelect /\ y_crash s = None /\ y_close s = [] /\ List.length (y_watch s) = 15 /\ forallb waiting (y_watch s) = true.
Proof. exact (run_fifteen None). Qed.
(** A goroutine that has waited goes on. *)
Example C130_cleaned_case : exists (w : world toy) p, world_steps None (world_start None) w /\ y_watch (w_sys w) = [Watch addr_a 0 WtStatus] /\ w_peers w = [p].
Proof. exact (world_ended toy None None). Qed.

(** * C131 *)

(** As shipped: when Run has ended after Stop, and the goroutines it started to close the connections have, every peer
    that was ever stored is disconnected or being disconnected. *)
Theorem C131_told : forall X n (w : world X), world_steps n (world_start None) w -> y_run (w_sys w) = RuStopped -> all_closed (w_sys w) ->
  Forall (fun p => life n p /\ p_flag p = true) (w_peers w).
Proof. exact all_told. Qed.
Print Assumptions C131_told.
(** And when then no peer can go on, all goroutines of peers have returned and all connections are closed, but for read
    handlers that ban their own peer. *)
Theorem C131_over : forall X n (w : world X), world_steps n (world_start None) w -> y_run (w_sys w) = RuStopped -> all_closed (w_sys w) -> alive w ->
  Forall (fun p => forall q, ~ internal p q) (w_peers w) -> Forall (fun p => p_reader p = RBan DWait \/ (all_ended p /\ p_quits p = 1 /\ p_closed p = true)) (w_peers w).
Proof. exact all_over. Qed.
Print Assumptions C131_over.
(** With a made map of banned addresses this is not so: a connection made while its address is banned is left over. *)
Theorem C131_made_map_refuted : forall X n, exists (w : world X) p, world_steps n (world_start (Some [])) w /\ alive w /\ y_run (w_sys w) = RuStopped /\ all_closed (w_sys w) /\
  y_bans (w_sys w) = [BnEnd] /\ nth_error (w_peers w) 1 = Some p /\ p_flag p = false /\ handlers p = 2.
Proof. exact world_left_over. Qed.
Print Assumptions C131_made_map_refuted.
(** One connection, and Stop. *)
Example C131_case : exists w : world toy, world_steps None (world_start None) w /\ alive w /\ y_run (w_sys w) = RuStopped /\ y_close (w_sys w) = [ClEnd] /\ w_peers w = [over toy None].
Proof. exact (world_stopped toy None). Qed.
Example C131_case_over : forall q, ~ internal (over toy None) q.
Proof. exact (over_stuck toy None). Qed.
