(** Property C129: peers that are used before they are started, and C67 for them. Statements; proofs are in
    EarlyProofs.v, the execution of the pool in EarlyExamples.v, the specification in SpecEarly.v. *)
From Verif Require Import Start SpecPeer SpecEarly EarlyProofs Pool SpecPool EarlyExamples PoolExamples Instance.
Local Open Scope nat_scope.

(** * C129 *)

(** Whatever is done with a peer before Start: after it, everything is as in an execution in which it is done after
    Start, except that calls that wait for the handlers may have returned. *)
Theorem C129_as_if : forall X bans (s : pstate X), life bans s -> exists t, psteps (p_start X bans) t /\ as_if s t.
Proof. exact lives_as_if. Qed.
Print Assumptions C129_as_if.
(** Nothing that is done before Start takes the process down. *)
Theorem C129_before : forall X bans (e : pstate X), psteps (p_new bans) e -> p_crash e = None.
Proof. exact new_safe. Qed.
Print Assumptions C129_before.
(** The handlers of a peer that was disconnected before Start do not use the connection. *)
Theorem C129_unused : forall X bans (e s : pstate X), psteps (p_new bans) e -> p_flag e = true -> psteps (started e) s -> unused s.
Proof. exact early_unused. Qed.
Print Assumptions C129_unused.
(** Also with uses before Start, where nobody can go on all have returned and the connection is closed, unless the read
    handler bans its own peer. *)
Theorem C129_ends : forall X bans (s : pstate X), life bans s -> p_crash s = None -> (forall t, ~ internal s t) ->
  p_reader s = RBan DWait \/ (all_ended s /\ p_quits s = 1 /\ p_closed s = true).
Proof. exact lives_stuck. Qed.
Print Assumptions C129_ends.

(** A peer is closed before Start; then it is started and its handlers end. *)
Example C129_case : exists e : pstate toy, psteps (p_new None) e /\ p_others e = [ODisc DRet] /\ p_flag e = true /\ p_closed e = true /\ p_quits e = 1 /\ p_crash e = None /\
  exists s, psteps (started e) s /\ all_ended s /\ p_crash s = None.
Proof. exact (run_early toy None). Qed.
(** It happens: Run has stored a new peer, not started yet, and Ban returns from closing it. *)
Example C129_happens : forall bans, exists s t x, sys_steps (sys_start bans) s /\ y_run s = RuGo addr_a 0 /\ y_bans s = [BnClose addr_a 0] /\
  nth_error (pl_infos (y_pool s)) 0 = Some x /\ i_peer x = Some (List.length (y_watch s)) /\ sys_step s t /\ y_run t = RuGo addr_a 0 /\ y_bans t = [BnMap addr_a] /\ y_crash t = None.
Proof. exact run_ban_early. Qed.

(** * C67 *)

(** A Disconnect that won, before Start, has returned although both handlers are in their loops. *)
Theorem C67_unstarted_refuted : forall X bans, exists s : pstate X, life bans s /\ p_others s = [ODisc DRet] /\ p_quits s = 1 /\ p_closed s = true /\ p_crash s = None /\
  ~ writer_left (p_writer s) /\ ~ reader_left (p_reader s).
Proof. exact early_return. Qed.
Print Assumptions C67_unstarted_refuted.
