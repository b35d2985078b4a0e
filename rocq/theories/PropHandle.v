(** Property C133: handling messages is made of steps of the pool. Statements; proofs are in HandleProofs.v and
    ServeRunProofs.v, the specification is in SpecHandle.v. *)
From Verif Require Import Serve SpecPool SpecHandle PoolProofs PoolExamples HandleProofs ServeRunProofs HandleExamples Instance.
Local Open Scope nat_scope.

(** * C133 *)

(** Whatever message is handled, in a state in which the other goroutines have rest: what ProcessMessage (Sync.v) does
    to the pool is what some steps of Pool.v do to it (calls of Add and Ban, and writes to the record), by which no
    other goroutine is moved. If they end the process, ProcessMessage panics; if it returns, everything has rest again. *)
Theorem C133_message : forall X S bans c (n : node X S) m s, sys_steps (sys_start bans) s -> y_pool s = nd_pool n -> undisturbed (x_me c) s ->
  exists t, sys_steps s t /\ same_others s t /\ y_pool t = nd_pool (o_node (process_message c n m)) /\
    (y_crash t <> None -> o_end (process_message c n m) = HPanic) /\ (o_end (process_message c n m) = HDone -> undisturbed (x_me c) t).
Proof. exact handle_on. Qed.
Print Assumptions C133_message.
(** So is all that a connection does, whatever arrives on it and whatever the others do between its messages: the
    pool that Serve.v computes is one that Pool.v can have. *)
Theorem C133_connection : forall X S bans me w lenient fuel p (n : node X S) chunks s, goes_on bans me w ->
  sys_steps (sys_start bans) s -> y_pool s = nd_pool n -> undisturbed me s ->
  exists t, sys_steps s t /\ y_pool t = nd_pool (sv_node (run_peer lenient w fuel p n chunks)) /\
    (y_crash t <> None -> sv_stop (run_peer lenient w fuel p n chunks) = Stuck HPanic).
Proof. exact connection_on. Qed.
Print Assumptions C133_connection.

(** A node with one connection, and surroundings in which an address is added before every message. *)
Example C133_case : forall bans, exists s, sys_steps (sys_start bans) s /\ undisturbed addr_a s /\ live s = 1 /\ peer_info addr_a (y_pool s) = Some 0.
Proof. exact run_undisturbed. Qed.
Example C133_case_around : forall bans, goes_on bans addr_a busy /\ forall i p, ar_pool busy i p = pool_add home addr_b p.
Proof. exact busy_goes_on. Qed.
