(** C127: the steps of Pool.v are made of the accesses of Race.v. *)
From Verif Require Import Pool SpecPool PoolExamples.
From Verif Require Import Race SpecAccess AccessStepProofs AccessExamples.
Local Open Scope nat_scope.

(** Every execution of the pool is an execution of the goroutines, step by step: Main starts users, and then for each
    step there is a list of accesses of one goroutine that writes whatever the step changes, and in the end the same
    locks are held. *)
Theorem C127_accessed : forall bans path, sys_run (sys_start bans) path -> exists pre segs ts,
  Forall (fun e => exists u, e = Forked 0 u) pre /\ execution (pre ++ concat segs) ts /\ follows (sys_start bans) path segs /\ same_locks (last path (sys_start bans)) ts.
Proof. exact accessed. Qed.
Print Assumptions C127_accessed.
(** An address is added, dialled and connected, the peer tells its height, and the connection ends. *)
Example C127_accessed_case : exists path, sys_run (sys_start None) path /\
  pl_connected (y_pool (last path (sys_start None))) = 0%Z /\ option_map i_height (nth_error (pl_infos (y_pool (last path (sys_start None)))) 0) = Some 10%N.
Proof. exact (path_connected None). Qed.

(** The steps left out by [sys_run] are recordings of what a peer told. *)
Theorem C127_left_out : forall s t, sys_step s t -> ~ heard s t -> exists i td h, t = set_pool s (upd (y_pool s) i (with_record td h)).
Proof. exact left_out. Qed.
Print Assumptions C127_left_out.
(** A recording before there was any connection. *)
Example C127_left_out_case : exists s t, sys_steps (sys_start None) s /\ sys_step s t /\ ~ heard s t.
Proof. exact left_out_case. Qed.
