(** C141: Run sees that Stop was called. *)
From Verif Require Import Pool SpecPool SpecSelect PoolExamples SelectProofs SelectExamples.

(** If nothing keeps Run waiting and its select is fair, Run stops after Stop. *)
Theorem C141_stops : forall bans h, pool_run bans h -> run_fair h -> select_fair h ->
  forall n, y_quits (h n) <> 0%nat -> exists m, (n <= m)%nat /\ forall j, (m <= j)%nat -> y_run (h j) = RuStopped.
Proof. exact run_stops. Qed.
Print Assumptions C141_stops.
Example C141_stops_case : exists h, pool_run None h /\ run_fair h /\ select_fair h /\ y_quits (h 0%nat) <> 0%nat /\ y_run (h 0%nat) = RuSelect.
Proof. exists q_run. exact q_ok. Qed.

(** Whatever the select does, Run comes back to it. *)
Theorem C141_returns : forall bans h, pool_run bans h -> run_fair h ->
  forall n, exists m, (n <= m)%nat /\ (y_run (h m) = RuSelect \/ y_run (h m) = RuStopped).
Proof. exact comes_back. Qed.
Print Assumptions C141_returns.

(** But the select prefers nothing: with one listed address that cannot be reached, Run may go on dialling it for
    ever after Stop, although it is never kept waiting. *)
Theorem C141_select_refuted : exists h, pool_run None h /\ run_fair h /\ (forall n, y_crash (h n) = None) /\
  (forall n, y_quits (h n) = 1%nat) /\ (forall n, y_run (h n) <> RuStopped) /\
  forall n, exists m, (n <= m)%nat /\ y_run (h m) = RuDial addr_a 0.
Proof. exists d_run. exact d_ok. Qed.
Print Assumptions C141_select_refuted.
