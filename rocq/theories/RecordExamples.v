(** Executions for C109. *)
From Coq Require Import Permutation.
From Verif Require Import Pool SpecPool SpecRecord PoolProofs PoolExamples.

(** Run is about to record a connection, and then what its peer said. *)
Lemma run_update : exists s t, sys_steps (sys_start None) s /\ run_step s t /\ y_run s = RuUpdate addr_a 0 good_peer /\ y_crash s = None.
Proof.
  eexists. eexists. split.
  - add addr_a. run_dialled [(addr_a, 0%nat)] addr_a 0%nat StNew. r ltac:(eapply (RnWrite _ addr_a 0%nat good_peer); reflexivity). apply YsNone.
  - split; [apply (RnUpdate _ addr_a 0%nat good_peer); reflexivity|]. split; reflexivity.
Qed.
Lemma run_fill : exists s t, sys_steps (sys_start None) s /\ run_step s t /\ y_run s = RuFill addr_a 0 good_peer /\ y_crash s = None.
Proof.
  eexists. eexists. split.
  - add addr_a. run_dialled [(addr_a, 0%nat)] addr_a 0%nat StNew. r ltac:(eapply (RnWrite _ addr_a 0%nat good_peer); reflexivity).
    r ltac:(apply (RnUpdate _ addr_a 0%nat good_peer); reflexivity). apply YsNone.
  - split; [apply (RnFill _ addr_a 0%nat good_peer); reflexivity|]. split; reflexivity.
Qed.
(** The address is connected to again; its peer announces nothing now, and for a moment the record of the new
    connection still has the capabilities of the first. *)
Definition plain_peer : dialled := Dialled 1 0 30000.
Lemma run_stale bans : exists s x, sys_steps (sys_start bans) s /\ y_crash s = None /\ y_run s = RuFill addr_a 0 plain_peer /\
  pl_table (y_pool s) = [(addr_a, 0%nat)] /\ nth_error (pl_infos (y_pool s)) 0 = Some x /\ i_status x = StConnected /\ i_peer x = Some 1%nat /\ i_caps x = 7 /\
  pool_peers (fun _ => home) 7 (pl_table (y_pool s)) (y_pool s) = [Addr [x7f; x00; x00; x01] 13414].
Proof.
  eexists. eexists. split.
  - add addr_a. run_dialled [(addr_a, 0%nat)] addr_a 0%nat StNew. run_finish addr_a 0%nat.
    w ltac:(apply (WaReturn _ [] addr_a 0%nat []); reflexivity).
    w ltac:(apply (WaStatus _ [] addr_a 0%nat []); [reflexivity|free]).
    run_dial [(addr_a, 0%nat)] addr_a 0%nat StDisconnected.
    r ltac:(apply (RnDialled _ addr_a 0%nat plain_peer); reflexivity).
    r ltac:(apply (RnVersion _ addr_a 0%nat plain_peer); [reflexivity|reflexivity]).
    r ltac:(apply (RnRead _ addr_a 0%nat plain_peer); reflexivity).
    r ltac:(eapply (RnWrite _ addr_a 0%nat plain_peer); reflexivity).
    r ltac:(apply (RnUpdate _ addr_a 0%nat plain_peer); reflexivity). apply YsNone.
  - repeat split; reflexivity.
Qed.
(** Two addresses are in the table, one was connected to: a peer that asks for full nodes is told that
    one only. *)
Lemma run_told : exists s, sys_steps (sys_start None) s /\ y_crash s = None /\
  pl_table (y_pool s) = [(addr_b, 1%nat); (addr_a, 0%nat)] /\
  pool_peers (fun _ => home) 7 [(addr_b, 1%nat); (addr_a, 0%nat)] (y_pool s) = [Addr [x7f; x00; x00; x01] 13414] /\
  lenN (pool_peers (fun _ => home) 0 [(addr_b, 1%nat); (addr_a, 0%nat)] (y_pool s)) = 2.
Proof.
  eexists. split.
  - add addr_a. add addr_b. run_dialled [(addr_b, 1%nat); (addr_a, 0%nat)] addr_b 1%nat StNew.
    run_finish addr_b 1%nat. apply YsNone.
  - split; [reflexivity|]. split; [reflexivity|]. split; reflexivity.
Qed.
