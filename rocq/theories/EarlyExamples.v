(** Executions for C129. *)
From Verif Require Import Pool SpecPool PoolProofs PoolExamples.

(** Run has stored a new peer in the record and not started it; Ban has found it, closes it, and its Close returns. *)
Lemma run_ban_early bans : exists s t x, sys_steps (sys_start bans) s /\ y_run s = RuGo addr_a 0 /\ y_bans s = [BnClose addr_a 0] /\
  nth_error (pl_infos (y_pool s)) 0 = Some x /\ i_peer x = Some (List.length (y_watch s)) /\ sys_step s t /\ y_run t = RuGo addr_a 0 /\ y_bans t = [BnMap addr_a] /\ y_crash t = None.
Proof.
  eexists. eexists. eexists. split.
  - add addr_a. run_dialled [(addr_a, 0%nat)] addr_a 0%nat StNew. run_started addr_a 0%nat.
    step ltac:(apply YsEnv; [reflexivity|]; apply (EnBan _ addr_a)).
    b ltac:(apply (BaFound _ [] addr_a 0%nat []); [reflexivity|exact I|reflexivity]).
    b ltac:(apply (BaStatus _ [] addr_a 0%nat []); reflexivity). apply YsNone.
  - split; [reflexivity|]. split; [reflexivity|]. split; [reflexivity|]. split; [reflexivity|]. split.
    + apply YsBan; [reflexivity|]. eapply (BaClosed _ [] addr_a 0%nat []); reflexivity.
    + repeat split; reflexivity.
Qed.
