(** Executions for C132. *)
From Verif Require Import Sync SpecPool SpecBan PoolProofs BanProofs PoolExamples.
Local Open Scope nat_scope.

(** A connection is made, Ban is called, and everybody else has rest. *)
Lemma run_ban_called bans : exists s, sys_steps (sys_start bans) s /\ y_bans s = [BnLookup addr_a] /\ listed addr_a (y_pool s) /\
  table_free s /\ y_crash s = None /\ valid_table (y_pool s) /\ pl_bans (y_pool s) = bans /\
  nth_error (y_bans s) 0 = Some (BnLookup addr_a).
Proof.
  eexists. split.
  - add addr_a. run_dialled [(addr_a, 0%nat)] addr_a 0%nat StNew. run_finish addr_a 0%nat.
    step ltac:(apply YsEnv; [reflexivity|]; apply (EnBan _ addr_a)). apply YsNone.
  - repeat split; try reflexivity; [now left|]. intros a i [E|[]]. injection E as <- <-. cbn. auto.
Qed.
(** With a made map the call returns. *)
Lemma run_ban_returns : exists s t, sys_steps (sys_start (Some [])) s /\ nth_error (y_bans s) 0 = Some (BnLookup addr_a) /\
  listed addr_a (y_pool s) /\ sys_steps s t /\ nth_error (y_bans t) 0 = Some BnEnd /\ ~ listed addr_a (y_pool t).
Proof.
  eexists. eexists. repeat match goal with |- _ /\ _ => split end.
  - add addr_a. run_dialled [(addr_a, 0%nat)] addr_a 0%nat StNew. run_finish addr_a 0%nat.
    step ltac:(apply YsEnv; [reflexivity|]; apply (EnBan _ addr_a)). apply YsNone.
  - reflexivity.
  - now left.
  - b ltac:(apply (BaFound _ [] addr_a 0%nat []); [reflexivity|exact I|reflexivity]).
    b ltac:(apply (BaStatus _ [] addr_a 0%nat []); reflexivity).
    b ltac:(eapply (BaClosed _ [] addr_a 0%nat []); reflexivity).
    b ltac:(apply (BaMap _ [] addr_a [] []); reflexivity).
    b ltac:(apply (BaDelete _ [] addr_a []); [reflexivity|exact I]). apply YsNone.
  - reflexivity.
  - now intros [].
Qed.
