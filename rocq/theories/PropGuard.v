(** Property C137: why attempts are given up, what Ban needs, and what Stop needs. Statements; proofs are in
    GuardProofs.v and StopProofs.v, the specification in SpecGuard.v. *)
From Verif Require Import Pool SpecPool SpecGuard PoolProofs StopProofs GuardProofs PoolExamples EarlyExamples.
Local Open Scope nat_scope.

(** * C137 *)

(** An attempt to connect is given up for one of four reasons, ... *)
Theorem C137_given_up : forall s t, sys_step s t -> y_run s <> RuFail -> y_run t = RuFail -> gave_up s t.
Proof. exact give_up. Qed.
Print Assumptions C137_given_up.
(** ... and only a listed address is gone on with, with its own record. *)
Theorem C137_gone_on : forall s t a i, sys_step s t -> (forall b, y_run s <> RuLock b i) -> y_run t = RuLock a i -> goes_on s a i.
Proof. exact go_on. Qed.
Print Assumptions C137_gone_on.
Example C137_given_up_case : exists s t u, sys_steps (sys_start None) s /\ y_run s = RuLookup addr_a /\ sys_step s t /\ y_run t = RuLock addr_a 0 /\
  sys_steps t u /\ exists v, y_run u = RuDial addr_a 0 /\ sys_step u v /\ y_run v = RuFail.
Proof.
  eexists. eexists. eexists. split; [|split; [|split; [|split; [|split]]]].
  - add addr_a. r ltac:(apply RnToken; [reflexivity|cbv; lia]). pick [(addr_a, 0)].
    r ltac:(apply (RnTest _ addr_a); [reflexivity|discriminate|cbv -[Z.le Z.add Z.sub]; lia]). apply YsNone.
  - reflexivity.
  - apply YsRun; [reflexivity|]. apply (RnFound _ addr_a 0); reflexivity.
  - reflexivity.
  - r ltac:(apply (RnLock _ addr_a 0); [reflexivity|free]).
    r ltac:(apply (RnCheck _ addr_a 0 StNew); [reflexivity|reflexivity|discriminate|discriminate]). apply YsNone.
  - eexists. split; [reflexivity|]. split; [apply YsRun; [reflexivity|apply (RnDialFailed _ addr_a 0); reflexivity]|reflexivity].
Qed.

(** A call of Ban does not get past Close before the record has a connection. *)
Theorem C137_ban : forall s t k a i, sys_steps s t -> nth_error (y_bans s) k = Some (BnClose a i) -> nth_error (y_bans t) k <> Some (BnClose a i) ->
  exists u x c, sys_steps s u /\ sys_steps u t /\ nth_error (pl_infos (y_pool u)) i = Some x /\ i_peer x = Some c.
Proof. exact close_met. Qed.
Print Assumptions C137_ban.

Example C137_ban_case : forall bans, exists s t, sys_steps (sys_start bans) s /\ sys_steps s t /\ nth_error (y_bans s) 0 = Some (BnClose addr_a 0) /\
  nth_error (y_bans t) 0 = Some (BnMap addr_a).
Proof.
  intro bans. destruct (run_ban_early bans) as (s & t & x & R & _ & B & _ & _ & St & _ & B' & _). exists s, t.
  split; [exact R|]. split; [exact (YsMore s s t (YsNone s) St)|]. now rewrite B, B'.
Qed.

(** Stop closes the channel quit once; it panics exactly when it was called before. *)
Theorem C137_stop : forall bans s, sys_steps (sys_start bans) s ->
  y_quits s <= 1 /\ (y_crash s = Some StopTwice -> y_quits s = 1) /\
  (y_crash s = None -> (sys_step s (stop s) <-> y_quits s = 0) /\ (sys_step s (down s StopTwice) <-> y_quits s = 1)).
Proof. exact stop_exact. Qed.
Print Assumptions C137_stop.
Example C137_stop_case : forall bans, exists s t, sys_steps (sys_start bans) s /\ y_quits s = 1 /\ y_crash s = None /\ sys_step s t /\ y_crash t = Some StopTwice.
Proof.
  intro bans. exists (stop (sys_start bans)). eexists. split; [|split; [|split; [|split]]].
  - eapply YsMore; [apply YsNone|]. apply YsEnv; [reflexivity|]. now apply EnStop.
  - reflexivity.
  - reflexivity.
  - apply YsEnv; [reflexivity|]. apply EnStopAgain. discriminate.
  - reflexivity.
Qed.
