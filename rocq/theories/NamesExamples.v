(** Two names of one endpoint, for C139. *)
From Verif Require Import Names Sync SpecPool PoolExamples SyncExamples.

(** "127.0.0.1:013414". *)
Definition padded : bytes := [x31; x32; x37; x2e; x30; x2e; x30; x2e; x31; x3a; x30; x31; x33; x34; x31; x34].
Lemma run_both bans : exists s, sys_steps (sys_start bans) s /\ y_run s = RuSelect /\ y_crash s = None /\ live s = 2%nat /\
  map fst (pl_up (y_pool s)) = [seed; padded] /\ (forall a i, In (a, i) (pl_up (y_pool s)) -> status_of (y_pool s) i = Some StConnected).
Proof.
  eexists. split.
  - add seed. add padded. run_dialled [(padded, 1%nat); (seed, 0%nat)] padded 1%nat StNew. run_finish padded 1%nat.
    run_dialled [(padded, 1%nat); (seed, 0%nat)] seed 0%nat StNew. run_finish seed 0%nat. apply YsNone.
  - repeat split. intros a i [E|[E|[]]]; injection E as <- <-; reflexivity.
Qed.
