(** Lemmas about calls of Stop: the second one panics. *)
From Verif Require Import Pool SpecPool PoolProofs.
Local Open Scope nat_scope.

(** A step that is not a call of Stop leaves the channel as it is. *)
Lemma quits_step s t : sys_step s t -> y_quits t = y_quits s \/ (y_quits s = 0 /\ t = stop s).
Proof.
  intros [C R|C R|C R|C R|C R]; destruct R; auto; try (left; cbn; unfold go; cbn; repeat match goal with |- context [if ?b then _ else _] => destruct b end; reflexivity).
Qed.
Lemma quits_bound bans s : sys_steps (sys_start bans) s -> y_quits s <= 1.
Proof.
  intro R. remember (sys_start bans) as s0 eqn:E. induction R as [s|s t u R IH St]; [subst s; cbn; lia|].
  specialize (IH E). destruct (quits_step t u St) as [Q|(Q & ->)]; [lia|]. cbn. lia.
Qed.
Lemma twice_step s t : sys_step s t -> y_crash t = Some StopTwice -> y_quits s <> 0.
Proof.
  intros [C R|C R|C R|C R|C R]; destruct R; cbn; unfold go; cbn; try (repeat match goal with |- context [if ?b then _ else _] => destruct b end); auto; try congruence; try discriminate.
Qed.
Lemma stop_exact bans s : sys_steps (sys_start bans) s ->
  y_quits s <= 1 /\ (y_crash s = Some StopTwice -> y_quits s = 1) /\
  (y_crash s = None -> (sys_step s (stop s) <-> y_quits s = 0) /\ (sys_step s (down s StopTwice) <-> y_quits s = 1)).
Proof.
  intro R. pose proof (quits_bound bans s R) as B. split; [exact B|]. split; [|intro C; split].
  - clear B. remember (sys_start bans) as s0 eqn:E. destruct R as [s|s t u R St]; [subst s; discriminate|]. intro C.
    subst s. pose proof (twice_step t u St C). pose proof (quits_bound bans t R). destruct (quits_step t u St) as [Q|(Q & ->)]; [lia|contradiction].
  - split; [|intro Q; apply YsEnv; [exact C|exact (EnStop s Q)]].
    intro St. destruct (quits_step s (stop s) St) as [Q|(Q & _)]; [cbn in Q; lia|exact Q].
  - split; [|intro Q; apply YsEnv; [exact C|apply EnStopAgain; lia]].
    intro St. pose proof (twice_step s (down s StopTwice) St eq_refl). lia.
Qed.
