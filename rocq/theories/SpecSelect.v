(** What it takes for Run to see that Stop was called. *)
From Verif Require Import Pool.

(** An endless run of the pool, in which nothing may happen for any time. *)
Definition pool_run (bans : option (list bytes)) (h : nat -> sys) : Prop :=
  sys_steps (sys_start bans) (h O) /\ forall n, h (S n) = h n \/ sys_step (h n) (h (S n)).
(** Run is not left waiting outside its select: by the scheduler, by NewPeer or by a new peer that does not read. *)
Definition run_fair (h : nat -> sys) : Prop :=
  forall n, exists m, (n <= m)%nat /\ (y_run (h m) = RuSelect \/ y_run (h m) = RuStopped \/ run_step (h m) (h (S m))).
(** Run takes the case of its select (pool.go:286-300) that sends nothing to the channel pool. *)
Definition sees_quit (s t : sys) : Prop := y_run s = RuSelect /\ run_step s t /\ pl_slots (y_pool t) = pl_slots (y_pool s).
(** A select that comes round again and again, with quit closed, takes that case at some time; if Run has
    stopped there is nothing to take. *)
Definition back_at (s : sys) : Prop := y_quits s <> O /\ (y_run s = RuSelect \/ y_run s = RuStopped).
Definition select_fair (h : nat -> sys) : Prop :=
  forall n, (forall m, (n <= m)%nat -> exists k, (m <= k)%nat /\ back_at (h k)) ->
  exists m, (n <= m)%nat /\ (y_run (h m) = RuStopped \/ sees_quit (h m) (h (S m))).
