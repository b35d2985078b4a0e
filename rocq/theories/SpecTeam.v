(** Endless runs of the pool with its peers (C142). *)
From Verif Require Import World SpecPeer SpecFair.

Section Spec.
Context {X : Ext}.
Definition world_run (pb : option nat) (bans : option (list bytes)) (W : nat -> world X) : Prop :=
  world_steps pb (world_start bans) (W O) /\ forall n, W (S n) = W n \/ world_step pb (W n) (W (S n)).
(** The connection [c] is set up: the goroutine that cleans up after it has been started (pool.go:260). *)
Definition connection (c : nat) (w : world X) : Prop := (c < List.length (y_watch (w_sys w)))%nat.
Definition conn_peer (c : nat) (w : world X) : pstate X := nth c (w_peers w) (p_new None).
(** What happens to it from the [n]-th moment on. *)
Definition of_peer (c n : nat) (W : nat -> world X) : nat -> pstate X := fun k => conn_peer c (W (k + n)%nat).
Definition cleaner (c : nat) (w : world X) : option watch := nth_error (y_watch (w_sys w)) c.
(** The call of WaitForDisconnect by that goroutine (pool.go:261) has returned. *)
Definition wait_returned (c : nat) (w : world X) : Prop :=
  exists i, nth_error (w_waits w) c = Some i /\ nth_error (p_others (conn_peer c w)) i = Some OWaited.
(** That goroutine is not left waiting but for the disconnect: not by the scheduler, not by the lock of the record,
    not by the channel that counts connections. *)
Definition cleaner_fair (c : nat) (W : nat -> world X) : Prop :=
  forall n, exists m, (n <= m)%nat /\
    ((exists a i, cleaner c (W m) = Some (Watch a i WtWait) /\ ~ wait_returned c (W m)) \/
     (exists a i, cleaner c (W m) = Some (Watch a i WtEnd)) \/ cleaner c (W (S m)) <> cleaner c (W m)).
End Spec.
