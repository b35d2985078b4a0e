(** What it takes for the goroutines after Stop to end (C143). *)
From Verif Require Import World SpecPeer SpecFair SpecTeam SpecPool SpecSelect.

Section Spec.
Context {X : Ext}.
(** The [k]-th goroutine after Stop (pool.go:304-311). *)
Definition closer (k : nat) (w : world X) : option close_pc := nth_error (y_close (w_sys w)) k.
(** The record [i] has the peer of the connection [c]. *)
Definition record_peer (i c : nat) (w : world X) : Prop := exists x, nth_error (pl_infos (y_pool (w_sys w))) i = Some x /\ i_peer x = Some c.
(** A call of Disconnect on that peer has been made, has returned. *)
Definition disc_called (c : nat) (w : world X) : Prop := exists j d, nth_error (p_others (conn_peer c w)) j = Some (ODisc d).
Definition disc_returned (c : nat) (w : world X) : Prop := exists j, nth_error (p_others (conn_peer c w)) j = Some (ODisc DRet).
(** The goroutine calls Close on the peer when it gets there (line 307), unless it has got past that already. *)
Definition closer_calls (k : nat) (W : nat -> world X) : Prop :=
  forall n i c, closer k (W n) = Some (ClClose i) -> record_peer i c (W n) ->
  exists m, (n <= m)%nat /\ (disc_called c (W m) \/ closer k (W m) <> Some (ClClose i)).
(** It is not left waiting but for Close: not by the scheduler, not by the lock of the record. *)
Definition closer_fair (k : nat) (W : nat -> world X) : Prop :=
  forall n, exists m, (n <= m)%nat /\
    ((exists i c, closer k (W m) = Some (ClClose i) /\ record_peer i c (W m) /\ ~ disc_returned c (W m)) \/
     closer k (W m) = Some ClEnd \/ closer k (W m) = None \/ closer k (W (S m)) <> closer k (W m)).
(** The peers are scheduled fairly, as in C142. *)
Definition peers_fair (W : nat -> world X) : Prop :=
  forall c n, connection c (W n) -> (forall k, (n <= k)%nat -> ~ banning (p_reader (conn_peer c (W k)))) /\
    handled (of_peer c n W) /\ fair (of_peer c n W).
Definition pool_of (W : nat -> world X) : nat -> sys := fun k => w_sys (W k).
End Spec.
