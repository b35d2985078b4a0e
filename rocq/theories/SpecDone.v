(** Specification for C135: how the pool with its peers can be brought to its end. *)
From Verif Require Import World SpecPeer SpecPool.

(** The records that a goroutine after Stop (pool.go:304-311) is going to close: those in the table when Run gets to
    see the call of Stop, and once it has, those of the goroutines that are not past line 307. *)
Definition to_close (s : sys) (i : nat) : Prop :=
  (y_run s <> RuStopped /\ exists a, In (a, i) (pl_table (y_pool s))) \/ In (ClLock i) (y_close s) \/ In (ClClose i) (y_close s).
(** The record has had a connection. *)
Definition peered (p : pool) (i : nat) : Prop := exists x c, nth_error (pl_infos p) i = Some x /\ i_peer x = Some c.

Section Spec.
Context {X : Ext}.
(** The read handler is not in Ban, and what is still to be sent can be encoded. *)
Definition can_finish (p : pstate X) : Prop := ~ banning (p_reader p) /\ encodable p.
(** Run has ended, so has every goroutine after Stop and every one that waited for a disconnect; on every peer all
    goroutines have ended, and its connection is closed. *)
Definition finished (w : world X) : Prop :=
  y_run (w_sys w) = RuStopped /\ all_closed (w_sys w) /\ Forall (fun x => wt_pc x = WtEnd) (y_watch (w_sys w)) /\
  Forall (fun p => all_ended p /\ p_closed p = true) (w_peers w).
End Spec.
