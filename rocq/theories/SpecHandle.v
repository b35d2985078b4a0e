(** Specification for C133: a message handled while the other goroutines of the pool have rest. *)
From Verif Require Import Pool Serve.

(** Nothing but the pool, the calls of Ban and the process itself differs. *)
Definition same_others (s t : sys) : Prop :=
  y_run t = y_run s /\ y_watch t = y_watch s /\ y_close t = y_close s /\ y_quits t = y_quits s /\ y_leaked t = y_leaked s.
(** No call of Ban is going on, and nobody holds ptmu or the lock of the record of [me]. *)
Definition undisturbed (me : bytes) (s : sys) : Prop :=
  y_crash s = None /\ table_free s /\ Forall (fun b => b = BnEnd) (y_bans s) /\
  forall i, peer_info me (y_pool s) = Some i -> unlocked (y_pool s) i.
(** Between two messages of the connection [me] the other goroutines take steps, and have rest again. *)
Definition goes_on (bans : option (list bytes)) (me : bytes) (w : around) : Prop :=
  forall i, x_me (ar_context w i) = me /\
  forall s, sys_steps (sys_start bans) s -> undisturbed me s ->
  exists t, sys_steps s t /\ undisturbed me t /\ y_pool t = ar_pool w i (y_pool s).
