(** Where the records of the pool come from. Specification. *)
From Verif Require Import Pool.

(** Before [s], Run connected to the address [a], whose record is number [i], and [d] is what the
    handshake said; it was connection number [c]. *)
Definition connected_before (bans : option (list bytes)) (s : sys) (a : bytes) (i c : nat) (d : dialled) : Prop :=
  exists s1 s2, sys_steps (sys_start bans) s1 /\ y_run s1 = RuUpdate a i d /\ List.length (y_watch s1) = c /\
    sys_step s1 s2 /\ run_step s1 s2 /\ sys_steps s2 s.

(** Run has a connection to [a], whose record is number [i], and is busy with it. *)
Definition taking_on (a : bytes) (i : nat) (d : dialled) (r : run_pc) : Prop :=
  r = RuVersion a i d \/ r = RuRead a i d \/ (exists v, r = RuWrite a i d v) \/ r = RuUpdate a i d \/ r = RuFill a i d \/
  r = RuUp a i \/ r = RuGo a i \/ r = RuWatch a i.
