(** Why attempts to connect are given up, for C137. *)
From Verif Require Import Pool.

(** Run is about to give a slot back without a connection: there are too many connections, the address is
    not listed any more, NewPeer failed, which the record says then, or the peer has another version. *)
Definition gave_up (s t : sys) : Prop :=
  (exists a, y_run s = RuTest a /\ (15 < pl_connected (y_pool s))%Z) \/
  (exists a, y_run s = RuLookup a /\ ~ In a (map fst (pl_table (y_pool s)))) \/
  (exists a i, y_run s = RuDial a i /\ forall x, nth_error (pl_infos (y_pool t)) i = Some x -> i_status x = StFailedConn) \/
  (exists a i d, y_run s = RuVersion a i d /\ dl_version d <> 1).
(** Run goes on to dial: the address is listed, and its record is the one dialled. *)
Definition goes_on (s : sys) (a : bytes) (i : nat) : Prop := y_run s = RuLookup a /\ lookup a (pl_table (y_pool s)) = Some i.
