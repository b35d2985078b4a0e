(** Specification for C107 and, of the interleaved Peers, C117. *)
From Verif Require Import Pool SpecPool.
(** No entry is new or disconnected. *)
Definition nobody_fresh (p : pool) : Prop :=
  forall a i, In (a, i) (pl_table p) -> status_of p i <> Some StNew /\ status_of p i <> Some StDisconnected.
(** Run is in notConnected. *)
Definition scanning (s : sys) : Prop := exists sec l, y_run s = RuScan sec l.
(** An execution from a state to another, with every state on the way, first and last included. *)
Inductive trace : sys -> list sys -> sys -> Prop :=
| TraceOne s : trace s [s] s
| TraceMore s l t u : trace s l t -> sys_step t u -> trace s (l ++ [u]) u.
(** At some moment of those in [l] the record was neither new nor disconnected; it was not failed. *)
Definition once_stale (l : list sys) (i : nat) : Prop :=
  exists v, In v l /\ status_of (y_pool v) i <> Some StNew /\ status_of (y_pool v) i <> Some StDisconnected.
Definition once_sound (l : list sys) (i : nat) : Prop := exists v, In v l /\ status_of (y_pool v) i <> Some StFailedConn.
(** Steps after none of which Run is dialling [a]. *)
Inductive path_without (a : bytes) : sys -> sys -> Prop :=
| PathNone s : path_without a s s
| PathMore s t u : sys_step s t -> (forall i, y_run t <> RuDial a i) -> path_without a t u -> path_without a s u.

(** ** C117 *)
(** Reads of the record [i], in this order, during the states [l]. *)
Definition read_during (l : list sys) (i : nat) (st1 st2 : status) (c : N) : Prop :=
  exists l1 v1 l2 v2 l3 v3 l4 x3, (l = l1 ++ v1 :: l2 /\ v1 :: l2 = l3 ++ v2 :: l4) /\ In v3 (v2 :: l4) /\
    status_of (y_pool v1) i = Some st1 /\ status_of (y_pool v2) i = Some st2 /\
    nth_error (pl_infos (y_pool v3)) i = Some x3 /\ i_caps x3 = c.
