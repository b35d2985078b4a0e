(** Specification for C119. *)
From Verif Require Import Relay.

(** Two peers, and an order of the writers' steps after which the first element is gone from the list in
    memory and, however they go on, neither peer is sent it. *)
Definition loses_first {A} (less : A -> A -> bool) (p : prog) (m : list A) : Prop :=
  exists x s, nth_error m 0 = Some x /\ reach less (relayed p 2 m) s /\ ~ In x (mem s) /\
    forall s' l, reach less s s' -> In (Sent l) (writers s') -> ~ In x l.
