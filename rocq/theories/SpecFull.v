(** Specifications for C124: a peers table that is full. *)
From Verif Require Import Sync SpecPool SpecMessages.

(** No address twice, at most 10001 of them, each with a record: every reachable table (C48). *)
Definition proper (p : pool) : Prop :=
  NoDup (map fst (pl_table p)) /\ lenN (pl_table p) <= 10001 /\ valid_table p.

(** An address that anybody can make up: four bytes that are not multicast, and a port. *)
Definition made_up (a : addr) : Prop :=
  List.length (ip a) = 4%nat /\ (forall b t, ip a = b :: t -> Byte.to_N b < 224) /\ (1 <= port a < 65536)%Z.

(** Addresses of four bytes are written so that they resolve to themselves. *)
Definition names (string : addr -> bytes) (resolve : bytes -> option addr) : Prop :=
  forall a, List.length (ip a) = 4%nat -> port_ok a -> exists r, resolve (string a) = Some r /\ same_endpoint r a.

(** Whatever others do to the pool meanwhile: the table stays proper and keeps its addresses. *)
Definition keeping (f : pool -> pool) : Prop :=
  forall q, proper q -> proper (f q) /\ incl (map fst (pl_table q)) (map fst (pl_table (f q))).
