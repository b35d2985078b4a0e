(** Specification for C120. *)
From Verif Require Import Pool SpecPool SpecDial.
(** Three moments of [l], in this order. *)
Definition in_order {A} (l : list A) (v1 v2 v3 : A) : Prop :=
  exists l1 l2 l3 l4, l = l1 ++ v1 :: l2 /\ v1 :: l2 = l3 ++ v2 :: l4 /\ In v3 (v2 :: l4).
(** The record is behind a block with this height and total difficulty. *)
Definition below (height td : N) (x : info) : Prop := i_height x < height \/ i_td x < td.
