(** Specifications for byte and bit layouts, independent of the model. *)
From Coq Require Import List NArith.
From Verif Require Import Base.

(** Bit [o] of a byte string: bit o mod 8 (least significant first) of byte o / 8. *)
Definition bit_at (l : bytes) (o : N) : bool :=
  N.testbit (b2n (nth (N.to_nat (o / 8)) l x00)) (o mod 8).

(** The field of [len] bytes at offset [off] of [l]. *)
Definition field (off len : nat) (l : bytes) : bytes := firstn len (skipn off l).

(** Smallest number of bytes holding [n] bits. *)
Definition bytes_for (n : N) : N := (n + 7) / 8.
