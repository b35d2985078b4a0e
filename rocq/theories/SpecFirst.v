(** Specification for C125: the genesis blocks of the five networks and what the first block after each has to say. *)
From Verif Require Import Chain.

(** Each with the seconds between 1970 and it, and its total difficulty. *)
Definition networks (X : Ext) : list (block X * Z * N) :=
  [(testnet1 X, 1510862400%Z, 10); (testnet2 X, 1510862400%Z, 0); (testnet3 X, 1531072800%Z, 30000);
   (testnet4 X, 1539806400%Z, 1856000000); (mainnet X, 1534204800%Z, 1000)].
(** With BLAKE2b: the seconds, and the one total difficulty that a block after it can have. *)
Definition firsts (X : Ext) : list (block X * Z * N) :=
  [(testnet1 X, 1510862400%Z, 15); (testnet2 X, 1510862400%Z, 5); (testnet3 X, 1531072800%Z, 30000);
   (testnet4 X, 1539806400%Z, 1856000000); (mainnet X, 1534204800%Z, 1005)].
(** A time later than so many seconds after 1970. *)
Definition later_than (s : Z) (t : gotime) : Prop := (s * 1000000000 < (t_sec t - 62135596800) * 1000000000 + t_nsec t)%Z.
