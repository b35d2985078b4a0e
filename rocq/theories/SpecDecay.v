(** Specification for C122: chains whose blocks declare as little as they may. *)
From Verif Require Import Consensus.

(** The difficulty that block number [n] declares. *)
Definition declared {X} (b : nat -> block X) (n : nat) : N := h_difficulty (b_header (b n)).
(** The blocks that the difficulty of block number [n] is computed from: the 71 before it, in order of
    their heights, as storage returns them. *)
Definition before {X} (b : nat -> block X) (n : nat) : list (block X) := map b (seq (n - 71) 71).
(** From block number [from] on, no block declares more than it has to. *)
Definition least {X} (from : nat) (b : nat -> block X) : Prop :=
  forall n, (from <= n)%nat -> next_difficulty X (before b n) = Ok (declared b n).
(** The average of the difficulties of some blocks, rounded down. *)
Definition average {X} (l : list (block X)) : N :=
  fold_right N.add 0 (map (fun x => h_difficulty (b_header x)) l) / lenN l.
