(** What a frame must not look like, and how long the lists of a received message may be. Independent
    of the decoders in Messages.v and Consensus.v. *)
From Verif Require Import Messages SpecMessages.

(** The message types the read loop of a connected peer knows: 3 to 13 and 15. *)
Definition known_type (t : N) : Prop := (3 <= t /\ t <= 13) \/ t = 15.

(** The start of a byte stream that no well-behaved peer sends: a wrong magic code, a length above
    20000000, or a complete frame of an unknown type. *)
Inductive bad_start : bytes -> Prop :=
  | wrong_magic : forall a b more, [a; b] <> [x54; x34] -> bad_start (a :: b :: more)
  | too_long : forall t n more, t < 256 -> 20000000 < n -> n < 2 ^ 64 ->
      bad_start ([x54; x34] ++ be 1 t ++ be 8 n ++ more)
  | unknown_type : forall t body more, t < 256 -> ~ known_type t -> lenN body <= 20000000 ->
      bad_start (frame_of t body ++ more).

(** The lists of a message have at most: 256 addresses, 14 locator hashes, 512 headers, a million
    inputs, outputs and kernels each in a block or transaction, 255 outputs and kernels in a compact
    block. *)
Definition lists_bounded {X} (m : message X) : Prop :=
  match m with
  | MPeerAddrs l => lenN l <= 256
  | MGetHeaders l => lenN l <= 14
  | MHeaders l => lenN l <= 512
  | MBlock b => lenN (b_inputs b) <= 1000000 /\ lenN (b_outputs b) <= 1000000 /\ lenN (b_kernels b) <= 1000000
  | MTx t => lenN (tx_inputs t) <= 1000000 /\ lenN (tx_outputs t) <= 1000000 /\ lenN (tx_kernels t) <= 1000000
  | MCompact b => lenN (cb_outputs b) <= 255 /\ lenN (cb_kernels b) <= 255
  | _ => True
  end.
