(** The consensus rules, stated without the model's validation functions. *)
From Coq Require Import Permutation Sorted.
From Verif Require Import Consensus SpecPow SpecCodec SpecConsensus SpecSchnorr.

(** ** Headers *)

(** Which version is valid at which height: a table of half-open height intervals. *)
Definition version_table : list (N * N * N) := (* version, from, below *)
  [(1, 0, 95000); (2, 95000, 250000); (3, 250000, 500000)].
Definition version_valid (height version : N) : Prop :=
  exists row, In row version_table /\ fst (fst row) = version /\ snd (fst row) <= height < snd row.

(** At most 12 minutes ahead of the clock. *)
Definition not_far_future (now t : gotime) : Prop := (instant t <= instant now + 720 * 1000000000)%Z.

(** The graph size is the secondary one (29), or at least 30 with scaling factor 1. *)
Definition graph_valid (h : header) : Prop :=
  p_bits (h_pow h) = 29 \/ (30 <= p_bits (h_pow h) /\ h_scaling h = 1).

(** The proof verifies for the graph keyed by the hash of the first 246 bytes of the wire form,
    i.e. of all that precedes the proof of work. *)
Definition pow_valid (X : Ext) (h : header) : Prop :=
  exists b, header_bytes h = Ok b /\
    cuckaroo_verify (new_cuckaroo (blake2b X (firstn 246 b))) (p_nonces (h_pow h)) (p_bits (h_pow h)) = true.

Definition header_rules (X : Ext) (now : gotime) (h : header) : Prop :=
  version_valid (h_height h) (h_version h) /\ not_far_future now (h_time h) /\ graph_valid h /\ pow_valid X h.

(** ** Blocks *)

(** The signature bytes of a kernel hold R's x coordinate and s; R's y is the canonical root. The
    signed message is 16 zero bytes, the fee and the lock height. *)
Definition kernel_signed (X : Ext) (k : kernel) : Prop :=
  let x := unbe (firstn 32 (k_sig k)) in
  let s := unbe (firstn 32 (skipn 32 (k_sig k))) in
  let R := Point x (c_sqrt X (x * x * x + 7)) in
  let msg := repeat x00 16 ++ be 8 (k_fee k) ++ be 8 (k_lock k) in
  px (c_smul X (c_G X) s) = px (c_add X R (c_smul X (k_excess k) (fiat_shamir X R (k_excess k) msg))).

Definition coinbase (features : N) : bool := N.odd features.
Definition count {A} (f : A -> bool) (l : list A) : nat := List.length (filter f l).

Definition block_rules (X : Ext) (now : gotime) (b : block X) : Prop :=
  header_rules X now (b_header b) /\
  b_outputs b <> [] /\ b_kernels b <> [] /\
  lists_sorted X (b_inputs b) (b_outputs b) (b_kernels b) /\
  (count (fun o => coinbase (out_features o)) (b_outputs b) <= 1)%nat /\
  (count (fun k => coinbase (k_features k)) (b_kernels b) <= 1)%nat /\
  Forall (fun o => rp_verify X (out_commit o) (out_proof o) = true) (b_outputs b) /\
  Forall (fun k => coinbase (k_features k) = true -> kernel_signed X k) (b_kernels b).

(** consensus/consensus.go:78-87: weights 1, 10 and 2 per input, output and kernel. *)
Definition weight {X} (b : block X) : N :=
  lenN (b_inputs b) + 10 * lenN (b_outputs b) + 2 * lenN (b_kernels b).

(** ** Difficulty *)

(** Sum of the declared difficulties of the 60 latest blocks, in 64-bit arithmetic. *)
Definition window_sum {X} (bl : list (block X)) : N :=
  fold_right N.add 0 (map (fun b => h_difficulty (b_header b)) (firstn 60 bl)) mod 2 ^ 64.
Definition target_difficulty {X} (bl : list (block X)) : N :=
  N.max 1 ((window_sum bl / 60 * 3600) mod 2 ^ 64 / 7200).

(** ** Time on the wire *)

(** The signed 64-bit number of seconds since 1970 in bytes 10 to 17 of a wire header. *)
Definition wire_time (bs : bytes) : Z :=
  let u := Z.of_N (unbe (field 10 8 bs)) in if (u <? 2 ^ 63)%Z then u else (u - 2 ^ 64)%Z.
(** The clock in nanoseconds since 1970. *)
Definition unix_nanos (now : gotime) : Z := (instant now - 62135596800 * 1000000000)%Z.
