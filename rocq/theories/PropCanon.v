(** Properties C104-C106. Statements only; proofs are in CanonProofs.v. *)
From Coq Require Import Permutation Sorted.
From Verif Require Import Messages SpecCodec SpecConsensus SpecMessages SpecCanon CodecProofs BlockCodecProofs MessageProofs
  Instance Real CodecExamples PropMessages CanonProofs CanonExamples.

(** * C104: encodings do not depend on the order of items *)

(** Full statement, false: two blocks with the same header and the same items, in whatever order, have the
    same encoding. An output is sorted by a hash that leaves out its range proof. *)
Theorem C104_order_refuted : exists X P Q b b' s s' c c',
  codec_laws X P Q /\ sort_laws X /\ block_wf X P Q b /\ same_block X b b' /\
  block_bytes X b = Ok (s, c) /\ block_bytes X b' = Ok (s', c') /\ s <> s'.
Proof. exact order_matters. Qed.
Print Assumptions C104_order_refuted.

(** It holds when no two items have colliding hashes and no two outputs differ in their proofs only;
    missing: such twins. *)
Theorem C104_block_partial : forall X, sort_laws X -> forall b b' s s' c c', same_block X b b' ->
  ~ colliding X input_wire (b_inputs b) -> ~ colliding X (output_name X) (b_outputs b) ->
  ~ colliding X (kernel_wire X) (b_kernels b) -> ~ twins X (b_outputs b) ->
  block_bytes X b = Ok (s, c) -> block_bytes X b' = Ok (s', c') -> s = s'.
Proof. exact block_order. Qed.
Print Assumptions C104_block_partial.

Theorem C104_transaction_partial : forall X, sort_laws X -> forall t t', same_tx X t t' ->
  ~ colliding X input_wire (tx_inputs t) -> ~ colliding X (output_name X) (tx_outputs t) ->
  ~ colliding X (kernel_wire X) (tx_kernels t) -> ~ twins X (tx_outputs t) ->
  fst (tx_bytes X t) = fst (tx_bytes X t').
Proof. exact tx_order. Qed.
Print Assumptions C104_transaction_partial.

Theorem C104_compact_partial : forall X, sort_laws X -> forall b b' s s' c c', same_compact X b b' ->
  ~ colliding X (output_name X) (cb_outputs b) ->
  ~ colliding X (kernel_wire X) (cb_kernels b) -> ~ twins X (cb_outputs b) ->
  compact_bytes X b = Ok (s, c) -> compact_bytes X b' = Ok (s', c') -> s = s'.
Proof. exact compact_order. Qed.
Print Assumptions C104_compact_partial.

(** A block with two inputs, outputs and kernels, and the same with all of them exchanged. *)
Example C104_case : exists b', same_block toy ex_block b' /\ b_outputs b' <> b_outputs ex_block /\
  ~ colliding toy input_wire (b_inputs ex_block) /\ ~ colliding toy (output_name toy) (b_outputs ex_block) /\
  ~ colliding toy (kernel_wire toy) (b_kernels ex_block) /\ ~ twins toy (b_outputs ex_block) /\
  exists s c c', block_bytes toy ex_block = Ok (s, c) /\ block_bytes toy b' = Ok (s, c').
Proof. exact ex_shuffled. Qed.

(** * C105: control messages have one encoding *)
Theorem C105_control : forall X lenient t bs m rest, In t control_types -> msg_read X lenient t bs = Ok (m, rest) ->
  exists b, msg_bytes X m = Ok b /\ bs = b ++ rest.
Proof. exact control_exact. Qed.
Print Assumptions C105_control.

(** Messages with addresses: with a toolchain that refuses IPv6 addresses, or if there is none. *)
Theorem C105_addresses : forall X lenient t bs m rest, t = 1 \/ t = 6 ->
  lenient = false \/ Forall (fun a => List.length (ip a) = 4%nat) (addresses m) ->
  msg_read X lenient t bs = Ok (m, rest) -> exists b, msg_bytes X m = Ok b /\ bs = b ++ rest.
Proof. exact address_exact. Qed.
Print Assumptions C105_addresses.

(** An accepted IPv6 address: whatever its eight bytes were, zeros are written. *)
Theorem C105_address : forall lenient bs a rest, addr_read lenient bs = Ok (a, rest) ->
  (List.length (ip a) = 4%nat /\ exists b, addr_bytes a = Ok b /\ bs = b ++ rest) \/
  (lenient = true /\ ip a = brepeat x00 16 /\
   exists six b, lenN six = 8 /\ bs = x01 :: six ++ be 2 (Z.to_N (port a)) ++ rest /\
     addr_bytes a = Ok b /\ b = x01 :: brepeat x00 8 ++ be 2 (Z.to_N (port a))).
Proof. exact addr_exact. Qed.
Print Assumptions C105_address.

(** One accepted body of each type, with bytes left over; an IPv6 address. *)
Example C105_case : forall X, Forall (fun t => exists bs m, msg_read X true t bs = Ok (m, [xee]) /\ (4 < List.length bs)%nat) (1 :: 6 :: control_types) /\
  exists bs a, addr_read true bs = Ok (a, [xee]) /\ ip a = brepeat x00 16.
Proof. exact control_cases. Qed.

(** * C106: streams of frames can be read in one way *)
Theorem C106_frames : forall l l' r, Forall frame_ok l -> Forall frame_ok l' ->
  flat_map whole l ++ r = flat_map whole l' -> exists k, l' = l ++ k /\ r = flat_map whole k.
Proof. exact stream_prefix. Qed.
Print Assumptions C106_frames.

Theorem C106_messages : forall X P Q, codec_laws X P Q -> sort_laws X -> forall ms ms' frs frs',
  Forall (sendable X P Q) ms -> Forall (sendable X P Q) ms' ->
  Forall2 (fun m fr => exists n, write_message X m = Ok (fr, n) /\ lenN fr <= 20000011) ms frs ->
  Forall2 (fun m fr => exists n, write_message X m = Ok (fr, n) /\ lenN fr <= 20000011) ms' frs' ->
  concat frs = concat frs' ->
  Forall2 (fun m m' => exists g, received_as X m g /\ received_as X m' g) ms ms'.
Proof. exact messages_inj. Qed.
Print Assumptions C106_messages.

(** The eleven messages of C17, and the same with the block's and the transaction's outputs exchanged. *)
Example C106_case : exists ms' frs,
  Forall (sendable toy toy_P toy_Q) ex_messages /\ Forall (sendable toy toy_P toy_Q) ms' /\ ms' <> ex_messages /\
  Forall2 (fun m fr => exists n, write_message toy m = Ok (fr, n) /\ lenN fr <= 20000011) ex_messages frs /\
  Forall2 (fun m fr => exists n, write_message toy m = Ok (fr, n) /\ lenN fr <= 20000011) ms' frs.
Proof. exact two_ways. Qed.
