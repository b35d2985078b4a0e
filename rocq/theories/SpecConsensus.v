(** Specifications for consensus objects, independent of the model's functions: only the record
    types of the model are used here. *)
From Coq Require Import Permutation Sorted.
From Verif Require Import Consensus SpecCodec.

(** ** Headers *)

(** The fields have their Go types. *)
Definition header_typed (h : header) : Prop :=
  is_u16 (h_version h) /\ is_u64 (h_height h) /\ time_wf (h_time h) /\ is_u64 (h_nonce h) /\
  is_u64 (h_output_mmr h) /\ is_u64 (h_kernel_mmr h) /\ is_u64 (h_total_difficulty h) /\
  is_u32 (h_scaling h) /\ is_u8 (p_bits (h_pow h)) /\ Forall is_u32 (p_nonces (h_pow h)).

(** The byte-slice fields have their protocol length. *)
Definition header_sized (h : header) : Prop :=
  List.length (h_previous h) = 32%nat /\ List.length (h_prev_root h) = 32%nat /\
  List.length (h_utxo_root h) = 32%nat /\ List.length (h_rp_root h) = 32%nat /\
  List.length (h_kernel_root h) = 32%nat /\ List.length (h_offset h) = 32%nat.

(** 42 nonces that fit the graph size (and 32 bits), graph size between 1 and 64. *)
Definition proof_canonical (p : proof) : Prop :=
  1 <= p_bits p <= 64 /\ List.length (p_nonces p) = 42%nat /\
  Forall (fun n => n < 2 ^ N.min (p_bits p) 32) (p_nonces p).

(** Proofs of any graph size whose bytes hold all of them: 42 nonces that fit the width written. *)
Definition canonical_any (p : proof) : Prop :=
  1 <= p_bits p /\ List.length (p_nonces p) = 42%nat /\
  Forall (fun n => n < 2 ^ N.min (p_bits p) 32) (p_nonces p).

(** A header that can be sent. *)
Definition header_wf (h : header) : Prop :=
  header_typed h /\ header_sized h /\ proof_canonical (h_pow h).

(** What is transmitted: everything but the fraction of a second, Difficulty and TotalKernelSum. *)
Definition wire_view (h : header) : header :=
  Header (h_version h) (h_height h) (h_previous h) (h_prev_root h) (GoTime (t_sec (h_time h)) 0)
    (h_utxo_root h) (h_rp_root h) (h_kernel_root h) (h_nonce h) (h_offset h) []
    (h_output_mmr h) (h_kernel_mmr h) (h_pow h) 0 (h_total_difficulty h) (h_scaling h).

(** The layout table of C02. *)
Definition header_layout (h : header) (b : bytes) : Prop :=
  lenN b = 247 + bytes_for (42 * p_bits (h_pow h)) /\
  unbe (field 0 2 b) = h_version h /\
  unbe (field 2 8 b) = h_height h /\
  (Z.of_N (unbe (field 10 8 b)) = (t_sec (h_time h) - 62135596800) mod 2 ^ 64)%Z /\
  field 18 32 b = h_previous h /\
  field 50 32 b = h_prev_root h /\
  field 82 32 b = h_utxo_root h /\
  field 114 32 b = h_rp_root h /\
  field 146 32 b = h_kernel_root h /\
  field 178 32 b = h_offset h /\
  unbe (field 210 8 b) = h_output_mmr h /\
  unbe (field 218 8 b) = h_kernel_mmr h /\
  unbe (field 226 8 b) = h_total_difficulty h /\
  unbe (field 234 4 b) = h_scaling h /\
  unbe (field 238 8 b) = h_nonce h /\
  unbe (field 246 1 b) = p_bits (h_pow h) /\
  forall i j, (i < 42)%nat -> j < p_bits (h_pow h) ->
    bit_at (skipn 247 b) (N.of_nat i * p_bits (h_pow h) + j) = N.testbit (nth i (p_nonces (h_pow h)) 0) j.

(** ** Items *)
Section Items.
Context (X : Ext) (P : point -> Prop) (Q : rproof X -> Prop).

Definition input_wf (i : input) : Prop := is_u8 (in_features i) /\ List.length (in_commit i) = 33%nat.
Definition output_wf (o : output X) : Prop := is_u8 (out_features o) /\ P (out_commit o) /\ Q (out_proof o).
Definition kernel_wf (k : kernel) : Prop :=
  is_u8 (k_features k) /\ is_u64 (k_fee k) /\ is_u64 (k_lock k) /\ P (k_excess k) /\
  List.length (k_sig k) = 64%nat.

(** The keys items are ordered by: BLAKE2b of the wire form (of an output: without its proof). *)
Definition input_key (i : input) : bytes := blake2b X (n2b (in_features i) :: in_commit i).
Definition output_key (o : output X) : bytes :=
  blake2b X (n2b (out_features o) :: point_enc X (out_commit o)).
Definition kernel_key (k : kernel) : bytes :=
  blake2b X (n2b (k_features k) :: be 8 (k_fee k) ++ be 8 (k_lock k) ++ point_enc X (k_excess k) ++ k_sig k).

Definition block_wf (b : block X) : Prop :=
  header_wf (b_header b) /\
  Forall input_wf (b_inputs b) /\ Forall output_wf (b_outputs b) /\ Forall kernel_wf (b_kernels b) /\
  lenN (b_inputs b) <= 1000000 /\ lenN (b_outputs b) <= 1000000 /\ lenN (b_kernels b) <= 1000000.

Definition tx_wf (t : transaction X) : Prop :=
  List.length (tx_offset t) = 32%nat /\
  Forall input_wf (tx_inputs t) /\ Forall output_wf (tx_outputs t) /\ Forall kernel_wf (tx_kernels t) /\
  lenN (tx_inputs t) <= 1000000 /\ lenN (tx_outputs t) <= 1000000 /\ lenN (tx_kernels t) <= 1000000.

Definition compact_wf (b : compact_block X) : Prop :=
  header_wf (cb_header b) /\ Forall output_wf (cb_outputs b) /\ Forall kernel_wf (cb_kernels b) /\
  Forall (fun i => List.length i = 6%nat) (cb_ids b).
End Items.

(** ** The transaction wire format the reader expects: every input with its feature byte. *)
Section TxWire.
Context (X : Ext).
Definition input_wire (i : input) : bytes := n2b (in_features i) :: in_commit i.
Definition output_wire (o : output X) : bytes :=
  n2b (out_features o) :: point_enc X (out_commit o) ++
  be 8 (lenN (rproof_enc X (out_proof o))) ++ rproof_enc X (out_proof o).
Definition kernel_wire (k : kernel) : bytes :=
  n2b (k_features k) :: be 8 (k_fee k) ++ be 8 (k_lock k) ++ point_enc X (k_excess k) ++ k_sig k.
Definition tx_wire (t : transaction X) : bytes :=
  tx_offset t ++ be 8 (lenN (tx_inputs t)) ++ be 8 (lenN (tx_outputs t)) ++ be 8 (lenN (tx_kernels t)) ++
  flat_map input_wire (tx_inputs t) ++ flat_map output_wire (tx_outputs t) ++
  flat_map kernel_wire (tx_kernels t).
(** All three lists are in ascending order of item hash. *)
Definition lists_sorted (ins : list input) (outs : list (output X)) (kers : list kernel) : Prop :=
  key_sorted (input_key X) ins /\ key_sorted (output_key X) outs /\ key_sorted (kernel_key X) kers.
End TxWire.

(** Decoders that consume a number of bytes determined by what they return. *)
Definition codec_exact (X : Ext) : Prop :=
  (forall bs p rest, point_read X bs = Ok (p, rest) -> lenN bs = 33 + lenN rest) /\
  (forall bs q rest, rproof_read X bs = Ok (q, rest) -> lenN bs = lenN (rproof_enc X q) + lenN rest).
