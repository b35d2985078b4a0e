(** Properties C103 and C38: the genesis blocks. Statements; proofs are in GenesisProofs.v. *)
From Verif Require Import Send SpecCodec SpecConsensus SpecMessages SpecHandshake Real GenesisProofs PropMessages BlockCodecProofs SpecRules RulesExamples.

(** * C103: a genesis block identifies its network (refuted) *)

(** Three of the five blocks have one hash, whatever the hash function: EdgeBits is not set in their
    proofs, so that no bit of the nonces is hashed. *)
Theorem C103_shared_refuted : forall X,
  (testnet1 X <> testnet2 X /\ testnet1 X <> mainnet X /\ testnet2 X <> mainnet X) /\
  block_hash X (testnet1 X) = Ok (blake2b X []) /\ block_hash X (testnet2 X) = Ok (blake2b X []) /\ block_hash X (mainnet X) = Ok (blake2b X []).
Proof. exact (fun X => conj (different X) (shared X)). Qed.
Print Assumptions C103_shared_refuted.
(** The node that cmd/node builds is on Testnet1 and tells every peer it dials that it is on Testnet4. *)
Theorem C103_told_refuted : forall lenient nonces nonce receiver, is_u64 nonce -> ipv4 receiver -> port_ok receiver -> ~ In nonce nonces ->
  exists f1 h ops, (forall input, snd (shake_by_hand real lenient nonce receiver None input) = [Sent f1]) /\
    (forall rest, hand_by_shake real lenient nonces None (f1 ++ rest) = (Ok (h, rest), ops)) /\
    block_hash real (testnet4 real) = Ok (hd_genesis h) /\ block_hash real (c_genesis (nd_chain (shipped real))) <> Ok (hd_genesis h).
Proof. exact told. Qed.
Print Assumptions C103_told_refuted.
(** The other two have hashes of their own. Missing: Testnet1, Testnet2 and Mainnet. *)
Theorem C103_distinct_partial : block_hash real (testnet3 real) <> block_hash real (testnet4 real) /\
  block_hash real (testnet3 real) <> block_hash real (testnet1 real) /\ block_hash real (testnet4 real) <> block_hash real (testnet1 real).
Proof. exact hashes_differ. Qed.
Print Assumptions C103_distinct_partial.
Example C103_case : is_u64 99 /\ ipv4 ex_addr /\ port_ok ex_addr /\ ~ In 99 [1; 2].
Proof. split; [reflexivity|]. split; [apply ex_addr_ok|]. split; [apply ex_addr_ok|]. intros [E|[E|[]]]; discriminate E. Qed.

(** NewProof makes such proofs: all headers carrying one have the same hash (C04). *)
Theorem C04_new_proof_refuted : forall X h nonces, h_pow h = new_proof nonces -> header_hash X h = Ok (blake2b X []).
Proof. exact (fun X h nonces E => header_hash_zero X h (f_equal p_bits E)). Qed.
Print Assumptions C04_new_proof_refuted.

(** * C38: validating a chain that has no block but its genesis *)

(** Whatever the clock says, four of them are reported broken, *)
Theorem C38_fresh_refuted : forall genesis clock, In genesis [testnet1 real; testnet2 real; testnet3 real; mainnet real] ->
  chain_validate 1 clock (@chain_new real (sql_storage real) genesis tt) = Some (Err (Msg "invalid previous hash. blockchain integrity is broken")).
Proof. exact fresh_chain. Qed.
Print Assumptions C38_fresh_refuted.
(** and that of Testnet4 ends the process, because its header has no PreviousRoot. *)
Theorem C38_fresh_fatal_refuted : forall clock, clock_ok (clock 0%nat) -> not_far_future (clock 0%nat) (h_time (b_header (testnet4 real))) ->
  chain_validate 1 clock (@chain_new real (sql_storage real) (testnet4 real) tt) = Some Fatal.
Proof. exact fresh_t4. Qed.
Print Assumptions C38_fresh_fatal_refuted.
Example C38_fresh_case : clock_ok ex_now /\ not_far_future ex_now (h_time (b_header (testnet4 real))).
Proof. split; [exact ex_now_ok|]. vm_compute. intro K. discriminate K. Qed.
