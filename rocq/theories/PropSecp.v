(** Properties C89-C92: the curve of secp256k1zkp/constants.go:48-98 itself, with no law assumed.
    Statements only; proofs are in SecpGroup.v and SecpProofs.v, specifications in SpecSecp.v. *)
From Coq Require Import ZArith Znumtheory Permutation.
From Verif Require Import Schnorr SpecSchnorr SpecConsensus EC Real AllocProofs SpecSecp SecpGroup SecpProofs SchnorrProofs Consensus SpecCodec BlockCodecProofs PropCodec.
Open Scope N_scope.

(** * C89: the constants define a group of prime order *)
Theorem C89_primes : prime (Z.of_N secp_p) /\ prime (Z.of_N secp_n).
Proof. exact (conj real_prime_p real_prime_n). Qed.
Print Assumptions C89_primes.

(** Addition and multiplication of curve points satisfy every law that C55-C58, C77 and C79 assume. *)
Theorem C89_group : curve_laws real secp_on (Point 0 0) secp_neg.
Proof. exact real_curve. Qed.
Print Assumptions C89_group.

(** Every point of the curve, not only those of a subgroup, is a multiple of G by exactly one scalar below the order. *)
Theorem C89_cyclic : forall q, secp_on q -> exists! k, k < c_order real /\ q = c_smul real (c_G real) k.
Proof. exact (key_unique real secp_on (Point 0 0) secp_neg real_curve real_gen). Qed.
Print Assumptions C89_cyclic.

Example C89_case : secp_on secp_G /\ secp_on secp_H /\ secp_G <> secp_H /\ ~ secp_on (Point 1 1) /\ secp_neg secp_G <> secp_G.
Proof.
  split; [exact G_on|]. split; [exact H_on|]. split; [vm_compute; discriminate|]. split; [|vm_compute; discriminate].
  intros [E|(_ & _ & E)]; [discriminate E|]. vm_compute in E. discriminate E.
Qed.

(** Everything the block codecs assume of points and proofs. *)
Theorem C89_codec : codec_laws real secp_affine proof_sized /\ codec_exact real /\ codec_safe real /\ hash_laws real /\ sort_laws real.
Proof. exact (conj real_codec (conj real_exact (conj real_safe (conj real_hash_laws real_sort)))). Qed.
Print Assumptions C89_codec.

(** So the main results about signatures, commitments and blocks hold of secp256k1 as they stand. *)
Theorem C89_signatures : forall k x msg,
  verify_signature real (c_smul real (c_G real) x) msg (sign_message real k (c_smul real (c_G real) x) x msg) = true.
Proof. exact (sign_verifies real secp_on (Point 0 0) secp_neg real_curve). Qed.
Print Assumptions C89_signatures.

Theorem C89_verify_exactly : forall P msg s R, secp_on P -> secp_on R ->
  (verify_signature real P msg (Signature s R) = true <->
   schnorr_eq real P (fiat_shamir real R P msg) R s \/
   c_smul real (c_G real) s = secp_neg (c_add real R (c_smul real P (fiat_shamir real R P msg)))).
Proof. exact (verify_iff real secp_on (Point 0 0) secp_neg real_curve). Qed.
Print Assumptions C89_verify_exactly.

Theorem C89_homomorphic : forall r1 v1 r2 v2,
  c_add real (commit_value real r1 v1) (commit_value real r2 v2) = commit_value real (r1 + r2) (v1 + v2).
Proof. exact (commit_hom real secp_on (Point 0 0) secp_neg real_curve). Qed.
Print Assumptions C89_homomorphic.

Theorem C89_block_roundtrip : forall b rest, block_wf real secp_affine proof_sized b ->
  exists bs b', block_bytes real b = Ok (bs, b') /\
    b_header b' = b_header b /\
    Permutation (b_inputs b') (b_inputs b) /\ Permutation (b_outputs b') (b_outputs b) /\
    Permutation (b_kernels b') (b_kernels b) /\
    lists_sorted real (b_inputs b') (b_outputs b') (b_kernels b') /\
    block_read real (bs ++ rest) =
      Ok (Block (wire_view (b_header b)) (b_inputs b') (b_outputs b') (b_kernels b'), rest).
Proof. exact (fun b rest => C06_block_roundtrip real secp_affine proof_sized real_codec b rest real_sort). Qed.
Print Assumptions C89_block_roundtrip.
Example C89_block_case : block_wf real secp_affine proof_sized secp_block.
Proof. exact secp_block_wf. Qed.

(** * C90: commitments hide the amount *)

(** Whatever commitment is seen, each amount is opened by exactly one blinding factor. *)
Theorem C90_hiding : forall r v v', exists! r', r' < c_order real /\ commit_value real r' v' = commit_value real r v.
Proof. exact (hiding real secp_on (Point 0 0) secp_neg real_curve real_gen). Qed.
Print Assumptions C90_hiding.

(** * C91: commitments fix the amount *)

(** Full statement, false: commit_value real r v = commit_value real r' v' -> v = v' for amounts below 2^64. *)
Theorem C91_binding_refuted : exists r v r' v', is_u64 v /\ is_u64 v' /\ v <> v' /\ commit_value real r v = commit_value real r' v'.
Proof.
  destruct two_openings as (r & r' & E & _). exists r, 1, r', 2. repeat split; [discriminate|exact E].
Qed.
Print Assumptions C91_binding_refuted.
(** What holds: two openings give away the discrete logarithm of H. Missing: that nobody can compute it. *)
Theorem C91_reduction_partial : forall r v r' v', commit_value real r v = commit_value real r' v' ->
  v mod c_order real <> v' mod c_order real ->
  exists i, inverse_of_difference (c_order real) i v v' /\
    c_H real = c_smul real (c_G real) (i * (r' + (c_order real - r mod c_order real))).
Proof. exact (binding real secp_on (Point 0 0) secp_neg real_curve real_prime_n real_gen). Qed.
Print Assumptions C91_reduction_partial.
Example C91_case : exists r r', commit_value real r 1 = commit_value real r' 2 /\ 1 mod c_order real <> 2 mod c_order real.
Proof. exact two_openings. Qed.

(** * C92: one nonce for two messages reveals the key *)
Theorem C92_nonce_reuse : forall k x m1 m2, let P := c_smul real (c_G real) x in
  let sg1 := sign_message real k P x m1 in let sg2 := sign_message real k P x m2 in
  let e1 := fiat_shamir real (sg_R sg1) P m1 in let e2 := fiat_shamir real (sg_R sg2) P m2 in
  e1 mod c_order real <> e2 mod c_order real ->
  exists i, inverse_of_difference (c_order real) i e1 e2 /\
    x mod c_order real = (i * (sg_s sg1 + (c_order real - sg_s sg2 mod c_order real))) mod c_order real.
Proof. exact (nonce_reuse real secp_on (Point 0 0) secp_neg real_curve real_prime_n real_gen). Qed.
Print Assumptions C92_nonce_reuse.

(** For any two accepted signatures with one R, whoever made them. *)
Theorem C92_extraction : forall P R m1 s1 m2 s2, secp_on P -> secp_on R ->
  verify_signature real P m1 (Signature s1 R) = true -> verify_signature real P m2 (Signature s2 R) = true ->
  let n := c_order real in let e1 := fiat_shamir real R P m1 in let e2 := fiat_shamir real R P m2 in e1 mod n <> e2 mod n ->
  exists i t1 t2, inverse_of_difference n i e1 e2 /\ (t1 = s1 \/ t1 = n - s1 mod n) /\ (t2 = s2 \/ t2 = n - s2 mod n) /\
    P = c_smul real (c_G real) (i * (t1 + (n - t2 mod n))).
Proof. exact (extract_verified real secp_on (Point 0 0) secp_neg real_curve real_prime_n real_gen). Qed.
Print Assumptions C92_extraction.

(** Key 1 and nonce 1, for the messages 01 and 02. *)
Example C92_case : let P := c_smul real (c_G real) 1 in
  P = secp_G /\ fiat_shamir real P P [x01] mod c_order real <> fiat_shamir real P P [x02] mod c_order real.
Proof. cbv zeta. rewrite real_times_1. split; [reflexivity|exact two_challenges]. Qed.

(** * C101: decoded signatures carry a point of the curve *)

(** Full statement, false: forall b, length b = 64 -> secp_on (sg_R (decode_signature real b)).
    No point has the coordinate 0, and the decoder takes it. *)
Theorem C101_off_curve_refuted : exists b, List.length b = 64%nat /\ ~ secp_on (sg_R (decode_signature real b)).
Proof. exact (ex_intro _ _ (off_curve 1)). Qed.
Print Assumptions C101_off_curve_refuted.
(** Exactly: the first 32 bytes must be a reduced coordinate for which the equation has a root. *)
Theorem C101_exactly_partial : forall b, List.length b = 64%nat -> let x := unbe (firstn 32 b) in
  (secp_on (sg_R (decode_signature real b)) <-> x < secp_p /\ exists y, (y * y) mod secp_p = (x * x * x + 7) mod secp_p).
Proof. exact decoded_point. Qed.
Print Assumptions C101_exactly_partial.
(** What the signer sends arrives as its point or as the reflection of it. *)
Theorem C101_signed_partial : forall k P x msg, k mod c_order real <> 0 ->
  let sg := sign_message real k P x msg in let R := sg_R (decode_signature real (sig_bytes sg)) in
  secp_on R /\ (R = sg_R sg \/ R = secp_neg (sg_R sg)).
Proof. exact signed_point. Qed.
Print Assumptions C101_signed_partial.
Example C101_case : 1 mod c_order real <> 0 /\ 1 < secp_p /\ exists y, (y * y) mod secp_p = (1 * 1 * 1 + 7) mod secp_p.
Proof.
  split; [discriminate|]. split; [reflexivity|]. exists (c_sqrt real 8). apply N.eqb_eq. vm_compute. reflexivity.
Qed.
