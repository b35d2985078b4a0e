(** Property C118: how many signatures are lost by serialising them. Statements; proofs are in HalfProofs.v. *)
From Verif Require Import Schnorr SpecSchnorr EC Instance Real SpecSecp SecpGroup SecpProofs HalfProofs.

(** * C118: half of all nonces make signatures that do not survive being sent *)
(** Of a nonce and its negative exactly one makes a signature that verifies after it was written and read. *)
Theorem C118_one_of_two : forall X On O neg, curve_laws X On O neg -> forall k x msg, 0 < k < c_order X -> let P := c_smul X (c_G X) x in
  (fiat_shamir X (c_smul X (c_G X) k) P msg * x) mod c_order X <> 0 ->
  (verify_signature X P msg (decode_signature X (sig_bytes (sign_message X (c_order X - k) P x msg))) = true <->
   verify_signature X P msg (decode_signature X (sig_bytes (sign_message X k P x msg))) = false).
Proof. exact one_survives. Qed.
Print Assumptions C118_one_of_two.
Example C118_case : 0 < 1 < c_order real /\
  (fiat_shamir real (c_smul real (c_G real) 1) (c_smul real (c_G real) 1) [x01] * 1) mod c_order real <> 0.
Proof. split; [split; reflexivity|]. rewrite real_times_1. exact challenge_1. Qed.

(** The nonces whose signatures survive for every key and message are exactly half of those there are. *)
Theorem C118_half : forall X On O neg, curve_laws X On O neg ->
  exists l, NoDup l /\ (forall k, In k l <-> 0 < k < c_order X /\ canonical_root X (c_smul X (c_G X) k)) /\ 2 * lenN l + 1 = c_order X.
Proof. exact half_nonces. Qed.
Print Assumptions C118_half.
Example C118_half_case : filter (canonical toy) (map N.of_nat (seq 1 30)) = [3; 6; 8; 9; 11; 12; 13; 14; 15; 21; 24; 26; 27; 29; 30].
Proof. vm_compute. reflexivity. Qed.

(** So signatures are lost on secp256k1 itself. *)
Theorem C118_secp_refuted : exists k x msg, 0 < k < c_order real /\ 0 < x < c_order real /\ let P := c_smul real (c_G real) x in
  verify_signature real P msg (sign_message real k P x msg) = true /\
  verify_signature real P msg (decode_signature real (sig_bytes (sign_message real k P x msg))) = false.
Proof. exact secp_lost. Qed.
Print Assumptions C118_secp_refuted.
