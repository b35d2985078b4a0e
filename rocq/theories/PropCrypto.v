(** Properties C55-C60: signatures, commitments and encodings. Statements only; proofs are in
    SchnorrProofs.v; the curve laws and specifications in SpecSchnorr.v. *)
From Verif Require Import Schnorr SpecSchnorr SchnorrProofs EC Instance.

(** * C55: signatures verify *)
Theorem C55_signatures_verify : forall X On O neg, curve_laws X On O neg -> forall k x msg,
  verify_signature X (c_smul X (c_G X) x) msg (sign_message X k (c_smul X (c_G X) x) x msg) = true.
Proof. exact sign_verifies. Qed.
Print Assumptions C55_signatures_verify.

(** A signature is R = kG with a reduced s satisfying the Schnorr equation. *)
Theorem C55_signature_equation : forall X On O neg, curve_laws X On O neg -> forall k x msg,
  let P := c_smul X (c_G X) x in let sg := sign_message X k P x msg in
  sg_R sg = c_smul X (c_G X) k /\ sg_s sg < c_order X /\
  schnorr_eq X P (fiat_shamir X (sg_R sg) P msg) (sg_R sg) (sg_s sg).
Proof. exact sign_eq. Qed.
Print Assumptions C55_signature_equation.

(** Exactly what verification accepts: the Schnorr equation up to sign. *)
Theorem C55_verify_exactly : forall X On O neg, curve_laws X On O neg -> forall P msg s R, On P -> On R ->
  (verify_signature X P msg (Signature s R) = true <->
   schnorr_eq X P (fiat_shamir X R P msg) R s \/
   c_smul X (c_G X) s = neg (c_add X R (c_smul X P (fiat_shamir X R P msg)))).
Proof. exact verify_iff. Qed.
Print Assumptions C55_verify_exactly.

(** The laws hold for a real curve (of order 31), and verification is not constantly true on it. *)
Example C55_case : curve_laws toy toy_On ec_O (ec_neg 43).
Proof. exact toy_curve. Qed.
Example C55_rejects :
  verify_signature toy (c_smul toy toy_G 3) [x01] (Signature 5 (c_smul toy toy_G 7)) = false.
Proof. vm_compute. reflexivity. Qed.

(** * C56: serialised signatures *)

(** Full statement, false: for all k x msg, with P = xG and sg = sign_message X k P x msg,
    verify_signature X P msg (decode_signature X (sig_bytes sg)) = true.
    Exact characterisation: it verifies iff R has the y coordinate the decoder picks, or e*x = 0. *)
Theorem C56_serialised_exactly : forall X On O neg, curve_laws X On O neg -> forall k x msg,
  k mod c_order X <> 0 ->
  let P := c_smul X (c_G X) x in let sg := sign_message X k P x msg in
  let e := fiat_shamir X (sg_R sg) P msg in
  (verify_signature X P msg (decode_signature X (sig_bytes sg)) = true <->
   canonical_root X (sg_R sg) \/ (e * x) mod c_order X = 0).
Proof. exact serialised_verifies. Qed.
Print Assumptions C56_serialised_exactly.

Theorem C56_serialised_refuted : exists X On O neg k x msg, curve_laws X On O neg /\
  k mod c_order X <> 0 /\ x mod c_order X <> 0 /\
  let P := c_smul X (c_G X) x in let sg := sign_message X k P x msg in
  verify_signature X P msg sg = true /\
  verify_signature X P msg (decode_signature X (sig_bytes sg)) = false.
Proof.
  exists toy, toy_On, ec_O, (ec_neg 43), 1, 3, [x01]. split; [exact toy_curve|].
  split; [vm_compute; discriminate|]. split; [vm_compute; discriminate|]. vm_compute. split; reflexivity.
Qed.
Print Assumptions C56_serialised_refuted.

(** The decoder takes any 64 bytes as they are: x of R, then s, nothing reduced or refused. *)
Theorem C56_decoder : forall X b, List.length b = 64%nat ->
  sg_s (decode_signature X b) = unbe (skipn 32 b) /\ px (sg_R (decode_signature X b)) = unbe (firstn 32 b) /\
  sig_bytes (decode_signature X b) = b.
Proof. exact decode_any. Qed.
Print Assumptions C56_decoder.

(** Both cases of the characterisation occur. *)
Example C56_case :
  let sg := sign_message toy 3 (c_smul toy toy_G 3) 3 [x01] in
  3 mod c_order toy <> 0 /\
  verify_signature toy (c_smul toy toy_G 3) [x01] (decode_signature toy (sig_bytes sg)) = true.
Proof. vm_compute. split; [discriminate|reflexivity]. Qed.

(** * C57: malleability *)
Theorem C57_malleable_refuted : forall X On O neg, curve_laws X On O neg -> forall P msg s R,
  On P -> On R -> s <= c_order X ->
  verify_signature X P msg (Signature (c_order X - s) R) = verify_signature X P msg (Signature s R).
Proof. exact malleable. Qed.
Print Assumptions C57_malleable_refuted.

(** Exactly which scalars verify for one R: those congruent to s or -s. *)
Theorem C57_scalars_exactly : forall X On O neg, curve_laws X On O neg -> forall P msg s s' R,
  On P -> On R -> verify_signature X P msg (Signature s R) = true ->
  (verify_signature X P msg (Signature s' R) = true <->
   s' mod c_order X = s mod c_order X \/ (s + s') mod c_order X = 0).
Proof. exact verify_scalars. Qed.
Print Assumptions C57_scalars_exactly.

Example C57_case : let sg := sign_message toy 2 (c_smul toy toy_G 3) 3 [x01] in
  toy_On (c_smul toy toy_G 3) /\ toy_On (sg_R sg) /\ sg_s sg <= c_order toy /\
  c_order toy - sg_s sg <> sg_s sg /\ verify_signature toy (c_smul toy toy_G 3) [x01] sg = true.
Proof.
  cbv zeta. split; [exists 3%nat; split; [repeat constructor|reflexivity]|].
  split; [exists 2%nat; split; [repeat constructor|reflexivity]|]. vm_compute. intuition discriminate.
Qed.

(** * C58: Pedersen commitments *)
Theorem C58_homomorphic : forall X On O neg, curve_laws X On O neg -> forall r1 v1 r2 v2,
  c_add X (commit_value X r1 v1) (commit_value X r2 v2) = commit_value X (r1 + r2) (v1 + v2).
Proof. exact commit_hom. Qed.
Print Assumptions C58_homomorphic.

Theorem C58_modulo_order : forall X On O neg, curve_laws X On O neg -> forall r v,
  commit_value X (r mod c_order X) (v mod c_order X) = commit_value X r v.
Proof. exact commit_mod. Qed.
Print Assumptions C58_modulo_order.

Theorem C58_commit_zero : forall X On O neg, curve_laws X On O neg -> forall r,
  commit_value X r 0 = c_smul X (c_G X) r.
Proof. exact commit_zero. Qed.
Print Assumptions C58_commit_zero.

Theorem C58_negation : forall X On O neg, curve_laws X On O neg -> forall r v,
  r <= c_order X -> v <= c_order X ->
  commit_value X (c_order X - r) (c_order X - v) = neg (commit_value X r v).
Proof. exact commit_neg. Qed.
Print Assumptions C58_negation.

Example C58_case : commit_value toy 3 4 = commit_value toy 34 35 /\ commit_value toy 3 4 <> commit_value toy 4 4.
Proof. vm_compute. split; [reflexivity|discriminate]. Qed.

(** * C59: encodings *)
Theorem C59_message_layout : forall fee lock, is_u64 fee -> is_u64 lock ->
  let m := compute_message fee lock in
  List.length m = 32%nat /\ firstn 16 m = repeat x00 16 /\
  unbe (firstn 8 (skipn 16 m)) = fee /\ unbe (skipn 24 m) = lock.
Proof. exact message_layout. Qed.
Print Assumptions C59_message_layout.

Theorem C59_message_injective : forall f1 l1 f2 l2, is_u64 f1 -> is_u64 l1 -> is_u64 f2 -> is_u64 l2 ->
  compute_message f1 l1 = compute_message f2 l2 -> f1 = f2 /\ l1 = l2.
Proof. exact message_inj. Qed.
Print Assumptions C59_message_injective.

Theorem C59_key_encoding : forall p q, px p < 2 ^ 256 -> px q < 2 ^ 256 ->
  (compress_pubkey p = compress_pubkey q <-> px p = px q /\ N.odd (py p) = N.odd (py q)).
Proof. exact compress_inj. Qed.
Print Assumptions C59_key_encoding.

Theorem C59_key_layout : forall p, px p < 2 ^ 256 ->
  List.length (compress_pubkey p) = 33%nat /\
  hd x00 (compress_pubkey p) = (if N.even (py p) then x02 else x03) /\ unbe (tl (compress_pubkey p)) = px p.
Proof. exact compress_layout. Qed.
Print Assumptions C59_key_layout.

Example C59_case : is_u64 8000000 /\ is_u64 (2 ^ 64 - 1) /\ px toy_G < 2 ^ 256 /\
  compress_pubkey toy_G <> compress_pubkey (Point 2 31).
Proof. repeat split. vm_compute. discriminate. Qed.

(** * C60: random scalars *)

(** Full statement, false: random_int X draws = Some (k, rest) -> k < c_order X.
    Every stream whose first draw is n itself is a counterexample. *)
Theorem C60_order_returned_refuted : forall X rest, c_order X < 2 ^ 256 ->
  random_int X (be 32 (c_order X) :: rest) = Some (c_order X, rest).
Proof. exact random_int_order. Qed.
Print Assumptions C60_order_returned_refuted.

(** What holds: the result is the first draw that is at most n; missing: n itself is not excluded. *)
Theorem C60_first_draw_partial : forall X draws k rest, random_int X draws = Some (k, rest) ->
  exists bad b, draws = bad ++ b :: rest /\ k = unbe b /\ k <= c_order X /\
    Forall (fun d => c_order X < unbe d) bad.
Proof. exact random_int_spec. Qed.
Print Assumptions C60_first_draw_partial.

Theorem C60_returns : forall X draws, Exists (fun d => unbe d <= c_order X) draws ->
  exists k rest, random_int X draws = Some (k, rest).
Proof. exact random_int_total. Qed.
Print Assumptions C60_returns.

Example C60_case : random_int toy [be 32 77; be 32 32; be 32 9; be 32 8] = Some (9, [be 32 8]).
Proof. vm_compute. reflexivity. Qed.
