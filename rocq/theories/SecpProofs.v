(** Consequences of a prime group order, for signatures and commitments. *)
From Coq Require Import ZArith Znumtheory.
From Verif Require Import Schnorr SpecSchnorr SchnorrProofs EC Real SpecSecp SecpPrimes SecpGroup Consensus SpecCodec SpecConsensus CodecExamples.
Open Scope N_scope.

Section PrimeOrder.
Context (X : Ext) (On : point -> Prop) (O : point) (neg : point -> point) (L : curve_laws X On O neg).
Local Notation n := (c_order X). Local Notation G := (c_G X). Local Notation H := (c_H X).
Context (Hn : prime (Z.of_N n)) (Gen : forall p, On p -> exists k, p = c_smul X G k).

Lemma order_pos : 1 < n. Proof. apply (cl_order _ _ _ _ L). Qed.
Lemma n0 : n <> 0. Proof. pose proof order_pos. lia. Qed.
(** Differences modulo n. *)
Definition dif (a b : N) : N := a + (n - b mod n).
Lemma dif_add a b : (dif a b + b) mod n = a mod n.
Proof.
  unfold dif. pose proof n0. pose proof (N.mod_lt b n n0). rewrite (N.div_mod b n) at 2 by exact n0.
  replace (a + (n - b mod n) + (n * (b / n) + b mod n)) with (a + (1 + b / n) * n) by lia. apply N.mod_add. exact n0.
Qed.
Lemma mod_cancel a b c : (a + c) mod n = (b + c) mod n -> a mod n = b mod n.
Proof.
  intro E. rewrite <- (dif_add a c), <- (dif_add b c). unfold dif.
  replace (a + (n - c mod n) + c) with (a + c + (n - c mod n)) by lia. replace (b + (n - c mod n) + c) with (b + c + (n - c mod n)) by lia.
  rewrite <- (N.add_mod_idemp_l (a + c)), E, N.add_mod_idemp_l by exact n0. reflexivity.
Qed.
Lemma dif_zero a b : dif a b mod n = 0 -> a mod n = b mod n.
Proof. intro E. rewrite <- (dif_add a b), <- N.add_mod_idemp_l, E by exact n0. f_equal. Qed.
Lemma inverse a : a mod n <> 0 -> exists i, (i * a) mod n = 1.
Proof.
  intro A. assert (D : ~ (Z.of_N n | Z.of_N a)%Z).
  { intros (c & D). apply A. pose proof order_pos. apply N.mod_divide; [exact n0|]. exists (Z.to_N c). apply N2Z.inj. rewrite N2Z.inj_mul, Z2N.id by nia. exact D. }
  destruct (rel_prime_bezout _ _ (prime_rel_prime _ Hn _ D)) as [u v B]. pose proof order_pos as P1.
  exists (Z.to_N (v mod Z.of_N n)). apply N2Z.inj. pose proof (Z.mod_pos_bound v (Z.of_N n) ltac:(lia)).
  rewrite N2Z.inj_mod, N2Z.inj_mul, Z2N.id by lia. rewrite Zmult_mod_idemp_l.
  replace (v * Z.of_N a)%Z with (1 + (- u) * Z.of_N n)%Z by (transitivity (u * Z.of_N n + v * Z.of_N a + - u * Z.of_N n)%Z; [now rewrite B|ring]).
  rewrite Z_mod_plus_full. apply Z.mod_small. lia.
Qed.
Lemma solve i d a b : (i * d) mod n = 1 -> (d * a) mod n = b mod n -> a mod n = (i * b) mod n.
Proof.
  intros I E. transitivity ((i * d * a) mod n).
  - rewrite <- N.mul_mod_idemp_l, I, N.mul_1_l by exact n0. reflexivity.
  - rewrite <- N.mul_assoc, <- N.mul_mod_idemp_r, E, N.mul_mod_idemp_r by exact n0. reflexivity.
Qed.
Lemma gen_eq a b : c_smul X G a = c_smul X G b <-> a mod n = b mod n.
Proof.
  pose proof (cl_G _ _ _ _ L) as OG. split.
  - intro E. apply dif_zero. apply (gen_O X On O neg L). unfold dif. rewrite (smul_add X On O neg L) by exact OG. rewrite E, <- (smul_add X On O neg L) by exact OG.
    apply (gen_O X On O neg L). apply N.mod_divide; [exact n0|]. pose proof (N.mod_lt b n n0). rewrite (N.div_mod b n) at 1 by exact n0.
    exists (b / n + 1). lia.
  - intro E. rewrite <- (smul_mod X On O neg L G a), <- (smul_mod X On O neg L G b) by exact OG. now rewrite E.
Qed.
Lemma key_unique p : On p -> exists! k, k < n /\ p = c_smul X G k.
Proof.
  intro P. destruct (Gen p P) as (k & E). exists (k mod n). split.
  - split; [apply N.mod_lt; exact n0|]. rewrite (smul_mod X On O neg L) by exact (cl_G _ _ _ _ L). exact E.
  - intros j (J & E'). rewrite E in E'. apply gen_eq in E'. rewrite E'. now apply N.mod_small.
Qed.
(** With H = h*G. *)
Lemma commit_log h r v : H = c_smul X G h -> commit_value X r v = c_smul X G (r + v * h).
Proof.
  intro E. pose proof (cl_G _ _ _ _ L) as OG. unfold commit_value. rewrite E, <- (smul_mul X On O neg L), <- (smul_add X On O neg L) by exact OG. reflexivity.
Qed.
Lemma hiding r v v' : exists! r', r' < n /\ commit_value X r' v' = commit_value X r v.
Proof.
  destruct (Gen H (cl_H _ _ _ _ L)) as (h & E). exists (dif (r + v * h) (v' * h) mod n). split.
  - split; [apply N.mod_lt; exact n0|]. rewrite !(commit_log h) by exact E. apply gen_eq. rewrite N.add_mod_idemp_l by exact n0. apply dif_add.
  - intros r' (R & C). rewrite !(commit_log h) in C by exact E. apply gen_eq in C. rewrite <- (dif_add (r + v * h) (v' * h)) in C. apply mod_cancel in C.
    rewrite <- C. now apply N.mod_small.
Qed.
Lemma binding r v r' v' : commit_value X r v = commit_value X r' v' -> v mod n <> v' mod n ->
  exists i, inverse_of_difference n i v v' /\ H = c_smul X G (i * (r' + (n - r mod n))).
Proof.
  intros C V. destruct (Gen H (cl_H _ _ _ _ L)) as (h & E). destruct (inverse (dif v v')) as (i & I); [intro D; apply V; now apply dif_zero|].
  exists i. split; [exact I|]. rewrite E. apply gen_eq. apply (solve i (dif v v')); [exact I|]. fold (dif r' r).
  rewrite !(commit_log h) in C by exact E. apply gen_eq in C. apply (mod_cancel _ _ (r + v' * h)).
  replace (dif v v' * h + (r + v' * h)) with (r + (dif v v' + v') * h) by lia. replace (dif r' r + (r + v' * h)) with (dif r' r + r + v' * h) by lia.
  rewrite <- (N.add_mod_idemp_l (dif r' r + r)), dif_add, N.add_mod_idemp_l by exact n0.
  rewrite <- (N.add_mod_idemp_r r), <- (N.mul_mod_idemp_l (dif v v' + v')), dif_add, N.mul_mod_idemp_l, N.add_mod_idemp_r by exact n0. exact C.
Qed.
(** Two equations with one R. *)
Lemma extract P R e1 s1 e2 s2 : On P -> On R -> schnorr_eq X P e1 R s1 -> schnorr_eq X P e2 R s2 -> e1 mod n <> e2 mod n ->
  exists i, inverse_of_difference n i e1 e2 /\ P = c_smul X G (i * (s1 + (n - s2 mod n))).
Proof.
  unfold schnorr_eq. intros OP OR E1 E2 D. destruct (Gen P OP) as (x & ->). destruct (Gen R OR) as (k & ->). pose proof (cl_G _ _ _ _ L) as OG.
  rewrite <- (smul_mul X On O neg L), <- (smul_add X On O neg L) in E1, E2 by exact OG. apply gen_eq in E1, E2.
  destruct (inverse (dif e1 e2)) as (i & I); [intro Z; apply D; now apply dif_zero|]. exists i. split; [exact I|]. apply gen_eq.
  apply (solve i (dif e1 e2)); [exact I|]. fold (dif s1 s2). apply (mod_cancel _ _ (k + e2 * x)).
  replace (dif e1 e2 * x + (k + e2 * x)) with (k + (dif e1 e2 + e2) * x) by lia.
  rewrite <- (N.add_mod_idemp_r k), <- (N.mul_mod_idemp_l (dif e1 e2 + e2)), dif_add, N.mul_mod_idemp_l, N.add_mod_idemp_r by exact n0.
  rewrite <- E1. rewrite <- (N.add_mod_idemp_r (dif s1 s2)), <- E2, N.add_mod_idemp_r, dif_add by exact n0. reflexivity.
Qed.
Lemma nonce_reuse k x m1 m2 : let P := c_smul X G x in
  let sg1 := sign_message X k P x m1 in let sg2 := sign_message X k P x m2 in
  let e1 := fiat_shamir X (sg_R sg1) P m1 in let e2 := fiat_shamir X (sg_R sg2) P m2 in
  e1 mod n <> e2 mod n ->
  exists i, inverse_of_difference n i e1 e2 /\ x mod n = (i * (sg_s sg1 + (n - sg_s sg2 mod n))) mod n.
Proof.
  intros P sg1 sg2 e1 e2 D. destruct (sign_eq X On O neg L k x m1) as (R1 & _ & E1). destruct (sign_eq X On O neg L k x m2) as (R2 & _ & E2).
  fold P sg1 in R1, E1. fold P sg2 in R2, E2. fold e1 in E1. fold e2 in E2. rewrite R1 in E1. rewrite R2 in E2. pose proof (cl_G _ _ _ _ L) as OG.
  destruct (extract P (c_smul X G k) e1 (sg_s sg1) e2 (sg_s sg2)) as (i & I & E); [unfold P; apply (smul_on X On O neg L); exact OG|apply (smul_on X On O neg L); exact OG|exact E1|exact E2|exact D|].
  exists i. split; [exact I|]. unfold P in E. now apply gen_eq in E.
Qed.
(** What two accepted signatures with one R give away: the key, up to the sign of each scalar. *)
Lemma extract_verified P R m1 s1 m2 s2 : On P -> On R ->
  verify_signature X P m1 (Signature s1 R) = true -> verify_signature X P m2 (Signature s2 R) = true ->
  let e1 := fiat_shamir X R P m1 in let e2 := fiat_shamir X R P m2 in e1 mod n <> e2 mod n ->
  exists i t1 t2, inverse_of_difference n i e1 e2 /\ (t1 = s1 \/ t1 = n - s1 mod n) /\ (t2 = s2 \/ t2 = n - s2 mod n) /\
    P = c_smul X G (i * (t1 + (n - t2 mod n))).
Proof.
  intros OP OR V1 V2 e1 e2 D. pose proof (cl_G _ _ _ _ L) as OG.
  assert (T : forall m s, verify_signature X P m (Signature s R) = true -> exists t, (t = s \/ t = n - s mod n) /\ schnorr_eq X P (fiat_shamir X R P m) R t).
  { intros m s V. apply (verify_iff X On O neg L P m s R OP OR) in V as [V|V]; [exists s; auto|]. exists (n - s mod n). split; [now right|].
    unfold schnorr_eq. pose proof (N.mod_lt s n n0). rewrite (smul_neg X On O neg L) by (exact OG || lia). rewrite (smul_mod X On O neg L) by exact OG. rewrite V.
    apply (neg_neg X On O neg L). apply (cl_add_on _ _ _ _ L); [exact OR|]. now apply (smul_on X On O neg L). }
  destruct (T m1 s1 V1) as (t1 & T1 & E1). destruct (T m2 s2 V2) as (t2 & T2 & E2). fold e1 in E1. fold e2 in E2.
  destruct (extract P R e1 t1 e2 t2 OP OR E1 E2 D) as (i & I & E). exists i, t1, t2. auto.
Qed.
End PrimeOrder.

Lemma real_prime_n : prime (Z.of_N (c_order real)).
Proof. cbn [c_order real]. rewrite <- n_pos_eq. change (Z.of_N (N.pos n_pos)) with (Z.pos n_pos). rewrite n_z. exact prime_n. Qed.
Lemma real_prime_p : prime (Z.of_N secp_p).
Proof. rewrite p_z. exact prime_p. Qed.
Lemma real_gen q : secp_on q -> exists k, q = c_smul real (c_G real) k.
Proof.
  intro Q. cbn [c_smul c_G real]. destruct (all_multiples (aff q) (aff_on q Q)) as (k & E). exists (N.of_nat k).
  destruct (smul_aff secp_G (N.of_nat k) G_on) as (A & B). apply aff_inj; [exact Q|exact A|]. rewrite B, Nnat.Nat2N.id. exact E.
Qed.

Lemma real_times_1 : c_smul real (c_G real) 1 = c_G real.
Proof.
  pose proof real_curve as L. change 1 with (N.succ 0). rewrite (cl_smul_S _ _ _ _ L) by apply (cl_G _ _ _ _ L).
  rewrite (cl_smul_0 _ _ _ _ L) by apply (cl_G _ _ _ _ L). apply (zero_l real secp_on (Point 0 0) secp_neg L). apply (cl_G _ _ _ _ L).
Qed.
(** Two openings of one commitment, to the amounts 1 and 2. *)
Lemma two_openings : exists r r', commit_value real r 1 = commit_value real r' 2 /\ 1 mod c_order real <> 2 mod c_order real.
Proof.
  destruct (hiding real secp_on (Point 0 0) secp_neg real_curve real_gen 5 2 1) as (r & (_ & E) & _). exists r, 5.
  split; [exact E|]. vm_compute. discriminate.
Qed.
(** The challenges for two messages under the nonce 1 and the key 1. *)
Lemma two_challenges : fiat_shamir real secp_G secp_G [x01] mod secp_n <> fiat_shamir real secp_G secp_G [x02] mod secp_n.
Proof. vm_compute. discriminate. Qed.

(** A block with an output committing to H and a kernel with excess G. *)
Definition secp_block : block real :=
  Block (ex_header 29) [ex_input 1] [@Output real 0 secp_H (brepeat x07 675)] [Kernel 0 5 0 secp_G (brepeat x09 64)].
Lemma secp_block_wf : block_wf real secp_affine proof_sized secp_block.
Proof.
  assert (AG : secp_affine secp_G) by (split; [exact G_on|vm_compute; discriminate]).
  assert (AH : secp_affine secp_H) by (split; [exact H_on|vm_compute; discriminate]).
  split; [apply ex_header_wf; cbn; auto|]. split; [repeat constructor|].
  split. { constructor; [|constructor]. split; [reflexivity|]. split; [exact AH|]. vm_compute. discriminate. }
  split. { constructor; [|constructor]. repeat (split; [reflexivity|]). split; [exact AG|reflexivity]. }
  repeat split; vm_compute; discriminate.
Qed.

(** ** The point of a decoded signature *)
Lemma sqrt_7 : c_sqrt real (0 * 0 * 0 + 7) =? 0 = false.
Proof. vm_compute. reflexivity. Qed.
Lemma seven_not_zero : (0 * 0) mod secp_p =? (0 * 0 * 0 + 7) mod secp_p = false.
Proof. vm_compute. reflexivity. Qed.
Lemma seven_not_square : (c_sqrt real (0 * 0 * 0 + 7) * c_sqrt real (0 * 0 * 0 + 7)) mod secp_p =? (0 * 0 * 0 + 7) mod secp_p = false.
Proof. vm_compute. reflexivity. Qed.

Lemma decoded_R b : List.length b = 64%nat -> sg_R (decode_signature real b) =
  Point (unbe (firstn 32 b)) (c_sqrt real (unbe (firstn 32 b) * unbe (firstn 32 b) * unbe (firstn 32 b) + 7)).
Proof. intros _. reflexivity. Qed.

Lemma root_on x y : x < secp_p -> (y * y) mod secp_p = (x * x * x + 7) mod secp_p -> secp_on (Point x (c_sqrt real (x * x * x + 7))).
Proof.
  intros Lx Y.
  assert (Hp : secp_p <> 0) by discriminate.
  assert (On : secp_on (Point x (y mod secp_p))).
  { right. split; [exact Lx|]. split; [exact (N.mod_lt y secp_p Hp)|]. change (py (Point x (y mod secp_p))) with (y mod secp_p).
    rewrite <- (N.mul_mod y y secp_p Hp). exact Y. }
  assert (NO : Point x (y mod secp_p) <> Point 0 0).
  { intro Z. pose proof (f_equal px Z) as Zx. pose proof (f_equal py Z) as Zy. change (x = 0) in Zx. change (y mod secp_p = 0) in Zy.
    rewrite (N.mul_mod y y secp_p Hp), Zy, Zx in Y. pose proof seven_not_zero as K. apply N.eqb_neq in K. exact (K Y). }
  destruct (cl_sqrt _ _ _ _ real_curve _ On NO) as [R|R]; change (px (Point x (y mod secp_p))) with x in R; rewrite R; [exact On|].
  exact (cl_neg_on _ _ _ _ real_curve _ On).
Qed.

Lemma root_off x r : r = c_sqrt real (x * x * x + 7) -> secp_on (Point x r) ->
  x < secp_p /\ exists y, (y * y) mod secp_p = (x * x * x + 7) mod secp_p.
Proof.
  intros Er [Z|(Lx & Ly & Y)].
  - exfalso. pose proof (f_equal px Z) as Zx. pose proof (f_equal py Z) as Zy. change (x = 0) in Zx. change (r = 0) in Zy.
    rewrite Zx in Er. rewrite Zy in Er. pose proof sqrt_7 as K. apply N.eqb_neq in K. apply K. symmetry. exact Er.
  - split; [exact Lx|]. exists r. exact Y.
Qed.

Lemma decoded_point b : List.length b = 64%nat ->
  (secp_on (sg_R (decode_signature real b)) <->
   unbe (firstn 32 b) < secp_p /\
   exists y, (y * y) mod secp_p = (unbe (firstn 32 b) * unbe (firstn 32 b) * unbe (firstn 32 b) + 7) mod secp_p).
Proof.
  intro L. rewrite (decoded_R b L). generalize (unbe (firstn 32 b)). intro x.
  split; [exact (root_off x _ eq_refl)|]. intros (Lx & y & Y). exact (root_on x y Lx Y).
Qed.

Lemma off_curve_zero r : r = c_sqrt real (0 * 0 * 0 + 7) -> ~ secp_on (Point 0 r).
Proof.
  intros Er [Z|(_ & _ & Y)].
  - pose proof (f_equal py Z) as Zy. change (r = 0) in Zy. rewrite Er in Zy. pose proof sqrt_7 as K. apply N.eqb_neq in K. exact (K Zy).
  - change ((r * r) mod secp_p = (0 * 0 * 0 + 7) mod secp_p) in Y. rewrite Er in Y. pose proof seven_not_square as K. apply N.eqb_neq in K. exact (K Y).
Qed.
Lemma off_curve s : List.length (brepeat x00 32 ++ be 32 s) = 64%nat /\
  ~ secp_on (sg_R (decode_signature real (brepeat x00 32 ++ be 32 s))).
Proof.
  assert (L : List.length (brepeat x00 32 ++ be 32 s) = 64%nat) by (rewrite app_length, be_length; reflexivity).
  split; [exact L|]. rewrite (decoded_R _ L).
  replace (firstn 32 (brepeat x00 32 ++ be 32 s)) with (brepeat x00 32) by reflexivity.
  replace (unbe (brepeat x00 32)) with 0 by reflexivity. apply off_curve_zero. reflexivity.
Qed.

Lemma signed_point k P x msg : k mod c_order real <> 0 ->
  let sg := sign_message real k P x msg in let R := sg_R (decode_signature real (sig_bytes sg)) in
  secp_on R /\ (R = sg_R sg \/ R = secp_neg (sg_R sg)).
Proof.
  intros Hk sg R.
  assert (On : secp_on (sg_R sg)).
  { unfold sg, sign_message. cbn [sg_R]. apply (smul_on real secp_on (Point 0 0) secp_neg real_curve). exact (cl_G _ _ _ _ real_curve). }
  assert (NO : sg_R sg <> Point 0 0).
  { unfold sg, sign_message. cbn [sg_R]. intro Z. apply (gen_O real secp_on (Point 0 0) secp_neg real_curve) in Z. contradiction. }
  assert (ER : R = Point (px (sg_R sg)) (c_sqrt real (px (sg_R sg) * px (sg_R sg) * px (sg_R sg) + 7))).
  { unfold R. pose proof (cl_order _ _ _ _ real_curve) as Ho. destruct sg as [s R0] eqn:Es.
    rewrite decode_encode; [reflexivity|exact (cl_coord _ _ _ _ real_curve _ On)|].
    assert (s < c_order real).
    { unfold sg, sign_message in Es. apply (f_equal sg_s) in Es. cbn [sg_s] in Es. rewrite <- Es. apply N.mod_lt. destruct Ho as [Ho _]. intro Z. rewrite Z in Ho. discriminate Ho. }
    destruct Ho as [_ Ho]. exact (N.lt_trans _ _ _ H Ho). }
  destruct (cl_sqrt _ _ _ _ real_curve _ On NO) as [E|E]; cbv zeta in E; rewrite <- ER in E.
  - rewrite E. auto.
  - rewrite E. split; [exact (cl_neg_on _ _ _ _ real_curve _ On)|now right].
Qed.
