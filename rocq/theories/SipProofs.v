(** The model of cuckoo/siphash24.go meets the SipHash specification. *)
From Verif Require Import Siphash Cuckoo SpecPow.

Definition words_of (s : sip) : words := (sv0 s, sv1 s, sv2 s, sv3 s).

Lemma testbit_high n k : n < 2 ^ k -> forall m, k <= m -> N.testbit n m = false.
Proof.
  intros H m Hm. destruct (N.eq_dec n 0) as [->|Hn]; [apply N.bits_0|].
  apply N.bits_above_log2. apply N.log2_lt_pow2 in H; lia.
Qed.

Lemma lt_pow2_testbit n k : (forall m, k <= m -> N.testbit n m = false) -> n < 2 ^ k.
Proof.
  intro H. destruct (N.eq_dec n 0) as [->|Hn]; [pose proof (N.pow_nonzero 2 k ltac:(lia)); lia|].
  apply N.log2_lt_pow2; [lia|].
  destruct (N.lt_ge_cases (N.log2 n) k) as [Hl|Hl]; [exact Hl|].
  specialize (H _ Hl). rewrite N.bit_log2 in H by lia. discriminate.
Qed.

Lemma lxor_lt a b k : a < 2 ^ k -> b < 2 ^ k -> N.lxor a b < 2 ^ k.
Proof.
  intros Ha Hb. apply lt_pow2_testbit. intros m Hm.
  rewrite N.lxor_spec, (testbit_high a k), (testbit_high b k); auto.
Qed.
Lemma lor_lt a b k : a < 2 ^ k -> b < 2 ^ k -> N.lor a b < 2 ^ k.
Proof.
  intros Ha Hb. apply lt_pow2_testbit. intros m Hm.
  rewrite N.lor_spec, (testbit_high a k), (testbit_high b k); auto.
Qed.

Lemma shr64_lt x k : x < 2 ^ 64 -> shr64 x k < 2 ^ 64.
Proof.
  intro H. unfold shr64. rewrite N.shiftr_div_pow2.
  eapply N.le_lt_trans; [|exact H].
  apply N.div_le_upper_bound; [apply N.pow_nonzero; lia|].
  pose proof (N.pow_nonzero 2 k ltac:(lia)). nia.
Qed.

Lemma rot_eq k x : x < 2 ^ 64 -> k <= 64 -> N.lor (shl64 x k) (shr64 x (64 - k)) = rotl k x.
Proof.
  intros Hx Hk. unfold rotl, W. rewrite <- N.shiftl_mul_pow2, <- N.shiftr_div_pow2, <- N.land_ones.
  unfold shl64, w64, shr64. change 18446744073709551615 with (N.ones 64).
  assert (Hz : N.land (N.land (N.shiftl x k) (N.ones 64)) (N.shiftr x (64 - k)) = 0).
  { apply N.bits_inj_0. intro n. rewrite !N.land_spec, N.shiftr_spec by lia.
    destruct (N.lt_ge_cases n k) as [H|H].
    - now rewrite N.shiftl_spec_low by lia.
    - rewrite (testbit_high x 64 Hx (n + (64 - k))) by lia. apply andb_false_r. }
  rewrite N.add_nocarry_lxor by exact Hz. symmetry. apply N.lxor_lor, Hz.
Qed.

Lemma add64_eq x y : add64 x y = plus64 x y.
Proof. apply w64_mod. Qed.
Lemma add64_lt x y : add64 x y < 2 ^ 64.
Proof. apply w64_lt. Qed.

Lemma rot_lt k x : x < 2 ^ 64 -> N.lor (shl64 x k) (shr64 x (64 - k)) < 2 ^ 64.
Proof. intro H. apply lor_lt; [apply w64_lt|now apply shr64_lt]. Qed.

Lemma sip_round_eq h : sip_wf h -> words_of (sip_round h) = sipround (words_of h) /\ sip_wf (sip_round h).
Proof.
  destruct h as [a b c d]. intros (Ha & Hb & Hc & Hd). cbn [sv0 sv1 sv2 sv3] in *.
  unfold is_u64 in *.
  cbv beta iota zeta delta [sip_round].
  repeat match goal with
  | |- context [N.lor (shl64 ?x ?k) (shr64 ?x (64 - ?k))] =>
      rewrite (rot_eq k x) by (first [assumption | apply add64_lt | lia
        | (apply lxor_lt; [|apply add64_lt]; try (rewrite <- rot_eq by (assumption || lia)); apply rot_lt; assumption) ])
  end.
  assert (R : forall k x, x < 2 ^ 64 -> k <= 64 -> rotl k x < 2 ^ 64)
    by (intros k x Hx Hk; rewrite <- rot_eq by assumption; now apply rot_lt).
  assert (P : forall x y, plus64 x y < 2 ^ 64) by (intros; rewrite <- add64_eq; apply add64_lt).
  rewrite !add64_eq. split; [reflexivity|].
  repeat split; cbn [sv0 sv1 sv2 sv3]; unfold is_u64;
    repeat first [apply P | apply lxor_lt | apply R | assumption | lia].
Qed.

Lemma sip_write64_eq h m : sip_wf h -> is_u64 m ->
  words_of (sip_write64 h m) = finalize (compress (words_of h) m) /\ sip_wf (sip_write64 h m).
Proof.
  intros Hw Hm. destruct h as [a b c d]. destruct Hw as (Ha & Hb & Hc & Hd).
  unfold sip_write64, compress, finalize, words_of. cbn [sv0 sv1 sv2 sv3] in *.
  assert (W0 : sip_wf (Sip a b c (N.lxor d m)))
    by (repeat split; cbn [sv0 sv1 sv2 sv3]; auto; apply lxor_lt; auto).
  destruct (sip_round_eq _ W0) as [E1 W1]. destruct (sip_round_eq _ W1) as [E2 W2].
  cbn [rounds]. unfold words_of in E1, E2. cbn [sv0 sv1 sv2 sv3] in E1.
  rewrite <- E1, <- E2.
  set (h2 := sip_round (sip_round (Sip a b c (N.lxor d m)))) in *.
  destruct W2 as (W20 & W21 & W22 & W23).
  assert (W3 : sip_wf (Sip (N.lxor (sv0 h2) m) (sv1 h2) (N.lxor (sv2 h2) 255) (sv3 h2)))
    by (repeat split; cbn [sv0 sv1 sv2 sv3]; auto; apply lxor_lt; auto; lia).
  destruct (sip_round_eq _ W3) as [E3 W4]. destruct (sip_round_eq _ W4) as [E4 W5].
  destruct (sip_round_eq _ W5) as [E5 W6]. destruct (sip_round_eq _ W6) as [E6 W7].
  unfold words_of in *. cbn [sv0 sv1 sv2 sv3] in E3.
  split; [|exact W7]. rewrite <- E3, <- E4, <- E5, <- E6. reflexivity.
Qed.

Lemma sip_sum64_eq h : sip_sum64 h = digest (words_of h).
Proof. unfold sip_sum64, digest, words_of. now rewrite !N.lxor_assoc. Qed.

Lemma sip_sum64_lt h : sip_wf h -> sip_sum64 h < 2 ^ 64.
Proof. intros (H0 & H1 & H2 & H3). unfold sip_sum64. repeat apply lxor_lt; assumption. Qed.

Lemma siphash24_eq v m : sip_wf v -> is_u64 m ->
  siphash24 v m = siphash_2_4 (words_of v) m /\ siphash24 v m < 2 ^ 64.
Proof.
  intros Hv Hm. unfold siphash24, siphash_2_4. destruct (sip_write64_eq v m Hv Hm) as [E Wf].
  rewrite sip_sum64_eq, E. split; [reflexivity|]. rewrite <- E, <- sip_sum64_eq. now apply sip_sum64_lt.
Qed.

Lemma absorb_S key base c :
  absorb key base (S c) = finalize (compress (absorb key base c) (base + N.of_nat c)).
Proof. reflexivity. Qed.

(** The loop of siphashBlock, from iteration [c] on. *)
Lemma sip_block_loop_eq v base nonce : sip_wf v -> base + 64 < 2 ^ 64 -> base <= nonce ->
  nonce < base + 64 ->
  forall fuel c h nh,
    (c + fuel = 64)%nat ->
    sip_wf h -> words_of h = absorb (words_of v) base c ->
    (base + N.of_nat c <= nonce \/
     nh = digest (absorb (words_of v) base (S (N.to_nat (nonce - base))))) ->
    exists h' nh',
      sip_block_loop fuel (base + N.of_nat c) (base + 64) nonce h nh = (h', nh') /\
      sip_wf h' /\ words_of h' = absorb (words_of v) base 64 /\
      nh' = digest (absorb (words_of v) base (S (N.to_nat (nonce - base)))).
Proof.
  intros Hv Hb Hn1 Hn2. induction fuel as [|fuel IH]; intros c h nh Hc Hwf Hh Hnh.
  - assert (c = 64%nat) by lia; subst c. exists h, nh. cbn [sip_block_loop].
    repeat split; try (apply Hwf); auto.
    destruct Hnh as [Hnh|Hnh]; [lia|exact Hnh].
  - cbn [sip_block_loop].
    replace (base + N.of_nat c <? base + 64) with true by (symmetry; apply N.ltb_lt; lia).
    replace (add64 (base + N.of_nat c) 1) with (base + N.of_nat (S c)).
    2:{ unfold add64. rewrite w64_small; lia. }
    destruct (sip_write64_eq h (base + N.of_nat c) Hwf) as [E W']; [unfold is_u64; lia|].
    rewrite Hh, <- absorb_S in E.
    apply IH; [lia|exact W'|exact E|].
    destruct (N.eqb_spec (base + N.of_nat c) nonce) as [He|He].
    + right. rewrite sip_sum64_eq, E. repeat f_equal. lia.
    + destruct Hnh as [Hnh|Hnh]; [left; lia|right; exact Hnh].
Qed.

Lemma absorb_digest_lt v base c : sip_wf v -> base + N.of_nat c < 2 ^ 64 ->
  digest (absorb (words_of v) base c) < 2 ^ 64.
Proof.
  intros Hv Hc.
  assert (G : exists s, sip_wf s /\ words_of s = absorb (words_of v) base c).
  { revert Hc. induction c as [|c IHc]; intro Hc; [exists v; split; [exact Hv|reflexivity]|].
    destruct IHc as (s & Ws & Es); [lia|].
    destruct (sip_write64_eq s (base + N.of_nat c) Ws) as [E1 E2]; [unfold is_u64; lia|].
    exists (sip_write64 s (base + N.of_nat c)). split; [exact E2|]. rewrite E1, Es. reflexivity. }
  destruct G as (s & Ws & Es). rewrite <- Es, <- sip_sum64_eq. now apply sip_sum64_lt.
Qed.

Lemma block_start n : N.ldiff n siphash_block_mask = 64 * (n / 64).
Proof.
  change siphash_block_mask with (N.ones 6). rewrite N.ldiff_ones_r, N.shiftl_mul_pow2, N.shiftr_div_pow2.
  change (2 ^ 6) with 64. lia.
Qed.

Lemma siphash_block_eq v n : sip_wf v -> n < 2 ^ 64 - 64 ->
  siphash_block v n = siphash_blocked (words_of v) n /\ siphash_block v n < 2 ^ 64.
Proof.
  intros Hv Hn. unfold siphash_block. rewrite block_start.
  set (base := 64 * (n / 64)). pose proof (N.div_mod n 64 ltac:(lia)) as D.
  pose proof (N.mod_lt n 64 ltac:(lia)) as M.
  assert (Hb : base + 64 < 2 ^ 64) by (unfold base; lia).
  replace (add64 base siphash_block_size) with (base + 64)
    by (unfold add64, siphash_block_size; rewrite w64_small; lia).
  destruct (sip_block_loop_eq v base n Hv Hb ltac:(unfold base; lia) ltac:(unfold base; lia)
              64 0 v 0 eq_refl Hv eq_refl) as (h' & nh' & E & Wf & Eh & En).
  { left. cbn. unfold base. lia. }
  change (N.to_nat siphash_block_size) with 64%nat.
  change (base + N.of_nat 0) with (base + 0) in E. rewrite N.add_0_r in E. rewrite E.
  replace (add64 base siphash_block_mask) with (base + 63)
    by (unfold add64, siphash_block_mask; rewrite w64_small; lia).
  unfold siphash_blocked. fold base.
  replace (n - base) with (n mod 64) in En by (unfold base; lia).
  rewrite sip_sum64_eq, Eh, <- En.
  assert (L1 : digest (absorb (words_of v) base 64) < 2 ^ 64)
    by (rewrite <- Eh, <- sip_sum64_eq; now apply sip_sum64_lt).
  assert (L2 : nh' < 2 ^ 64)
    by (rewrite En; apply absorb_digest_lt; [exact Hv|clear - Hb M; lia]).
  assert (Hiff : n = base + 63 <-> n mod 64 = 63) by (clear - D; unfold base; lia).
  clear E En Eh Wf.
  destruct (N.eqb_spec n (base + 63)) as [He|He];
    destruct (N.eqb_spec (n mod 64) 63) as [Hm|Hm]; try tauto.
  split; [reflexivity|]. now apply lxor_lt.
Qed.

(** Keys derived from a digest are 64-bit words. *)
Lemma sip_keys_wf b : sip_wf (sip_keys b).
Proof.
  assert (H : forall o, unle (slice o 8 b) < 2 ^ 64).
  { intro o. eapply N.lt_le_trans; [apply unle_lt|].
    change (2 ^ 64) with (256 ^ 8). apply N.pow_le_mono_r; [lia|].
    unfold slice. pose proof (firstn_le_length 8 (skipn o b)). lia. }
  repeat split; apply H.
Qed.

(** They are the words of the specification. *)
Lemma unle_little l : unle l = little l.
Proof. induction l as [|a l IH]; cbn [unle little]; [reflexivity|]. now rewrite IH. Qed.
Lemma keys_words b : words_of (sip_keys b) = key_words b.
Proof. unfold words_of, sip_keys, key_words, word_at, slice. cbn [sv0 sv1 sv2 sv3]. now rewrite !unle_little. Qed.
