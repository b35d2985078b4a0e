(** Lemmas about the packing of proof-of-work nonces. *)
From Verif Require Import PowCodec SpecCodec SpecConsensus SipProofs.

(** ** Bits of a byte string *)

Lemma testbit_b2n_high b m : 8 <= m -> N.testbit (b2n b) m = false.
Proof. intro H. apply (testbit_high _ 8); [apply b2n_lt|exact H]. Qed.

Lemma bit_at_cons b l o : bit_at (b :: l) o = if o <? 8 then N.testbit (b2n b) o else bit_at l (o - 8).
Proof.
  unfold bit_at. destruct (N.ltb_spec o 8) as [H|H].
  - rewrite N.div_small, N.mod_small by lia. reflexivity.
  - assert (D : o / 8 = (o - 8) / 8 + 1).
    { replace o with (o - 8 + 1 * 8) at 1 by lia. now rewrite N.div_add by lia. }
    assert (M : o mod 8 = (o - 8) mod 8).
    { replace o with (o - 8 + 1 * 8) at 1 by lia. now rewrite N.mod_add by lia. }
    rewrite D, M. replace (N.to_nat ((o - 8) / 8 + 1)) with (S (N.to_nat ((o - 8) / 8))) by lia.
    reflexivity.
Qed.

Lemma byte_ext a b : (forall m, m < 8 -> N.testbit (b2n a) m = N.testbit (b2n b) m) -> a = b.
Proof.
  intro H. apply b2n_inj, N.bits_inj. intro m. destruct (N.lt_ge_cases m 8) as [Hm|Hm]; [now apply H|].
  now rewrite !testbit_b2n_high by exact Hm.
Qed.

Lemma bytes_bit_ext (l m : bytes) :
  List.length l = List.length m -> (forall o, o < 8 * lenN l -> bit_at l o = bit_at m o) -> l = m.
Proof.
  unfold lenN. revert m; induction l as [|a l IH]; intros [|b m] Hl H; cbn [List.length] in *; try lia; [reflexivity|].
  f_equal.
  - apply byte_ext. intros k Hk. specialize (H k ltac:(lia)). rewrite !bit_at_cons in H.
    now replace (k <? 8) with true in H by (symmetry; apply N.ltb_lt; lia).
  - apply IH; [lia|]. intros o Ho. specialize (H (o + 8) ltac:(lia)). rewrite !bit_at_cons in H.
    replace (o + 8 <? 8) with false in H by (symmetry; apply N.ltb_ge; lia).
    now replace (o + 8 - 8) with o in H by lia.
Qed.

Lemma land_bit_testbit n k : negb (N.land n (N.shiftl 1 k) =? 0) = N.testbit n k.
Proof.
  assert (P : forall m, N.testbit (N.shiftl 1 k) m = (m =? k)).
  { intro m. rewrite N.shiftl_1_l, N.pow2_bits_eqb. apply N.eqb_sym. }
  destruct (N.testbit n k) eqn:E.
  - apply negb_true_iff, N.eqb_neq. intro H. apply (f_equal (fun x => N.testbit x k)) in H.
    rewrite N.land_spec, P, E, N.eqb_refl, N.bits_0 in H. discriminate.
  - apply negb_false_iff, N.eqb_eq. apply N.bits_inj_0. intro m. rewrite N.land_spec, P.
    destruct (N.eqb_spec m k) as [->|]; [now rewrite E|apply andb_false_r].
Qed.

Lemma land_bit32_testbit n k : negb (N.land n (w32 (N.shiftl 1 k)) =? 0) = N.testbit n k && (k <? 32).
Proof.
  unfold w32. change 0xffffffff with (N.ones 32). rewrite N.land_assoc.
  destruct (N.ltb_spec k 32) as [H|H].
  - rewrite andb_true_r, <- land_bit_testbit. f_equal. f_equal.
    apply N.bits_inj. intro m. rewrite !N.land_spec, N.shiftl_1_l, N.pow2_bits_eqb.
    destruct (N.eqb_spec k m) as [<-|]; [rewrite N.ones_spec_low by lia; now rewrite andb_true_r|].
    now rewrite andb_false_r.
  - rewrite andb_false_r. apply negb_false_iff, N.eqb_eq, N.bits_inj_0. intro m.
    rewrite !N.land_spec, N.shiftl_1_l, N.pow2_bits_eqb.
    destruct (N.eqb_spec k m) as [<-|]; [rewrite N.ones_spec_high by lia; apply andb_false_r|].
    now rewrite andb_false_r.
Qed.

Lemma or_at_spec k j bv : (k < List.length bv)%nat -> j < 8 ->
  exists bv', or_at k (N.shiftl 1 j) bv = Ok bv' /\ List.length bv' = List.length bv /\
    forall o, bit_at bv' o = bit_at bv o || (o =? 8 * N.of_nat k + j).
Proof.
  revert k; induction bv as [|b t IH]; intros k Hk Hj; cbn [List.length] in Hk; [lia|].
  destruct k as [|k]; cbn [or_at].
  - eexists. split; [reflexivity|]. split; [reflexivity|]. intro o. rewrite !bit_at_cons.
    destruct (N.ltb_spec o 8) as [Ho|Ho].
    + rewrite b2n_n2b. change 256 with (2 ^ 8). rewrite N.mod_pow2_bits_low by exact Ho.
      rewrite N.lor_spec, N.shiftl_1_l, N.pow2_bits_eqb. f_equal.
      rewrite N.eqb_sym. now replace (8 * N.of_nat 0 + j) with j by lia.
    + replace (o =? 8 * N.of_nat 0 + j) with false by (symmetry; apply N.eqb_neq; lia).
      now rewrite orb_false_r.
  - destruct (IH k ltac:(lia) Hj) as (t' & E & L & Sp). rewrite E. cbn [rmap rbind].
    eexists. split; [reflexivity|]. split; [cbn; lia|]. intro o. rewrite !bit_at_cons.
    destruct (N.ltb_spec o 8) as [Ho|Ho].
    + replace (o =? _) with false by (symmetry; apply N.eqb_neq; lia). now rewrite orb_false_r.
    + rewrite Sp. f_equal. destruct (N.eqb_spec (o - 8) (8 * N.of_nat k + j)), (N.eqb_spec o (8 * N.of_nat (S k) + j));
        try reflexivity; lia.
Qed.

Lemma set_bit_spec off bv : off < 8 * lenN bv ->
  exists bv', set_bit off bv = Ok bv' /\ List.length bv' = List.length bv /\
    forall o, bit_at bv' o = bit_at bv o || (o =? off).
Proof.
  intro H. unfold lenN in H. unfold set_bit.
  pose proof (N.div_mod off 8 ltac:(lia)) as D. pose proof (N.mod_lt off 8 ltac:(lia)) as M.
  destruct (or_at_spec (N.to_nat (off / 8)) (off mod 8) bv) as (bv' & E & L & S); [lia|exact M|].
  exists bv'. split; [exact E|]. split; [exact L|]. intro o. rewrite S. f_equal.
  now replace (8 * N.of_nat (N.to_nat (off / 8)) + off mod 8) with off by lia.
Qed.

Lemma get_bit_spec off bv : off < 8 * lenN bv -> get_bit off bv = Ok (bit_at bv off).
Proof.
  intro H. unfold lenN in H. unfold get_bit, bit_at.
  pose proof (N.div_mod off 8 ltac:(lia)) as D. pose proof (N.mod_lt off 8 ltac:(lia)) as M.
  rewrite (nth_error_nth' bv x00) by lia. now rewrite land_bit_testbit.
Qed.

(** ** Packing *)

Lemma pack_bits_spec k : forall n bits bit nonce bv,
  n * bits + bit + N.of_nat k <= 8 * lenN bv ->
  exists bv', pack_bits k n bits bit nonce bv = Ok bv' /\ List.length bv' = List.length bv /\
    forall o, bit_at bv' o =
      bit_at bv o || ((n * bits + bit <=? o) && (o <? n * bits + bit + N.of_nat k) &&
                      N.testbit nonce (o - n * bits) && (o - n * bits <? 32)).
Proof.
  induction k as [|k IH]; intros n bits bit nonce bv H; cbn [pack_bits].
  - exists bv. split; [reflexivity|]. split; [reflexivity|]. intro o.
    destruct (N.leb_spec (n * bits + bit) o), (N.ltb_spec o (n * bits + bit + N.of_nat 0)); try lia;
      cbn; now rewrite orb_false_r.
  - rewrite land_bit32_testbit.
    set (base := n * bits) in *.
    assert (G : exists bv1, (if N.testbit nonce bit && (bit <? 32) then set_bit (base + bit) bv else @Ok bytes bv) = Ok bv1
       /\ List.length bv1 = List.length bv /\
       forall o, bit_at bv1 o = bit_at bv o || ((o =? base + bit) && (N.testbit nonce bit && (bit <? 32)))).
    { destruct (N.testbit nonce bit && (bit <? 32)).
      - destruct (set_bit_spec (base + bit) bv ltac:(lia)) as (bv1 & E & L & S).
        exists bv1. split; [exact E|]. split; [exact L|]. intro o. now rewrite S, andb_true_r.
      - exists bv. split; [reflexivity|]. split; [reflexivity|]. intro o. now rewrite andb_false_r, orb_false_r. }
    destruct G as (bv1 & E1 & L1 & S1). rewrite E1. cbn [rbind].
    destruct (IH n bits (bit + 1) nonce bv1) as (bv2 & E2 & L2 & S2);
      [fold base; unfold lenN in *; rewrite L1; lia|].
    exists bv2. split; [exact E2|]. split; [now rewrite L2|]. intro o. rewrite S2, S1. fold base.
    rewrite <- orb_assoc. f_equal.
    destruct (N.eqb_spec o (base + bit)) as [->|Hne].
    + replace (base + (bit + 1) <=? base + bit) with false by (symmetry; apply N.leb_gt; lia).
      replace (base + bit <=? base + bit) with true by (symmetry; apply N.leb_le; lia).
      replace (base + bit <? base + bit + N.of_nat (S k)) with true by (symmetry; apply N.ltb_lt; lia).
      replace (base + bit - base) with bit by lia. cbn. now rewrite orb_false_r.
    + cbn [andb orb].
      replace (base + (bit + 1) <=? o) with (base + bit <=? o)
        by (apply eq_true_iff_eq; rewrite !N.leb_le; lia).
      replace (base + (bit + 1) + N.of_nat k) with (base + bit + N.of_nat (S k)) by lia. reflexivity.
Qed.

Lemma pack_nonces_spec bits ns : 0 < bits -> forall n bv,
  (n + lenN ns) * bits <= 8 * lenN bv ->
  exists bv', pack_nonces n bits ns bv = Ok bv' /\ List.length bv' = List.length bv /\
    forall o, bit_at bv' o =
      bit_at bv o || ((n <=? o / bits) && (o / bits <? n + lenN ns) &&
                      N.testbit (nth (N.to_nat (o / bits - n)) ns 0) (o mod bits) && (o mod bits <? 32)).
Proof.
  intro Hb. induction ns as [|a t IH]; intros n bv H; cbn [pack_nonces].
  - exists bv. split; [reflexivity|]. split; [reflexivity|]. intro o.
    change (lenN (@nil N)) with 0.
    destruct (N.leb_spec n (o / bits)), (N.ltb_spec (o / bits) (n + 0)); try lia; cbn; now rewrite orb_false_r.
  - assert (Hlen : lenN (a :: t) = lenN t + 1) by (unfold lenN; cbn [List.length]; lia).
    rewrite Hlen in *.
    destruct (pack_bits_spec (N.to_nat bits) n bits 0 a bv) as (bv1 & E1 & L1 & S1); [nia|].
    rewrite E1. cbn [rbind].
    destruct (IH (n + 1) bv1) as (bv2 & E2 & L2 & S2); [unfold lenN in *; rewrite L1; nia|].
    exists bv2. split; [exact E2|]. split; [now rewrite L2|]. intro o. rewrite S2, S1.
    rewrite <- orb_assoc. f_equal.
    pose proof (N.div_mod o bits ltac:(lia)) as D. pose proof (N.mod_lt o bits ltac:(lia)) as M.
    set (q := o / bits) in *. set (r := o mod bits) in *.
    rewrite N.add_0_r, N2Nat.id.
    destruct (N.lt_trichotomy q n) as [Hq|[Hq|Hq]].
    + replace (n * bits <=? o) with false by (symmetry; apply N.leb_gt; nia).
      replace (n + 1 <=? q) with false by (symmetry; apply N.leb_gt; lia).
      replace (n <=? q) with false by (symmetry; apply N.leb_gt; lia). reflexivity.
    + subst n. replace (q * bits <=? o) with true by (symmetry; apply N.leb_le; nia).
      replace (o <? q * bits + bits) with true by (symmetry; apply N.ltb_lt; nia).
      replace (o - q * bits) with r by nia.
      replace (q + 1 <=? q) with false by (symmetry; apply N.leb_gt; lia).
      replace (q <=? q) with true by (symmetry; apply N.leb_le; lia).
      replace (q <? q + (lenN t + 1)) with true by (symmetry; apply N.ltb_lt; lia).
      rewrite N.sub_diag. cbn. now rewrite orb_false_r.
    + replace (n * bits <=? o) with true by (symmetry; apply N.leb_le; nia).
      replace (o <? n * bits + bits) with false by (symmetry; apply N.ltb_ge; nia).
      replace (n + 1 <=? q) with true by (symmetry; apply N.leb_le; lia).
      replace (n <=? q) with true by (symmetry; apply N.leb_le; lia).
      replace (n + 1 + lenN t) with (n + (lenN t + 1)) by lia.
      replace (N.to_nat (q - n)) with (S (N.to_nat (q - (n + 1)))) by lia. reflexivity.
Qed.

Lemma bit_at_zeros n o : bit_at (brepeat x00 n) o = false.
Proof.
  unfold bit_at, brepeat. assert (H : forall k, nth k (repeat x00 n) x00 = x00).
  { intro k. destruct (Nat.lt_ge_cases k n) as [H|H].
    - now apply nth_repeat.
    - rewrite nth_overflow; [reflexivity|now rewrite repeat_length]. }
  rewrite H. apply N.bits_0.
Qed.

Lemma bitvec_len_ge bits : bits * 42 <= 8 * bitvec_len bits.
Proof.
  unfold bitvec_len, proof_size. change (N.of_nat 42) with 42.
  pose proof (N.div_mod (bits * 42 + 7) 8 ltac:(lia)). pose proof (N.mod_lt (bits * 42 + 7) 8 ltac:(lia)). lia.
Qed.

(** ProofBytes of at most 42 nonces: length and every bit. *)
Lemma proof_bytes_spec p : (List.length (p_nonces p) <= 42)%nat -> 1 <= p_bits p ->
  exists b, proof_bytes p = Ok b /\ lenN b = bitvec_len (p_bits p) /\
    forall o, bit_at b o =
      (o / p_bits p <? lenN (p_nonces p)) &&
      N.testbit (nth (N.to_nat (o / p_bits p)) (p_nonces p) 0) (o mod p_bits p) && (o mod p_bits p <? 32).
Proof.
  intros Hl Hb. unfold proof_bytes. set (z := brepeat x00 _).
  assert (Lz : lenN z = bitvec_len (p_bits p)).
  { unfold lenN, z, brepeat. rewrite repeat_length. lia. }
  pose proof (bitvec_len_ge (p_bits p)).
  destruct (pack_nonces_spec (p_bits p) (p_nonces p) ltac:(lia) 0 z) as (b & E & L & S).
  { rewrite Lz. unfold lenN. nia. }
  exists b. split; [exact E|]. split; [unfold lenN in *; now rewrite L|].
  intro o. rewrite S. unfold z. rewrite bit_at_zeros. cbn [orb].
  replace (0 <=? o / p_bits p) with true by (symmetry; apply N.leb_le, N.le_0_l).
  now rewrite N.add_0_l, N.sub_0_r.
Qed.

(** edgeBits 0: the preimage is empty whatever the nonces. *)
Lemma pack_nonces_zero ns : forall n bv, pack_nonces n 0 ns bv = Ok bv.
Proof. induction ns as [|a t IH]; intros n bv; cbn [pack_nonces]; [reflexivity|]. apply IH. Qed.

Lemma proof_bytes_zero ns : proof_bytes (Proof 0 ns) = Ok [].
Proof. unfold proof_bytes. cbn [p_bits p_nonces]. rewrite pack_nonces_zero. reflexivity. Qed.

(** ** Unpacking *)

Lemma unpack_bits_spec k : forall i bits bit acc bv,
  i * bits + bit + N.of_nat k <= 8 * lenN bv ->
  exists r, unpack_bits k i bits bit acc bv = Ok r /\
    forall b, N.testbit r b = N.testbit acc b ||
      ((bit <=? b) && (b <? bit + N.of_nat k) && (b <? 32) && bit_at bv (i * bits + b)).
Proof.
  induction k as [|k IH]; intros i bits bit acc bv H; cbn [unpack_bits].
  - exists acc. split; [reflexivity|]. intro b.
    destruct (N.leb_spec bit b), (N.ltb_spec b (bit + N.of_nat 0)); try lia; cbn; now rewrite orb_false_r.
  - rewrite get_bit_spec by lia. cbn [rbind].
    set (acc1 := if bit_at bv (i * bits + bit) then _ else acc).
    assert (S1 : forall b, N.testbit acc1 b =
       N.testbit acc b || ((b =? bit) && ((b <? 32) && bit_at bv (i * bits + bit)))).
    { intro b. unfold acc1. destruct (bit_at bv (i * bits + bit)).
      - rewrite N.lor_spec. f_equal. unfold w32. change 0xffffffff with (N.ones 32).
        rewrite N.land_spec, N.shiftl_1_l, N.pow2_bits_eqb, (N.eqb_sym bit b), andb_true_r.
        destruct (N.ltb_spec b 32); [rewrite N.ones_spec_low by lia|rewrite N.ones_spec_high by lia]; reflexivity.
      - now rewrite !andb_false_r, orb_false_r. }
    destruct (IH i bits (bit + 1) acc1 bv ltac:(lia)) as (r & E & S). exists r. split; [exact E|].
    intro b. rewrite S, S1, <- orb_assoc. f_equal.
    destruct (N.eqb_spec b bit) as [->|Hne].
    + replace (bit + 1 <=? bit) with false by (symmetry; apply N.leb_gt; lia).
      replace (bit <=? bit) with true by (symmetry; apply N.leb_le; lia).
      replace (bit <? bit + N.of_nat (Datatypes.S k)) with true by (symmetry; apply N.ltb_lt; lia).
      cbn. now rewrite orb_false_r.
    + cbn [andb orb]. replace (bit + 1 <=? b) with (bit <=? b) by (apply eq_true_iff_eq; rewrite !N.leb_le; lia).
      now replace (bit + 1 + N.of_nat k) with (bit + N.of_nat (Datatypes.S k)) by lia.
Qed.

Lemma unpack_nonces_spec bits bv k : forall i,
  (i + N.of_nat k) * bits <= 8 * lenN bv ->
  exists ns, unpack_nonces k i bits bv = Ok ns /\ List.length ns = k /\
    forall j b, (j < k)%nat -> N.testbit (nth j ns 0) b =
      (b <? bits) && (b <? 32) && bit_at bv ((i + N.of_nat j) * bits + b).
Proof.
  induction k as [|k IH]; intros i H; cbn [unpack_nonces].
  - exists []. split; [reflexivity|]. split; [reflexivity|]. intros; lia.
  - destruct (unpack_bits_spec (N.to_nat bits) i bits 0 0 bv) as (r & E & S); [nia|].
    rewrite E. cbn [rbind].
    destruct (IH (i + 1)) as (ns & E2 & L2 & S2); [nia|]. rewrite E2. cbn [rbind].
    exists (r :: ns). split; [reflexivity|]. split; [cbn; lia|].
    intros j b Hj. destruct j as [|j]; cbn [nth].
    + rewrite S, N.bits_0, N2Nat.id. cbn [orb]. replace (0 <=? b) with true by (symmetry; apply N.leb_le; lia).
      rewrite N.add_0_l. change (N.of_nat 0) with 0. now rewrite N.add_0_r.
    + rewrite S2 by lia. do 2 f_equal. lia.
Qed.

(** Reading: what is accepted, and every bit of every nonce. *)
Lemma proof_read_spec bits bv rest : 1 <= bits <= 64 -> lenN bv = bitvec_len bits ->
  exists ns, proof_read (be 1 bits ++ bv ++ rest) = Ok (Proof bits ns, rest) /\ List.length ns = 42%nat /\
    forall j b, (j < 42)%nat -> N.testbit (nth j ns 0) b =
      (b <? bits) && (b <? 32) && bit_at bv (N.of_nat j * bits + b).
Proof.
  intros Hb Hl. pose proof (bitvec_len_ge bits) as G.
  destruct (unpack_nonces_spec bits bv 42 0) as (ns & E & L & S).
  { rewrite Hl. change (0 + N.of_nat 42) with 42. lia. }
  exists ns. split; [|split; [exact L|]].
  - unfold proof_read. rewrite (pbind_ok _ _ _ bits (bv ++ rest)) by (apply read_be_app; change (256 ^ N.of_nat 1) with 256; lia).
    replace ((bits =? 0) || (64 <? bits)) with false.
    2:{ symmetry. apply orb_false_iff. split; [apply N.eqb_neq|apply N.ltb_ge]; lia. }
    rewrite (pbind_ok _ _ _ bv rest) by (now apply read_full_app').
    unfold pbind, lift. unfold proof_size. rewrite E. reflexivity.
  - intros j b Hj. rewrite S by exact Hj. now rewrite N.add_0_l.
Qed.

Lemma proof_read_inv bs p rest : proof_read bs = Ok (p, rest) ->
  1 <= p_bits p <= 64 /\ exists bv, bs = be 1 (p_bits p) ++ bv ++ rest /\ lenN bv = bitvec_len (p_bits p).
Proof.
  unfold proof_read. intro H. apply pbind_inv in H as (bits & mid & H1 & H).
  apply read_be_inv in H1 as [-> _].
  destruct ((bits =? 0) || (64 <? bits)) eqn:E; [discriminate|].
  apply orb_false_iff in E as [E1 E2]. apply N.eqb_neq in E1. apply N.ltb_ge in E2.
  apply pbind_inv in H as (bv & mid2 & H2 & H). apply read_full_inv in H2 as [-> Hl].
  apply pbind_inv in H as (ns & mid3 & H3 & H). unfold lift in H3.
  destruct (unpack_nonces proof_size 0 bits bv); cbn in H3; try discriminate.
  injection H3 as <- <-. injection H as <- <-. cbn [p_bits]. split; [lia|]. exists bv. auto.
Qed.

(** ** Canonical proofs *)
Definition canonical (p : proof) : Prop :=
  1 <= p_bits p <= 64 /\ List.length (p_nonces p) = 42%nat /\
  Forall (fun n => n < 2 ^ N.min (p_bits p) 32) (p_nonces p).

Lemma proof_roundtrip p rest : canonical p ->
  exists b, proof_enc p = Ok b /\ proof_read (b ++ rest) = Ok (p, rest).
Proof.
  intros (Hb & Hl & Hn). destruct (proof_bytes_spec p ltac:(lia) ltac:(lia)) as (b & E & L & S).
  unfold proof_enc. rewrite E. cbn [rmap rbind]. eexists. split; [reflexivity|].
  rewrite <- app_assoc.
  destruct (proof_read_spec (p_bits p) b rest Hb L) as (ns & R & Ln & Sn). rewrite R.
  f_equal. f_equal. destruct p as [bits nss]. cbn [p_bits p_nonces] in *. f_equal.
  apply (nth_ext _ _ 0 0); [lia|]. intros j Hj. rewrite Ln in Hj. apply N.bits_inj. intro k.
  rewrite Sn by exact Hj. rewrite S.
  assert (Hj' : nth j nss 0 < 2 ^ N.min bits 32).
  { rewrite Forall_forall in Hn. apply Hn, nth_In. lia. }
  destruct (N.ltb_spec k bits) as [K1|K1].
  - assert (Dv : (N.of_nat j * bits + k) / bits = N.of_nat j)
      by (rewrite N.add_comm, N.div_add, N.div_small; lia).
    assert (Mv : (N.of_nat j * bits + k) mod bits = k)
      by (rewrite N.add_comm, N.mod_add, N.mod_small; lia).
    rewrite Dv, Mv, Nat2N.id. unfold lenN. rewrite Hl.
    replace (N.of_nat j <? N.of_nat 42) with true by (symmetry; apply N.ltb_lt; lia).
    cbn [andb]. destruct (N.ltb_spec k 32) as [K2|K2]; cbn [andb]; [now rewrite andb_true_r|].
    symmetry. apply (testbit_high _ _ Hj'). lia.
  - cbn [andb]. symmetry. apply (testbit_high _ _ Hj'). lia.
Qed.

(** Packed nonces determine the proof. *)
Lemma bitvec_len_inj a b : bitvec_len a = bitvec_len b -> a = b.
Proof.
  unfold bitvec_len, proof_size. change (N.of_nat 42) with 42. intro H.
  pose proof (N.div_mod (a * 42 + 7) 8 ltac:(lia)). pose proof (N.mod_lt (a * 42 + 7) 8 ltac:(lia)).
  pose proof (N.div_mod (b * 42 + 7) 8 ltac:(lia)). pose proof (N.mod_lt (b * 42 + 7) 8 ltac:(lia)). lia.
Qed.

Lemma proof_bytes_inj p q : canonical_any p -> canonical_any q ->
  proof_bytes p = proof_bytes q -> p = q.
Proof.
  intros (Pb & Pl & Pn) (Qb & Ql & Qn) E.
  destruct (proof_bytes_spec p ltac:(lia) Pb) as (b & Eb & Lb & Sb).
  destruct (proof_bytes_spec q ltac:(lia) Qb) as (c & Ec & Lc & Sc).
  assert (b = c) by congruence. subst c.
  assert (Hbits : p_bits p = p_bits q) by (apply bitvec_len_inj; congruence).
  destruct p as [pb pn], q as [qb qn]. cbn [p_bits p_nonces] in *. subst qb. f_equal.
  apply (nth_ext _ _ 0 0); [lia|]. intros j Hj. rewrite Pl in Hj. apply N.bits_inj. intro k.
  assert (HP : nth j pn 0 < 2 ^ N.min pb 32) by (rewrite Forall_forall in Pn; apply Pn, nth_In; lia).
  assert (HQ : nth j qn 0 < 2 ^ N.min pb 32) by (rewrite Forall_forall in Qn; apply Qn, nth_In; lia).
  destruct (N.lt_ge_cases k (N.min pb 32)) as [K|K].
  - assert (Dv : (N.of_nat j * pb + k) / pb = N.of_nat j)
      by (rewrite N.add_comm, N.div_add, N.div_small; lia).
    assert (Mv : (N.of_nat j * pb + k) mod pb = k)
      by (rewrite N.add_comm, N.mod_add, N.mod_small; lia).
    pose proof (Sb (N.of_nat j * pb + k)) as B1. pose proof (Sc (N.of_nat j * pb + k)) as B2.
    rewrite Dv, Mv, Nat2N.id in B1, B2. unfold lenN in B1, B2. rewrite Pl in B1. rewrite Ql in B2.
    replace (N.of_nat j <? N.of_nat 42) with true in B1, B2 by (symmetry; apply N.ltb_lt; lia).
    replace (k <? 32) with true in B1, B2 by (symmetry; apply N.ltb_lt; lia).
    cbn [andb] in B1, B2. rewrite andb_true_r in B1, B2. congruence.
  - rewrite (testbit_high _ _ HP), (testbit_high _ _ HQ) by exact K. reflexivity.
Qed.

(** ** Re-serialising what was read *)

Lemma proof_reencode bs p rest : proof_read bs = Ok (p, rest) ->
  exists bv bv', bs = be 1 (p_bits p) ++ bv ++ rest /\ proof_enc p = Ok (be 1 (p_bits p) ++ bv') /\
    List.length bv' = List.length bv /\ canonical p /\
    forall o, o < 8 * lenN bv ->
      bit_at bv' o = bit_at bv o && (o <? 42 * p_bits p) && (o mod p_bits p <? 32).
Proof.
  intro H. destruct (proof_read_inv _ _ _ H) as (Hb & bv & -> & Hl).
  destruct (proof_read_spec (p_bits p) bv rest Hb Hl) as (ns & R & Ln & Sn).
  rewrite H in R. injection R as Hp. destruct p as [bits nss]. cbn [p_bits] in *. injection Hp as ->.
  assert (Hlt : forall j, (j < 42)%nat -> nth j ns 0 < 2 ^ N.min bits 32).
  { intros j Hj. apply lt_pow2_testbit. intros m Hm. rewrite Sn by exact Hj.
    destruct (N.ltb_spec m bits), (N.ltb_spec m 32); try reflexivity; lia. }
  assert (Hc : canonical (Proof bits ns)).
  { split; [exact Hb|]. split; [exact Ln|]. apply Forall_forall. intros n Hn. cbn [p_nonces p_bits] in *.
    apply (In_nth _ _ 0) in Hn as (j & Hj & <-). apply Hlt. lia. }
  destruct (proof_bytes_spec (Proof bits ns)) as (bv' & E & L & S); cbn [p_bits p_nonces] in *; [lia|lia|].
  exists bv, bv'. split; [reflexivity|]. unfold proof_enc. rewrite E. cbn [rmap rbind p_bits].
  split; [reflexivity|]. split; [unfold lenN in *; lia|]. split; [exact Hc|].
  intros o Ho. rewrite S. unfold lenN at 1. rewrite Ln.
  pose proof (N.div_mod o bits ltac:(lia)) as D. pose proof (N.mod_lt o bits ltac:(lia)) as M.
  destruct (N.ltb_spec o (42 * bits)) as [K|K].
  - assert (Q : o / bits < 42) by (apply N.div_lt_upper_bound; lia).
    replace (o / bits <? N.of_nat 42) with true by (symmetry; apply N.ltb_lt; lia).
    rewrite Sn by lia. rewrite N2Nat.id.
    replace (o mod bits <? bits) with true by (symmetry; apply N.ltb_lt; lia).
    replace (o / bits * bits + o mod bits) with o by lia.
    cbn [andb]. rewrite andb_true_r. destruct (o mod bits <? 32), (bit_at bv o); reflexivity.
  - replace (o / bits <? N.of_nat 42) with false.
    + cbn [andb]. now rewrite andb_false_r.
    + symmetry. apply N.ltb_ge. apply N.div_le_lower_bound; lia.
Qed.

Lemma proof_reencode_same bs p rest : proof_read bs = Ok (p, rest) ->
  p_bits p mod 4 = 0 -> p_bits p <= 32 ->
  exists b, proof_enc p = Ok b /\ bs = b ++ rest.
Proof.
  intros H H4 H32. destruct (proof_reencode _ _ _ H) as (bv & bv' & -> & E & L & Hc & S).
  destruct (proof_read_inv _ _ _ H) as (Hb & _).
  exists (be 1 (p_bits p) ++ bv'). split; [exact E|]. rewrite <- app_assoc. f_equal. f_equal.
  symmetry. apply bytes_bit_ext; [exact L|]. intros o Ho.
  assert (Ho' : o < 8 * lenN bv) by (unfold lenN in *; lia).
  rewrite (S o Ho').
  assert (Hlen : 8 * lenN bv = 42 * p_bits p).
  { destruct (proof_read_inv _ _ _ H) as (_ & bv2 & E2 & L2).
    apply app_inv_head in E2. apply app_inv_tail in E2. subst bv2. rewrite L2.
    unfold bitvec_len, proof_size. change (N.of_nat 42) with 42.
    pose proof (N.div_mod (p_bits p) 4 ltac:(lia)) as D. rewrite H4, N.add_0_r in D.
    replace (p_bits p * 42 + 7) with (7 + (21 * (p_bits p / 4)) * 8) by lia.
    rewrite N.div_add, (N.div_small 7) by lia. lia. }
  pose proof (N.mod_lt o (p_bits p) ltac:(lia)).
  replace (o <? 42 * p_bits p) with true by (symmetry; apply N.ltb_lt; lia).
  replace (o mod p_bits p <? 32) with true by (symmetry; apply N.ltb_lt; lia).
  now rewrite !andb_true_r.
Qed.

(** Reading never panics. *)
Lemma unpack_nonces_survives bits bv : lenN bv = bitvec_len bits ->
  survives (unpack_nonces proof_size 0 bits bv).
Proof.
  intro Hl. pose proof (bitvec_len_ge bits) as G.
  destruct (unpack_nonces_spec bits bv 42 0) as (ns & E & _ & _).
  { rewrite Hl. change (0 + N.of_nat 42) with 42. lia. }
  unfold proof_size. rewrite E. split; discriminate.
Qed.

Lemma proof_read_safe : safe proof_read.
Proof.
  apply safe_bind; [apply safe_read_be|]. intro bits.
  destruct ((bits =? 0) || (64 <? bits)); [apply safe_fail|].
  apply safe_bind_inv; [apply safe_read_full|]. intros bs bv r H.
  apply read_full_inv in H as [_ Hl].
  apply safe_bind; [|intro; apply safe_ret]. apply safe_lift. now apply unpack_nonces_survives.
Qed.
