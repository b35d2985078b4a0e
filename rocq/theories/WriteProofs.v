(** Proofs for C108. *)
From Verif Require Import Messages SpecCodec SpecConsensus SpecMessages SpecWrite CodecProofs PowCodecProofs BlockCodecProofs MessageProofs LimitProofs SyncProofs RulesProofs.

Lemma or_at_out k m bv : (List.length bv <= k)%nat -> or_at k m bv = Panic.
Proof.
  revert k; induction bv as [|b t IH]; intros k H; cbn [List.length] in H; [destruct k; reflexivity|].
  destruct k as [|k]; [lia|]. cbn [or_at]. rewrite IH by lia. reflexivity.
Qed.
Lemma set_bit_out off bv : 8 * lenN bv <= off -> set_bit off bv = Panic.
Proof.
  intro H. unfold lenN in H. unfold set_bit. apply or_at_out.
  pose proof (N.div_mod off 8 ltac:(lia)). pose proof (N.mod_lt off 8 ltac:(lia)). lia.
Qed.

(** One nonce. *)
Lemma pack_bits_dec k : forall n bits bit nonce bv,
  (exists bv', pack_bits k n bits bit nonce bv = Ok bv' /\ List.length bv' = List.length bv /\
     forall j, bit <= j < bit + N.of_nat k -> j < 32 -> N.testbit nonce j = true -> n * bits + j < 8 * lenN bv) \/
  (pack_bits k n bits bit nonce bv = Panic /\
     exists j, bit <= j < bit + N.of_nat k /\ j < 32 /\ N.testbit nonce j = true /\ 8 * lenN bv <= n * bits + j).
Proof.
  induction k as [|k IH]; intros n bits bit nonce bv; cbn [pack_bits].
  - left. exists bv. split; [reflexivity|]. split; [reflexivity|]. intros j H. lia.
  - rewrite land_bit32_testbit. destruct (N.testbit nonce bit && (bit <? 32)) eqn:B.
    + apply andb_prop in B as [B1 B2]. apply N.ltb_lt in B2.
      destruct (N.lt_ge_cases (n * bits + bit) (8 * lenN bv)) as [L|L].
      * destruct (set_bit_spec _ _ L) as (bv1 & E1 & L1 & _). rewrite E1. cbn [rbind].
        assert (L2 : lenN bv1 = lenN bv) by (unfold lenN; now rewrite L1).
        destruct (IH n bits (bit + 1) nonce bv1) as [(bv2 & E2 & L3 & H)|(E2 & j & H1 & H2 & H3 & H4)]; rewrite L2 in *.
        -- left. exists bv2. split; [exact E2|]. split; [congruence|]. intros j J1 J2 J3.
           destruct (N.eq_dec j bit) as [->|]; [exact L|]. apply H; [lia|assumption|assumption].
        -- right. split; [exact E2|]. exists j. split; [lia|]. auto.
      * rewrite (set_bit_out _ _ L). cbn [rbind]. right. split; [reflexivity|]. exists bit. split; [lia|]. auto.
    + cbn [rbind]. destruct (IH n bits (bit + 1) nonce bv) as [(bv2 & E2 & L3 & H)|(E2 & j & H1 & H2 & H3 & H4)].
      * left. exists bv2. split; [exact E2|]. split; [exact L3|]. intros j J1 J2 J3.
        destruct (N.eq_dec j bit) as [->|]; [|apply H; [lia|assumption|assumption]].
        rewrite J3 in B. cbn [andb] in B. apply N.ltb_ge in B. lia.
      * right. split; [exact E2|]. exists j. split; [lia|]. auto.
Qed.

Lemma pack_nonces_dec bits ns : forall n bv,
  (exists bv', pack_nonces n bits ns bv = Ok bv' /\ List.length bv' = List.length bv /\
     forall i x j, nth_error ns i = Some x -> j < bits -> j < 32 -> N.testbit x j = true -> (n + N.of_nat i) * bits + j < 8 * lenN bv) \/
  (pack_nonces n bits ns bv = Panic /\
     exists i x j, nth_error ns i = Some x /\ j < bits /\ j < 32 /\ N.testbit x j = true /\ 8 * lenN bv <= (n + N.of_nat i) * bits + j).
Proof.
  induction ns as [|a t IH]; intros n bv; cbn [pack_nonces].
  - left. exists bv. split; [reflexivity|]. split; [reflexivity|]. intros [|i] x j H; discriminate.
  - destruct (pack_bits_dec (N.to_nat bits) n bits 0 a bv) as [(bv1 & E1 & L1 & H)|(E1 & j & H1 & H2 & H3 & H4)]; rewrite E1; cbn [rbind].
    + assert (L2 : lenN bv1 = lenN bv) by (unfold lenN; now rewrite L1).
      destruct (IH (n + 1) bv1) as [(bv2 & E2 & L3 & H')|(E2 & i & x & j & J0 & J1 & J2 & J3 & J4)]; rewrite L2 in *.
      * left. exists bv2. split; [exact E2|]. split; [congruence|]. intros [|i] x j K0 K1 K2 K3; cbn [nth_error] in K0.
        -- injection K0 as <-. replace (n + N.of_nat 0) with n by lia. apply H; [lia|assumption|assumption].
        -- replace (n + N.of_nat (S i)) with (n + 1 + N.of_nat i) by lia. now apply (H' i x).
      * right. split; [exact E2|]. exists (S i), x, j. cbn [nth_error]. repeat (split; [assumption|]).
        replace (n + N.of_nat (S i)) with (n + 1 + N.of_nat i) by lia. exact J4.
    + right. split; [reflexivity|]. exists 0%nat, a, j. split; [reflexivity|]. split; [lia|]. repeat (split; [assumption|]).
      replace (n + N.of_nat 0) with n by lia. exact H4.
Qed.

Lemma bitvec_bytes bits : bitvec_len bits = bytes_for (42 * bits).
Proof. unfold bitvec_len, bytes_for, proof_size. change (N.of_nat 42) with 42. now rewrite N.mul_comm. Qed.

Lemma proof_dec p : (room p /\ exists b, proof_bytes p = Ok b) \/ (~ room p /\ proof_bytes p = Panic).
Proof.
  unfold proof_bytes, room. set (z := brepeat x00 _).
  assert (Lz : lenN z = bytes_for (42 * p_bits p)) by (unfold lenN, z, brepeat; rewrite repeat_length, <- bitvec_bytes; lia).
  rewrite <- Lz. destruct (pack_nonces_dec (p_bits p) (p_nonces p) 0 z) as [(b & E & _ & H)|(E & i & x & j & H0 & H1 & H2 & H3 & H4)].
  - left. split; [|eauto]. intros i n j. rewrite <- (N.add_0_l (N.of_nat i)). apply H.
  - right. split; [|exact E]. intro R. specialize (R i x j H0 H1 H2 H3). rewrite N.add_0_l in H4. lia.
Qed.

Lemma fatal32 l : (List.length l = 32%nat /\ fatal_unless_32 l = Ok tt) \/ (List.length l <> 32%nat /\ fatal_unless_32 l = Fatal).
Proof. unfold fatal_unless_32, block_hash_size, lenN. destruct (N.eqb_spec (N.of_nat (List.length l)) 32); [left|right]; split; auto; lia. Qed.

Lemma header_dec h :
  (header_writable h /\ exists b, header_bytes h = Ok b) \/
  (hashes_sized h /\ ~ room (h_pow h) /\ header_bytes h = Panic) \/
  (~ hashes_sized h /\ header_bytes h = Fatal).
Proof.
  unfold header_writable, hashes_sized, header_bytes, header_bytes_without_pow.
  destruct (fatal32 (h_previous h)) as [[A1 ->]|[A1 ->]]; cbn [rbind];
    [|right; right; split; [intro F; rewrite !Forall_cons_iff in F; tauto|reflexivity]].
  destruct (fatal32 (h_prev_root h)) as [[A2 ->]|[A2 ->]]; cbn [rbind];
    [|right; right; split; [intro F; rewrite !Forall_cons_iff in F; tauto|reflexivity]].
  destruct (fatal32 (h_utxo_root h)) as [[A3 ->]|[A3 ->]]; cbn [rbind];
    [|right; right; split; [intro F; rewrite !Forall_cons_iff in F; tauto|reflexivity]].
  destruct (fatal32 (h_rp_root h)) as [[A4 ->]|[A4 ->]]; cbn [rbind];
    [|right; right; split; [intro F; rewrite !Forall_cons_iff in F; tauto|reflexivity]].
  destruct (fatal32 (h_kernel_root h)) as [[A5 ->]|[A5 ->]]; cbn [rbind];
    [|right; right; split; [intro F; rewrite !Forall_cons_iff in F; tauto|reflexivity]].
  assert (F : Forall (fun x : bytes => List.length x = 32%nat) [h_previous h; h_prev_root h; h_utxo_root h; h_rp_root h; h_kernel_root h])
    by (repeat constructor; assumption).
  unfold proof_enc. destruct (proof_dec (h_pow h)) as [[R [b ->]]|[R ->]]; cbn [rmap rbind]; [left|right; left]; auto.
  split; [split; [exact F|exact R]|eauto].
Qed.

Lemma addr_dec a : (addr_sized a /\ exists b, addr_bytes a = Ok b) \/ (~ addr_sized a /\ addr_bytes a = Fatal).
Proof.
  unfold addr_sized, addr_bytes, to4. destruct (N.eqb_spec (lenN (ip a)) 4) as [L|L].
  - left. split; [left; unfold lenN in L; lia|]. cbv zeta. rewrite L. cbn [N.eqb Pos.eqb rbind]. eexists. reflexivity.
  - destruct (N.eqb_spec (lenN (ip a)) 16) as [M|M]; cbn [andb].
    + left. split; [right; unfold lenN in M; lia|]. destruct (forallb _ _ && forallb _ _) eqn:B.
      * assert (K : lenN (slice 12 4 (ip a)) = 4).
        { unfold slice, lenN in *. rewrite firstn_length, skipn_length. lia. }
        cbv zeta. rewrite K. cbn [N.eqb Pos.eqb rbind]. eexists. reflexivity.
      * cbv zeta. rewrite M. cbn [N.eqb Pos.eqb rbind]. eexists. reflexivity.
    + right. split; [intros [H|H]; unfold lenN in *; lia|]. destruct (N.eqb_spec (lenN (ip a)) 4); [contradiction|].
      destruct (N.eqb_spec (lenN (ip a)) 16); [contradiction|]. reflexivity.
Qed.

Lemma addrs_dec l : (Forall addr_sized l /\ exists b, addrs_bytes l = Ok b) \/ (~ Forall addr_sized l /\ addrs_bytes l = Fatal).
Proof.
  induction l as [|a t IH]; cbn [addrs_bytes]; [left; split; [constructor|eauto]|].
  destruct (addr_dec a) as [[A [b ->]]|[A ->]]; cbn [rbind].
  - destruct IH as [[F [c ->]]|[F ->]]; cbn [rbind]; [left|right].
    + split; [now constructor|eauto].
    + split; [intro K; inversion K; contradiction|reflexivity].
  - right. split; [intro K; inversion K; contradiction|reflexivity].
Qed.

Lemma headers_dec l :
  (Forall header_writable l /\ exists b, headers_concat l = Ok b) \/
  ((exists pre h post, l = pre ++ h :: post /\ Forall header_writable pre /\ hashes_sized h /\ ~ room (h_pow h)) /\ headers_concat l = Panic) \/
  ((exists pre h post, l = pre ++ h :: post /\ Forall header_writable pre /\ ~ hashes_sized h) /\ headers_concat l = Fatal).
Proof.
  induction l as [|a t IH]; cbn [headers_concat]; [left; split; [constructor|eauto]|].
  destruct (header_dec a) as [[A [b ->]]|[[A [B ->]]|[A ->]]]; cbn [rbind].
  - destruct IH as [[F [c ->]]|[[(pre & h & post & -> & F & H) ->]|[(pre & h & post & -> & F & H) ->]]]; cbn [rbind].
    + left. split; [now constructor|eauto].
    + right; left. split; [|reflexivity]. exists (a :: pre), h, post. split; [reflexivity|]. split; [now constructor|exact H].
    + right; right. split; [|reflexivity]. exists (a :: pre), h, post. split; [reflexivity|]. split; [now constructor|exact H].
  - right; left. split; [|reflexivity]. exists [], a, t. split; [reflexivity|]. split; [constructor|]. auto.
  - right; right. split; [|reflexivity]. exists [], a, t. split; [reflexivity|]. split; [constructor|]. auto.
Qed.

(** The first header that cannot be written decides. *)
Lemma first_bad (l pre post pre' post' : list header) h h' : l = pre ++ h :: post -> l = pre' ++ h' :: post' ->
  Forall header_writable pre -> Forall header_writable pre' -> ~ header_writable h -> ~ header_writable h' -> h = h'.
Proof.
  intros -> E F F' B B'. revert pre' E F'. induction pre as [|a pre IH]; intros [|a' pre'] E F'; cbn [app] in E.
  - now injection E.
  - injection E as E _. inversion F'; subst. contradiction.
  - injection E as E _. inversion F; subst. contradiction.
  - injection E as _ E. inversion F; inversion F'; subst. now apply (IH H2 pre').
Qed.
Lemma none_bad (l pre post : list header) h : l = pre ++ h :: post -> Forall header_writable l -> ~ header_writable h -> False.
Proof. intros -> F B. apply Forall_app in F as [_ F]. inversion F; contradiction. Qed.

Section All.
Context (X : Ext).

Ltac no := let K := fresh in intro K; decompose [ex and or] K; try discriminate; try contradiction; congruence.

Lemma of_header (m : message X) h : header_of m = Some h ->
  ((exists g, header_of m = Some g /\ ~ hashes_sized g) <-> ~ hashes_sized h) /\
  ((exists g, header_of m = Some g /\ hashes_sized g /\ ~ room (h_pow g)) <-> hashes_sized h /\ ~ room (h_pow h)).
Proof.
  intros E. rewrite E. split; split.
  - intros (g & G & H). injection G as <-. exact H.
  - intro H. eauto.
  - intros (g & G & H). injection G as <-. exact H.
  - intro H. eauto.
Qed.

Lemma outcomes (m : message X) :
  (msg_bytes X m = Fatal <-> unwritable m) /\ (msg_bytes X m = Panic <-> overflowing m) /\
  (~ unwritable m /\ ~ overflowing m -> exists b, msg_bytes X m = Ok b).
Proof.
  assert (T : forall r : res bytes, ((exists b, r = Ok b) /\ ~ unwritable m /\ ~ overflowing m) \/ (r = Fatal /\ unwritable m /\ ~ overflowing m) \/
                   (r = Panic /\ overflowing m /\ ~ unwritable m) ->
            (r = Fatal <-> unwritable m) /\ (r = Panic <-> overflowing m) /\ (~ unwritable m /\ ~ overflowing m -> exists b, r = Ok b)).
  { intros r [[[b ->] [A B]]|[[-> [A B]]|[-> [A B]]]]; (split; [|split]); try (split; intro K; first [discriminate K|contradiction|exact A|reflexivity]); try (intros [K1 K2]; contradiction).
    intros _. eauto. }
  apply T. clear T.
  destruct m as [e|h|s|p|p|c|l|hs|h|l|h|b|b|t]; cbn [msg_bytes].
  1, 3, 4, 5, 6, 14: left; (split; [eauto|]); cbn; split; no.
  - (* hand *) unfold unwritable, overflowing, hand_bytes. destruct (hd_sender h) as [s|] eqn:ES; [destruct (hd_receiver h) as [r|] eqn:ER|].
    + destruct (addr_dec s) as [[A [b ->]]|[A ->]]; cbn [rbind].
      * destruct (addr_dec r) as [[B [c ->]]|[B ->]]; cbn [rbind].
        -- left. split; [eauto|]. split; [|cbn; no]. intro K. apply K. eauto 8.
        -- right; left. split; [reflexivity|]. split; [|cbn; no]. intros (s' & r' & K1 & K2 & K3 & K4). congruence.
      * right; left. split; [reflexivity|]. split; [|cbn; no]. intros (s' & r' & K1 & K2 & K3 & K4). congruence.
    + right; left. split; [reflexivity|]. split; [|cbn; no]. intros (s' & r' & K1 & K2 & K3 & K4). congruence.
    + right; left. split; [reflexivity|]. split; [|cbn; no]. intros (s' & r' & K1 & K2 & K3 & K4). congruence.
  - (* addresses *) unfold unwritable, overflowing, peer_addrs_bytes, max_peer_addrs. destruct (N.ltb_spec 256 (lenN l)) as [L|L].
    + right; left. split; [reflexivity|]. split; [|cbn; no]. intros [K _]. lia.
    + destruct (addrs_dec l) as [[F [b ->]]|[F ->]]; cbn [rbind].
      * left. split; [eauto|]. split; [|cbn; no]. intro K. apply K. auto.
      * right; left. split; [reflexivity|]. split; [|cbn; no]. intros [_ K]. contradiction.
  - (* locators *) unfold unwritable, overflowing, locator_bytes, max_locators. destruct (N.ltb_spec 14 (lenN hs)) as [L|L].
    + right; left. split; [reflexivity|]. split; [exact L|cbn; no].
    + left. split; [eauto|]. split; [lia|cbn; no].
  - (* header *) destruct (of_header (MHeader h) h eq_refl) as [U O].
    change (unwritable (MHeader h)) with (exists g, header_of (X := X) (MHeader h) = Some g /\ ~ hashes_sized g).
    change (overflowing (MHeader h)) with (exists g, header_of (X := X) (MHeader h) = Some g /\ hashes_sized g /\ ~ room (h_pow g)).
    rewrite U, O. unfold header_writable in *. destruct (header_dec h) as [[[A1 A2] [b ->]]|[[A [B ->]]|[A ->]]]; [left|right; right|right; left]; (split; [eauto|tauto]).
  - (* headers *) unfold unwritable, overflowing, headers_bytes, max_block_headers. destruct (N.ltb_spec 512 (lenN l)) as [L|L].
    + right; left. split; [reflexivity|]. split; [left; exact L|]. intros [K _]. lia.
    + destruct (headers_dec l) as [[F [b ->]]|[[H ->]|[H ->]]]; cbn [rbind].
      * left. split; [eauto|]. split.
        -- intros [K|(pre & h & post & E & _ & B)]; [lia|]. apply (none_bad _ _ _ _ E F). intros [K _]. contradiction.
        -- intros [_ (pre & h & post & E & _ & _ & B)]. apply (none_bad _ _ _ _ E F). intros [_ K]. contradiction.
      * right; right. split; [reflexivity|]. split; [auto|].
        destruct H as (pre & h & post & E & F & A & B). intros [K|(pre' & h' & post' & E' & F' & B')]; [lia|].
        assert (h = h'); [|subst; contradiction]. apply (first_bad _ _ _ _ _ _ _ E E' F F'); intros [K1 K2]; contradiction.
      * right; left. split; [reflexivity|]. split; [auto|].
        destruct H as (pre & h & post & E & F & B). intros [_ (pre' & h' & post' & E' & F' & A' & B')].
        assert (h = h'); [|subst; contradiction]. apply (first_bad _ _ _ _ _ _ _ E E' F F'); intros [K1 K2]; contradiction.
  - (* get block *) unfold unwritable, overflowing, get_block_bytes, block_hash_size, lenN. destruct (N.eqb_spec (N.of_nat (List.length h)) 32) as [L|L].
    + left. split; [eauto|]. split; [lia|cbn; no].
    + right; left. split; [reflexivity|]. split; [lia|cbn; no].
  - (* block *) destruct (of_header (MBlock b) (b_header b) eq_refl) as [U O].
    change (unwritable (MBlock b)) with (exists g, header_of (MBlock b) = Some g /\ ~ hashes_sized g).
    change (overflowing (MBlock b)) with (exists g, header_of (MBlock b) = Some g /\ hashes_sized g /\ ~ room (h_pow g)).
    rewrite U, O. unfold block_bytes, header_writable in *.
    destruct (header_dec (b_header b)) as [[[A1 A2] [c ->]]|[[A [B ->]]|[A ->]]]; cbn [rbind rmap]; [left|right; right|right; left]; (split; [eauto|tauto]).
  - (* compact *) destruct (of_header (MCompact b) (cb_header b) eq_refl) as [U O].
    change (unwritable (MCompact b)) with (exists g, header_of (MCompact b) = Some g /\ ~ hashes_sized g).
    change (overflowing (MCompact b)) with (exists g, header_of (MCompact b) = Some g /\ hashes_sized g /\ ~ room (h_pow g)).
    rewrite U, O. unfold compact_bytes, header_writable in *.
    destruct (header_dec (cb_header b)) as [[[A1 A2] [c ->]]|[[A [B ->]]|[A ->]]]; cbn [rbind rmap]; [left|right; right|right; left]; (split; [eauto|tauto]).
Qed.

(** ** What was read can be written *)
Lemma canonical_room p : List.length (p_nonces p) = 42%nat -> room p.
Proof.
  intros L i n j H1 H2 _ _. assert (K : (i < 42)%nat) by (rewrite <- L; apply nth_error_Some; congruence).
  rewrite <- bitvec_bytes. pose proof (bitvec_len_ge (p_bits p)). nia.
Qed.
Lemma wf_writable h : header_wf h -> header_writable h.
Proof.
  intros (_ & (S1 & S2 & S3 & S4 & S5 & _) & (_ & L & _)). split; [repeat constructor; assumption|now apply canonical_room].
Qed.
Lemma read_writable bs h rest : header_read bs = Ok (h, rest) -> header_writable h.
Proof. intro H. apply header_read_inv in H as [W _]. now apply wf_writable. Qed.
Lemma addr_read_sized lenient bs a rest : addr_read lenient bs = Ok (a, rest) -> addr_sized a.
Proof.
  unfold addr_read. intro H. apply pbind_inv in H as (f & m1 & _ & H). apply pbind_inv in H as (i & m2 & R & H).
  apply pbind_inv in H as (p & m3 & _ & H). apply Ok_inj in H. injection H as <- _. unfold addr_sized. cbn [ip].
  destruct (f =? 0).
  - left. apply read_full_inv in R as [_ L]. unfold lenN in L. lia.
  - destruct (f =? 1); [|discriminate R]. right.
    apply pbind_inv in R as (? & ? & _ & R). apply pbind_inv in R as (? & ? & _ & R).
    apply pbind_inv in R as (? & ? & _ & R). apply pbind_inv in R as (? & ? & _ & R). apply Ok_inj in R. injection R as <- _. reflexivity.
Qed.

Lemma read_sent lenient t bs (m : message X) rest : msg_read X lenient t bs = Ok (m, rest) -> exists b, msg_bytes X m = Ok b.
Proof.
  intro H. apply (proj2 (proj2 (outcomes m))). unfold msg_read in H.
  repeat match type of H with context [if ?c then _ else _] => destruct c end;
    apply pbind_inv in H as (v & mid & R & H); apply Ok_inj in H; injection H as <- _; cbn [unwritable overflowing header_of].
  all: try (split; intro K; decompose [ex and or] K; discriminate).
  - (* hand *) split; [|intro K; decompose [ex and or] K; discriminate]. intro K. apply K.
    unfold hand_read in R. apply pbind_inv in R as (v0 & ? & _ & R). destruct (negb _); [discriminate R|].
    apply pbind_inv in R as (? & ? & _ & R). apply pbind_inv in R as (? & ? & _ & R). apply pbind_inv in R as (? & ? & _ & R).
    apply pbind_inv in R as (s & ? & Rs & R). apply pbind_inv in R as (r & ? & Rr & R).
    apply pbind_inv in R as (? & ? & _ & R). apply pbind_inv in R as (? & ? & _ & R). apply Ok_inj in R. injection R as <- _.
    exists s, r. split; [reflexivity|]. split; [reflexivity|]. split; eapply addr_read_sized; eassumption.
  - (* addresses *) split; [|intro K; decompose [ex and or] K; discriminate]. intro K. apply K.
    unfold peer_addrs_read, max_peer_addrs in R. apply pbind_inv in R as (n & ? & _ & R). destruct (N.ltb_spec 256 n); [discriminate R|].
    split; [apply read_n_lenN in R; lia|]. eapply read_n_forall; [|exact R]. intros b a r. apply addr_read_sized.
  - (* locators *) split; [|intro K; decompose [ex and or] K; discriminate].
    unfold locator_read, max_locators in R. apply pbind_inv in R as (n & ? & _ & R). destruct (N.ltb_spec 14 n); [discriminate R|].
    apply read_n_lenN in R. lia.
  - (* header *) apply read_writable in R as [A B]. split; [intros (g & G & K)|intros (g & G & _ & K)]; injection G as <-; contradiction.
  - (* headers *) unfold headers_read, max_block_headers in R. apply pbind_inv in R as (n & ? & _ & R). destruct (N.ltb_spec 512 n); [discriminate R|].
    assert (F : Forall header_writable v) by (eapply read_n_forall; [|exact R]; intros b a r; apply read_writable).
    apply read_n_lenN in R. split.
    + intros [K|(pre & h & post & E & _ & B)]; [lia|]. apply (none_bad _ _ _ _ E F). intros [K _]. contradiction.
    + intros [_ (pre & h & post & E & _ & _ & B)]. apply (none_bad _ _ _ _ E F). intros [_ K]. contradiction.
  - (* get block *) split; [|intro K; decompose [ex and or] K; discriminate].
    apply read_full_inv in R as [_ L]. unfold block_hash_size, lenN in L. lia.
  - (* block *) unfold block_read in R. apply pbind_inv in R as (h & ? & Rh & R). apply read_writable in Rh as [A B].
    apply pbind_inv in R as (? & ? & _ & R). apply pbind_inv in R as (? & ? & _ & R). apply pbind_inv in R as (? & ? & _ & R).
    repeat match type of R with context [if ?c then _ else _] => destruct c; [discriminate R|] end.
    apply pbind_inv in R as ([[? ?] ?] & ? & _ & R).
    repeat match type of R with context [if ?c then _ else _] => destruct c; try discriminate R end.
    apply Ok_inj in R. injection R as <- _. cbn [b_header].
    split; [intros (g & G & K)|intros (g & G & _ & K)]; injection G as <-; contradiction.
  - (* compact *) unfold compact_read in R. apply pbind_inv in R as (h & ? & Rh & R). apply read_writable in Rh as [A B].
    apply pbind_inv in R as (? & ? & _ & R). apply pbind_inv in R as (? & ? & _ & R). apply pbind_inv in R as (? & ? & _ & R).
    apply pbind_inv in R as (? & ? & _ & R). apply pbind_inv in R as (? & ? & _ & R). apply pbind_inv in R as (? & ? & _ & R).
    apply pbind_inv in R as (? & ? & _ & R). apply Ok_inj in R. injection R as <- _. cbn [cb_header].
    split; [intros (g & G & K)|intros (g & G & _ & K)]; injection G as <-; contradiction.
Qed.

(** On the connection. *)
Lemma written (m : message X) :
  (write_message X m = Fatal <-> unwritable m) /\ (write_message X m = Panic <-> overflowing m) /\
  (~ unwritable m /\ ~ overflowing m -> exists fr k, write_message X m = Ok (fr, k)).
Proof.
  destruct (outcomes m) as (A & B & C). unfold write_message. split; [rewrite <- A|split; [rewrite <- B|]].
  - destruct (msg_bytes X m); cbn [rbind]; split; intro K; (reflexivity || discriminate K).
  - destruct (msg_bytes X m); cbn [rbind]; split; intro K; (reflexivity || discriminate K).
  - intro K. destruct (C K) as (b & ->). cbn [rbind]. eauto.
Qed.
End All.
