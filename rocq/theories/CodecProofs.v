(** Lemmas about the wire formats of consensus objects. *)
From Coq Require Import Permutation Sorted.
From Verif Require Import Consensus SpecCodec SpecConsensus SipProofs PowCodecProofs.

Lemma Ok_inj {A} (a b : A) : Ok a = Ok b -> a = b.
Proof. congruence. Qed.

(** One step of a reader whose front is known. *)
Lemma step {A B} (p : reader A) (f : A -> reader B) bs a rest r :
  p bs = Ok (a, rest) -> f a rest = r -> pbind p f bs = r.
Proof. intros H <-. now apply pbind_ok. Qed.

Lemma read_full_32 l rest : List.length l = 32%nat -> read_full 32 (l ++ rest) = Ok (l, rest).
Proof. intro H. apply read_full_app'. unfold lenN. now rewrite H. Qed.

Lemma fatal_unless_ok l : List.length l = 32%nat -> fatal_unless_32 l = Ok tt.
Proof. intro H. unfold fatal_unless_32, lenN. now rewrite H. Qed.

(** ** Headers *)

Lemma header_bwp_ok h : header_sized h -> header_bytes_without_pow h = Ok
     (be 2 (h_version h) ++ be 8 (h_height h) ++ be 8 (u64_of_i64 (time_to_unix (h_time h))) ++
      h_previous h ++ h_prev_root h ++ h_utxo_root h ++ h_rp_root h ++ h_kernel_root h ++
      h_offset h ++ be 8 (h_output_mmr h) ++ be 8 (h_kernel_mmr h) ++
      be 8 (h_total_difficulty h) ++ be 4 (h_scaling h) ++ be 8 (h_nonce h)).
Proof.
  intros (H1 & H2 & H3 & H4 & H5 & _). unfold header_bytes_without_pow.
  now rewrite (fatal_unless_ok _ H1), (fatal_unless_ok _ H2), (fatal_unless_ok _ H3), (fatal_unless_ok _ H4),
    (fatal_unless_ok _ H5).
Qed.

Lemma time_wire t : time_wf t -> time_unix (time_to_unix t) = GoTime (t_sec t) 0.
Proof.
  intros [Hs Hn]. change (time_to_unix t) with (time_to_unix (GoTime (t_sec t) 0)).
  apply time_unix_to_unix; [split; cbn; [exact Hs|lia]|reflexivity].
Qed.

(** Reading the fields in front of the proof of work. *)
Lemma header_read_front h front rest p rest' :
  header_typed h -> header_sized h -> header_bytes_without_pow h = Ok front ->
  proof_read rest = Ok (p, rest') ->
  header_read (front ++ rest) =
    Ok (Header (h_version h) (h_height h) (h_previous h) (h_prev_root h) (GoTime (t_sec (h_time h)) 0)
         (h_utxo_root h) (h_rp_root h) (h_kernel_root h) (h_nonce h) (h_offset h) []
         (h_output_mmr h) (h_kernel_mmr h) p 0 (h_total_difficulty h) (h_scaling h), rest').
Proof.
  intros (T1 & T2 & T3 & T4 & T5 & T6 & T7 & T8 & _) S E Hp.
  rewrite (header_bwp_ok h S) in E. apply Ok_inj in E. subst front.
  destruct S as (S1 & S2 & S3 & S4 & S5 & S6).
  rewrite <- !app_assoc. unfold header_read, block_hash_size, secret_key_size.
  eapply step; [apply (read_be_app 2); exact T1|].
  eapply step; [apply (read_be_app 8); exact T2|].
  eapply step; [apply read_i64_app; apply wrap64_range|].
  eapply step; [apply read_full_32; exact S1|].
  eapply step; [apply read_full_32; exact S2|].
  eapply step; [apply read_full_32; exact S3|].
  eapply step; [apply read_full_32; exact S4|].
  eapply step; [apply read_full_32; exact S5|].
  eapply step; [apply read_full_32; exact S6|].
  eapply step; [apply (read_be_app 8); exact T5|].
  eapply step; [apply (read_be_app 8); exact T6|].
  eapply step; [apply (read_be_app 8); exact T7|].
  eapply step; [apply (read_be_app 4); exact T8|].
  eapply step; [apply (read_be_app 8); exact T4|].
  eapply step; [exact Hp|]. unfold rret. now rewrite (time_wire _ T3).
Qed.

Lemma header_roundtrip h rest : header_wf h ->
  exists b, header_bytes h = Ok b /\ header_read (b ++ rest) = Ok (wire_view h, rest).
Proof.
  intros (T & S & C). destruct (proof_roundtrip (h_pow h) rest C) as (pb & E & R).
  unfold header_bytes. rewrite (header_bwp_ok h S). cbn [rbind]. rewrite E. cbn [rbind].
  eexists. split; [reflexivity|]. rewrite <- app_assoc.
  eapply header_read_front; [exact T|exact S|apply header_bwp_ok, S|exact R].
Qed.

(** ** Layout *)

Lemma field_skip off len (a b : bytes) : (List.length a <= off)%nat ->
  field off len (a ++ b) = field (off - List.length a) len b.
Proof. intro H. unfold field. rewrite skipn_app, skipn_all2 by exact H. reflexivity. Qed.

Lemma skipn_skip off (a b : bytes) : (List.length a <= off)%nat -> skipn off (a ++ b) = skipn (off - List.length a) b.
Proof. intro H. rewrite skipn_app, skipn_all2 by exact H. reflexivity. Qed.

Lemma field_here n (a b : bytes) : List.length a = n -> field 0 n (a ++ b) = a.
Proof. intros <-. unfold field. cbn [skipn]. now rewrite firstn_app, firstn_all, Nat.sub_diag, app_nil_r. Qed.

Lemma proof_bytes_layout p : is_u8 (p_bits p) -> Forall is_u32 (p_nonces p) -> List.length (p_nonces p) = 42%nat ->
  exists b, proof_bytes p = Ok b /\ lenN b = bytes_for (42 * p_bits p) /\
    forall i j, (i < 42)%nat -> j < p_bits p ->
      bit_at b (N.of_nat i * p_bits p + j) = N.testbit (nth i (p_nonces p) 0) j.
Proof.
  intros _ Hn Hl. destruct (N.eq_dec (p_bits p) 0) as [Hz|Hz].
  - destruct p as [bits ns]. cbn [p_bits p_nonces] in *. subst bits. exists [].
    split; [apply proof_bytes_zero|]. split; [reflexivity|]. intros; lia.
  - destruct (proof_bytes_spec p ltac:(lia) ltac:(lia)) as (b & E & L & Sp). exists b. split; [exact E|]. split.
    + rewrite L. unfold bitvec_len, bytes_for, proof_size. change (N.of_nat 42) with 42. f_equal. lia.
    + intros i j Hi Hj. rewrite Sp.
      assert (Dv : (N.of_nat i * p_bits p + j) / p_bits p = N.of_nat i)
        by (rewrite N.add_comm, N.div_add, N.div_small; lia).
      assert (Mv : (N.of_nat i * p_bits p + j) mod p_bits p = j)
        by (rewrite N.add_comm, N.mod_add, N.mod_small; lia).
      rewrite Dv, Mv, Nat2N.id. unfold lenN. rewrite Hl.
      replace (N.of_nat i <? N.of_nat 42) with true by (symmetry; apply N.ltb_lt; lia). cbn [andb].
      destruct (N.ltb_spec j 32) as [J|J]; [apply andb_true_r|]. rewrite andb_false_r. symmetry.
      apply (testbit_high _ 32); [|exact J]. rewrite Forall_forall in Hn. apply Hn, nth_In. lia.
Qed.

Lemma header_layout_ok h : header_typed h -> header_sized h -> List.length (p_nonces (h_pow h)) = 42%nat ->
  exists b, header_bytes h = Ok b /\ header_layout h b.
Proof.
  intros T S Hl.
  destruct T as (T1 & T2 & T3 & T4 & T5 & T6 & T7 & T8 & T9 & T10).
  destruct (proof_bytes_layout (h_pow h) T9 T10 Hl) as (pb & E & L & Sp).
  unfold header_bytes. rewrite (header_bwp_ok h S). cbn [rbind]. unfold proof_enc. rewrite E. cbn [rmap rbind].
  eexists. split; [reflexivity|].
  destruct S as (S1 & S2 & S3 & S4 & S5 & S6). rewrite <- !app_assoc. unfold header_layout.
  assert (LL : forall k n, List.length (be k n) = k) by (intros; apply be_length).
  Ltac lens := rewrite ?be_length; repeat match goal with H : List.length ?l = 32%nat |- context [List.length ?l] => rewrite H end.
  Ltac at_field := repeat (rewrite field_skip by (lens; lia));
    match goal with |- context [field ?o _ _] => replace o with 0%nat by (lens; reflexivity) end;
    first [rewrite field_here by (lens; reflexivity) | unfold field; cbn [skipn]; rewrite firstn_all2 by (lens; lia)].
  split.
  { unfold lenN in *. rewrite !app_length. lens. lia. }
  split; [at_field; apply unbe_be; exact T1|].
  split; [at_field; apply unbe_be; exact T2|].
  split.
  { at_field. rewrite unbe_be by apply u64_of_i64_lt. unfold u64_of_i64, time_to_unix, unix_to_internal.
    pose proof (Z.mod_pos_bound (wrap64 (t_sec (h_time h) - 62135596800)) (2 ^ 64) ltac:(lia)).
    rewrite Z2N.id by lia. unfold wrap64.
    rewrite Zminus_mod, Z.mod_mod, <- Zminus_mod by lia. f_equal. lia. }
  split; [at_field; reflexivity|].
  split; [at_field; reflexivity|].
  split; [at_field; reflexivity|].
  split; [at_field; reflexivity|].
  split; [at_field; reflexivity|].
  split; [at_field; reflexivity|].
  split; [at_field; apply unbe_be; exact T5|].
  split; [at_field; apply unbe_be; exact T6|].
  split; [at_field; apply unbe_be; exact T7|].
  split; [at_field; apply unbe_be; exact T8|].
  split; [at_field; apply unbe_be; exact T4|].
  split; [at_field; apply unbe_be; exact T9|].
  repeat (rewrite skipn_skip by (lens; lia)).
  match goal with |- context [skipn ?o pb] => replace o with 0%nat by (lens; reflexivity) end.
  exact Sp.
Qed.

(** ** What an accepted header looks like *)

Lemma read_full_inv32 bs l rest : read_full 32 bs = Ok (l, rest) -> bs = l ++ rest /\ List.length l = 32%nat.
Proof. intro H. apply read_full_inv in H as [-> H]. split; [reflexivity|]. unfold lenN in H. lia. Qed.

Lemma unix_wire ts : is_i64 ts -> time_to_unix (time_unix ts) = ts /\ time_wf (time_unix ts).
Proof. intro H. split; [now apply time_to_unix_unix|apply time_unix_wf]. Qed.

Lemma header_read_inv bs h rest : header_read bs = Ok (h, rest) ->
  header_wf h /\ wire_view h = h /\
  exists front mid, header_bytes_without_pow h = Ok front /\ bs = front ++ mid /\
    proof_read mid = Ok (h_pow h, rest).
Proof.
  unfold header_read, block_hash_size, secret_key_size. intro H.
  apply pbind_inv in H as (version & m1 & R1 & H). apply read_be_inv in R1 as [-> T1].
  apply pbind_inv in H as (height & m2 & R2 & H). apply read_be_inv in R2 as [-> T2].
  apply pbind_inv in H as (ts & m3 & R3 & H). apply read_i64_inv in R3 as [-> T3].
  apply pbind_inv in H as (prev & m4 & R4 & H). apply read_full_inv32 in R4 as [-> S1].
  apply pbind_inv in H as (prt & m5 & R5 & H). apply read_full_inv32 in R5 as [-> S2].
  apply pbind_inv in H as (utxo & m6 & R6 & H). apply read_full_inv32 in R6 as [-> S3].
  apply pbind_inv in H as (rp & m7 & R7 & H). apply read_full_inv32 in R7 as [-> S4].
  apply pbind_inv in H as (kr & m8 & R8 & H). apply read_full_inv32 in R8 as [-> S5].
  apply pbind_inv in H as (off & m9 & R9 & H). apply read_full_inv32 in R9 as [-> S6].
  apply pbind_inv in H as (om & m10 & R10 & H). apply read_be_inv in R10 as [-> T5].
  apply pbind_inv in H as (km & m11 & R11 & H). apply read_be_inv in R11 as [-> T6].
  apply pbind_inv in H as (td & m12 & R12 & H). apply read_be_inv in R12 as [-> T7].
  apply pbind_inv in H as (sc & m13 & R13 & H). apply read_be_inv in R13 as [-> T8].
  apply pbind_inv in H as (nonce & m14 & R14 & H). apply read_be_inv in R14 as [-> T4].
  apply pbind_inv in H as (pow & m15 & R15 & H).
  destruct (proof_reencode _ _ _ R15) as (bv & bv' & _ & _ & _ & C & _).
  unfold rret in H. apply Ok_inj in H.
  assert (Hh : h = Header version height prev prt (time_unix ts) utxo rp kr nonce off [] om km pow 0 td sc)
    by congruence.
  assert (Hr : rest = m15) by congruence. subst h rest. clear H.
  destruct (unix_wire ts T3) as [U1 U2].
  assert (S : header_sized (Header version height prev prt (time_unix ts) utxo rp kr nonce off [] om km pow 0 td sc))
    by (repeat split; assumption).
  split; [|split].
  - split; [|split; [exact S|exact C]]. destruct C as (C1 & C2 & C3).
    unfold header_typed. cbn [h_version h_height h_time h_nonce h_output_mmr h_kernel_mmr h_total_difficulty h_scaling h_pow].
    repeat (split; [assumption|]). split; [unfold is_u8; lia|].
    eapply Forall_impl; [|exact C3]. cbn beta. intros a Ha. unfold is_u32.
    eapply N.lt_le_trans; [exact Ha|]. apply N.pow_le_mono_r; lia.
  - unfold wire_view. cbn. reflexivity.
  - rewrite (header_bwp_ok _ S).
    cbn [h_version h_height h_time h_nonce h_output_mmr h_kernel_mmr h_total_difficulty h_scaling h_pow
         h_previous h_prev_root h_utxo_root h_rp_root h_kernel_root h_offset].
    rewrite U1. eexists. exists m14. split; [reflexivity|]. split; [|exact R15]. now rewrite <- !app_assoc.
Qed.

Lemma header_bytes_front h front : header_bytes_without_pow h = Ok front -> header_sized h -> List.length front = 246%nat.
Proof.
  intros E S. rewrite (header_bwp_ok h S) in E. apply Ok_inj in E. subst front.
  destruct S as (S1 & S2 & S3 & S4 & S5 & S6). rewrite !app_length, !be_length, S1, S2, S3, S4, S5, S6. reflexivity.
Qed.

(** Re-serialising an accepted header: the first 247 bytes are the same; after them, bits beyond
    the 42 nonces and bits from 32 on of each nonce are cleared, the others are the same. *)
Lemma header_reencode bs h rest : header_read bs = Ok (h, rest) ->
  exists front packed packed', bs = front ++ packed ++ rest /\ header_bytes h = Ok (front ++ packed') /\
    List.length front = 247%nat /\ lenN packed = bytes_for (42 * p_bits (h_pow h)) /\
    List.length packed' = List.length packed /\
    forall o, o < 8 * lenN packed ->
      bit_at packed' o = bit_at packed o && (o <? 42 * p_bits (h_pow h)) && (o mod p_bits (h_pow h) <? 32).
Proof.
  intro H. destruct (header_read_inv _ _ _ H) as ((T & S & C) & _ & front & mid & E & -> & R).
  destruct (proof_reencode _ _ _ R) as (bv & bv' & -> & E' & L & _ & Sp).
  exists (front ++ be 1 (p_bits (h_pow h))), bv, bv'. split; [now rewrite <- !app_assoc|].
  split; [|split; [|split; [|split; [exact L|exact Sp]]]].
  - unfold header_bytes. rewrite E. cbn [rbind]. rewrite E'. cbn [rbind]. now rewrite <- app_assoc.
  - rewrite app_length, be_length, (header_bytes_front h front E S). reflexivity.
  - destruct (proof_read_inv _ _ _ R) as (_ & bv2 & Eb & Lb).
    apply app_inv_head in Eb. apply app_inv_tail in Eb. subst bv2. rewrite Lb.
    unfold bitvec_len, bytes_for, proof_size. change (N.of_nat 42) with 42. f_equal. lia.
Qed.

Lemma header_reencode_same bs h rest : header_read bs = Ok (h, rest) ->
  p_bits (h_pow h) mod 4 = 0 -> p_bits (h_pow h) <= 32 ->
  exists b, header_bytes h = Ok b /\ bs = b ++ rest.
Proof.
  intros H H4 H32. destruct (header_read_inv _ _ _ H) as ((T & S & C) & _ & front & mid & E & -> & R).
  destruct (proof_reencode_same _ _ _ R H4 H32) as (b & E' & ->).
  exists (front ++ b). split; [|now rewrite <- app_assoc].
  unfold header_bytes. rewrite E. cbn [rbind]. now rewrite E'.
Qed.

(** ** Every header whose proof has slack has two encodings *)

Lemma bit_at_app_front o (a b : bytes) : o < 8 * lenN a -> bit_at (a ++ b) o = bit_at a o.
Proof.
  intro H. unfold bit_at, lenN in *. rewrite app_nth1; [reflexivity|].
  pose proof (N.div_mod o 8 ltac:(lia)). pose proof (N.mod_lt o 8 ltac:(lia)). lia.
Qed.

Lemma proof_two_encodings p rest : canonical p -> p_bits p mod 4 <> 0 \/ 32 < p_bits p ->
  exists b1 b2, b1 <> b2 /\ List.length b1 = List.length b2 /\
    proof_read (b1 ++ rest) = Ok (p, rest) /\ proof_read (b2 ++ rest) = Ok (p, rest).
Proof.
  intros C Hs. pose proof C as (Hb & Hl & Hn).
  destruct (proof_bytes_spec p ltac:(lia) ltac:(lia)) as (b & E & L & Sp).
  (* a bit that is never read *)
  assert (F : exists f, f < 8 * lenN b /\ (42 * p_bits p <= f \/ 32 <= f mod p_bits p)).
  { destruct Hs as [Hs|Hs].
    - exists (42 * p_bits p). split; [|left; lia]. rewrite L. unfold bitvec_len, proof_size. change (N.of_nat 42) with 42.
      pose proof (N.div_mod (p_bits p) 4 ltac:(lia)) as D. pose proof (N.mod_lt (p_bits p) 4 ltac:(lia)) as M.
      pose proof (N.div_mod (p_bits p * 42 + 7) 8 ltac:(lia)) as D2.
      pose proof (N.mod_lt (p_bits p * 42 + 7) 8 ltac:(lia)) as M2. lia.
    - exists 32. split; [|right; rewrite N.mod_small; lia].
      rewrite L. pose proof (bitvec_len_ge (p_bits p)). lia. }
  destruct F as (f & Hf & Hfree).
  destruct (set_bit_spec f b Hf) as (b' & E' & L' & Sp').
  assert (Hclear : bit_at b f = false).
  { rewrite Sp. pose proof (N.div_mod f (p_bits p) ltac:(lia)). pose proof (N.mod_lt f (p_bits p) ltac:(lia)).
    destruct Hfree as [K|K].
    - replace (f / p_bits p <? lenN (p_nonces p)) with false; [reflexivity|].
      symmetry. apply N.ltb_ge. unfold lenN. rewrite Hl. apply N.div_le_lower_bound; lia.
    - replace (f mod p_bits p <? 32) with false by (symmetry; apply N.ltb_ge; lia). apply andb_false_r. }
  exists (be 1 (p_bits p) ++ b), (be 1 (p_bits p) ++ b').
  split; [|split; [|split]].
  - intro A. apply app_inv_head in A. subst b'. specialize (Sp' f). rewrite Hclear, N.eqb_refl in Sp'. discriminate.
  - rewrite !app_length. now rewrite L'.
  - destruct (proof_roundtrip p rest C) as (e & Ee & Re). unfold proof_enc in Ee. rewrite E in Ee. cbn [rmap rbind p_bits] in Ee.
    apply Ok_inj in Ee. subst e. exact Re.
  - rewrite <- app_assoc.
    destruct (proof_read_spec (p_bits p) b' rest Hb) as (ns & R & Ln & Sn); [unfold lenN in *; now rewrite L'|].
    rewrite R. do 2 f_equal. destruct p as [bits nss]. cbn [p_bits p_nonces] in *. f_equal.
    destruct (proof_roundtrip (Proof bits nss) rest C) as (e & Ee & Re). unfold proof_enc in Ee. rewrite E in Ee. cbn [rmap rbind p_bits] in Ee.
    apply Ok_inj in Ee. subst e.
    destruct (proof_read_spec bits b rest Hb L) as (ns2 & R2 & Ln2 & Sn2).
    assert (ns2 = nss).
    { rewrite app_assoc in R2. cbn [p_bits] in Re. rewrite Re in R2. congruence. }
    subst ns2. apply (nth_ext _ _ 0 0); [lia|]. intros j Hj. rewrite Ln in Hj. apply N.bits_inj. intro k.
    rewrite Sn, Sn2 by lia. destruct (N.ltb_spec k bits), (N.ltb_spec k 32); try reflexivity. cbn [andb].
    rewrite Sp'. replace (N.of_nat j * bits + k =? f) with false; [apply orb_false_r|].
    symmetry. apply N.eqb_neq. intro A. rewrite <- A in Hfree. destruct Hfree as [K|K]; [nia|].
    rewrite N.add_comm, N.mod_add, N.mod_small in K by lia. lia.
Qed.

Lemma header_two_encodings h rest : header_wf h -> wire_view h = h ->
  p_bits (h_pow h) mod 4 <> 0 \/ 32 < p_bits (h_pow h) ->
  exists b1 b2, b1 <> b2 /\ List.length b1 = List.length b2 /\
    header_read (b1 ++ rest) = Ok (h, rest) /\ header_read (b2 ++ rest) = Ok (h, rest).
Proof.
  intros (T & S & C) W Hs. destruct (proof_two_encodings (h_pow h) rest C Hs) as (p1 & p2 & Hne & Hlen & R1 & R2).
  pose proof (header_bwp_ok h S) as E. set (front := _ ++ _) in E.
  exists (front ++ p1), (front ++ p2). split; [|split; [|split]].
  - intro A. apply app_inv_head in A. contradiction.
  - rewrite !app_length. lia.
  - rewrite <- app_assoc, (header_read_front h front _ _ _ T S E R1). exact (f_equal (fun x => Ok (x, rest)) W).
  - rewrite <- app_assoc, (header_read_front h front _ _ _ T S E R2). exact (f_equal (fun x => Ok (x, rest)) W).
Qed.
