(** Lemmas about the p2p messages: round trips, framing, safety. *)
From Coq Require Import Permutation Sorted.
From Verif Require Import Messages SpecCodec SpecConsensus SpecMessages SipProofs PowCodecProofs CodecProofs
  BlockCodecProofs.

(** ** Addresses *)

Lemma all_repeat x (l : bytes) : forallb (fun b => Byte.eqb b x) l = true <-> l = brepeat x (List.length l).
Proof.
  unfold brepeat. induction l as [|b l IH]; cbn [forallb List.length repeat]; [split; reflexivity|].
  rewrite andb_true_iff, IH. split.
  - intros [A B]. apply Byte.byte_dec_bl in A. subst b. f_equal. exact B.
  - intro E. split; [apply Byte.byte_dec_lb|]; congruence.
Qed.

Lemma to4_4 (d : bytes) : List.length d = 4%nat -> to4 d = Some d.
Proof. intro H. unfold to4, lenN. now rewrite H. Qed.
Lemma to4_mapped (d : bytes) : List.length d = 4%nat -> to4 (brepeat x00 10 ++ [xff; xff] ++ d) = Some d.
Proof.
  intro H. unfold to4.
  replace (lenN (brepeat x00 10 ++ [xff; xff] ++ d)) with 16 by (unfold lenN; rewrite !app_length; cbn; rewrite H; reflexivity).
  do 5 (destruct d as [|? d]; try discriminate H). reflexivity.
Qed.

Lemma to4_none a : ipv6 a -> to4 (ip a) = None.
Proof.
  intros [L N]. unfold to4, lenN. rewrite L. cbn [N.of_nat Pos.of_succ_nat Pos.succ N.eqb Pos.eqb].
  destruct (forallb _ (slice 0 10 (ip a))) eqn:Z; [|reflexivity].
  destruct (forallb _ (slice 10 2 (ip a))) eqn:F; [|reflexivity].
  exfalso. apply N. apply all_repeat in Z. apply all_repeat in F.
  unfold slice in *. rewrite firstn_length, skipn_length, L in Z, F. change (skipn 0 (ip a)) with (ip a) in Z. cbn [Nat.sub Nat.min] in Z, F.
  exists (skipn 12 (ip a)). rewrite skipn_length, L. split; [reflexivity|]. right.
  rewrite <- (firstn_skipn 10 (ip a)) at 1. rewrite Z. f_equal.
  rewrite <- (firstn_skipn 2 (skipn 10 (ip a))), F.
  generalize (ip a). intro l. now do 12 (destruct l as [|? l]; [reflexivity|]).
Qed.

Lemma addr_rt lenient a rest : ipv4 a -> port_ok a ->
  exists b a', addr_bytes a = Ok b /\ same_endpoint a a' /\ lenN b = 7 /\
    addr_read lenient (b ++ rest) = Ok (a', rest) /\ List.length (ip a') = 4%nat /\
    (forall rest', addr_read lenient (b ++ rest') = Ok (a', rest')).
Proof.
  intros (d & Ld & E) Hp. unfold port_ok in Hp.
  assert (T : to4 (ip a) = Some d) by (destruct E as [-> | ->]; [apply to4_4|apply to4_mapped]; exact Ld).
  unfold addr_bytes. rewrite T. unfold lenN at 1. rewrite Ld. cbn [N.of_nat Pos.of_succ_nat Pos.succ N.eqb Pos.eqb rbind].
  exists ((x00 :: d) ++ be 2 (Z.to_N (port a mod 65536))), (Addr d (port a)).
  assert (R : forall r, addr_read lenient (((x00 :: d) ++ be 2 (Z.to_N (port a mod 65536))) ++ r) = Ok (Addr d (port a), r)).
  { intro r. rewrite <- app_assoc. unfold addr_read. change (x00 :: d) with (be 1 0 ++ d). rewrite <- app_assoc.
    eapply step; [apply (read_be_app 1); reflexivity|]. cbn [N.eqb].
    eapply step; [apply read_full_app'; unfold lenN; rewrite Ld; reflexivity|].
    rewrite Z.mod_small by lia.
    eapply step; [apply (read_be_app 2); change (256 ^ N.of_nat 2) with 65536; lia|].
    unfold rret. now rewrite Z2N.id by lia. }
  split; [reflexivity|]. split.
  - split; [|reflexivity]. unfold as16. cbn [ip]. rewrite Ld. cbn [Nat.eqb].
    destruct E as [-> | ->]; [now rewrite Ld|]. now rewrite !app_length, Ld.
  - split; [unfold lenN; rewrite app_length; cbn [List.length]; now rewrite be_length, Ld|].
    split; [apply R|]. split; [exact Ld|exact R].
Qed.

(** An IPv6 address: eight of its bytes are sent, and none of them is received. *)
Lemma addr_v6 a rest : ipv6 a ->
  exists b, addr_bytes a = Ok b /\ lenN b = 11 /\
    addr_read true (b ++ rest) = Ok (Addr (brepeat x00 16) (port a mod 65536), rest) /\
    addr_read false (b ++ rest) = Err (Msg "binary.Read: invalid type uint16").
Proof.
  intro H. pose proof (to4_none a H) as T. destruct H as [L _].
  unfold addr_bytes. rewrite T. unfold lenN at 1 2. rewrite L. cbn [N.of_nat Pos.of_succ_nat Pos.succ N.eqb Pos.eqb rbind].
  eexists. split; [reflexivity|].
  destruct (ip a) as [|b0 [|b1 [|b2 [|b3 [|b4 [|b5 [|b6 [|b7 d]]]]]]]]; try discriminate L.
  change (slice 0 8 (b0 :: b1 :: b2 :: b3 :: b4 :: b5 :: b6 :: b7 :: d)) with [b0; b1; b2; b3; b4; b5; b6; b7].
  pose proof (Z.mod_pos_bound (port a) 65536 ltac:(lia)) as B.
  assert (S2 : forall x y r, read_full 2 (x :: y :: r) = Ok ([x; y], r)).
  { intros x y r. change (x :: y :: r) with ([x; y] ++ r). now apply read_full_app'. }
  split; [unfold lenN; rewrite app_length, be_length; reflexivity|].
  assert (F : forall r, read_be 1 (x01 :: r) = Ok (1, r)).
  { intro r. change (x01 :: r) with (be 1 1 ++ r). now apply read_be_app. }
  split; rewrite <- app_assoc; cbn [app]; unfold addr_read.
  - eapply step; [apply F|]. cbn [N.eqb Pos.eqb].
    eapply step.
    + unfold read_segment. do 4 (eapply step; [eapply step; [apply S2|reflexivity]|]). reflexivity.
    + eapply step; [apply (read_be_app 2); change (256 ^ N.of_nat 2) with 65536; lia|].
      unfold rret. now rewrite Z2N.id by lia.
  - rewrite (pbind_ok _ _ _ _ _ (F _)). cbn [N.eqb Pos.eqb]. apply pbind_err. apply pbind_err. unfold read_segment.
    rewrite (pbind_ok _ _ _ _ _ (S2 _ _ _)). reflexivity.
Qed.

Lemma addr_v6_never lenient a b a' rest : ipv6 a -> (exists x, In x (ip a) /\ x <> x00) ->
  addr_bytes a = Ok b -> addr_read lenient (b ++ rest) = Ok (a', rest) -> ~ same_endpoint a a'.
Proof.
  intros H (x & I & Hx) E R [S _]. destruct (addr_v6 a rest H) as (b' & E' & _ & T & F).
  rewrite E in E'. apply Ok_inj in E'. subst b'. destruct lenient; [|rewrite R in F; discriminate F].
  rewrite R in T. apply Ok_inj in T. assert (a' = Addr (brepeat x00 16) (port a mod 65536)) by congruence. subst a'.
  cbn [ip] in S. unfold as16 in S at 2. change ((List.length (brepeat x00 16) =? 4)%nat) with false in S. cbv iota in S.
  unfold as16 in S. destruct H as [L _]. rewrite L in S. cbn [Nat.eqb] in S. rewrite S in I.
  apply Hx. apply repeat_spec in I. exact I.
Qed.

Lemma addr_bytes_bad a : List.length (ip a) <> 4%nat -> List.length (ip a) <> 16%nat -> addr_bytes a = Fatal.
Proof.
  intros H4 H16. unfold addr_bytes, to4, lenN.
  destruct (N.eqb_spec (N.of_nat (List.length (ip a))) 4); [lia|].
  destruct (N.eqb_spec (N.of_nat (List.length (ip a))) 16); [lia|]. cbn [andb].
  destruct (N.eqb_spec (N.of_nat (List.length (ip a))) 4); [lia|].
  destruct (N.eqb_spec (N.of_nat (List.length (ip a))) 16); [lia|]. reflexivity.
Qed.

(** ** Lists of addresses and headers *)

Lemma addrs_rt lenient l : Forall (fun a => ipv4 a /\ port_ok a) l ->
  exists b l', addrs_bytes l = Ok b /\ Forall2 same_endpoint l l' /\ lenN b = 7 * lenN l /\
    forall rest, read_n (List.length l) (addr_read lenient) (b ++ rest) = Ok (l', rest).
Proof.
  induction 1 as [|a l [H4 Hp] _ (b & l' & E & F & L & R)].
  - exists [], []. repeat split. constructor.
  - destruct (addr_rt lenient a [] H4 Hp) as (x & a' & Ea & S & La & _ & _ & Ra).
    exists (x ++ b), (a' :: l'). cbn [addrs_bytes]. rewrite Ea, E. cbn [rbind]. split; [reflexivity|].
    split; [constructor; assumption|]. split; [rewrite lenN_app, La, L; unfold lenN; cbn [List.length]; lia|].
    intro rest. cbn [List.length read_n]. rewrite <- app_assoc.
    eapply step; [apply Ra|]. eapply step; [apply R|]. reflexivity.
Qed.

Lemma headers_rt l : Forall header_wf l ->
  exists b, headers_concat l = Ok b /\
    forall rest, read_n (List.length l) header_read (b ++ rest) = Ok (map wire_view l, rest).
Proof.
  induction 1 as [|h l Hh _ (b & E & R)].
  - exists []. split; reflexivity.
  - destruct (header_roundtrip h [] Hh) as (x & Ex & _).
    exists (x ++ b). cbn [headers_concat]. rewrite Ex, E. cbn [rbind]. split; [reflexivity|].
    intro rest. cbn [List.length read_n map]. rewrite <- app_assoc.
    destruct (header_roundtrip h (b ++ rest) Hh) as (x' & Ex' & Rx). rewrite Ex in Ex'. apply Ok_inj in Ex'. subst x'.
    eapply step; [exact Rx|]. eapply step; [apply R|]. reflexivity.
Qed.

Lemma ltb_false a b : b <= a -> (a <? b) = false.
Proof. intro. now apply N.ltb_ge. Qed.
Lemma ltb_true a b : a < b -> (a <? b) = true.
Proof. intro. now apply N.ltb_lt. Qed.

Lemma unchecked_rt t rest : lenN t <= 2 ^ 48 -> read_unchecked (be 8 (lenN t) ++ t ++ rest) = Ok (t, rest).
Proof.
  intro H. unfold read_unchecked.
  eapply step; [apply (read_be_app 8); change (256 ^ N.of_nat 8) with (2 ^ 64); lia|].
  eapply step; [unfold lift; rewrite go_make_small by (unfold max_alloc; lia); reflexivity|].
  apply read_full_app.
Qed.

(** ** All messages *)

Section Rt.
Context (X : Ext) (P : point -> Prop) (Q : rproof X -> Prop) (lenient : bool).

Lemma type_number_eq (m : message X) : msg_type m = type_number X m.
Proof. destruct m; reflexivity. Qed.

Lemma hand_rt h : sendable X P Q (MHand h) ->
  exists b h', hand_bytes h = Ok b /\ received_as X (MHand h) (MHand h') /\
    forall rest, hand_read lenient (b ++ rest) = Ok (h', rest).
Proof.
  intros (V & C & No & D & (s & Es & S4 & Sp) & (r & Er & R4 & Rp) & U & G).
  destruct (addr_rt lenient s [] S4 Sp) as (sb & s' & Eb & Ss & _ & _ & _ & Rs).
  destruct (addr_rt lenient r [] R4 Rp) as (rb & r' & Eb' & Sr & _ & _ & _ & Rr).
  unfold hand_bytes. rewrite Es, Er, Eb, Eb'. cbn [rbind].
  eexists. exists (Hand (hd_version h) (hd_caps h) (hd_nonce h) (hd_genesis h) (hd_difficulty h) (Some s') (Some r') (hd_agent h)).
  split; [reflexivity|]. split.
  - cbn [received_as hd_version hd_caps hd_nonce hd_genesis hd_difficulty hd_agent hd_sender hd_receiver].
    rewrite Es, Er. repeat split; first [apply Ss|apply Sr].
  - intro rest. unfold hand_read. rewrite V. rewrite <- !app_assoc.
    eapply step; [apply (read_be_app 4); reflexivity|]. unfold protocol_version. cbn [N.eqb Pos.eqb negb].
    eapply step; [apply (read_be_app 4); exact C|].
    eapply step; [apply (read_be_app 8); exact No|].
    eapply step; [apply (read_be_app 8); exact D|].
    eapply step; [apply Rs|]. eapply step; [apply Rr|].
    eapply step; [apply unchecked_rt; exact U|].
    eapply step; [apply read_full_32; exact G|]. reflexivity.
Qed.

Lemma shake_rt s : sendable X P Q (MShake s) ->
  forall rest, shake_read (shake_bytes s ++ rest) = Ok (s, rest).
Proof.
  intros (V & C & D & U & G) rest. unfold shake_bytes, shake_read. rewrite V. rewrite <- !app_assoc.
  eapply step; [apply (read_be_app 4); reflexivity|]. unfold protocol_version. cbn [N.eqb Pos.eqb negb].
  eapply step; [apply (read_be_app 4); exact C|].
  eapply step; [apply (read_be_app 8); exact D|].
  eapply step; [apply unchecked_rt; exact U|].
  eapply step; [apply read_full_32; exact G|]. destruct s; cbn in *; subst; reflexivity.
Qed.

Lemma ping_rt p rest : is_u64 (pg_difficulty p) -> is_u64 (pg_height p) ->
  ping_read (ping_bytes p ++ rest) = Ok (p, rest).
Proof.
  intros A B. unfold ping_bytes, ping_read. rewrite <- app_assoc.
  eapply step; [apply (read_be_app 8); exact A|]. eapply step; [apply (read_be_app 8); exact B|]. now destruct p.
Qed.

Lemma error_rt e rest : is_u32 (pe_code e) -> lenN (pe_text e) <= 2 ^ 48 ->
  peer_error_read (peer_error_bytes e ++ rest) = Ok (e, rest).
Proof.
  intros A B. unfold peer_error_bytes, peer_error_read. rewrite <- !app_assoc.
  eapply step; [apply (read_be_app 4); exact A|]. eapply step; [apply unchecked_rt; exact B|]. now destruct e.
Qed.

Lemma peer_addrs_rt l : lenN l <= 256 -> Forall (fun a => ipv4 a /\ port_ok a) l ->
  exists b l', peer_addrs_bytes l = Ok b /\ Forall2 same_endpoint l l' /\ lenN b = 4 + 7 * lenN l /\
    forall rest, peer_addrs_read lenient (b ++ rest) = Ok (l', rest).
Proof.
  intros L F. destruct (addrs_rt lenient l F) as (b & l' & E & S & Lb & R).
  unfold peer_addrs_bytes, peer_addrs_read, max_peer_addrs. rewrite (ltb_false 256 (lenN l)) by exact L. rewrite E. cbn [rbind].
  eexists. exists l'. split; [reflexivity|]. split; [exact S|].
  split; [rewrite lenN_app, Lb; unfold lenN at 1; now rewrite be_length|]. intro rest. rewrite <- app_assoc.
  eapply step; [apply (read_be_app 4); change (256 ^ N.of_nat 4) with (2 ^ 32); lia|].
  rewrite (ltb_false 256 (lenN l)) by exact L. unfold lenN. rewrite Nat2N.id. apply R.
Qed.

Lemma block_headers_rt l : lenN l <= 512 -> Forall header_wf l ->
  exists b, headers_bytes l = Ok b /\ forall rest, headers_read (b ++ rest) = Ok (map wire_view l, rest).
Proof.
  intros L F. destruct (headers_rt l F) as (b & E & R).
  unfold headers_bytes, headers_read, max_block_headers. rewrite (ltb_false 512 (lenN l)) by exact L. rewrite E. cbn [rbind].
  eexists. split; [reflexivity|]. intro rest. rewrite <- app_assoc.
  eapply step; [apply (read_be_app 2); change (256 ^ N.of_nat 2) with 65536; lia|].
  rewrite (ltb_false 512 (lenN l)) by exact L. unfold lenN. rewrite Nat2N.id. apply R.
Qed.

Hypothesis CL : codec_laws X P Q.
Hypothesis SL : sort_laws X.

(** Turns what is known of the body reader into the message reader. *)
Ltac body R := intro rest; unfold msg_read; cbn [msg_type]; cbv [type_error type_hand type_shake type_ping type_pong
  type_get_peer_addrs type_peer_addrs type_get_headers type_header type_headers type_get_block type_block type_compact_block
  type_transaction]; cbn [N.eqb Pos.eqb]; eapply step; [apply R|reflexivity].

Lemma msg_rt m : sendable X P Q m ->
  exists b m', msg_bytes X m = Ok b /\ received_as X m m' /\
    forall rest, msg_read X lenient (msg_type m) (b ++ rest) = Ok (m', rest).
Proof.
  destruct m as [e|h|s|p|p|c|l|hs|h|l|h|b|b|t]; intro W.
  - exists (peer_error_bytes e), (MError e). split; [reflexivity|]. split; [reflexivity|].
    body (fun r => error_rt e r (proj1 W) (proj2 W)).
  - destruct (hand_rt h W) as (b & h' & E & Rc & R). exists b, (MHand h'). split; [exact E|]. split; [exact Rc|]. body R.
  - exists (shake_bytes s), (MShake s). split; [reflexivity|]. split; [reflexivity|]. body (shake_rt s W).
  - exists (ping_bytes p), (MPing p). split; [reflexivity|]. split; [reflexivity|].
    body (fun r => ping_rt p r (proj1 W) (proj2 W)).
  - exists (ping_bytes p), (MPong p). split; [reflexivity|]. split; [reflexivity|].
    body (fun r => ping_rt p r (proj1 W) (proj2 W)).
  - exists (get_peers_bytes c), (MGetPeerAddrs c). split; [reflexivity|]. split; [reflexivity|].
    body (fun r => read_be_app 4 c r W).
  - destruct W as [L F]. destruct (peer_addrs_rt l L F) as (b & l' & E & S & _ & R). exists b, (MPeerAddrs l').
    split; [exact E|]. split; [exact S|]. body R.
  - destruct W as [L F]. destruct (locator_roundtrip hs [] L F) as (b & E & _ & _). exists b, (MGetHeaders hs).
    split; [exact E|]. split; [reflexivity|].
    assert (R : forall r, locator_read (b ++ r) = Ok (hs, r)).
    { intro r. destruct (locator_roundtrip hs r L F) as (b' & E' & _ & R). rewrite E in E'. apply Ok_inj in E'. now subst b'. }
    body R.
  - destruct (header_roundtrip h [] W) as (b & E & _). exists b, (MHeader (wire_view h)).
    split; [exact E|]. split; [reflexivity|].
    assert (R : forall r, header_read (b ++ r) = Ok (wire_view h, r)).
    { intro r. destruct (header_roundtrip h r W) as (b' & E' & R). rewrite E in E'. apply Ok_inj in E'. now subst b'. }
    body R.
  - destruct W as [L F]. destruct (block_headers_rt l L F) as (b & E & R). exists b, (MHeaders (map wire_view l)).
    split; [exact E|]. split; [reflexivity|]. body R.
  - exists h, (MGetBlock h). cbn [sendable] in W. split.
    { unfold msg_bytes, get_block_bytes, lenN. now rewrite W. }
    split; [reflexivity|]. body (fun r => read_full_32 h r W).
  - destruct (block_roundtrip X P Q CL b [] SL W) as (bs & b' & E & Hh & Hi & Ho & Hk & Hs & _).
    exists bs, (MBlock (Block (wire_view (b_header b)) (b_inputs b') (b_outputs b') (b_kernels b'))).
    split; [unfold msg_bytes; rewrite E; reflexivity|].
    split; [exact (conj eq_refl (conj Hi (conj Ho (conj Hk Hs))))|].
    assert (R : forall r, block_read X (bs ++ r) = Ok (Block (wire_view (b_header b)) (b_inputs b') (b_outputs b') (b_kernels b'), r)).
    { intro r. destruct (block_roundtrip X P Q CL b r SL W) as (bs1 & b1 & E1 & _ & _ & _ & _ & _ & R).
      rewrite E in E1. apply Ok_inj in E1. assert (bs = bs1 /\ b' = b1) as [-> ->] by (split; congruence). exact R. }
    body R.
  - destruct W as (W & L1 & L2 & L3).
    destruct (compact_roundtrip X P Q CL b [] SL W L1 L2 L3) as (bs & b' & E & Hh & Ho & Hk & Hi & S1 & S2 & S3 & _).
    exists bs, (MCompact (CompactBlock (wire_view (cb_header b)) (cb_outputs b') (cb_kernels b') (cb_ids b'))).
    split; [unfold msg_bytes; rewrite E; reflexivity|].
    split; [exact (conj eq_refl (conj Ho (conj Hk (conj Hi (conj S1 (conj S2 S3))))))|].
    assert (R : forall r, compact_read X (bs ++ r) =
      Ok (CompactBlock (wire_view (cb_header b)) (cb_outputs b') (cb_kernels b') (cb_ids b'), r)).
    { intro r. destruct (compact_roundtrip X P Q CL b r SL W L1 L2 L3) as (bs1 & b1 & E1 & _ & _ & _ & _ & _ & _ & _ & R).
      rewrite E in E1. apply Ok_inj in E1. assert (bs = bs1 /\ b' = b1) as [-> ->] by (split; congruence). exact R. }
    body R.
  - destruct W as [W I]. exists (fst (tx_bytes X t)), (MTx (snd (tx_bytes X t))). split; [reflexivity|].
    assert (R : forall r, tx_read X (fst (tx_bytes X t) ++ r) = Ok (snd (tx_bytes X t), r)).
    { intro r. apply (tx_no_inputs_roundtrip X P Q CL t r SL W I). }
    split.
    + destruct (tx_no_inputs_roundtrip X P Q CL t [] SL W I) as (R0 & A & B & C & D).
      destruct (tx_read_sorted X _ _ _ R0) as [S _]. exact (conj A (conj B (conj C (conj D S)))).
    + body R.
Qed.
End Rt.

(** ** Versions *)

Lemma hand_version lenient v rest : is_u32 v -> v <> 1 ->
  hand_read lenient (be 4 v ++ rest) = Err (Msg "incompatibility protocol version").
Proof.
  intros H N. unfold hand_read. rewrite (pbind_ok _ _ _ _ _ (read_be_app 4 v rest H)). unfold protocol_version.
  destruct (N.eqb_spec v 1); [contradiction|reflexivity].
Qed.
Lemma shake_version v rest : is_u32 v -> v <> 1 ->
  shake_read (be 4 v ++ rest) = Err (Msg "incompatibility protocol version").
Proof.
  intros H N. unfold shake_read. rewrite (pbind_ok _ _ _ _ _ (read_be_app 4 v rest H)). unfold protocol_version.
  destruct (N.eqb_spec v 1); [contradiction|reflexivity].
Qed.

(** ** Framing *)

Lemma takeN_app_len {A} n (a b : list A) : lenN a = n -> takeN n (a ++ b) = a.
Proof. intros <-. apply takeN_app_exact. Qed.
Lemma dropN_app_len {A} n (a b : list A) : lenN a = n -> dropN n (a ++ b) = b.
Proof. intros <-. apply dropN_app_exact. Qed.

Lemma header_rt t n rest : t < 256 -> is_u64 n ->
  limit_reader msg_header_len frame_header_read ([x54; x34] ++ be 1 t ++ be 8 n ++ rest) = Ok ((t, n), rest).
Proof.
  intros Ht Hn. unfold limit_reader, msg_header_len.
  replace ([x54; x34] ++ be 1 t ++ be 8 n ++ rest) with (([x54; x34] ++ be 1 t ++ be 8 n) ++ rest)
    by (rewrite <- !app_assoc; reflexivity).
  rewrite takeN_app_len, dropN_app_len by (unfold lenN; rewrite !app_length, !be_length; reflexivity).
  unfold frame_header_read.
  rewrite (pbind_ok _ _ _ [x54; x34] (be 1 t ++ be 8 n)) by (apply read_full_app'; reflexivity).
  change (bytes_eqb [x54; x34] magic_code) with true. cbn [negb].
  rewrite (pbind_ok _ _ _ t (be 8 n)) by (apply (read_be_app 1); exact Ht).
  rewrite (pbind_ok _ _ _ n []) by (rewrite <- (app_nil_r (be 8 n)); apply (read_be_app 8); exact Hn).
  reflexivity.
Qed.

Section Frames.
Context (X : Ext) (lenient : bool).

Lemma write_frame m b : msg_bytes X m = Ok b -> lenN b <= 20000000 ->
  write_message X m = Ok (frame_of (type_number X m) b, 11 + lenN b).
Proof.
  intros E L. unfold write_message. rewrite E. cbn [rbind]. unfold frame_header, frame_of, magic_code, msg_header_len.
  rewrite type_number_eq, <- !app_assoc, w64_mod, N.mod_small by lia. now rewrite (N.add_comm 11).
Qed.

Lemma read_frame t b m junk rest : t < 256 ->
  msg_read X lenient t (b ++ junk) = Ok (m, junk) -> lenN (b ++ junk) <= 20000000 ->
  read_message X lenient t (frame_of t (b ++ junk) ++ rest) = (11 + lenN (b ++ junk), Ok (m, junk ++ rest)).
Proof.
  intros Ht R L. unfold read_message, frame_of. rewrite <- !app_assoc.
  rewrite header_rt by (first [exact Ht|unfold is_u64; lia]). rewrite N.eqb_refl. cbn [negb]. unfold max_msg_len.
  rewrite (ltb_false 20000000) by exact L. unfold msg_header_len.
  rewrite w64_mod, N.mod_small by lia. f_equal.
  unfold limit_reader. rewrite app_assoc, takeN_app_exact, dropN_app_exact, R. reflexivity.
Qed.

Lemma read_bad_magic t x y rest : [x; y] <> [x54; x34] ->
  read_message X lenient t (x :: y :: rest) = (0, Err (Msg "invalid magic code")).
Proof.
  intro H. unfold read_message, limit_reader, frame_header_read.
  assert (exists r, takeN msg_header_len (x :: y :: rest) = [x; y] ++ r) as [r ->].
  { unfold takeN, msg_header_len. exists (firstn (N.to_nat (N.min 11 (lenN (x :: y :: rest))) - 2) rest).
    assert (2 <= N.to_nat (N.min 11 (lenN (x :: y :: rest))))%nat as G by (unfold lenN; cbn [List.length]; lia).
    destruct (N.to_nat _) as [|[|k]]; [lia|lia|]. cbn. now rewrite Nat.sub_0_r. }
  rewrite (pbind_ok _ _ _ [x; y] r) by (apply read_full_app'; reflexivity).
  apply bytes_eqb_neq in H. change magic_code with [x54; x34]. rewrite H. reflexivity.
Qed.

Lemma read_bad_type t t' n rest : t' < 256 -> is_u64 n -> t' <> t ->
  read_message X lenient t ([x54; x34] ++ be 1 t' ++ be 8 n ++ rest) =
    (11, Err (Msg "receive unexpected message type")).
Proof.
  intros Ht Hn N. unfold read_message. rewrite header_rt by assumption.
  destruct (N.eqb_spec t' t); [contradiction|]. reflexivity.
Qed.

Lemma read_too_long t n rest : t < 256 -> is_u64 n -> 20000000 < n ->
  read_message X lenient t ([x54; x34] ++ be 1 t ++ be 8 n ++ rest) = (11, Err (Msg "too big message size")).
Proof.
  intros Ht Hn N. unfold read_message. rewrite header_rt by assumption. rewrite N.eqb_refl. cbn [negb].
  unfold max_msg_len. rewrite ltb_true by exact N. reflexivity.
Qed.

Lemma header_read_short bs : lenN bs < 11 -> exists e, frame_header_read bs = Err e.
Proof.
  intro L. unfold frame_header_read.
  destruct (frame_header_read bs) as [[[t n] r]|e| |] eqn:E; unfold frame_header_read in E.
  - exfalso. apply pbind_inv in E as (m & m1 & R1 & E). apply read_full_len in R1.
    destruct (negb _); [discriminate E|]. apply pbind_inv in E as (t' & m2 & R2 & E). apply read_be_len in R2.
    apply pbind_inv in E as (n' & m3 & R3 & _). apply read_be_len in R3. lia.
  - eauto.
  - exfalso. assert (S : safe frame_header_read).
    { apply safe_bind; [apply safe_read_full|intro m]. destruct (negb _); [apply safe_fail|].
      apply safe_bind; [apply safe_read_be|intro]. apply safe_bind; [apply safe_read_be|intro]. apply safe_ret. }
    destruct (S bs) as [S1 _]. apply S1, E.
  - exfalso. assert (S : safe frame_header_read).
    { apply safe_bind; [apply safe_read_full|intro m]. destruct (negb _); [apply safe_fail|].
      apply safe_bind; [apply safe_read_be|intro]. apply safe_bind; [apply safe_read_be|intro]. apply safe_ret. }
    destruct (S bs) as [_ S1]. apply S1, E.
Qed.

Lemma read_short t bs : lenN bs < 11 -> exists e, read_message X lenient t bs = (0, Err e).
Proof.
  intro L. unfold read_message, limit_reader, msg_header_len.
  replace (takeN 11 bs) with bs.
  - destruct (header_read_short bs L) as [e ->]. eauto.
  - unfold takeN. rewrite N.min_r by lia. unfold lenN. rewrite Nat2N.id. now rewrite firstn_all.
Qed.

(** ** Safety of the listed decoders *)

Lemma addr_read_safe : safe (addr_read lenient).
Proof.
  assert (S : safe (read_segment lenient)).
  { apply safe_bind; [apply safe_read_full|intro]. destruct lenient; [apply safe_ret|apply safe_fail]. }
  apply safe_bind; [apply safe_read_be|intro f]. apply safe_bind; [|intro; apply safe_bind; [apply safe_read_be|intro; apply safe_ret]].
  destruct (f =? 0); [apply safe_read_full|]. destruct (f =? 1); [|apply safe_fail].
  do 4 (apply safe_bind; [exact S|intro]). apply safe_ret.
Qed.

Lemma ping_read_safe : safe ping_read.
Proof. apply safe_bind; [apply safe_read_be|intro]. apply safe_bind; [apply safe_read_be|intro; apply safe_ret]. Qed.

Lemma listed_safe t : codec_safe X ->
  t = 3 \/ t = 4 \/ t = 5 \/ t = 6 \/ t = 7 \/ t = 8 \/ t = 9 \/ t = 10 \/ t = 11 \/ t = 15 ->
  safe (msg_read X lenient t).
Proof.
  intros CS H. destruct H as [->|[->|[->|[->|[->|[->|[->|[->|[->| ->]]]]]]]]]; unfold msg_read;
    cbv [type_error type_hand type_shake type_ping type_pong type_get_peer_addrs type_peer_addrs type_get_headers
      type_header type_headers type_get_block type_block type_compact_block type_transaction]; cbn [N.eqb Pos.eqb];
    (apply safe_bind; [|intro; apply safe_ret]).
  - exact ping_read_safe.
  - exact ping_read_safe.
  - apply safe_read_be.
  - apply safe_bind; [apply safe_read_be|intro n]. destruct (max_peer_addrs <? n); [apply safe_fail|].
    apply safe_read_n, addr_read_safe.
  - exact locator_read_safe.
  - exact header_read_safe.
  - apply safe_bind; [apply safe_read_be|intro n]. destruct (max_block_headers <? n); [apply safe_fail|].
    apply safe_read_n, header_read_safe.
  - apply safe_read_full.
  - exact (block_read_safe X CS).
  - exact (tx_read_safe X CS).
Qed.
End Frames.

(** ** Decoders that panic *)

Lemma unchecked_panics n rest : is_u64 n -> (read_unchecked (be 8 n ++ rest) = Panic <-> 2 ^ 48 < n).
Proof.
  intro H. unfold read_unchecked. rewrite (pbind_ok _ _ _ _ _ (read_be_app 8 n rest H)).
  unfold pbind, lift, go_make, max_alloc. rewrite N.mul_1_r.
  destruct (N.leb_spec (2 ^ 63) n) as [L|L]; [cbn [orb rbind]; split; [lia|reflexivity]|].
  destruct (N.ltb_spec (2 ^ 48) n) as [L'|L']; [cbn [orb rbind]; split; [lia|reflexivity]|].
  cbn [orb rbind]. split; [|lia]. intro E. exfalso. exact (proj1 (safe_read_full n rest) E).
Qed.

Lemma pbind_panic {A B} (p : reader A) (f : A -> reader B) bs : (forall a, safe (f a)) ->
  (pbind p f bs = Panic <-> p bs = Panic).
Proof.
  intro S. unfold pbind. destruct (p bs) as [[a r]|e| |]; try (split; discriminate || reflexivity).
  split; [|discriminate]. intro E. exfalso. exact (proj1 (S a r) E).
Qed.

Lemma error_panics c n rest : is_u32 c -> is_u64 n ->
  (peer_error_read (be 4 c ++ be 8 n ++ rest) = Panic <-> 2 ^ 48 < n).
Proof.
  intros Hc Hn. unfold peer_error_read. rewrite (pbind_ok _ _ _ _ _ (read_be_app 4 c _ Hc)).
  rewrite pbind_panic by (intro; apply safe_ret). now apply unchecked_panics.
Qed.

Lemma shake_panics c d n rest : is_u32 c -> is_u64 d -> is_u64 n ->
  (shake_read (be 4 1 ++ be 4 c ++ be 8 d ++ be 8 n ++ rest) = Panic <-> 2 ^ 48 < n).
Proof.
  intros Hc Hd Hn. unfold shake_read. rewrite (pbind_ok _ _ _ _ _ (read_be_app 4 1 _ eq_refl)).
  change (negb (1 =? protocol_version)) with false. cbv iota.
  rewrite (pbind_ok _ _ _ _ _ (read_be_app 4 c _ Hc)), (pbind_ok _ _ _ _ _ (read_be_app 8 d _ Hd)).
  rewrite pbind_panic by (intro; apply safe_bind; [apply safe_read_full|intro; apply safe_ret]). now apply unchecked_panics.
Qed.

Lemma hand_panics lenient c no d s r sb rb n rest : is_u32 c -> is_u64 no -> is_u64 d -> is_u64 n ->
  ipv4 s -> port_ok s -> ipv4 r -> port_ok r -> addr_bytes s = Ok sb -> addr_bytes r = Ok rb ->
  (hand_read lenient (be 4 1 ++ be 4 c ++ be 8 no ++ be 8 d ++ sb ++ rb ++ be 8 n ++ rest) = Panic <-> 2 ^ 48 < n).
Proof.
  intros Hc Ho Hd Hn S4 Sp R4 Rp Es Er. unfold hand_read. rewrite (pbind_ok _ _ _ _ _ (read_be_app 4 1 _ eq_refl)).
  change (negb (1 =? protocol_version)) with false. cbv iota.
  rewrite (pbind_ok _ _ _ _ _ (read_be_app 4 c _ Hc)), (pbind_ok _ _ _ _ _ (read_be_app 8 no _ Ho)),
    (pbind_ok _ _ _ _ _ (read_be_app 8 d _ Hd)).
  destruct (addr_rt lenient s [] S4 Sp) as (sb' & s' & Es' & _ & _ & _ & _ & Rs). rewrite Es in Es'. apply Ok_inj in Es'. subst sb'.
  destruct (addr_rt lenient r [] R4 Rp) as (rb' & r' & Er' & _ & _ & _ & _ & Rr). rewrite Er in Er'. apply Ok_inj in Er'. subst rb'.
  rewrite (pbind_ok _ _ _ _ _ (Rs _)), (pbind_ok _ _ _ _ _ (Rr _)).
  rewrite pbind_panic by (intro; apply safe_bind; [apply safe_read_full|intro; apply safe_ret]). now apply unchecked_panics.
Qed.

Lemma framing_rt X P Q lenient : codec_laws X P Q -> sort_laws X ->
  forall m b, sendable X P Q m -> msg_bytes X m = Ok b -> lenN b <= 20000000 ->
  exists fr m', write_message X m = Ok (fr, 11 + lenN b) /\ fr = frame_of (type_number X m) b /\
    received_as X m m' /\
    forall rest, read_message X lenient (type_number X m) (fr ++ rest) = (11 + lenN b, Ok (m', rest)).
Proof.
  intros CL SL m b W E L. destruct (msg_rt X P Q lenient CL SL m W) as (b' & m' & E' & R & D).
  rewrite E in E'. apply Ok_inj in E'. subst b'.
  exists (frame_of (type_number X m) b), m'. split; [now apply write_frame|]. split; [reflexivity|]. split; [exact R|].
  intro rest. specialize (D []). rewrite type_number_eq in D.
  pose proof (read_frame X lenient (type_number X m) b m' [] rest) as F. rewrite !app_nil_r in F. rewrite app_nil_r in D. apply F.
  - destruct m; reflexivity.
  - exact D.
  - exact L.
Qed.
