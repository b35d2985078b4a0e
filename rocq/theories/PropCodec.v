(** Properties C01-C10, and C18/C19 for the consensus decoders. Statements only; proofs are in
    PowCodecProofs.v, CodecProofs.v and BlockCodecProofs.v; specifications in SpecCodec.v and
    SpecConsensus.v. [X] is the code outside /repo; its laws are in Ext.v. *)
From Coq Require Import Permutation Sorted.
From Verif Require Import Consensus SpecCodec SpecConsensus PowCodecProofs CodecProofs BlockCodecProofs
  Instance CodecExamples.

(** * C01: header round trip *)
Theorem C01_header_roundtrip : forall h rest, header_wf h ->
  exists b, header_bytes h = Ok b /\ header_read (b ++ rest) = Ok (wire_view h, rest).
Proof. exact header_roundtrip. Qed.
Print Assumptions C01_header_roundtrip.

Example C01_case : header_wf (ex_header 29) /\ header_wf (ex_header 64) /\
  wire_view (ex_header 29) <> ex_header 29.
Proof.
  split; [apply ex_header_wf; cbn; auto|]. split; [apply ex_header_wf; cbn; auto 8|].
  intro E. apply (f_equal h_difficulty) in E. discriminate.
Qed.

(** * C02: header layout *)
Theorem C02_header_layout : forall h, header_typed h -> header_sized h ->
  List.length (p_nonces (h_pow h)) = 42%nat ->
  exists b, header_bytes h = Ok b /\ header_layout h b.
Proof. exact header_layout_ok. Qed.
Print Assumptions C02_header_layout.

Example C02_case : header_typed (ex_header 31) /\ header_sized (ex_header 31) /\
  List.length (p_nonces (h_pow (ex_header 31))) = 42%nat.
Proof. destruct (ex_header_wf 31) as (A & B & _); [cbn; auto 6|]. exact (conj A (conj B eq_refl)). Qed.

(** * C03: nonce packing *)
Theorem C03_packing_roundtrip : forall p rest, proof_canonical p ->
  exists b, proof_enc p = Ok b /\ proof_read (b ++ rest) = Ok (p, rest).
Proof. exact proof_roundtrip. Qed.
Print Assumptions C03_packing_roundtrip.

Theorem C03_packing_layout : forall p, is_u8 (p_bits p) -> Forall is_u32 (p_nonces p) ->
  List.length (p_nonces p) = 42%nat ->
  exists b, proof_bytes p = Ok b /\ lenN b = bytes_for (42 * p_bits p) /\
    forall i j, (i < 42)%nat -> j < p_bits p ->
      bit_at b (N.of_nat i * p_bits p + j) = N.testbit (nth i (p_nonces p) 0) j.
Proof. exact proof_bytes_layout. Qed.
Print Assumptions C03_packing_layout.

Example C03_case : forall b, In b [1; 19; 29; 31; 32; 63; 64] -> proof_canonical (ex_proof b).
Proof. exact ex_proof_canonical. Qed.

(** * C04: the block hash determines the proof of work *)
Theorem C04_hash_determines_pow : forall X h1 h2,
  canonical_any (h_pow h1) -> canonical_any (h_pow h2) -> header_hash X h1 = header_hash X h2 ->
  h_pow h1 = h_pow h2 \/
  exists m1 m2, proof_bytes (h_pow h1) = Ok m1 /\ proof_bytes (h_pow h2) = Ok m2 /\
    m1 <> m2 /\ blake2b X m1 = blake2b X m2.
Proof. exact header_hash_inj. Qed.
Print Assumptions C04_hash_determines_pow.

(** False for graph size 0: all such headers have one hash. *)
Theorem C04_zero_edge_bits_refuted : forall X h, p_bits (h_pow h) = 0 -> header_hash X h = Ok (blake2b X []).
Proof. exact header_hash_zero. Qed.
Print Assumptions C04_zero_edge_bits_refuted.

Example C04_case : canonical_any (h_pow (ex_header 29)) /\ canonical_any (h_pow (ex_header 31)) /\
  h_pow (ex_header 29) <> h_pow (ex_header 31).
Proof.
  split; [|split; [|discriminate]].
  - destruct (ex_header_wf 29) as (_ & _ & [H _] & H1 & H2); [cbn; auto 6|]. repeat split; assumption.
  - destruct (ex_header_wf 31) as (_ & _ & [H _] & H1 & H2); [cbn; auto 6|]. repeat split; assumption.
Qed.

(** * C05: malleability of wire headers *)

(** Full statement, false: for all bs h rest, header_read bs = Ok (h, rest) ->
    exists b, header_bytes h = Ok b /\ bs = b ++ rest.
    Every header whose graph size is above 32 or not a multiple of 4 has two encodings. *)
Theorem C05_malleable_refuted : forall h rest, header_wf h -> wire_view h = h ->
  p_bits (h_pow h) mod 4 <> 0 \/ 32 < p_bits (h_pow h) ->
  exists b1 b2, b1 <> b2 /\ List.length b1 = List.length b2 /\
    header_read (b1 ++ rest) = Ok (h, rest) /\ header_read (b2 ++ rest) = Ok (h, rest).
Proof. exact header_two_encodings. Qed.
Print Assumptions C05_malleable_refuted.

(** What holds for every accepted byte string: re-encoding keeps the first 247 bytes and the
    length, and clears exactly the padding bits and the bits above 32 of each nonce. *)
Theorem C05_reencoding : forall bs h rest, header_read bs = Ok (h, rest) ->
  exists front packed packed', bs = front ++ packed ++ rest /\ header_bytes h = Ok (front ++ packed') /\
    List.length front = 247%nat /\ lenN packed = bytes_for (42 * p_bits (h_pow h)) /\
    List.length packed' = List.length packed /\
    forall o, o < 8 * lenN packed ->
      bit_at packed' o = bit_at packed o && (o <? 42 * p_bits (h_pow h)) && (o mod p_bits (h_pow h) <? 32).
Proof. exact header_reencode. Qed.
Print Assumptions C05_reencoding.

(** The full statement for graph sizes that are multiples of 4 up to 32; missing: the others. *)
Theorem C05_not_malleable_partial : forall bs h rest, header_read bs = Ok (h, rest) ->
  p_bits (h_pow h) mod 4 = 0 -> p_bits (h_pow h) <= 32 ->
  exists b, header_bytes h = Ok b /\ bs = b ++ rest.
Proof. exact header_reencode_same. Qed.
Print Assumptions C05_not_malleable_partial.

Example C05_case :
  (exists bs, header_read bs = Ok (wire_view (ex_header 32), [x01])) /\
  header_wf (wire_view (ex_header 29)) /\ wire_view (wire_view (ex_header 29)) = wire_view (ex_header 29).
Proof.
  split.
  - destruct (header_roundtrip (ex_header 32) [x01]) as (b & _ & R); [apply ex_header_wf; cbn; auto 8|]. eauto.
  - split; [|reflexivity].
    destruct (header_roundtrip (ex_header 29) []) as (b & _ & R); [apply ex_header_wf; cbn; auto 8|].
    apply (header_read_inv _ _ _ R).
Qed.

(** * C06: block round trip *)
Theorem C06_block_roundtrip : forall X P Q, codec_laws X P Q -> forall b rest,
  sort_laws X -> block_wf X P Q b ->
  exists bs b', block_bytes X b = Ok (bs, b') /\
    b_header b' = b_header b /\
    Permutation (b_inputs b') (b_inputs b) /\ Permutation (b_outputs b') (b_outputs b) /\
    Permutation (b_kernels b') (b_kernels b) /\
    lists_sorted X (b_inputs b') (b_outputs b') (b_kernels b') /\
    block_read X (bs ++ rest) =
      Ok (Block (wire_view (b_header b)) (b_inputs b') (b_outputs b') (b_kernels b'), rest).
Proof. exact block_roundtrip. Qed.
Print Assumptions C06_block_roundtrip.

Example C06_case : codec_laws toy toy_P toy_Q /\ sort_laws toy /\ block_wf toy toy_P toy_Q ex_block /\
  b_outputs (block_sort toy ex_block) <> b_outputs ex_block.
Proof. exact (conj toy_codec (conj toy_sort (conj ex_block_wf ex_block_reordered))). Qed.

(** * C07: transaction round trip *)

(** Full statement, false: for all t rest, tx_wf X P Q t ->
    tx_read X (fst (tx_bytes X t) ++ rest) = Ok (snd (tx_bytes X t), rest).
    It fails for every transaction with an input, whatever follows it in the stream. *)
Theorem C07_with_inputs_refuted : forall X P Q, codec_laws X P Q -> forall t rest,
  sort_laws X -> codec_exact X -> tx_wf X P Q t -> tx_inputs t <> [] ->
  tx_read X (fst (tx_bytes X t) ++ rest) <> Ok (snd (tx_bytes X t), rest).
Proof. exact tx_inputs_never. Qed.
Print Assumptions C07_with_inputs_refuted.

(** Without assuming anything of the external decoders: whenever the bytes are accepted at all, the
    first input that is read back has the first byte of a commitment as its feature byte. *)
Theorem C07_feature_byte_refuted : forall X t rest t' rest',
  sort_laws X -> Forall input_wf (tx_inputs t) ->
  List.length (tx_offset t) = 32%nat -> lenN (tx_inputs t) <= 1000000 ->
  lenN (tx_outputs t) <= 1000000 -> lenN (tx_kernels t) <= 1000000 ->
  tx_inputs t <> [] -> tx_read X (fst (tx_bytes X t) ++ rest) = Ok (t', rest') ->
  exists i l j l', tx_inputs (snd (tx_bytes X t)) = i :: l /\ tx_inputs t' = j :: l' /\
    in_features j = b2n (hd x00 (in_commit i)).
Proof. exact tx_first_input. Qed.
Print Assumptions C07_feature_byte_refuted.

(** The part that holds; missing: transactions with inputs. *)
Theorem C07_no_inputs_partial : forall X P Q, codec_laws X P Q -> forall t rest,
  sort_laws X -> tx_wf X P Q t -> tx_inputs t = [] ->
  tx_read X (fst (tx_bytes X t) ++ rest) = Ok (snd (tx_bytes X t), rest) /\
  tx_offset (snd (tx_bytes X t)) = tx_offset t /\ tx_inputs (snd (tx_bytes X t)) = [] /\
  Permutation (tx_outputs (snd (tx_bytes X t))) (tx_outputs t) /\
  Permutation (tx_kernels (snd (tx_bytes X t))) (tx_kernels t).
Proof. exact tx_no_inputs_roundtrip. Qed.
Print Assumptions C07_no_inputs_partial.

Example C07_case : codec_exact toy /\ tx_wf toy toy_P toy_Q (ex_tx []) /\
  tx_wf toy toy_P toy_Q (ex_tx [ex_input 0]) /\ tx_inputs (ex_tx [ex_input 0]) <> [].
Proof.
  split; [exact toy_exact|]. split; [apply ex_tx_wf; [constructor|vm_compute; discriminate]|].
  split; [apply ex_tx_wf; [repeat constructor|vm_compute; discriminate]|discriminate].
Qed.

(** * C08: accepted transactions are sorted and bounded *)
Theorem C08_accepted_sorted_bounded : forall X bs t rest, tx_read X bs = Ok (t, rest) ->
  lists_sorted X (tx_inputs t) (tx_outputs t) (tx_kernels t) /\
  lenN (tx_inputs t) <= 1000000 /\ lenN (tx_outputs t) <= 1000000 /\ lenN (tx_kernels t) <= 1000000.
Proof. exact tx_read_sorted. Qed.
Print Assumptions C08_accepted_sorted_bounded.

(** On the wire form of a well-formed transaction, acceptance is exactly sortedness. *)
Theorem C08_wire_iff_sorted : forall X P Q, codec_laws X P Q -> forall t rest, tx_wf X P Q t ->
  (lists_sorted X (tx_inputs t) (tx_outputs t) (tx_kernels t) /\
   tx_read X (tx_wire X t ++ rest) = Ok (t, rest)) \/
  (~ lists_sorted X (tx_inputs t) (tx_outputs t) (tx_kernels t) /\
   exists e, tx_read X (tx_wire X t ++ rest) = Err e).
Proof. exact tx_read_wire. Qed.
Print Assumptions C08_wire_iff_sorted.

(** Both outcomes occur. *)
Example C08_case :
  (exists t, tx_wf toy toy_P toy_Q t /\ tx_inputs t <> [] /\
     tx_read toy (tx_wire toy t) = Ok (t, [])) /\
  (exists t e, tx_wf toy toy_P toy_Q t /\ tx_read toy (tx_wire toy t) = Err e).
Proof.
  assert (W : Forall input_wf [ex_input 0]) by repeat constructor.
  split.
  - exists (tx_sort toy (ex_tx [ex_input 0])).
    assert (W' : tx_wf toy toy_P toy_Q (tx_sort toy (ex_tx [ex_input 0]))).
    { destruct (ex_tx_wf _ W) as (A & B & C & D & E & F & G); [vm_compute; discriminate|].
      unfold tx_wf, tx_sort. cbn [tx_offset tx_inputs tx_outputs tx_kernels].
      split; [exact A|]. rewrite !(lenN_sort toy _ _ toy_sort).
      repeat (split; [first [apply Forall_sort; [exact toy_sort|assumption]|assumption]|]). exact G. }
    split; [exact W'|]. split; [discriminate|].
    destruct (tx_read_wire toy toy_P toy_Q toy_codec _ [] W') as [[_ R]|[N _]].
    + rewrite app_nil_r in R. exact R.
    + exfalso. apply N. repeat split; apply toy_sort.
  - exists (ex_tx [ex_input 0]).
    destruct (tx_read_wire toy toy_P toy_Q toy_codec _ [] (ex_tx_wf _ W ltac:(vm_compute; discriminate))) as [[S _]|[_ [e R]]].
    + exfalso. destruct S as (_ & S & _). cbn [ex_tx tx_outputs] in S.
      apply (proj2 (is_sorted_iff (output_hash toy) _)) in S. vm_compute in S. discriminate.
    + exists e. split; [apply ex_tx_wf; [exact W|vm_compute; discriminate]|]. rewrite app_nil_r in R. exact R.
Qed.

(** * C09: compact block round trip *)

(** Fewer than 256 outputs and kernels, as the property says; from 256 on it fails (below). *)
Theorem C09_compact_roundtrip : forall X P Q, codec_laws X P Q -> forall b rest,
  sort_laws X -> compact_wf X P Q b ->
  lenN (cb_outputs b) < 256 -> lenN (cb_kernels b) < 256 -> 24 * lenN (cb_ids b) <= 2 ^ 48 ->
  exists bs b', compact_bytes X b = Ok (bs, b') /\
    cb_header b' = cb_header b /\ Permutation (cb_outputs b') (cb_outputs b) /\
    Permutation (cb_kernels b') (cb_kernels b) /\ Permutation (cb_ids b') (cb_ids b) /\
    key_sorted (output_key X) (cb_outputs b') /\ key_sorted (kernel_key X) (cb_kernels b') /\
    key_sorted (fun i => i) (cb_ids b') /\
    compact_read X (bs ++ rest) =
      Ok (CompactBlock (wire_view (cb_header b)) (cb_outputs b') (cb_kernels b') (cb_ids b'), rest).
Proof. exact compact_roundtrip. Qed.
Print Assumptions C09_compact_roundtrip.

(** A block that is read back has the counts modulo 256, so with 256 or more it differs. *)
Theorem C09_count_wraps_refuted : forall X b bs b' c rest rest',
  sort_laws X -> header_wf (cb_header b) ->
  compact_bytes X b = Ok (bs, b') -> compact_read X (bs ++ rest) = Ok (c, rest') ->
  lenN (cb_outputs c) = lenN (cb_outputs b) mod 256 /\ lenN (cb_kernels c) = lenN (cb_kernels b) mod 256.
Proof. exact compact_count_wrap. Qed.
Print Assumptions C09_count_wraps_refuted.

Example C09_case : compact_wf toy toy_P toy_Q ex_compact /\ lenN (cb_outputs ex_compact) < 256 /\
  lenN (cb_kernels ex_compact) < 256 /\ 24 * lenN (cb_ids ex_compact) <= 2 ^ 48.
Proof. split; [exact ex_compact_wf|]. repeat split; vm_compute; discriminate || reflexivity. Qed.

(** * C10: locators *)
Theorem C10_locator_roundtrip : forall hs rest,
  lenN hs <= 14 -> Forall (fun h : bytes => List.length h = 32%nat) hs ->
  exists b, locator_bytes hs = Ok b /\ lenN b = 1 + 32 * lenN hs /\ locator_read (b ++ rest) = Ok (hs, rest).
Proof. exact locator_roundtrip. Qed.
Print Assumptions C10_locator_roundtrip.

Theorem C10_long_locator_refused : forall b rest, 14 < b2n b ->
  locator_read (b :: rest) = Err (Msg "too big locator len from peer").
Proof. exact locator_too_long. Qed.
Print Assumptions C10_long_locator_refused.

Theorem C10_received_locator_bounded : forall bs hs rest, locator_read bs = Ok (hs, rest) ->
  lenN hs <= 14 /\ Forall (fun h : bytes => List.length h = 32%nat) hs.
Proof. exact locator_read_bound. Qed.
Print Assumptions C10_received_locator_bounded.

Example C10_case : lenN (repeat (brepeat x01 32) 14) <= 14 /\
  Forall (fun h : bytes => List.length h = 32%nat) (repeat (brepeat x01 32) 14) /\ 14 < b2n x0f.
Proof. repeat split; try (vm_compute; discriminate); repeat constructor. Qed.

(** * C18 (consensus decoders): no byte string crashes them *)
Theorem C18_consensus_decoders_safe : forall X, codec_safe X ->
  safe proof_read /\ safe header_read /\ safe (block_read X) /\ safe (tx_read X) /\ safe locator_read.
Proof.
  exact (fun X S => conj proof_read_safe (conj header_read_safe
    (conj (block_read_safe X S) (conj (tx_read_safe X S) locator_read_safe)))).
Qed.
Print Assumptions C18_consensus_decoders_safe.

Example C18_consensus_case : codec_safe toy.
Proof. exact toy_safe. Qed.

(** * C19 (compact blocks): a message of a few hundred bytes makes the decoder panic *)
Theorem C19_compact_block_refuted : forall X h hb rest, header_wf h -> header_bytes h = Ok hb ->
  compact_read X (hb ++ be 1 0 ++ be 1 0 ++ be 8 (2 ^ 63) ++ rest) = Panic.
Proof. exact compact_panics. Qed.
Print Assumptions C19_compact_block_refuted.
