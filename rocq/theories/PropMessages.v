(** Properties C11-C13 and C15-C19: p2p messages, framing and the read loop. Statements only; proofs
    are in MessageProofs.v and LoopProofs.v, specifications in SpecMessages.v. [lenient] says how the
    Go runtime treats the non-pointer argument of binary.Read (Messages.v, read_segment). *)
From Coq Require Import Permutation Sorted.
From Verif Require Import Messages SpecCodec SpecConsensus SpecMessages CodecProofs BlockCodecProofs MessageProofs LoopProofs
  Instance CodecExamples.

(** * C11: control messages *)
Theorem C11_ping : forall p rest, is_u64 (pg_difficulty p) -> is_u64 (pg_height p) ->
  ping_read (ping_bytes p ++ rest) = Ok (p, rest).
Proof. exact ping_rt. Qed.
Print Assumptions C11_ping.

Theorem C11_get_peer_addrs : forall c rest, is_u32 c -> get_peers_read (get_peers_bytes c ++ rest) = Ok (c, rest).
Proof. exact (fun c rest H => read_be_app 4 c rest H). Qed.
Print Assumptions C11_get_peer_addrs.

Theorem C11_peer_error : forall e rest, is_u32 (pe_code e) -> lenN (pe_text e) <= 2 ^ 48 ->
  peer_error_read (peer_error_bytes e ++ rest) = Ok (e, rest).
Proof. exact error_rt. Qed.
Print Assumptions C11_peer_error.

Theorem C11_headers : forall l, lenN l <= 512 -> Forall header_wf l ->
  exists b, headers_bytes l = Ok b /\ forall rest, headers_read (b ++ rest) = Ok (map wire_view l, rest).
Proof. exact block_headers_rt. Qed.
Print Assumptions C11_headers.

(** All message types at once: what is sent is received, whatever follows in the stream. *)
Theorem C11_all_messages : forall X P Q lenient, codec_laws X P Q -> sort_laws X ->
  forall m, sendable X P Q m ->
  exists b m', msg_bytes X m = Ok b /\ received_as X m m' /\
    forall rest, msg_read X lenient (type_number X m) (b ++ rest) = Ok (m', rest).
Proof.
  exact (fun X P Q lenient CL SL m W => eq_ind _ (fun t => exists b m', msg_bytes X m = Ok b /\ received_as X m m' /\
    forall rest, msg_read X lenient t (b ++ rest) = Ok (m', rest)) (msg_rt X P Q lenient CL SL m W) _ (type_number_eq X m)).
Qed.
Print Assumptions C11_all_messages.

Definition ex_addr : addr := Addr [xc0; xa8; x01; x02] 3414.
Definition ex_mapped : addr := Addr (brepeat x00 10 ++ [xff; xff] ++ [x7f; x00; x00; x01]) 13414.
Definition ex_v6 : addr := Addr ([x20; x01; x0d; xb8] ++ brepeat x00 11 ++ [x01]) 3414.
Lemma ex_addr_ok : ipv4 ex_addr /\ port_ok ex_addr.
Proof. split; [exists [xc0; xa8; x01; x02]; auto|split; vm_compute; [discriminate|reflexivity]]. Qed.
Lemma ex_mapped_ok : ipv4 ex_mapped /\ port_ok ex_mapped.
Proof. split; [exists [x7f; x00; x00; x01]; auto|split; vm_compute; [discriminate|reflexivity]]. Qed.
Lemma ex_v6_ok : ipv6 ex_v6 /\ exists x, In x (ip ex_v6) /\ x <> x00.
Proof.
  split; [|exists x20; split; [now left|discriminate]]. split; [reflexivity|].
  intros (d & L & [E|E]); [rewrite <- E in L|]; discriminate.
Qed.
Definition ex_hand : hand := Hand 1 7 99 (brepeat x42 32) 1000 (Some ex_mapped) (Some ex_addr) user_agent.
Definition ex_shake : shake := Shake 1 7 1000 user_agent (brepeat x42 32).
Lemma ex_hand_ok : sendable toy toy_P toy_Q (MHand ex_hand).
Proof.
  repeat (split; [reflexivity|]). split; [exists ex_mapped; split; [reflexivity|exact ex_mapped_ok]|].
  split; [exists ex_addr; split; [reflexivity|exact ex_addr_ok]|]. split; [vm_compute; discriminate|reflexivity].
Qed.
Lemma ex_shake_ok : sendable toy toy_P toy_Q (MShake ex_shake).
Proof. repeat (split; [reflexivity|]). split; [vm_compute; discriminate|reflexivity]. Qed.

Definition ex_messages : list (message toy) :=
  [MPing (PingMsg 5 6); MPeerAddrs [ex_addr; ex_mapped]; MBlock ex_block; MCompact ex_compact; MHeaders [ex_header 29; ex_header 31];
   MTx (ex_tx []); MGetBlock (brepeat x07 32); MGetHeaders [brepeat x01 32]; MHeader (ex_header 32); MGetPeerAddrs 7; MPong (PingMsg 1 2)].
Lemma ex_messages_ok : Forall (sendable toy toy_P toy_Q) ex_messages /\ Forall (in_loop toy) ex_messages.
Proof.
  split; [|repeat constructor; vm_compute; discriminate].
  assert (H29 : header_wf (ex_header 29)) by (apply ex_header_wf; cbn; auto 8).
  assert (H31 : header_wf (ex_header 31)) by (apply ex_header_wf; cbn; auto 8).
  assert (H32 : header_wf (ex_header 32)) by (apply ex_header_wf; cbn; auto 8).
  constructor; [split; reflexivity|].
  constructor; [split; [vm_compute; discriminate|repeat constructor; first [apply ex_addr_ok|apply ex_mapped_ok]]|].
  constructor; [exact ex_block_wf|].
  constructor; [split; [exact ex_compact_wf|]; split; [vm_compute; reflexivity|]; split; [vm_compute; reflexivity|vm_compute; discriminate]|].
  constructor; [split; [vm_compute; discriminate|constructor; [exact H29|constructor; [exact H31|constructor]]]|].
  constructor; [split; [apply (ex_tx_wf []); [constructor|vm_compute; discriminate]|reflexivity]|].
  constructor; [reflexivity|]. constructor; [split; [vm_compute; discriminate|repeat constructor]|].
  constructor; [exact H32|]. constructor; [reflexivity|]. constructor; [split; reflexivity|constructor].
Qed.

Example C11_case : codec_laws toy toy_P toy_Q /\ sort_laws toy /\ Forall (sendable toy toy_P toy_Q) ex_messages /\
  sendable toy toy_P toy_Q (MHand ex_hand) /\ sendable toy toy_P toy_Q (MError (PeerError 3 user_agent)).
Proof.
  split; [exact toy_codec|]. split; [exact toy_sort|]. split; [apply ex_messages_ok|]. split; [exact ex_hand_ok|].
  split; [reflexivity|vm_compute; discriminate].
Qed.

(** * C12: peer addresses *)

(** Full statement, false: the same for every list of at most 256 addresses of 4 or 16 bytes with
    ports below 65536. Missing here: IPv6 addresses. *)
Theorem C12_ipv4_partial : forall lenient l, lenN l <= 256 -> Forall (fun a => ipv4 a /\ port_ok a) l ->
  exists b l', peer_addrs_bytes l = Ok b /\ Forall2 same_endpoint l l' /\ lenN b = 4 + 7 * lenN l /\
    forall rest, peer_addrs_read lenient (b ++ rest) = Ok (l', rest).
Proof. exact peer_addrs_rt. Qed.
Print Assumptions C12_ipv4_partial.

(** Every IPv6 address is read as :: or not at all; only the first eight bytes are even sent. *)
Theorem C12_ipv6_exactly : forall a rest, ipv6 a ->
  exists b, addr_bytes a = Ok b /\ lenN b = 11 /\
    addr_read true (b ++ rest) = Ok (Addr (brepeat x00 16) (port a mod 65536), rest) /\
    addr_read false (b ++ rest) = Err (Msg "binary.Read: invalid type uint16").
Proof. exact addr_v6. Qed.
Print Assumptions C12_ipv6_exactly.

Theorem C12_ipv6_refuted : forall lenient a b a' rest, ipv6 a -> (exists x, In x (ip a) /\ x <> x00) ->
  addr_bytes a = Ok b -> addr_read lenient (b ++ rest) = Ok (a', rest) -> ~ same_endpoint a a'.
Proof. exact addr_v6_never. Qed.
Print Assumptions C12_ipv6_refuted.

(** An address of any other length terminates the sender. *)
Theorem C12_other_lengths_fatal : forall a, List.length (ip a) <> 4%nat -> List.length (ip a) <> 16%nat ->
  addr_bytes a = Fatal.
Proof. exact addr_bytes_bad. Qed.
Print Assumptions C12_other_lengths_fatal.

Example C12_case : Forall (fun a => ipv4 a /\ port_ok a) [ex_addr; ex_mapped] /\ ipv6 ex_v6 /\
  (exists x, In x (ip ex_v6) /\ x <> x00) /\
  (exists b, addr_bytes ex_v6 = Ok b /\ addr_read true b = Ok (Addr (brepeat x00 16) 3414, [])).
Proof.
  split; [repeat constructor; first [apply ex_addr_ok|apply ex_mapped_ok]|].
  split; [apply ex_v6_ok|]. split; [apply ex_v6_ok|]. eexists. split; vm_compute; reflexivity.
Qed.

(** * C13: handshake messages *)
Theorem C13_hand : forall X P Q lenient h, sendable X P Q (MHand h) ->
  exists b h', hand_bytes h = Ok b /\ received_as X (MHand h) (MHand h') /\
    forall rest, hand_read lenient (b ++ rest) = Ok (h', rest).
Proof. exact hand_rt. Qed.
Print Assumptions C13_hand.

Theorem C13_shake : forall X P Q s, sendable X P Q (MShake s) ->
  forall rest, shake_read (shake_bytes s ++ rest) = Ok (s, rest).
Proof. exact shake_rt. Qed.
Print Assumptions C13_shake.

Theorem C13_other_versions_refused : forall lenient v rest, is_u32 v -> v <> 1 ->
  hand_read lenient (be 4 v ++ rest) = Err (Msg "incompatibility protocol version") /\
  shake_read (be 4 v ++ rest) = Err (Msg "incompatibility protocol version").
Proof. exact (fun lenient v rest H N => conj (hand_version lenient v rest H N) (shake_version v rest H N)). Qed.
Print Assumptions C13_other_versions_refused.

Example C13_case : sendable toy toy_P toy_Q (MHand ex_hand) /\ sendable toy toy_P toy_Q (MShake ex_shake) /\ is_u32 2.
Proof. exact (conj ex_hand_ok (conj ex_shake_ok eq_refl)). Qed.

(** * C15: framing *)
Theorem C15_roundtrip : forall X P Q lenient, codec_laws X P Q -> sort_laws X ->
  forall m b, sendable X P Q m -> msg_bytes X m = Ok b -> lenN b <= 20000000 ->
  exists fr m', write_message X m = Ok (fr, 11 + lenN b) /\ fr = frame_of (type_number X m) b /\
    received_as X m m' /\
    forall rest, read_message X lenient (type_number X m) (fr ++ rest) = (11 + lenN b, Ok (m', rest)).
Proof. exact framing_rt. Qed.
Print Assumptions C15_roundtrip.

(** Refused frames: the outcome does not depend on what follows the header. *)
Theorem C15_bad_magic : forall X lenient t x y rest, [x; y] <> [x54; x34] ->
  read_message X lenient t (x :: y :: rest) = (0, Err (Msg "invalid magic code")).
Proof. exact read_bad_magic. Qed.
Print Assumptions C15_bad_magic.

Theorem C15_other_type : forall X lenient t t' n rest, t' < 256 -> is_u64 n -> t' <> t ->
  read_message X lenient t ([x54; x34] ++ be 1 t' ++ be 8 n ++ rest) =
    (11, Err (Msg "receive unexpected message type")).
Proof. exact read_bad_type. Qed.
Print Assumptions C15_other_type.

Theorem C15_too_long : forall X lenient t n rest, t < 256 -> is_u64 n -> 20000000 < n ->
  read_message X lenient t ([x54; x34] ++ be 1 t ++ be 8 n ++ rest) = (11, Err (Msg "too big message size")).
Proof. exact read_too_long. Qed.
Print Assumptions C15_too_long.

Theorem C15_incomplete_header : forall X lenient t bs, lenN bs < 11 -> exists e, read_message X lenient t bs = (0, Err e).
Proof. exact read_short. Qed.
Print Assumptions C15_incomplete_header.

Example C15_case : exists b, msg_bytes toy (MBlock ex_block) = Ok b /\ lenN b <= 20000000 /\ lenN b = 820.
Proof.
  destruct (msg_bytes toy (MBlock ex_block)) as [b|e| |] eqn:E.
  - exists b. split; [reflexivity|]. enough (lenN b = 820) as -> by (split; [discriminate|reflexivity]).
    assert (K : (match msg_bytes toy (MBlock ex_block) with Ok b => lenN b | _ => 0 end) = 820) by (vm_compute; reflexivity).
    rewrite E in K. exact K.
  - assert (K : is_ok (msg_bytes toy (MBlock ex_block)) = true) by (vm_compute; reflexivity). rewrite E in K. discriminate K.
  - assert (K : is_ok (msg_bytes toy (MBlock ex_block)) = true) by (vm_compute; reflexivity). rewrite E in K. discriminate K.
  - assert (K : is_ok (msg_bytes toy (MBlock ex_block)) = true) by (vm_compute; reflexivity). rewrite E in K. discriminate K.
Qed.

(** The shake of p2p/message_test.go:12-17, as recorded from a grin node. *)
Definition recorded_shake : shake :=
  Shake 1 6 30000 [x4d; x57; x2f; x47; x72; x69; x6e; x20; x30; x2e; x33; x2e; x30]
    (be 32 0x006642e037a073b89c00f48c93cf1b701b335dab84b538136f63b6feadaa50d6).
Example C15_recorded_shake : forall X rest,
  read_message X true 2 (be 80
    0x543402000000000000004500000001000000060000000000007530000000000000000d4d572f4772696e20302e332e30006642e037a073b89c00f48c93cf1b701b335dab84b538136f63b6feadaa50d6
    ++ rest) = (80, Ok (MShake recorded_shake, rest)).
Proof.
  intros X rest. pose (b := shake_bytes recorded_shake).
  assert (B : forall n, n = 80%nat -> be n
    0x543402000000000000004500000001000000060000000000007530000000000000000d4d572f4772696e20302e332e30006642e037a073b89c00f48c93cf1b701b335dab84b538136f63b6feadaa50d6
    = frame_of 2 (b ++ [])) by (intros n ->; vm_compute; reflexivity).
  assert (L : lenN (b ++ []) = 69) by (vm_compute; reflexivity).
  assert (D : msg_read X true 2 (b ++ []) = Ok (MShake recorded_shake, [])) by (vm_compute; reflexivity).
  pose proof (read_frame X true 2 b (MShake recorded_shake) [] rest eq_refl D) as F. rewrite L in F.
  rewrite (B _ eq_refl). apply F. discriminate.
Qed.

(** * C16: frames are consumed whole *)

(** The connected peer's loop, however the connection splits the stream: it has consumed a sequence
    of whole frames — also when a decoder leaves body bytes unread — dispatched what they decode to,
    counted their sizes, and if it stopped, then at something that is not an acceptable frame. *)
Theorem C16_loop : forall X lenient fuel chunks ms n ex s,
  Forall (fun c : bytes => c <> []) chunks ->
  read_loop X lenient buf_read_full fuel [] 0 (BufSrc [] chunks) = (ms, n, ex, s) ->
  exists frames outs tail,
    concat chunks = flat_map whole frames ++ tail /\ Forall frame_ok frames /\
    Forall2 (fun f m => decode_frame X lenient (fst f) (snd f) = Ok m) frames outs /\
    ms = flat_map some_list outs /\ n = frames_size frames mod 2 ^ 64 /\
    (ex = Cont -> bs_buf s ++ concat (bs_chunks s) = tail /\ List.length frames = fuel) /\
    (ex <> Cont -> (List.length frames < fuel)%nat /\
       forall f more m, tail = whole f ++ more -> frame_ok f -> decode_frame X lenient (fst f) (snd f) <> Ok m).
Proof. exact loop_parses_chunks. Qed.
Print Assumptions C16_loop.

(** The handshake reader leaves surplus body bytes in the stream, where they are taken for the next
    header: false for every message and every non-empty surplus. *)
Theorem C16_handshake_refuted : forall X lenient t b m junk rest, t < 256 ->
  msg_read X lenient t (b ++ junk) = Ok (m, junk) -> lenN (b ++ junk) <= 20000000 ->
  read_message X lenient t (frame_of t (b ++ junk) ++ rest) = (11 + lenN (b ++ junk), Ok (m, junk ++ rest)).
Proof. exact read_frame. Qed.
Print Assumptions C16_handshake_refuted.

(** A surplus byte in a shake, in front of a ping. *)
Example C16_case : forall X, exists m, msg_read X true 2 (shake_bytes ex_shake ++ [xaa]) = Ok (m, [xaa]) /\
  read_message X true 2 (frame_of 2 (shake_bytes ex_shake ++ [xaa]) ++ frame_of 3 (ping_bytes (PingMsg 1 2))) =
    (81, Ok (m, xaa :: frame_of 3 (ping_bytes (PingMsg 1 2)))) /\
  read_message X true 3 (xaa :: frame_of 3 (ping_bytes (PingMsg 1 2))) = (0, Err (Msg "invalid magic code")).
Proof. intro X. eexists. split; [|split]; vm_compute; reflexivity. Qed.

(** The loop on the same surplus: a ping with a trailing byte, then another ping, a byte at a time. *)
Example C16_loop_case : forall X, exists s,
  read_loop X true buf_read_full 3 [] 0
    (BufSrc [] (map (fun b => [b]) (frame_of 3 (ping_bytes (PingMsg 1 2) ++ [xaa]) ++ frame_of 3 (ping_bytes (PingMsg 3 4))))) =
  ([MPing (PingMsg 1 2); MPing (PingMsg 3 4)], 55, Failed EOF, s).
Proof. intro X. eexists. vm_compute. reflexivity. Qed.

(** * C17: delivery *)
Theorem C17_delivery : forall X P Q lenient ms frs chunks fuel, codec_laws X P Q -> sort_laws X ->
  Forall (sendable X P Q) ms -> Forall (in_loop X) ms ->
  Forall2 (fun m fr => exists n, write_message X m = Ok (fr, n) /\ lenN fr <= 20000011) ms frs ->
  Forall (fun c : bytes => c <> []) chunks -> concat chunks = concat frs -> (List.length ms < fuel)%nat ->
  exists got s, read_loop X lenient buf_read_full fuel [] 0 (BufSrc [] chunks) =
      (got, lenN (concat frs) mod 2 ^ 64, Failed EOF, s) /\
    Forall2 (received_as X) (filter (dispatched X) ms) got.
Proof. exact delivery. Qed.
Print Assumptions C17_delivery.

(** Eleven messages of different types, delivered in 5-byte pieces. *)
Fixpoint pieces (fuel n : nat) (l : bytes) : list bytes :=
  match fuel, l with
  | O, _ | _, [] => []
  | S f, _ => firstn n l :: pieces f n (skipn n l)
  end.
Lemma pieces_ok fuel n l : (0 < n)%nat -> (List.length l <= fuel)%nat ->
  Forall (fun c : bytes => c <> []) (pieces fuel n l) /\ concat (pieces fuel n l) = l.
Proof.
  intro Hn. revert l. induction fuel as [|f IH]; intros [|x l] L; cbn [pieces]; cbn in L;
    try (split; [constructor|reflexivity]); [lia|].
  destruct n as [|n]; [lia|]. destruct (IH (skipn (S n) (x :: l))) as [A B].
  { cbn. rewrite skipn_length. lia. }
  split; [constructor; [discriminate|exact A]|]. cbn [concat]. rewrite B. apply firstn_skipn.
Qed.
Example C17_case : exists frs chunks,
  Forall2 (fun m fr => exists n, write_message toy m = Ok (fr, n) /\ lenN fr <= 20000011) ex_messages frs /\
  Forall (fun c : bytes => c <> []) chunks /\ concat chunks = concat frs /\ (300 < List.length chunks)%nat /\
  Forall (sendable toy toy_P toy_Q) ex_messages /\ Forall (in_loop toy) ex_messages /\
  List.length (filter (dispatched toy) ex_messages) = 10%nat.
Proof.
  assert (K : Forall (fun m => is_ok (write_message toy m) = true) ex_messages).
  { repeat constructor; vm_compute; reflexivity. }
  exists (map (fun m => match write_message toy m with Ok (fr, _) => fr | _ => [] end) ex_messages).
  exists (pieces 10000 5 (concat (map (fun m => match write_message toy m with Ok (fr, _) => fr | _ => [] end) ex_messages))).
  split.
  - assert (B : Forall (fun m => lenN (match write_message toy m with Ok (fr, _) => fr | _ => [] end) <= 20000011) ex_messages).
    { repeat constructor; vm_compute; discriminate. }
    revert K B. generalize ex_messages. induction l as [|m l IH]; intros K B; cbn [map]; constructor;
      inversion K as [|? ? K1 K2]; inversion B as [|? ? B1 B2]; subst.
    + destruct (write_message toy m) as [[fr n]|e| |]; try discriminate K1. exists n. auto.
    + auto.
  - destruct (pieces_ok 10000 5 (concat (map (fun m => match write_message toy m with Ok (fr, _) => fr | _ => [] end) ex_messages))) as [A B].
    { lia. } { apply Nat.leb_le. vm_compute. reflexivity. }
    split; [exact A|]. split; [exact B|].
    split; [apply Nat.ltb_lt; vm_compute; reflexivity|]. split; [apply ex_messages_ok|]. split; [apply ex_messages_ok|reflexivity].
Qed.

(** * C18: the listed decoders never crash *)
Theorem C18_decoders_safe : forall X lenient t, codec_safe X ->
  t = 3 \/ t = 4 \/ t = 5 \/ t = 6 \/ t = 7 \/ t = 8 \/ t = 9 \/ t = 10 \/ t = 11 \/ t = 15 ->
  forall bs, survives (msg_read X lenient t bs).
Proof. exact listed_safe. Qed.
Print Assumptions C18_decoders_safe.

(** The whole loop: a stream that crashes it contains a compact-block frame. *)
Theorem C18_loop : forall X lenient fuel chunks ms n ex s, codec_safe X ->
  Forall (fun c : bytes => c <> []) chunks ->
  read_loop X lenient buf_read_full fuel [] 0 (BufSrc [] chunks) = (ms, n, ex, s) -> ex = Crashed \/ ex = Terminated ->
  exists front body more, concat chunks = front ++ frame_of 13 body ++ more.
Proof. exact chunks_crash_needs_compact. Qed.
Print Assumptions C18_loop.

Example C18_case : codec_safe toy /\ (forall X, exists e, msg_read X true 11 [x01; x02] = Err e).
Proof. split; [exact toy_safe|]. intro X. eexists. vm_compute. reflexivity. Qed.

(** * C19: decoders that do crash *)

(** Exactly when the announced length exceeds the address space. *)
Theorem C19_hand_refuted : forall lenient c no d s r sb rb n rest,
  is_u32 c -> is_u64 no -> is_u64 d -> is_u64 n ->
  ipv4 s -> port_ok s -> ipv4 r -> port_ok r -> addr_bytes s = Ok sb -> addr_bytes r = Ok rb ->
  (hand_read lenient (be 4 1 ++ be 4 c ++ be 8 no ++ be 8 d ++ sb ++ rb ++ be 8 n ++ rest) = Panic <-> 2 ^ 48 < n).
Proof. exact hand_panics. Qed.
Print Assumptions C19_hand_refuted.

Theorem C19_shake_refuted : forall c d n rest, is_u32 c -> is_u64 d -> is_u64 n ->
  (shake_read (be 4 1 ++ be 4 c ++ be 8 d ++ be 8 n ++ rest) = Panic <-> 2 ^ 48 < n).
Proof. exact shake_panics. Qed.
Print Assumptions C19_shake_refuted.

Theorem C19_peer_error_refuted : forall c n rest, is_u32 c -> is_u64 n ->
  (peer_error_read (be 4 c ++ be 8 n ++ rest) = Panic <-> 2 ^ 48 < n).
Proof. exact error_panics. Qed.
Print Assumptions C19_peer_error_refuted.

(** Such a compact block crashes the read loop of a connected peer, whatever was received before. *)
Theorem C19_loop_refuted : forall X lenient h hb acc c fuel rest, header_wf h -> header_bytes h = Ok hb ->
  exists s, read_loop X lenient read_full (S fuel) acc c
    (frame_of 13 (hb ++ be 1 0 ++ be 1 0 ++ be 8 (2 ^ 63)) ++ rest) = (acc, c, Crashed, s).
Proof. exact loop_crash. Qed.
Print Assumptions C19_loop_refuted.

Example C19_case :
  (forall X, read_message X true 1 (frame_of 1 (be 4 1 ++ be 4 7 ++ be 8 5 ++ be 8 1 ++ [x00; x7f; x00; x00; x01; x0d; x56] ++
    [x00; x7f; x00; x00; x01; x0d; x56] ++ be 8 (2 ^ 49))) = (57, Panic)) /\
  header_wf (ex_header 29) /\ exists hb, header_bytes (ex_header 29) = Ok hb.
Proof.
  split; [intro X; vm_compute; reflexivity|]. split; [apply ex_header_wf; cbn; auto 8|]. eexists. vm_compute. reflexivity.
Qed.
