(** Property C87: the memory asked for while decoding. Statements only; proofs are in AllocProofs.v,
    specifications in SpecAlloc.v. *)
From Verif Require Import SpecCodec SpecConsensus SpecMessages Alloc SpecAlloc AllocProofs Instance Real CodecExamples.

(** * C87: memory in proportion to what was received *)

(** The instrumented decoders return what the decoders return. *)
Theorem C87_same : forall X lenient t bs, fst (msg_alloc X lenient t bs) = msg_read X lenient t bs.
Proof. exact erase_msg. Qed.
Print Assumptions C87_same.

(** Every message but errors (0), handshakes (1, 2) and compact blocks (13): whatever is received,
    at most one element per byte and a million more are asked for; and a message that was decoded
    had at least as many bytes as elements. *)
Theorem C87_messages_partial : forall X lenient t, codec_shrinks X -> ~ In t [0; 1; 2; 13] ->
  proportionate 1000000 (msg_alloc X lenient t).
Proof. exact messages_proportionate. Qed.
Print Assumptions C87_messages_partial.

(** The read loop, on every stream and splitting: buffers are limited to 20000000 bytes, and decoding
    a frame that is not a compact block asks for at most its length and a million. *)
Theorem C87_loop_partial : forall X lenient fuel chunks t n l, codec_shrinks X ->
  Forall (fun c : bytes => c <> []) chunks ->
  In (t, n, l) (loop_alloc X lenient buf_read_full fuel (BufSrc [] chunks)) ->
  n <= 20000000 /\ (t <> 13 -> total l <= n + 1000000).
Proof. exact loop_bound_chunks. Qed.
Print Assumptions C87_loop_partial.

(** Frame by frame: seven types announce no sizes, five are decoded as above, and a frame of any other
    type is copied once more. *)
Theorem C87_frame : forall X lenient t body,
  (In t [3; 4; 5; 6; 8; 10; 12] -> frame_alloc X lenient t body = []) /\
  (In t [7; 9; 11; 13; 15] -> frame_alloc X lenient t body = snd (msg_alloc X lenient t body)) /\
  (~ In t [3; 4; 5; 6; 7; 8; 9; 10; 11; 12; 13; 15] -> frame_alloc X lenient t body = [lenN body]).
Proof. exact frame_table. Qed.
Print Assumptions C87_frame.

(** The limits are reached: eleven bytes make the read loop ask for 20000000 bytes... *)
Theorem C87_frame_refuted : forall X lenient t n fuel, t < 256 -> 0 < n <= 20000000 ->
  lenN (frame_header t n) = 11 /\
  loop_alloc X lenient buf_read_full (S fuel) (BufSrc [] [frame_header t n]) = [(t, n, [])].
Proof. exact frame_asks_11. Qed.
Print Assumptions C87_frame_refuted.

(** ... and a header with three counts makes the block decoder ask for a million inputs. *)
Theorem C87_block_refuted : forall X h hb n, header_wf h -> header_bytes h = Ok hb -> 0 < n <= 1000000 ->
  snd (block_alloc X (hb ++ be 8 n ++ be 8 0 ++ be 8 0)) = [n].
Proof. exact block_asks. Qed.
Print Assumptions C87_block_refuted.

(** The others have no limit but the address space. *)
Theorem C87_hand_refuted : forall lenient c no d s r sb rb n, is_u32 c -> is_u64 no -> is_u64 d -> n <= 2 ^ 48 ->
  ipv4 s -> port_ok s -> ipv4 r -> port_ok r -> addr_bytes s = Ok sb -> addr_bytes r = Ok rb ->
  snd (hand_alloc lenient (be 4 1 ++ be 4 c ++ be 8 no ++ be 8 d ++ sb ++ rb ++ be 8 n)) = [n].
Proof. exact hand_asks. Qed.
Print Assumptions C87_hand_refuted.

Theorem C87_shake_refuted : forall c d n, is_u32 c -> is_u64 d -> n <= 2 ^ 48 ->
  snd (shake_alloc (be 4 1 ++ be 4 c ++ be 8 d ++ be 8 n)) = [n].
Proof. exact shake_asks. Qed.
Print Assumptions C87_shake_refuted.

Theorem C87_error_refuted : forall c n, is_u32 c -> n <= 2 ^ 48 ->
  snd (peer_error_alloc (be 4 c ++ be 8 n)) = [n].
Proof. exact error_asks. Qed.
Print Assumptions C87_error_refuted.

Theorem C87_compact_refuted : forall X h hb n, header_wf h -> header_bytes h = Ok hb -> n * 24 <= 2 ^ 48 ->
  snd (compact_alloc X (hb ++ be 1 0 ++ be 1 0 ++ be 8 n)) = [0; 0; n].
Proof. exact compact_asks. Qed.
Print Assumptions C87_compact_refuted.

(** The real codecs and the toy ones shrink; a shake of 24 bytes that asks for 2^48; a two-hash
    locator that is decoded, and one that lacks a byte; the hypotheses on the header and on the
    addresses are met. *)
Example C87_case : codec_shrinks real /\ codec_shrinks toy /\
  lenN (be 4 1 ++ be 4 7 ++ be 8 1 ++ be 8 (2 ^ 48)) = 24 /\
  shake_alloc (be 4 1 ++ be 4 7 ++ be 8 1 ++ be 8 (2 ^ 48)) = (Err EOF, [2 ^ 48]) /\
  snd (locator_alloc (be 1 2 ++ brepeat x00 64)) = [2] /\
  is_ok (fst (locator_alloc (be 1 2 ++ brepeat x00 64))) = true /\
  locator_alloc (be 1 14 ++ brepeat x00 63) = (Err UnexpectedEOF, [14]) /\
  header_wf (ex_header 29) /\ (exists hb, header_bytes (ex_header 29) = Ok hb) /\
  ipv4 (Addr [x7f; x00; x00; x01] 3414) /\ port_ok (Addr [x7f; x00; x00; x01] 3414) /\
  addr_bytes (Addr [x7f; x00; x00; x01] 3414) = Ok [x00; x7f; x00; x00; x01; x0d; x56].
Proof. exact alloc_case. Qed.

(** A ping and then the header of a transaction frame that never comes, a byte at a time. *)
Example C87_loop_case : forall X, loop_alloc X true buf_read_full 9
    (BufSrc [] (map (fun b => [b]) (frame_of 3 (be 8 1 ++ be 8 2) ++ frame_header 15 19999999))) =
  [(3, 16, []); (15, 19999999, [])].
Proof. intros X. vm_compute. reflexivity. Qed.
