(** Properties C93 and C94: where the read loop stops, and how long received lists are. Statements
    only; proofs are in LimitProofs.v, specifications in SpecLimits.v. *)
From Verif Require Import Messages SpecCodec SpecConsensus SpecMessages SpecLimits CodecProofs BlockCodecProofs MessageProofs
  LoopProofs LimitProofs Instance CodecExamples.

(** * C93: reading ends at the first bad frame *)
Theorem C93_stops : forall X P Q lenient ms frs bad chunks fuel, codec_laws X P Q -> sort_laws X ->
  Forall (sendable X P Q) ms -> Forall (in_loop X) ms ->
  Forall2 (fun m fr => exists n, write_message X m = Ok (fr, n) /\ lenN fr <= 20000011) ms frs -> bad_start bad ->
  Forall (fun c : bytes => c <> []) chunks -> concat chunks = concat frs ++ bad -> (List.length ms < fuel)%nat ->
  exists got e s, read_loop X lenient buf_read_full fuel [] 0 (BufSrc [] chunks) =
      (got, lenN (concat frs) mod 2 ^ 64, Failed e, s) /\
    Forall2 (received_as X) (filter (dispatched X) ms) got.
Proof. exact stops. Qed.
Print Assumptions C93_stops.

(** A ping, a second hand message, which is bad here, and another ping that is not read. *)
Example C93_case : bad_start (frame_of 1 [xaa] ++ frame_of 3 (ping_bytes (PingMsg 3 4))) /\
  forall X, exists s, read_loop X true buf_read_full 5 [] 0
    (BufSrc [] [frame_of 3 (ping_bytes (PingMsg 1 2)) ++ frame_of 1 [xaa]; frame_of 3 (ping_bytes (PingMsg 3 4))]) =
  ([MPing (PingMsg 1 2)], 27, Failed (Msg "received unexpected message from peer"), s).
Proof.
  split.
  - apply unknown_type; [reflexivity|unfold known_type; lia|vm_compute; discriminate].
  - intro X. eexists. vm_compute. reflexivity.
Qed.
(** The other two kinds. *)
Example C93_kinds : bad_start [x54; x35] /\ bad_start ([x54; x34] ++ be 1 3 ++ be 8 20000001 ++ []).
Proof.
  split; [apply wrong_magic; discriminate|apply too_long; reflexivity].
Qed.

(** * C94: every list received is bounded *)
Theorem C94_decoded : forall X lenient t bs m rest, msg_read X lenient t bs = Ok (m, rest) -> lists_bounded m.
Proof. exact read_bounded. Qed.
Print Assumptions C94_decoded.

Theorem C94_delivered : forall X lenient fuel chunks ms n ex s, Forall (fun c : bytes => c <> []) chunks ->
  read_loop X lenient buf_read_full fuel [] 0 (BufSrc [] chunks) = (ms, n, ex, s) -> Forall lists_bounded ms.
Proof. exact loop_bounded. Qed.
Print Assumptions C94_delivered.

(** 256 addresses are accepted, 257 are not; likewise 14 and 15 locator hashes. *)
Example C94_case : forall X,
  let list k := be 4 (N.of_nat k) ++ concat (repeat (x00 :: be 4 2130706433 ++ be 2 13414) k) in
  let locs k := be 1 (N.of_nat k) ++ concat (repeat (repeat x01 32) k) in
  is_ok (msg_read X true 6 (list 256%nat)) = true /\ is_ok (msg_read X true 6 (list 257%nat)) = false /\
  is_ok (msg_read X true 7 (locs 14%nat)) = true /\ is_ok (msg_read X true 7 (locs 15%nat)) = false.
Proof. intros. repeat split; vm_compute; reflexivity. Qed.
