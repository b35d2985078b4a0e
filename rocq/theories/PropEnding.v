(** Property C111: how reading from a peer ends. Statements; proofs are in EndingProofs.v,
    specifications in SpecEnding.v. *)
From Verif Require Import GoRT Ext Consensus Messages SpecCodec SpecConsensus SpecMessages SpecShaken SpecEnding EndingProofs
  CodecProofs Instance CodecExamples PropCodec PropMessages.

(** Every stream of bytes is a sequence of frames that are understood, and an ending. *)
Theorem C111_always : forall X lenient stream, codec_safe X ->
  exists frames outs tail ex, stream = flat_map whole frames ++ tail /\ Forall frame_ok frames /\
    Forall2 (fun f m => decode_frame X lenient (fst f) (snd f) = Ok m) frames outs /\ ending X lenient tail ex.
Proof. exact stream_splits. Qed.
Print Assumptions C111_always.

(** Which frames those are: of twelve numbers, with a body that starts with such a message. *)
Theorem C111_understood : forall X lenient t body m, codec_safe X ->
  decode_frame X lenient t body = Ok m <-> understood X lenient t body m.
Proof. exact understood_iff. Qed.
Print Assumptions C111_understood.
(** All others are refused, except for the bombs below. *)
Theorem C111_refused : forall X lenient t body, codec_safe X ->
  (forall m, ~ understood X lenient t body m) -> ~ (t = 13 /\ compact_bomb X body) -> exists e, decode_frame X lenient t body = Err e.
Proof. exact refused_else. Qed.
Print Assumptions C111_refused.
(** A request for a compact block, a stem transaction, and a ping that is cut. *)
Example C111_understood_case : understood toy false 12 [x01] None /\ understood toy false 3 (be 8 5 ++ be 8 6) (Some (MPing (PingMsg 5 6))) /\
  (forall m, ~ understood toy false 14 [] m) /\ (forall m, ~ understood toy false 3 [x01] m).
Proof.
  split; [reflexivity|]. split; [exists (PingMsg 5 6), []; split; reflexivity|]. split; [intros m []|]. intros m (x & r & E & _). discriminate E.
Qed.

(** An ending has one reason. *)
Theorem C111_reason : forall X lenient tail ex ex', codec_safe X ->
  ending X lenient tail ex -> ending X lenient tail ex' -> ex = ex'.
Proof. exact one_ending. Qed.
Print Assumptions C111_reason.

(** Whatever the pieces the stream arrives in, the read loop hands over the messages of the frames,
    counts their bytes, and stops for the reason of the ending. *)
Theorem C111_ends : forall X lenient chunks fuel frames outs tail ex,
  codec_safe X -> Forall (fun c : bytes => c <> []) chunks ->
  concat chunks = flat_map whole frames ++ tail -> Forall frame_ok frames ->
  Forall2 (fun f m => decode_frame X lenient (fst f) (snd f) = Ok m) frames outs -> ending X lenient tail ex ->
  (List.length frames < fuel)%nat ->
  exists s, read_loop X lenient buf_read_full fuel [] 0 (BufSrc [] chunks) =
    (flat_map some_list outs, frames_size frames mod 2 ^ 64, ex, s).
Proof. exact read_ends. Qed.
Print Assumptions C111_ends.

(** Reading always ends, never by a call that exits the process, and it brings the process down
    exactly by a compact block that announces too many short ids, after frames that are understood. *)
Theorem C111_crash : forall X lenient chunks fuel ms n s, codec_safe X ->
  Forall (fun c : bytes => c <> []) chunks -> (List.length (concat chunks) < fuel)%nat ->
  forall ex, read_loop X lenient buf_read_full fuel [] 0 (BufSrc [] chunks) = (ms, n, ex, s) ->
  ex <> Terminated /\ ex <> Cont /\
  (ex = Crashed <-> exists frames outs body more, concat chunks = flat_map whole frames ++ frame_of 13 body ++ more /\
     Forall frame_ok frames /\ Forall2 (fun f m => decode_frame X lenient (fst f) (snd f) = Ok m) frames outs /\
     lenN body <= 20000000 /\ compact_bomb X body).
Proof. exact crash_exactly. Qed.
Print Assumptions C111_crash.

Definition ex_ping : N * bytes := (3, be 8 5 ++ be 8 6).
Definition ex_bomb : bytes :=
  match header_bytes (ex_header 29) with Ok b => b | _ => [] end ++ be 1 0 ++ be 1 0 ++ be 8 (2 ^ 63).
(** A ping that is followed by a bomb, by the start of a second frame, by something else, by a frame
    without its body, and by nothing. *)
Example C111_case : codec_safe toy /\ frame_ok ex_ping /\
  decode_frame toy false (fst ex_ping) (snd ex_ping) = Ok (Some (MPing (PingMsg 5 6))) /\
  compact_bomb toy ex_bomb /\ lenN ex_bomb <= 20000000 /\
  ending toy false (frame_of 13 ex_bomb) Crashed /\
  ending toy false (opening 3 16 ++ be 8 5) Quiet /\
  ending toy false [x54; x34; x03] (Failed EOF) /\ ending toy false [x54; x34; x03; x00] (Failed UnexpectedEOF) /\
  ending toy false [x47; x45; x54] (Failed (Msg "invalid magic code")) /\
  ending toy false (opening 11 20000001 ++ []) (Failed (Msg "too big message size")) /\
  (exists e, ending toy false (frame_of 3 [x01] ++ [x02]) (Failed e)) /\
  ending toy false [] (Failed EOF).
Proof.
  assert (B : compact_bomb toy ex_bomb).
  { destruct (header_roundtrip (ex_header 29) (be 1 0 ++ be 1 0 ++ be 8 (2 ^ 63)) (ex_header_wf 29 ltac:(cbn; auto 8))) as (hb & H & R).
    unfold ex_bomb. rewrite H. exists (wire_view (ex_header 29)), [], [], (2 ^ 63), (be 1 0 ++ be 1 0 ++ be 8 (2 ^ 63)), [], [].
    split; [exact R|]. split; [reflexivity|]. split; [reflexivity|]. split; [reflexivity|]. split; [reflexivity|].
    split; [exists []; split; reflexivity|reflexivity]. }
  assert (L : lenN ex_bomb <= 20000000) by (vm_compute; discriminate).
  split; [exact toy_safe|]. split; [split; [reflexivity|vm_compute; discriminate]|]. split; [reflexivity|].
  split; [exact B|]. split; [exact L|].
  split; [rewrite <- (app_nil_r (frame_of 13 ex_bomb)); now apply end_bomb|].
  split; [apply end_body; reflexivity || discriminate|].
  split; [apply (end_short toy false [x54; x34; x03]); [reflexivity|right; now exists [x03]]|].
  split; [apply (end_short toy false [x54; x34; x03; x00]); [reflexivity|right; now exists [x03; x00]]|].
  split; [apply end_magic; discriminate|].
  split; [apply end_long; reflexivity|].
  split; [eexists; apply end_refused; [reflexivity|discriminate|reflexivity]|].
  apply (end_short toy false []); [reflexivity|left; reflexivity].
Qed.
