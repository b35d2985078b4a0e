(** Property C113: the wire format of every message, byte by byte. Statements only; proofs are in
    LayoutProofs.v, the offset tables in SpecLayout.v. *)
From Coq Require Import Permutation Sorted.
From Verif Require Import Messages SpecCodec SpecConsensus SpecMessages SpecLayout CodecProofs BlockCodecProofs MessageProofs
  LoopProofs LayoutProofs Instance CodecExamples PropMessages.

(** * C113 *)
Theorem C113_layout : forall X P Q, codec_laws X P Q -> sort_laws X ->
  forall m, laid_out X P Q m -> exists b, msg_bytes X m = Ok b /\ layout X m b.
Proof. exact laid. Qed.
Print Assumptions C113_layout.

(** What is on the wire is what the reader finds there: the same bytes are read as the message. *)
Theorem C113_read : forall X P Q lenient, codec_laws X P Q -> sort_laws X ->
  forall m, sendable X P Q m -> exists b m', msg_bytes X m = Ok b /\ layout X m b /\ received_as X m m' /\
    forall rest, msg_read X lenient (type_number X m) (b ++ rest) = Ok (m', rest).
Proof. exact laid_read. Qed.
Print Assumptions C113_read.

(** Every item of [ex_messages], a handshake and a transaction with an input meet the hypotheses. *)
Example C113_case : codec_laws toy toy_P toy_Q /\ sort_laws toy /\ Forall (laid_out toy toy_P toy_Q) ex_messages /\
  laid_out toy toy_P toy_Q (MHand ex_hand) /\ laid_out toy toy_P toy_Q (MShake ex_shake) /\
  laid_out toy toy_P toy_Q (MTx (ex_tx [ex_input 1; ex_input 2])) /\
  laid_out toy toy_P toy_Q (MError (PeerError 3 user_agent)).
Proof.
  split; [exact toy_codec|]. split; [exact toy_sort|]. split.
  { eapply Forall_impl; [|exact (proj1 ex_messages_ok)]. intros [] H; try exact H. exact (proj1 H). }
  split; [exact ex_hand_ok|]. split; [exact ex_shake_ok|]. split.
  { apply ex_tx_wf; [repeat constructor; apply ex_input_wf; reflexivity|vm_compute; discriminate]. }
  split; [reflexivity|vm_compute; discriminate].
Qed.

(** The body of a ping with difficulty 5 and height 6. *)
Example C113_ping_case : exists b, msg_bytes toy (MPing (PingMsg 5 6)) = Ok b /\
  b = brepeat x00 7 ++ [x05] ++ brepeat x00 7 ++ [x06].
Proof. eexists. split; vm_compute; reflexivity. Qed.
