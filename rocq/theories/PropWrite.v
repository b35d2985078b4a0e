(** Property C108: which messages can be written. Statements; proofs are in WriteProofs.v, the
    specification in SpecWrite.v. *)
From Verif Require Import Messages SpecCodec SpecConsensus SpecMessages SpecWrite CodecExamples WriteProofs.

(** * C108: a message is written, or the process ends, for the messages listed in SpecWrite.v *)
Theorem C108_exactly : forall X (m : message X),
  (write_message X m = Fatal <-> unwritable m) /\ (write_message X m = Panic <-> overflowing m) /\
  (~ unwritable m /\ ~ overflowing m -> exists fr k, write_message X m = Ok (fr, k)).
Proof. exact written. Qed.
Print Assumptions C108_exactly.

(** Whatever was read from a peer can be written. *)
Theorem C108_received : forall X lenient t bs (m : message X) rest,
  msg_read X lenient t bs = Ok (m, rest) -> exists b, msg_bytes X m = Ok b.
Proof. exact read_sent. Qed.
Print Assumptions C108_received.

(** A header without hashes, as in genesis blocks; 43 nonces, of which the last uses a bit beyond the
    last byte, or not; 257 addresses; an address of five bytes. *)
Definition short_header : header := Header 1 0 [] [] (time_unix 0) [] [] [] 0 [] [] 0 0 (Proof 29 (repeat 1 42)) 0 0 0.
Definition long_header (last : N) : header :=
  let z := brepeat x00 32 in Header 1 0 z z (time_unix 0) z z z 0 z z 0 0 (Proof 29 (repeat 1 42 ++ [last])) 0 0 0.
Example C108_case : forall X, unwritable (X := X) (MHeader short_header) /\
  overflowing (X := X) (MHeaders [long_header 63; long_header 64]) /\
  (exists fr k, write_message X (MHeader (long_header 63)) = Ok (fr, k)) /\
  unwritable (X := X) (MPeerAddrs (repeat (Addr (brepeat x01 4) 1) 257)) /\ unwritable (X := X) (MPeerAddrs [Addr (brepeat x01 5) 1]).
Proof.
  intro X. split; [|split; [|split; [|split]]].
  - apply (proj1 (written X _)). vm_compute. reflexivity.
  - apply (proj1 (proj2 (written X _))). vm_compute. reflexivity.
  - eexists _, _. vm_compute. reflexivity.
  - apply (proj1 (written X _)). vm_compute. reflexivity.
  - apply (proj1 (written X _)). vm_compute. reflexivity.
Qed.
(** A ping is read. *)
Example C108_received_case : forall X, exists m rest, msg_read X true 3 (be 8 5 ++ be 8 6) = Ok (m, rest) /\ m = MPing (PingMsg 5 6).
Proof. intro X. eexists _, _. split; [vm_compute; reflexivity|reflexivity]. Qed.
