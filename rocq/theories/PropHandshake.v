(** Properties C14, C42, C65 and C66: handshakes and nonces. Statements; proofs are in
    HandshakeProofs.v, specifications in SpecHandshake.v and SpecMessages.v. *)
From Verif Require Import Handshake SpecPow SpecCodec SpecConsensus SpecMessages SpecHandshake SpecShaken HandshakeProofs
  ShakenProofs Instance PropMessages.

(** * C14: two nodes running this code never complete a handshake (refuted) *)

(** The dialler's hand is accepted, with its fields intact, by every node that does not use its
    nonce; the answer makes the dialler fail, whatever follows it. *)
Theorem C14_both_ends_refuted : forall X lenient nonces nonce receiver,
  hash_laws X -> is_u64 nonce -> ipv4 receiver -> port_ok receiver -> ~ In nonce nonces ->
  exists f1 f2 g h, block_hash X (testnet4 X) = Ok g /\
    (forall input, snd (shake_by_hand X lenient nonce receiver None input) = [Sent f1]) /\
    (forall rest, hand_by_shake X lenient nonces None (f1 ++ rest) = (Ok (h, rest), [Sent f2])) /\
    received_as X (MHand (Hand 1 7 nonce g 1 (Some (Addr [x00; x00; x00; x00] 0)) (Some receiver) user_agent)) (MHand h) /\
    (forall rest, shake_by_hand X lenient nonce receiver None (f2 ++ rest) = (Err EOF, [Sent f1])).
Proof. exact both_ends. Qed.
Print Assumptions C14_both_ends_refuted.

(** Whatever the listener received, and to whatever address the dialler connected. *)
Theorem C14_dialler_fails_refuted : forall X lenient nonces wr input h rest ops nonce receiver,
  hand_by_shake X lenient nonces wr input = (Ok (h, rest), ops) -> tcp_ip receiver ->
  exists f, ops = [Sent f] /\
    forall more, exists sent, shake_by_hand X lenient nonce receiver None (f ++ more) = (Err EOF, [Sent sent]).
Proof. exact dial_fails. Qed.
Print Assumptions C14_dialler_fails_refuted.

(** A peer that does send its genesis hash is understood. *)
Theorem C14_conforming_partial : forall X lenient nonce receiver s,
  hash_laws X -> is_u64 nonce -> ipv4 receiver -> port_ok receiver ->
  sendable X (fun _ => True) (fun _ => True) (MShake s) -> lenN (shake_bytes s) <= 20000000 ->
  forall rest, exists f, shake_by_hand X lenient nonce receiver None (frame_of 2 (shake_bytes s) ++ rest) =
    (Ok (s, rest), [Sent f]).
Proof. exact conforming. Qed.
Print Assumptions C14_conforming_partial.

Example C14_case : hash_laws toy /\ is_u64 99 /\ ipv4 ex_addr /\ port_ok ex_addr /\ tcp_ip ex_addr /\
  ~ In 99 (map N.of_nat (seq 0 90)) /\
  sendable toy (fun _ => True) (fun _ => True) (MShake ex_shake) /\ lenN (shake_bytes ex_shake) <= 20000000.
Proof.
  split; [exact toy_hash_laws|]. split; [reflexivity|]. split; [apply ex_addr_ok|]. split; [apply ex_addr_ok|].
  split; [left; reflexivity|].
  split. { intro I. apply in_map_iff in I. destruct I as (x & E & I). apply in_seq in I. lia. }
  split; [exact ex_shake_ok|]. vm_compute. discriminate.
Qed.

(** * C42: connections to ourselves *)

(** One after another, the calls return the list cyclically, starting with its second entry. *)
Theorem C42_cycle : forall random k, exists ns l,
  nonce_calls k (nonce_init random) = Ok (ns, l) /\ l = NonceList (N.of_nat k mod 100) (nl_list (nonce_init random)) /\
  ns = map (fun i => random ((i + 1) mod 100)%nat) (seq 0 k).
Proof. exact nonce_cycle. Qed.
Print Assumptions C42_cycle.

(** Under any interleaving of any number of handshakes no index is out of range and every nonce
    handed out is on the list; *)
Theorem C42_any_schedule : forall l s, List.length l = 100%nat -> nonce_steps l nonce_start s ->
  ~ In NtPanic (ix_threads s) /\ forall n, In (NtDone n) (ix_threads s) -> In n l.
Proof. exact nonce_known. Qed.
Print Assumptions C42_any_schedule.
(** these interleavings include calls that run alone; *)
Theorem C42_alone : forall l i n l' seen ts, next_nonce (NonceList i l) = Ok (n, l') -> In i seen ->
  nonce_steps l (NonceState seen ts) (NonceState (nl_idx l' :: seen) (ts ++ [NtDone n])).
Proof. exact nonce_alone. Qed.
Print Assumptions C42_alone.
(** so the node's own listener refuses every hand that carries it, *)
Theorem C42_refused : forall X lenient l s n, List.length l = 100%nat -> nonce_steps l nonce_start s ->
  In (NtDone n) (ix_threads s) ->
  forall wr input c h rest, read_message X lenient 1 input = (c, Ok (MHand h, rest)) -> hd_nonce h = n ->
  hand_by_shake X lenient l wr input = (Err (Msg "detect connection to ourselves by nonce"), []).
Proof. exact self_refused. Qed.
Print Assumptions C42_refused.
(** in particular the hand it sends itself. *)
Theorem C42_self_dial : forall X lenient l s n receiver, hash_laws X -> Forall is_u64 l ->
  List.length l = 100%nat -> nonce_steps l nonce_start s -> In (NtDone n) (ix_threads s) ->
  ipv4 receiver -> port_ok receiver ->
  exists f, (forall input, snd (shake_by_hand X lenient n receiver None input) = [Sent f]) /\
    forall wr rest, hand_by_shake X lenient l wr (f ++ rest) = (Err (Msg "detect connection to ourselves by nonce"), []).
Proof. exact self_dial. Qed.
Print Assumptions C42_self_dial.

(** Two overlapping handshakes: both read the index before either stores it, and get the same
    nonce. *)
Definition ex_nonces : list N := map (fun i => N.of_nat (7 * i + 3)) (seq 0 100).
Example C42_race : nonce_steps ex_nonces nonce_start (NonceState [1; 1; 0] [NtDone 10; NtDone 10]).
Proof.
  eapply NsMore; [eapply NsMore; [eapply NsMore; [eapply NsMore; [eapply NsMore; [eapply NsMore; [eapply NsMore; [eapply NsMore; [apply NsNone|]|]|]|]|]|]|]|].
  - apply (NsSpawn ex_nonces [0] []).
  - apply (NsSpawn ex_nonces [0] [NtStart]).
  - apply (NsRead ex_nonces [0] [] [NtStart] 0). now left.
  - apply (NsRead ex_nonces [0] [NtRead 0] [] 0). now left.
  - apply (NsStore ex_nonces [0] [] [NtRead 0] 0).
  - apply (NsStore ex_nonces [1; 0] [NtStored] [] 0).
  - apply (NsIndex ex_nonces [1; 1; 0] [] [NtStored] 1 10); [now left|reflexivity].
  - apply (NsIndex ex_nonces [1; 1; 0] [NtDone 10] [] 1 10); [now left|reflexivity].
Qed.
Example C42_case : List.length ex_nonces = 100%nat /\ Forall is_u64 ex_nonces /\
  nonce_calls 3 (nonce_init (fun i => N.of_nat (7 * i + 3))) = Ok ([10; 17; 24], NonceList 3 ex_nonces).
Proof.
  split; [reflexivity|]. split; [|vm_compute; reflexivity].
  apply Forall_forall. intros x I. apply in_map_iff in I. destruct I as (i & <- & I). apply in_seq in I. unfold is_u64. lia.
Qed.

(** * C65: nodes of other chains are not refused (refuted) *)
Theorem C65_listener_refuted : forall X lenient nonces h b,
  sendable X (fun _ => True) (fun _ => True) (MHand h) -> hand_bytes h = Ok b -> lenN b <= 20000000 ->
  ~ In (hd_nonce h) nonces ->
  exists h', received_as X (MHand h) (MHand h') /\
    forall rest, accept_new_peer X lenient nonces None (frame_of 1 b ++ rest) =
      (Ok (PeerOf [] false 1 (hd_caps h) (hd_difficulty h) (hd_agent h) 0, rest), [Sent answer]).
Proof. intro X. rewrite <- answer_eq. exact (any_hand X). Qed.
Print Assumptions C65_listener_refuted.
Theorem C65_dialler_refuted : forall X lenient name nonce receiver s,
  hash_laws X -> is_u64 nonce -> ipv4 receiver -> port_ok receiver ->
  sendable X (fun _ => True) (fun _ => True) (MShake s) -> lenN (shake_bytes s) <= 20000000 ->
  forall rest, fst (new_peer X lenient name nonce receiver None (frame_of 2 (shake_bytes s) ++ rest)) =
    Ok (PeerOf name true 1 (sk_caps s) (sk_difficulty s) (sk_agent s) 0, rest).
Proof. exact any_shake. Qed.
Print Assumptions C65_dialler_refuted.
(** A hand and a shake with a genesis hash that is not ours. *)
Example C65_case :
  sendable toy (fun _ => True) (fun _ => True) (MHand ex_hand) /\ (exists b, hand_bytes ex_hand = Ok b /\ lenN b = 91) /\
  block_hash toy (testnet4 toy) <> Ok (hd_genesis ex_hand) /\ sk_genesis ex_shake = hd_genesis ex_hand.
Proof.
  split; [exact ex_hand_ok|]. split; [eexists; split; vm_compute; reflexivity|]. split; [|reflexivity].
  vm_compute. discriminate.
Qed.

(** * C66: a failed handshake leaves its connection open (refuted) *)
Theorem C66_never_closed_refuted : forall X lenient name nonce receiver wr input,
  ~ In Closed (snd (new_peer X lenient name nonce receiver wr input)).
Proof. exact new_peer_open. Qed.
Print Assumptions C66_never_closed_refuted.
(** Every dial to a node running this code fails that way. *)
Theorem C66_every_dial_refuted : forall X lenient nonces wr input h rest ops name nonce receiver,
  hand_by_shake X lenient nonces wr input = (Ok (h, rest), ops) -> tcp_ip receiver ->
  exists f, ops = [Sent f] /\ forall more, exists sent,
    new_peer X lenient name nonce receiver None (f ++ more) = (Err EOF, [Sent sent]).
Proof. exact leak. Qed.
Print Assumptions C66_every_dial_refuted.
Example C66_case : exists input h rest ops, hand_by_shake toy true [] None input = (Ok (h, rest), ops).
Proof.
  destruct (C14_both_ends_refuted toy true [] 99 ex_addr toy_hash_laws eq_refl (proj1 ex_addr_ok) (proj2 ex_addr_ok) (fun x => x))
    as (f1 & f2 & g & h & _ & _ & H & _).
  exists (f1 ++ []), h, [], [Sent f2]. apply H.
Qed.
