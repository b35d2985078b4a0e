(** Property C110: the outcomes of a handshake. Statements; proofs are in ShakenProofs.v,
    specifications in SpecShaken.v. *)
From Verif Require Import GoRT Ext Messages Handshake SpecHandshake SpecShaken HandshakeProofs ShakenProofs Instance PropMessages.

(** The dialling side sends its hand whatever the other side does, and makes a peer exactly of a
    shake; a shake that announces more bytes than fit into memory ends the process with a run-time
    error, and every other input is refused with an error. *)
Theorem C110_dial : forall X lenient name nonce receiver, tcp_ip receiver ->
  exists f, forall input, exists r, new_peer X lenient name nonce receiver None input = (r, [Sent f]) /\
    (forall p rest, r = Ok (p, rest) <-> exists c d a, shaken input c d a rest /\ p = PeerOf name true 1 c d a 0) /\
    (r = Panic <-> shake_bomb input) /\ r <> Fatal.
Proof. exact dial_exactly. Qed.
Print Assumptions C110_dial.

(** The hand that is sent to an IPv4 address, byte by byte: a full node with total difficulty 1, whatever the chain. *)
Theorem C110_hand : forall X lenient name nonce receiver g input, hash_laws X ->
  List.length (ip receiver) = 4%nat -> (0 <= port receiver < 65536)%Z -> block_hash X (testnet4 X) = Ok g ->
  snd (new_peer X lenient name nonce receiver None input) =
    [Sent (opening 1 91 ++ hand_text 7 nonce 1 (brepeat x00 7) (x00 :: ip receiver ++ be 2 (Z.to_N (port receiver))) (String.list_byte_of_string "gringo v0.0.1") g)].
Proof. exact hand_text_sent. Qed.
Print Assumptions C110_hand.
Example C110_hand_case : exists g, hash_laws toy /\ block_hash toy (testnet4 toy) = Ok g.
Proof. destruct (testnet4_hash toy) as (g & E & _). exists g. split; [exact toy_hash_laws|exact E]. Qed.

(** The accepting side; it sends its answer exactly if it makes a peer. *)
Theorem C110_listen : forall X lenient nonces wr input, exists r ops,
  accept_new_peer X lenient nonces wr input = (r, ops) /\
  (forall p rest, r = Ok (p, rest) <->
     wr = None /\ exists c no d a, handed lenient input c no d a rest /\ ~ In no nonces /\ p = PeerOf [] false 1 c d a 0) /\
  (r = Panic <-> hand_bomb lenient input) /\ r <> Fatal /\
  ops = match r with Ok _ => [Sent answer] | _ => [] end.
Proof. exact listen_exactly. Qed.
Print Assumptions C110_listen.

(** So 35 bytes end the process of a node that dials, and 57 bytes one that accepts. *)
Theorem C110_crash : lenN bomb2 = 35 /\ lenN bomb1 = 57 /\
  (forall X lenient name nonce receiver more, tcp_ip receiver ->
     fst (new_peer X lenient name nonce receiver None (bomb2 ++ more)) = Panic) /\
  (forall X lenient nonces wr more, fst (accept_new_peer X lenient nonces wr (bomb1 ++ more)) = Panic).
Proof. exact bombs. Qed.
Print Assumptions C110_crash.

(** A shake with a remark after it, and a hand with IPv4 addresses. *)
Example C110_case :
  tcp_ip ex_addr /\
  shaken (opening 2 70 ++ shake_text 7 5 [x61] (brepeat x33 32) ++ [x01; x02]) 7 5 [x61] [x01; x02] /\
  handed false (opening 1 79 ++ hand_text 7 9 5 (brepeat x00 7) (brepeat x00 7) [x61] (brepeat x33 32)) 7 9 5 [x61] [] /\
  ~ In 9 [1; 2].
Proof.
  split; [left; reflexivity|]. split; [|split].
  - exists 70, (brepeat x33 32). split; [split; discriminate|]. repeat split; reflexivity.
  - exists 79, (brepeat x00 7), (brepeat x00 7), (brepeat x33 32). split; [split; discriminate|].
    split; [reflexivity|]. do 3 (split; [reflexivity|]).
    assert (A : addr_text false (brepeat x00 7)) by (left; exists (brepeat x00 6); split; reflexivity).
    split; [exact A|]. split; [exact A|]. now rewrite app_nil_r.
  - intros [D|[D|[]]]; discriminate D.
Qed.
