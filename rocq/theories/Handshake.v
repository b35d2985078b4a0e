(** The handshake and the nonce list: p2p/handshake.go:231-293, p2p/server.go, and the construction
    of a peer in p2p/peer.go:59-116. *)
From Verif Require Export Messages Chain.

(** ** The nonce list: p2p/server.go *)

(** Line 13. *)
Definition nonces_cap : N := 100.
(** Lines 16-19 and 22-28 — nonceList after Init with the random numbers [list]. *)
Record nonce_list := NonceList { nl_idx : N; nl_list : list N }.
Definition nonce_init (random : nat -> N) : nonce_list :=
  NonceList 0 (map random (seq 0 (N.to_nat nonces_cap))).
(** Lines 31-34 — NextNonce, run alone; an index outside the list panics. *)
Definition next_nonce (l : nonce_list) : res (N * nonce_list) :=
  let i := (nl_idx l + 1) mod nonces_cap in
  match nth_error (nl_list l) (N.to_nat i) with
  | Some n => Ok (n, NonceList i (nl_list l))
  | None => Panic
  end.
(** Lines 36-44 — Consist; it reads only the list, which is never written after Init. *)
Definition consist (l : list N) (nonce : N) : bool := existsb (N.eqb nonce) l.

(** NextNonce run by several goroutines at once. The index is not protected, so each of the two
    reads (line 32 and line 33) may see any value stored in it so far: [ix_seen] holds them all
    (the current one included). A thread is at one of the points below. *)
Inductive nonce_thread :=
| NtStart                          (* before line 32 *)
| NtRead (tmp : N)                 (* has read n.idx *)
| NtStored                         (* has stored n.idx *)
| NtDone (nonce : N)               (* returned *)
| NtPanic.                         (* index out of range *)
Record nonce_state := NonceState { ix_seen : list N; ix_threads : list nonce_thread }.
Inductive nonce_step (l : list N) : nonce_state -> nonce_state -> Prop :=
| NsRead seen pre post v : In v seen ->
    nonce_step l (NonceState seen (pre ++ NtStart :: post)) (NonceState seen (pre ++ NtRead v :: post))
| NsStore seen pre post v :
    nonce_step l (NonceState seen (pre ++ NtRead v :: post))
      (NonceState ((v + 1) mod nonces_cap :: seen) (pre ++ NtStored :: post))
| NsIndex seen pre post v n : In v seen -> nth_error l (N.to_nat v) = Some n ->
    nonce_step l (NonceState seen (pre ++ NtStored :: post)) (NonceState seen (pre ++ NtDone n :: post))
| NsPanic seen pre post v : In v seen -> nth_error l (N.to_nat v) = None ->
    nonce_step l (NonceState seen (pre ++ NtStored :: post)) (NonceState seen (pre ++ NtPanic :: post))
| NsSpawn seen ts : nonce_step l (NonceState seen ts) (NonceState seen (ts ++ [NtStart])).
(** Any number of steps. *)
Inductive nonce_steps (l : list N) : nonce_state -> nonce_state -> Prop :=
| NsNone s : nonce_steps l s s
| NsMore s t u : nonce_steps l s t -> nonce_step l t u -> nonce_steps l s u.

(** ** The two sides of the handshake *)

Section WithExt.
Context (X : Ext) (lenient : bool).

(** What is done with a connection: bytes sent and its closing, in order. *)
Inductive conn_op := Sent (bs : bytes) | Closed.

(** WriteMessage on a connection: [wr] is the connection's answer to the write (None: all bytes
    taken). An error leaves an unknown prefix on the wire; it is left out, as the callers do not
    continue. *)
Definition send (wr : option err) (m : message X) : res (list conn_op) :=
  let! f := write_message X m in
  match wr with None => Ok [Sent (fst f)] | Some e => Err e end.

(** handshake.go:235 — "0.0.0.0:0" resolved. *)
Definition any_addr : addr := Addr [x00; x00; x00; x00] 0.
(** handshake.go:242-251 — the hand sent to [receiver]; the genesis hash is computed there. *)
Definition our_hand (nonce : N) (receiver : addr) : res (message X) :=
  let! g := block_hash X (testnet4 X) in
  Ok (MHand (Hand protocol_version cap_full_node nonce g 1 (Some any_addr) (Some receiver) user_agent)).
(** handshake.go:231-264 — shakeByHand with the nonce drawn from the list: the shake, what is left
    of the input, and what was done with the connection. [input] is everything the other side
    sends. *)
Definition shake_by_hand (nonce : N) (receiver : addr) (wr : option err) (input : bytes) :
    res (shake * bytes) * list conn_op :=
  match (let! m := our_hand nonce receiver in send wr m) with
  | Ok ops =>
      match snd (read_message X lenient type_shake input) with
      | Ok (MShake s, rest) => (Ok (s, rest), ops)
      | Ok _ => (Panic, ops)                       (* not reached: the type is given *)
      | Err e => (Err e, ops)
      | Panic => (Panic, ops)
      | Fatal => (Fatal, ops)
      end
  | Err e => (Err e, [])
  | Panic => (Panic, [])
  | Fatal => (Fatal, [])
  end.

(** handshake.go:282-287 — the answer; Genesis is not set, so it is nil. *)
Definition our_shake : shake := Shake protocol_version cap_full_node 1 user_agent [].
(** handshake.go:267-293 — handByShake on a node whose nonces are [nonces]. *)
Definition hand_by_shake (nonces : list N) (wr : option err) (input : bytes) : res (hand * bytes) * list conn_op :=
  match snd (read_message X lenient type_hand input) with
  | Ok (MHand h, rest) =>
      if consist nonces (hd_nonce h) then (Err (Msg "detect connection to ourselves by nonce"), [])
      else
        match send wr (MShake our_shake) with
        | Ok ops => (Ok (h, rest), ops)
        | Err e => (Err e, [])
        | Panic => (Panic, [])
        | Fatal => (Fatal, [])
        end
  | Ok _ => (Panic, [])                            (* not reached *)
  | Err e => (Err e, [])
  | Panic => (Panic, [])
  | Fatal => (Fatal, [])
  end.

(** ** Making a peer *)

(** peer.go:22-56 — the fields of Peer set by its constructors; Height keeps its zero value. A nil
    syncer is [pe_sync = false]. *)
Record peer := PeerOf {
  pe_addr : bytes; pe_sync : bool;
  pe_version : N; pe_caps : N; pe_difficulty : N; pe_agent : bytes; pe_height : N }.

(** peer.go:59-94 — NewPeer after the address [a] was resolved and dialled; [name] is the address
    as given. *)
Definition new_peer (name : bytes) (nonce : N) (a : addr) (wr : option err) (input : bytes) :
    res (peer * bytes) * list conn_op :=
  match shake_by_hand nonce a wr input with
  | (Ok (s, rest), ops) =>
      (Ok (PeerOf name true (sk_version s) (sk_caps s) (sk_difficulty s) (sk_agent s) 0, rest), ops)
  | (Err e, ops) => (Err e, ops)
  | (Panic, ops) => (Panic, ops)
  | (Fatal, ops) => (Fatal, ops)
  end.
(** peer.go:97-116 — AcceptNewPeer: neither the syncer nor the address is set. *)
Definition accept_new_peer (nonces : list N) (wr : option err) (input : bytes) : res (peer * bytes) * list conn_op :=
  match hand_by_shake nonces wr input with
  | (Ok (h, rest), ops) =>
      (Ok (PeerOf [] false (hd_version h) (hd_caps h) (hd_difficulty h) (hd_agent h) 0, rest), ops)
  | (Err e, ops) => (Err e, ops)
  | (Panic, ops) => (Panic, ops)
  | (Fatal, ops) => (Fatal, ops)
  end.
End WithExt.
