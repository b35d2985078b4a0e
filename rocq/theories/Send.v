(** What a peer is asked to send: p2p/peer.go:368-423 and p2p/pool.go:254-257, and small functions
    that no other file models. *)
From Verif Require Export Serve.

Section WithExt.
Context (X : Ext).

(** peer.go:368-376 — SendPing. *)
Definition send_ping : message X := MPing (PingMsg 1 1).
(** peer.go:379-386 — SendBlockRequest; hash[:6] in line 380 panics if the hash is shorter (its
    capacity is taken to be its length). *)
Definition send_block_request (h : bytes) : res (message X) := if lenN h <? 6 then Panic else Ok (MGetBlock h).
(** peer.go:389-392 — SendBlock. *)
Definition send_block (b : block X) : message X := MBlock b.
(** peer.go:395-402 — SendPeerRequest. *)
Definition send_peer_request (caps : N) : message X := MGetPeerAddrs caps.
(** peer.go:405-417 — SendHeaderRequest. *)
Definition send_header_request (hs : list bytes) : res (message X) := if max_locators <? lenN hs then Fatal else Ok (MGetHeaders hs).
(** peer.go:420-423 — SendTransaction. *)
Definition send_transaction (t : transaction X) : message X := MTx t.

(** pool.go:254-257 — what is put on the send queue of a peer when it was connected. *)
Definition greeting : list (message X) := [send_ping; send_peer_request cap_full_node].

(** What the node puts on the send queue of one peer, besides relayed blocks: the greeting, then the
    answers of its read handler. Relayed blocks (pool.go:192) are left out; (Peer).WriteMessage has no
    callers but peer.go:368-423 and sync.go:129-185, and of the former only SendPing, SendPeerRequest
    and SendBlock are called. *)
Definition outgoing {S B} (r : service X S B) : list (message X) := greeting ++ sv_answers r.
End WithExt.

(** p2p/messages.go:29-45 — (Header).Bytes, used in log lines (peer.go:198, 329): the bytes (Header).Write writes
    (p2p/messages.go:48-57). *)
Definition header_log (t n : N) : bytes := magic_code ++ be 1 t ++ be 8 n.

(** chain/chain.go:208-220, 360-362 — Genesis (the block given to New, which is kept in the field
    genesis), TotalDifficulty, Height, Head. *)
Definition chain_total_difficulty {X} {S : storage X} (c : chain X S) : N := c_td c.
Definition chain_height {X} {S : storage X} (c : chain X S) : N := c_height c.
Definition chain_head {X} {S : storage X} (c : chain X S) : block X := c_head c.

(** consensus/proof.go:141-145 — NewProof leaves EdgeBits 0. *)
Definition new_proof (nonces : list N) : proof := Proof 0 nonces.
(** consensus/difficulty.go:23-25, 38-40 — FromNum and IntoNum, conversions between uint64 and
    Difficulty, whose underlying type is uint64; nothing is raised to MinimumDifficulty. *)
Definition from_num (n : N) : N := n.
Definition into_num (d : N) : N := d.

(** secp256k1zkp/pedersen.go:15-24 — (Commitment).Bytes and Read; Read fills the commitment, whose
    length is its argument. *)
Definition commitment_bytes (c : bytes) : bytes := c.
Definition commitment_read (len : N) : reader bytes := read_full len.

(** secp256k1zkp/schnorr.go:23-31 — RandomBytes, given the 32 bytes that crypto/rand delivers, or
    None. *)
Definition random_bytes (r : option bytes) : res bytes := match r with Some b => Ok b | None => Panic end.
