(** p2p messages and framing: p2p/messages.go, p2p/helpers.go, p2p/handshake.go, p2p/protocol.go. *)
From Verif Require Export Consensus.

(** ** Constants: consensus/network.go *)

Definition magic_code : bytes := [x54; x34].         (* line 8 *)
Definition protocol_version : N := 1.                (* line 12 *)
Definition msg_header_len : N := 11.                 (* line 15 *)
Definition max_msg_len : N := 20000000.              (* line 19 *)
(** Lines 24-39 (iota). *)
Definition type_error : N := 0.
Definition type_hand : N := 1.
Definition type_shake : N := 2.
Definition type_ping : N := 3.
Definition type_pong : N := 4.
Definition type_get_peer_addrs : N := 5.
Definition type_peer_addrs : N := 6.
Definition type_get_headers : N := 7.
Definition type_header : N := 8.
Definition type_headers : N := 9.
Definition type_get_block : N := 10.
Definition type_block : N := 11.
Definition type_get_compact_block : N := 12.
Definition type_compact_block : N := 13.
Definition type_transaction : N := 15.
Definition cap_full_node : N := 7.                   (* lines 54-60 *)
Definition max_block_headers : N := 512.             (* line 73 *)
Definition max_peer_addrs : N := 256.                (* line 76 *)

(** p2p/protocol.go:16 — "gringo v0.0.1". *)
Definition user_agent : bytes := [x67; x72; x69; x6e; x67; x6f; x20; x76; x30; x2e; x30; x2e; x31].

(** ** Addresses: p2p/helpers.go *)

(** net.TCPAddr: IP is a byte slice of any length, Port an int. The IPv6 zone is neither written
    nor read by /repo and is left out. *)
Record addr := Addr { ip : bytes; port : Z }.

(** net.IP.To4: a 4-byte address, or a 16-byte one that starts with ten 0 and two 0xff bytes. *)
Definition to4 (i : bytes) : option bytes :=
  if lenN i =? 4 then Some i
  else if (lenN i =? 16) && forallb (fun b => Byte.eqb b x00) (slice 0 10 i) &&
          forallb (fun b => Byte.eqb b xff) (slice 10 2 i)
       then Some (slice 12 4 i)
       else None.

(** p2p/helpers.go:16-54 — serializeTCPAddr; uint16(addr.Port) truncates. The IPv6 branch writes
    four 2-byte segments, i.e. the first 8 bytes. *)
Definition addr_bytes (a : addr) : res bytes :=
  let i := match to4 (ip a) with Some b => b | None => ip a end in
  let! body :=
    if lenN i =? 4 then Ok (x00 :: i)
    else if lenN i =? 16 then Ok (x01 :: slice 0 8 i)
    else Fatal in
  Ok (body ++ be 2 (Z.to_N (port a mod 65536))).

(** One binary.Read(r, binary.BigEndian, segment) of helpers.go:79 with a non-pointer uint16: two
    bytes are consumed; then older Go releases return nil leaving segment at 0 ([lenient]), newer
    ones return "binary.Read: invalid type". Which one applies depends on the toolchain, so both
    are modelled. *)
Definition read_segment (lenient : bool) : reader unit :=
  do _ <- read_full 2;
  if lenient then rret tt else rfail (Msg "binary.Read: invalid type uint16").

(** p2p/helpers.go:57-99 — deserializeTCPAddr. *)
Definition addr_read (lenient : bool) : reader addr :=
  do flag <- read_be 1;
  do i <- (if flag =? 0 then read_full 4
           else if flag =? 1 then
             do _ <- read_segment lenient; do _ <- read_segment lenient;
             do _ <- read_segment lenient; do _ <- read_segment lenient;
             rret (brepeat x00 16)
           else rfail (Msg "invalid ipFlag"));
  do p <- read_be 2;
  rret (Addr i (Z.of_N p)).

(** ** Message bodies *)

(** p2p/messages.go:83-89 — type Ping (and Pong, 127-129). *)
Record ping := PingMsg { pg_difficulty : N; pg_height : N }.
(** p2p/messages.go:92-104, 112-119 — (Ping).Bytes, (Ping).Read. *)
Definition ping_bytes (p : ping) : bytes := be 8 (pg_difficulty p) ++ be 8 (pg_height p).
Definition ping_read : reader ping :=
  do d <- read_be 8; do h <- read_be 8; rret (PingMsg d h).

(** p2p/messages.go:143-151, 159-162 — GetPeerAddrs. *)
Definition get_peers_bytes (caps : N) : bytes := be 4 caps.
Definition get_peers_read : reader N := read_be 4.

(** p2p/messages.go:170-175 — type PeerError. *)
Record peer_error := PeerError { pe_code : N; pe_text : bytes }.
(** p2p/messages.go:178-191. *)
Definition peer_error_bytes (p : peer_error) : bytes :=
  be 4 (pe_code p) ++ be 8 (lenN (pe_text p)) ++ pe_text p.
(** make([]byte, n) and io.ReadFull into it (p2p/messages.go:210-213, handshake.go:126-129 and
    213-216): the announced length is not checked. *)
Definition read_unchecked : reader bytes :=
  do n <- read_be 8;
  do _ <- lift (go_make 1 n);
  read_full n.
(** p2p/messages.go:199-217. *)
Definition peer_error_read : reader peer_error :=
  do c <- read_be 4; do t <- read_unchecked; rret (PeerError c t).

(** p2p/messages.go:230-247 — (PeerAddrs).Bytes. *)
Fixpoint addrs_bytes (l : list addr) : res bytes :=
  match l with [] => Ok [] | a :: t => let! x := addr_bytes a in let! y := addrs_bytes t in Ok (x ++ y) end.
Definition peer_addrs_bytes (l : list addr) : res bytes :=
  if max_peer_addrs <? lenN l then Fatal else let! b := addrs_bytes l in Ok (be 4 (lenN l) ++ b).
(** p2p/messages.go:255-276 — (PeerAddrs).Read, into a fresh message. *)
Definition peer_addrs_read (lenient : bool) : reader (list addr) :=
  do n <- read_be 4;
  if max_peer_addrs <? n then rfail (Msg "too big peer addrs count")
  else read_n (N.to_nat n) (addr_read lenient).

(** p2p/messages.go:289-295, 303-310 — GetBlock. *)
Definition get_block_bytes (h : bytes) : res bytes := if lenN h =? block_hash_size then Ok h else Fatal.
Definition get_block_read : reader bytes := read_full block_hash_size.

(** p2p/messages.go:358-377 — (BlockHeaders).Bytes. *)
Fixpoint headers_concat (l : list header) : res bytes :=
  match l with [] => Ok [] | a :: t => let! x := header_bytes a in let! y := headers_concat t in Ok (x ++ y) end.
Definition headers_bytes (l : list header) : res bytes :=
  if max_block_headers <? lenN l then Fatal else let! b := headers_concat l in Ok (be 2 (lenN l) ++ b).
(** p2p/messages.go:385-404 — (BlockHeaders).Read. *)
Definition headers_read : reader (list header) :=
  do n <- read_be 2;
  if max_block_headers <? n then rfail (Msg "too big block headers len from peer")
  else read_n (N.to_nat n) header_read.

(** ** Handshake bodies: p2p/handshake.go *)

(** Lines 20-40 — type hand; a nil *net.TCPAddr is None. *)
Record hand := Hand {
  hd_version : N; hd_caps : N; hd_nonce : N; hd_genesis : bytes; hd_difficulty : N;
  hd_sender : option addr; hd_receiver : option addr; hd_agent : bytes }.
(** Lines 42-78 — (hand).Bytes. *)
Definition hand_bytes (h : hand) : res bytes :=
  match hd_sender h, hd_receiver h with
  | Some s, Some r =>
      let! sb := addr_bytes s in
      let! rb := addr_bytes r in
      Ok (be 4 (hd_version h) ++ be 4 (hd_caps h) ++ be 8 (hd_nonce h) ++ be 8 (hd_difficulty h) ++
          sb ++ rb ++ be 8 (lenN (hd_agent h)) ++ hd_agent h ++ hd_genesis h)
  | _, _ => Fatal
  end.
(** Lines 84-141 — (hand).Read. *)
Definition hand_read (lenient : bool) : reader hand :=
  do v <- read_be 4;
  if negb (v =? protocol_version) then rfail (Msg "incompatibility protocol version")
  else
    do c <- read_be 4;
    do n <- read_be 8;
    do d <- read_be 8;
    do s <- addr_read lenient;
    do r <- addr_read lenient;
    do ua <- read_unchecked;
    do g <- read_full 32;
    rret (Hand v c n g d (Some s) (Some r) ua).

(** Lines 145-160 — type shake. *)
Record shake := Shake {
  sk_version : N; sk_caps : N; sk_difficulty : N; sk_agent : bytes; sk_genesis : bytes }.
(** Lines 162-184 — (shake).Bytes. *)
Definition shake_bytes (h : shake) : bytes :=
  be 4 (sk_version h) ++ be 4 (sk_caps h) ++ be 8 (sk_difficulty h) ++
  be 8 (lenN (sk_agent h)) ++ sk_agent h ++ sk_genesis h.
(** Lines 190-228 — (shake).Read. *)
Definition shake_read : reader shake :=
  do v <- read_be 4;
  if negb (v =? protocol_version) then rfail (Msg "incompatibility protocol version")
  else
    do c <- read_be 4;
    do d <- read_be 8;
    do ua <- read_unchecked;
    do g <- read_full 32;
    rret (Shake v c d ua g).

(** ** All messages *)

Section WithExt.
Context (X : Ext) (lenient : bool).

(** The implementations of interface Message (p2p/protocol.go:20-29). *)
Inductive message :=
| MError (e : peer_error) | MHand (h : hand) | MShake (s : shake) | MPing (p : ping) | MPong (p : ping)
| MGetPeerAddrs (caps : N) | MPeerAddrs (l : list addr) | MGetHeaders (hs : list bytes)
| MHeader (h : header) | MHeaders (l : list header) | MGetBlock (h : bytes) | MBlock (b : block X)
| MCompact (b : compact_block X) | MTx (t : transaction X).

(** The Type methods: messages.go:107-109, 132-134, 154-156, 194-196, 250-252, 298-300, 338-340,
    380-382, 422-424, handshake.go:80-82, 186-188, consensus/block.go:131-133, 394-396,
    transaction.go:81-83. *)
Definition msg_type (m : message) : N :=
  match m with
  | MError _ => type_error | MHand _ => type_hand | MShake _ => type_shake | MPing _ => type_ping
  | MPong _ => type_pong | MGetPeerAddrs _ => type_get_peer_addrs | MPeerAddrs _ => type_peer_addrs
  | MGetHeaders _ => type_get_headers | MHeader _ => type_header | MHeaders _ => type_headers
  | MGetBlock _ => type_get_block | MBlock _ => type_block | MCompact _ => type_compact_block
  | MTx _ => type_transaction
  end.

(** The Bytes methods. *)
Definition msg_bytes (m : message) : res bytes :=
  match m with
  | MError e => Ok (peer_error_bytes e)
  | MHand h => hand_bytes h
  | MShake s => Ok (shake_bytes s)
  | MPing p | MPong p => Ok (ping_bytes p)
  | MGetPeerAddrs c => Ok (get_peers_bytes c)
  | MPeerAddrs l => peer_addrs_bytes l
  | MGetHeaders hs => locator_bytes hs                     (* messages.go:417-419 *)
  | MHeader h => header_bytes h                            (* messages.go:327-335 *)
  | MHeaders l => headers_bytes l
  | MGetBlock h => get_block_bytes h
  | MBlock b => rmap fst (block_bytes X b)
  | MCompact b => rmap fst (compact_bytes X b)
  | MTx t => Ok (fst (tx_bytes X t))
  end.

(** The Read methods, selected by the type of the message value that is read into. *)
Definition msg_read (t : N) : reader message :=
  if t =? type_error then do e <- peer_error_read; rret (MError e)
  else if t =? type_hand then do h <- hand_read lenient; rret (MHand h)
  else if t =? type_shake then do s <- shake_read; rret (MShake s)
  else if t =? type_ping then do p <- ping_read; rret (MPing p)
  else if t =? type_pong then do p <- ping_read; rret (MPong p)
  else if t =? type_get_peer_addrs then do c <- get_peers_read; rret (MGetPeerAddrs c)
  else if t =? type_peer_addrs then do l <- peer_addrs_read lenient; rret (MPeerAddrs l)
  else if t =? type_get_headers then do l <- locator_read; rret (MGetHeaders l)
  else if t =? type_header then do h <- header_read; rret (MHeader h)
  else if t =? type_headers then do l <- headers_read; rret (MHeaders l)
  else if t =? type_get_block then do h <- get_block_read; rret (MGetBlock h)
  else if t =? type_block then do b <- block_read X; rret (MBlock b)
  else if t =? type_compact_block then do b <- compact_read X; rret (MCompact b)
  else do x <- tx_read X; rret (MTx x).

(** ** Framing *)

(** p2p/messages.go:48-57 — (Header).Write, for a message of type [t] and body length [n]. *)
Definition frame_header (t n : N) : bytes := magic_code ++ be 1 t ++ be 8 n.

(** p2p/messages.go:60-75 — (Header).Read: type and length. *)
Definition frame_header_read : reader (N * N) :=
  do m <- read_full 2;
  if negb (bytes_eqb m magic_code) then rfail (Msg "invalid magic code")
  else do t <- read_be 1; do n <- read_be 8; rret (t, n).

(** p2p/protocol.go:32-53 — WriteMessage: the bytes that reach the connection and the reported
    count, when the connection accepts them. *)
Definition write_message (m : message) : res (bytes * N) :=
  let! data := msg_bytes m in
  Ok (frame_header (msg_type m) (lenN data) ++ data, w64 (lenN data + msg_header_len)).

(** p2p/protocol.go:56-75 — ReadMessage into a message of type [t]: the reported count and the
    outcome. *)
Definition read_message (t : N) (bs : bytes) : N * res (message * bytes) :=
  match limit_reader msg_header_len frame_header_read bs with
  | Ok ((t', n), rest) =>
      if negb (t' =? t) then (msg_header_len, Err (Msg "receive unexpected message type"))
      else if max_msg_len <? n then (msg_header_len, Err (Msg "too big message size"))
      else (w64 (msg_header_len + n), limit_reader n (msg_read t) rest)
  | Err e => (0, Err e)
  | Panic => (0, Panic)
  | Fatal => (0, Fatal)
  end.
End WithExt.

Arguments MError {X}. Arguments MHand {X}. Arguments MShake {X}. Arguments MPing {X}. Arguments MPong {X}.
Arguments MGetPeerAddrs {X}. Arguments MPeerAddrs {X}. Arguments MGetHeaders {X}. Arguments MHeader {X}.
Arguments MHeaders {X}. Arguments MGetBlock {X}. Arguments MBlock {X}. Arguments MCompact {X}. Arguments MTx {X}.
Arguments msg_type {X}.

(** ** The read loop: p2p/peer.go:171-341 *)

(** Why the loop ended. [Quiet]: with exitError nil, after a failed body read (peer.go:191-195).
    [Cont]: it did not end within the given number of iterations. *)
Inductive loop_exit := Failed (e : err) | Quiet | Crashed | Terminated | Cont.

Section Loop.
Context (X : Ext) (lenient : bool).

(** peer.go:202-333 — decoding of one frame body of type [t]. [Some m] goes to ProcessMessage;
    GetCompactBlock and CompactBlock are read but not passed on; on a block type the header's hash
    is computed for the log (lines 292, 308). *)
Definition decode_frame (t : N) (body : bytes) : res (option (message X)) :=
  if existsb (N.eqb t) [type_ping; type_pong; type_get_peer_addrs; type_peer_addrs; type_get_headers;
                        type_header; type_headers; type_get_block; type_transaction]
  then let! r := msg_read X lenient t body in Ok (Some (fst r))
  else if t =? type_block then
    let! r := block_read X body in
    let! _ := header_hash X (b_header (fst r)) in Ok (Some (MBlock (fst r)))
  else if t =? type_get_compact_block then Ok None
  else if t =? type_compact_block then
    let! r := compact_read X body in
    let! _ := header_hash X (cb_header (fst r)) in Ok None
  else Err (Msg "received unexpected message from peer").

(** The loop over a source of bytes [S] with io.ReadFull = [rf], for at most [fuel] iterations, with
    the peer not being disconnected meanwhile. Result: the messages passed to ProcessMessage, the
    value of bytesReceived (modulo 2^64), the reason for stopping and the source. *)
Context {S : Type} (rf : N -> S -> res (bytes * S)).

(** (Header).Read (messages.go:60-75) on the source. *)
Definition src_header (s : S) : res ((N * N) * S) :=
  let! (m, s) := rf 2 s in
  if negb (bytes_eqb m magic_code) then Err (Msg "invalid magic code")
  else
    let! (t, s) := rf 1 s in
    let! (n, s) := rf 8 s in
    Ok ((unbe t, unbe n), s).

Fixpoint read_loop (fuel : nat) (acc : list (message X)) (count : N) (s : S)
  : list (message X) * N * loop_exit * S :=
  match fuel with
  | O => (acc, count, Cont, s)
  | Datatypes.S fuel =>
      match src_header s with
      | Err e => (acc, count, Failed e, s)
      | Panic => (acc, count, Crashed, s)
      | Fatal => (acc, count, Terminated, s)
      | Ok ((t, n), s1) =>
          if max_msg_len <? n then (acc, count, Failed (Msg "too big message size"), s1)
          else
            match rf n s1 with
            | Err _ => (acc, count, Quiet, s1)
            | Panic => (acc, count, Crashed, s1)
            | Fatal => (acc, count, Terminated, s1)
            | Ok (body, s2) =>
                match decode_frame t body with
                | Err e => (acc, count, Failed e, s2)
                | Panic => (acc, count, Crashed, s2)
                | Fatal => (acc, count, Terminated, s2)
                | Ok m =>
                    read_loop fuel (acc ++ match m with Some m => [m] | None => [] end)
                      (w64 (count + (n + msg_header_len))) s2
                end
            end
      end
  end.
End Loop.

(** ** bufio.Reader over a connection that delivers its data in chunks *)

(** bufio.NewReader(conn): 4096 bytes of buffer. A conn.Read with room for c bytes returns at most
    the next c bytes of the current chunk; the end of the chunk list is io.EOF. Chunks are
    non-empty: a TCP read returns at least one byte or an error. *)
Record bufsrc := BufSrc { bs_buf : bytes; bs_chunks : list bytes }.
Definition bufio_size : N := 4096.

Definition conn_read (c : N) (chunks : list bytes) : option (bytes * list bytes) :=
  match chunks with
  | [] => None
  | ch :: rest => Some (takeN c ch, if lenN ch <=? c then rest else dropN c ch :: rest)
  end.

(** (bufio.Reader).Read(p) with len(p) = c > 0: [None] is io.EOF with nothing read. *)
Definition buf_read (c : N) (s : bufsrc) : option (bytes * bufsrc) :=
  match bs_buf s with
  | _ :: _ => Some (takeN c (bs_buf s), BufSrc (dropN c (bs_buf s)) (bs_chunks s))
  | [] =>
      if bufio_size <=? c then
        match conn_read c (bs_chunks s) with
        | None => None
        | Some (d, rest) => Some (d, BufSrc [] rest)
        end
      else
        match conn_read bufio_size (bs_chunks s) with
        | None => None
        | Some (d, rest) => Some (takeN c d, BufSrc (dropN c d) rest)
        end
  end.

(** io.ReadFull over it: reads until [n] bytes have been collected. Each read returns at least one
    byte, so n iterations suffice. *)
Fixpoint buf_collect (fuel : nat) (got : bytes) (n : N) (s : bufsrc) : res (bytes * bufsrc) :=
  if n <=? lenN got then Ok (got, s)
  else
    match fuel with
    | O => Panic (* unreachable, see LoopProofs.v *)
    | Datatypes.S fuel =>
        match buf_read (n - lenN got) s with
        | None => if lenN got =? 0 then Err EOF else Err UnexpectedEOF
        | Some (d, s') => buf_collect fuel (got ++ d) n s'
        end
    end.
Definition buf_read_full (n : N) (s : bufsrc) : res (bytes * bufsrc) := buf_collect (N.to_nat n) [] n s.
