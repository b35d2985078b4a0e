(** The memory that is asked for while decoding: the calls of make whose size was announced by the
    sender. Calls with a fixed size (hashes, commitments, the 42 nonces of a proof) and those inside
    the external decoders are left out. *)
From Verif Require Export Messages.

(** A reader that also lists the numbers of elements it has asked for, in order; what was asked for
    before a failure is listed too. *)
Definition areader (A : Type) := bytes -> res (A * bytes) * list N.

(** A reader without announced sizes. *)
Definition plain {A} (p : reader A) : areader A := fun bs => (p bs, []).
Definition abind {A B} (p : areader A) (f : A -> areader B) : areader B :=
  fun bs => match p bs with
            | (Ok (a, rest), l) => let r := f a rest in (fst r, l ++ snd r)
            | (Err e, l) => (Err e, l)
            | (Panic, l) => (Panic, l)
            | (Fatal, l) => (Fatal, l)
            end.
(** make([]T, n) with elements of [elem] bytes; nothing is allocated when it panics. *)
Definition make_slice (elem n : N) : areader unit :=
  fun bs => match go_make elem n with
            | Ok _ => (Ok (tt, bs), [n])
            | Err e => (Err e, [])
            | Panic => (Panic, [])
            | Fatal => (Fatal, [])
            end.

Notation "'get' x '<-' p ';' k" := (abind p (fun x => k))
  (at level 200, x pattern, p at level 100, k at level 200, right associativity).

(** The sizes of the elements on linux/amd64 only decide when make panics (C19), and with at most
    1000000 elements it does not: [elem] is 1 where the count is limited. *)

(** p2p/messages.go:210-213, handshake.go:126-129 and 213-216. *)
Definition unchecked_alloc : areader bytes :=
  get n <- plain (read_be 8);
  get _ <- make_slice 1 n;
  plain (read_full n).

(** p2p/messages.go:199-217. *)
Definition peer_error_alloc : areader peer_error :=
  get c <- plain (read_be 4); get t <- unchecked_alloc; plain (rret (PeerError c t)).

(** p2p/handshake.go:84-141 — (hand).Read. *)
Definition hand_alloc (lenient : bool) : areader hand :=
  get v <- plain (read_be 4);
  if negb (v =? protocol_version) then plain (rfail (Msg "incompatibility protocol version"))
  else
    get c <- plain (read_be 4);
    get n <- plain (read_be 8);
    get d <- plain (read_be 8);
    get s <- plain (addr_read lenient);
    get r <- plain (addr_read lenient);
    get ua <- unchecked_alloc;
    get g <- plain (read_full 32);
    plain (rret (Hand v c n g d (Some s) (Some r) ua)).

(** p2p/handshake.go:190-228 — (shake).Read. *)
Definition shake_alloc : areader shake :=
  get v <- plain (read_be 4);
  if negb (v =? protocol_version) then plain (rfail (Msg "incompatibility protocol version"))
  else
    get c <- plain (read_be 4);
    get d <- plain (read_be 8);
    get ua <- unchecked_alloc;
    get g <- plain (read_full 32);
    plain (rret (Shake v c d ua g)).

(** p2p/messages.go:385-404 — (BlockHeaders).Read, make at line 396. *)
Definition headers_alloc : areader (list header) :=
  get n <- plain (read_be 2);
  if max_block_headers <? n then plain (rfail (Msg "too big block headers len from peer"))
  else get _ <- make_slice 1 n; plain (read_n (N.to_nat n) header_read).

(** consensus/locator.go:42-63 — (Locator).Read, make at line 53. *)
Definition locator_alloc : areader (list bytes) :=
  get n <- plain (read_be 1);
  if max_locators <? n then plain (rfail (Msg "too big locator len from peer"))
  else get _ <- make_slice 1 n; plain (read_n (N.to_nat n) (read_full block_hash_size)).

Section WithExt.
Context (X : Ext) (lenient : bool).

(** consensus/block.go:167-189, transaction.go:116-135. *)
Definition lists_alloc (ni no nk : N) : areader (list input * list (output X) * list kernel) :=
  get _ <- make_slice 1 ni;
  get ins <- plain (read_n (N.to_nat ni) input_read);
  get _ <- make_slice 1 no;
  get outs <- plain (read_n (N.to_nat no) (output_read X));
  get _ <- make_slice 1 nk;
  get kers <- plain (read_n (N.to_nat nk) (kernel_read X));
  plain (rret (ins, outs, kers)).

(** consensus/block.go:136-192 — (Block).Read. *)
Definition block_alloc : areader (block X) :=
  get h <- plain header_read;
  get ni <- plain (read_be 8);
  get no <- plain (read_be 8);
  get nk <- plain (read_be 8);
  if max_items <? ni then plain (rfail (Msg "transaction contains too many inputs"))
  else if max_items <? no then plain (rfail (Msg "transaction contains too many outputs"))
  else if max_items <? nk then plain (rfail (Msg "transaction contains too many kernels"))
  else get l <- lists_alloc ni no nk; plain (rret (Block h (fst (fst l)) (snd (fst l)) (snd l))).

(** consensus/block.go:399-453 — (CompactBlock).Read, make at lines 424, 432 and 441. *)
Definition compact_alloc : areader (compact_block X) :=
  get h <- plain header_read;
  get no <- plain (read_be 1);
  get nk <- plain (read_be 1);
  get nid <- plain (read_be 8);
  get _ <- make_slice 1 no;
  get outs <- plain (read_n (N.to_nat no) (output_read X));
  get _ <- make_slice 1 nk;
  get kers <- plain (read_n (N.to_nat nk) (kernel_read X));
  get _ <- make_slice 24 nid;
  get ids <- plain (fun bs => ids_read (List.length bs) nid bs);
  plain (rret (CompactBlock h outs kers ids)).

(** consensus/transaction.go:86-153 — (Transaction).Read. *)
Definition tx_alloc : areader (transaction X) :=
  get off <- plain (read_full 32);
  get ni <- plain (read_be 8);
  get no <- plain (read_be 8);
  get nk <- plain (read_be 8);
  if max_items <? ni then plain (rfail (Msg "transaction contains too many inputs"))
  else if max_items <? no then plain (rfail (Msg "transaction contains too many outputs"))
  else if max_items <? nk then plain (rfail (Msg "transaction contains too many kernels"))
  else
    get l <- lists_alloc ni no nk;
    let ins := fst (fst l) in let outs := snd (fst l) in let kers := snd l in
    if negb (is_sorted (input_hash X) ins) then plain (rfail (Msg "consensus error: inputs are not sorted"))
    else if negb (is_sorted (output_hash X) outs) then plain (rfail (Msg "consensus error: outputs are not sorted"))
    else if negb (is_sorted (kernel_hash X) kers) then plain (rfail (Msg "consensus error: kernels are not sorted"))
    else plain (rret (Transaction off ins outs kers)).

(** The Read methods, selected as in [msg_read]. (PeerAddrs).Read appends (messages.go:266-273) and
    asks for nothing in advance. *)
Definition msg_alloc (t : N) : areader (message X) :=
  if t =? type_error then get e <- peer_error_alloc; plain (rret (MError e))
  else if t =? type_hand then get h <- hand_alloc lenient; plain (rret (MHand h))
  else if t =? type_shake then get s <- shake_alloc; plain (rret (MShake s))
  else if t =? type_get_headers then get l <- locator_alloc; plain (rret (MGetHeaders l))
  else if t =? type_headers then get l <- headers_alloc; plain (rret (MHeaders l))
  else if t =? type_block then get b <- block_alloc; plain (rret (MBlock b))
  else if t =? type_compact_block then get b <- compact_alloc; plain (rret (MCompact b))
  else if existsb (N.eqb t) [type_ping; type_pong; type_get_peer_addrs; type_peer_addrs; type_header; type_get_block]
  then plain (msg_read X lenient t)
  else get x <- tx_alloc; plain (rret (MTx x)).

(** p2p/peer.go:202-333 — what decoding one frame of the read loop asks for. *)
Definition frame_alloc (t : N) (body : bytes) : list N :=
  if existsb (N.eqb t) [type_ping; type_pong; type_get_peer_addrs; type_peer_addrs; type_get_headers;
                        type_header; type_headers; type_get_block; type_transaction;
                        type_block; type_compact_block]
  then snd (msg_alloc t body)
  else if t =? type_get_compact_block then []
  else [lenN body].                                               (* line 323 *)

(** p2p/peer.go:176-341 — the read loop: for every frame whose buffer is made (line 190), the type,
    the announced length and what decoding the body asks for (nothing if the body is incomplete).
    The source is as in [read_loop]. *)
Context {S : Type} (rf : N -> S -> res (bytes * S)).
Fixpoint loop_alloc (fuel : nat) (s : S) : list (N * N * list N) :=
  match fuel with
  | O => []
  | Datatypes.S fuel =>
      match src_header rf s with
      | Ok ((t, n), s1) =>
          if max_msg_len <? n then []
          else
            match rf n s1 with
            | Ok (body, s2) =>
                (t, n, frame_alloc t body) ::
                match decode_frame X lenient t body with
                | Ok _ => loop_alloc fuel s2
                | _ => []
                end
            | _ => [(t, n, [])]
            end
      | _ => []
      end
  end.
End WithExt.
