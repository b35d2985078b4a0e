(** Specification of how the read loop of a connected peer ends (C111). *)
From Verif Require Import GoRT Ext Consensus Messages SpecMessages SpecShaken.

Section WithExt.
Context (X : Ext) (lenient : bool).

(** A compact block, readable up to its short ids, whose announced number of ids, 24 bytes each in
    memory, does not fit into the address space. The ids themselves need not follow. *)
Definition compact_bomb (body : bytes) : Prop :=
  exists h outs kers n r1 r2 r3, header_read body = Ok (h, r1) /\
    r1 = be 1 (lenN outs) ++ be 1 (lenN kers) ++ be 8 n ++ r2 /\
    lenN outs < 256 /\ lenN kers < 256 /\ is_u64 n /\
    (exists r, read_n (List.length outs) (output_read X) r2 = Ok (outs, r) /\
               read_n (List.length kers) (kernel_read X) r = Ok (kers, r3)) /\
    2 ^ 48 < 24 * n.

(** The numbers of the frames that are understood, and what is handed over: the message that the body starts
    with; nothing for a request for a compact block, whatever its body, and for a compact block. *)
Definition understood (t : N) (body : bytes) (m : option (message X)) : Prop :=
  let reads {A} (r : reader A) (f : A -> message X) := exists x rest, r body = Ok (x, rest) /\ m = Some (f x) in
  match t with
  | 3 => reads ping_read MPing
  | 4 => reads ping_read MPong
  | 5 => reads get_peers_read MGetPeerAddrs
  | 6 => reads (peer_addrs_read lenient) MPeerAddrs
  | 7 => reads locator_read MGetHeaders
  | 8 => reads header_read MHeader
  | 9 => reads headers_read MHeaders
  | 10 => reads get_block_read MGetBlock
  | 11 => reads (block_read X) MBlock
  | 12 => m = None
  | 13 => m = None /\ exists b rest, compact_read X body = Ok (b, rest)
  | 15 => reads (tx_read X) MTx
  | _ => False
  end.

(** [ending tail ex]: reading stops at [tail], for the reason [ex]. *)
Inductive ending : bytes -> loop_exit -> Prop :=
  (** the other side closed the connection within a frame header; at 0, 2 and 3 bytes a field starts *)
  | end_short tail : lenN tail < 11 -> (lenN tail < 2 \/ exists more, tail = [x54; x34] ++ more) ->
      ending tail (Failed (if existsb (N.eqb (lenN tail)) [0; 2; 3] then EOF else UnexpectedEOF))
  (** a wrong magic code *)
  | end_magic a b more : [a; b] <> [x54; x34] -> ending (a :: b :: more) (Failed (Msg "invalid magic code"))
  (** a body that is announced to be too long *)
  | end_long t n more : t < 256 -> is_u64 n -> 20000000 < n ->
      ending (opening t n ++ more) (Failed (Msg "too big message size"))
  (** the connection was closed within a body *)
  | end_body t n part : t < 256 -> n <= 20000000 -> lenN part < n -> ending (opening t n ++ part) Quiet
  (** a frame that is refused *)
  | end_refused t body more e : t < 256 -> lenN body <= 20000000 -> decode_frame X lenient t body = Err e ->
      ending (frame_of t body ++ more) (Failed e)
  (** a frame that ends the process *)
  | end_bomb body more : lenN body <= 20000000 -> compact_bomb body -> ending (frame_of 13 body ++ more) Crashed.
End WithExt.
