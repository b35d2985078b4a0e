(** Specifications for the p2p messages, independent of the model's encoders and decoders: only the
    record types of the model are used here. *)
From Coq Require Import Permutation Sorted.
From Verif Require Import Messages SpecCodec SpecConsensus.

(** ** Addresses *)

(** The 16-byte form of an address: an IPv4 address a.b.c.d is ::ffff:a.b.c.d. *)
Definition as16 (i : bytes) : bytes :=
  if (List.length i =? 4)%nat then brepeat x00 10 ++ [xff; xff] ++ i else i.
(** The same endpoint (net.IP.Equal and equal ports). *)
Definition same_endpoint (a b : addr) : Prop := as16 (ip a) = as16 (ip b) /\ port a = port b.

Definition port_ok (a : addr) : Prop := (0 <= port a < 65536)%Z.
(** An IPv4 address, in either of the two forms Go uses. *)
Definition ipv4 (a : addr) : Prop :=
  exists d : bytes, List.length d = 4%nat /\ (ip a = d \/ ip a = brepeat x00 10 ++ [xff; xff] ++ d).
(** Any other 16-byte address. *)
Definition ipv6 (a : addr) : Prop := List.length (ip a) = 16%nat /\ ~ ipv4 a.

(** ** Messages *)

Section Spec.
Context (X : Ext) (P : point -> Prop) (Q : rproof X -> Prop).

(** A message whose fields have their Go types and protocol sizes. Version 1, IPv4 addresses and
    transactions without inputs only: see C13, C12 and C07 for the others. *)
Definition sendable (m : message X) : Prop :=
  match m with
  | MError e => is_u32 (pe_code e) /\ lenN (pe_text e) <= 2 ^ 48
  | MHand h =>
      hd_version h = 1 /\ is_u32 (hd_caps h) /\ is_u64 (hd_nonce h) /\ is_u64 (hd_difficulty h) /\
      (exists s, hd_sender h = Some s /\ ipv4 s /\ port_ok s) /\
      (exists r, hd_receiver h = Some r /\ ipv4 r /\ port_ok r) /\
      lenN (hd_agent h) <= 2 ^ 48 /\ List.length (hd_genesis h) = 32%nat
  | MShake s =>
      sk_version s = 1 /\ is_u32 (sk_caps s) /\ is_u64 (sk_difficulty s) /\
      lenN (sk_agent s) <= 2 ^ 48 /\ List.length (sk_genesis s) = 32%nat
  | MPing p | MPong p => is_u64 (pg_difficulty p) /\ is_u64 (pg_height p)
  | MGetPeerAddrs c => is_u32 c
  | MPeerAddrs l => lenN l <= 256 /\ Forall (fun a => ipv4 a /\ port_ok a) l
  | MGetHeaders hs => lenN hs <= 14 /\ Forall (fun h : bytes => List.length h = 32%nat) hs
  | MHeader h => header_wf h
  | MHeaders l => lenN l <= 512 /\ Forall header_wf l
  | MGetBlock h => List.length h = 32%nat
  | MBlock b => block_wf X P Q b
  | MCompact b =>
      compact_wf X P Q b /\ lenN (cb_outputs b) < 256 /\ lenN (cb_kernels b) < 256 /\
      24 * lenN (cb_ids b) <= 2 ^ 48
  | MTx t => tx_wf X P Q t /\ tx_inputs t = []
  end.

(** What the receiver gets ([m']) when [m] was sent: the same message, up to the notation of IPv4
    addresses, the header fields that are not transmitted (C01) and the order of items, which
    arrive sorted. *)
Definition received_as (m m' : message X) : Prop :=
  match m, m' with
  | MHand h, MHand h' =>
      hd_version h' = hd_version h /\ hd_caps h' = hd_caps h /\ hd_nonce h' = hd_nonce h /\
      hd_genesis h' = hd_genesis h /\ hd_difficulty h' = hd_difficulty h /\ hd_agent h' = hd_agent h /\
      match hd_sender h, hd_sender h' with Some a, Some b => same_endpoint a b | _, _ => False end /\
      match hd_receiver h, hd_receiver h' with Some a, Some b => same_endpoint a b | _, _ => False end
  | MPeerAddrs l, MPeerAddrs l' => Forall2 same_endpoint l l'
  | MHeader h, MHeader h' => h' = wire_view h
  | MHeaders l, MHeaders l' => l' = map wire_view l
  | MBlock b, MBlock b' =>
      b_header b' = wire_view (b_header b) /\ Permutation (b_inputs b') (b_inputs b) /\
      Permutation (b_outputs b') (b_outputs b) /\ Permutation (b_kernels b') (b_kernels b) /\
      lists_sorted X (b_inputs b') (b_outputs b') (b_kernels b')
  | MCompact b, MCompact b' =>
      cb_header b' = wire_view (cb_header b) /\ Permutation (cb_outputs b') (cb_outputs b) /\
      Permutation (cb_kernels b') (cb_kernels b) /\ Permutation (cb_ids b') (cb_ids b) /\
      key_sorted (output_key X) (cb_outputs b') /\ key_sorted (kernel_key X) (cb_kernels b') /\
      key_sorted (fun i => i) (cb_ids b')
  | MTx t, MTx t' =>
      tx_offset t' = tx_offset t /\ tx_inputs t' = [] /\ Permutation (tx_outputs t') (tx_outputs t) /\
      Permutation (tx_kernels t') (tx_kernels t) /\
      lists_sorted X (tx_inputs t') (tx_outputs t') (tx_kernels t')
  | MError _, MError _ | MShake _, MShake _ | MPing _, MPing _ | MPong _, MPong _
  | MGetPeerAddrs _, MGetPeerAddrs _ | MGetHeaders _, MGetHeaders _ | MGetBlock _, MGetBlock _ => m' = m
  | _, _ => False
  end.

(** The type byte of each message. *)
Definition type_number (m : message X) : N :=
  match m with
  | MError _ => 0 | MHand _ => 1 | MShake _ => 2 | MPing _ => 3 | MPong _ => 4 | MGetPeerAddrs _ => 5
  | MPeerAddrs _ => 6 | MGetHeaders _ => 7 | MHeader _ => 8 | MHeaders _ => 9 | MGetBlock _ => 10
  | MBlock _ => 11 | MCompact _ => 13 | MTx _ => 15
  end.

(** The messages a connected peer's read loop passes on to the syncer. *)
Definition dispatched (m : message X) : bool :=
  match m with
  | MError _ | MHand _ | MShake _ | MCompact _ => false
  | _ => true
  end.
(** The messages the loop handles at all: everything but errors and handshakes. *)
Definition in_loop (m : message X) : Prop := 3 <= type_number m.
End Spec.

(** A frame: magic, type byte, body length in 8 bytes, body. *)
Definition frame_of (t : N) (body : bytes) : bytes := [x54; x34] ++ be 1 t ++ be 8 (lenN body) ++ body.
(** Frames as pairs of type and body. *)
Definition whole (f : N * bytes) : bytes := frame_of (fst f) (snd f).
Definition frame_ok (f : N * bytes) : Prop := fst f < 256 /\ lenN (snd f) <= 20000000.
Definition some_list {A} (o : option A) : list A := match o with Some a => [a] | None => [] end.
Definition frames_size (l : list (N * bytes)) : N := fold_right (fun f n => lenN (snd f) + 11 + n) 0 l.

