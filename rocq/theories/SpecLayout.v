(** The wire format of every message as tables of byte offsets, in the manner of [header_layout]
    (SpecConsensus.v). Nothing of the model's encoders or decoders is used. *)
From Coq Require Import Permutation Sorted.
From Verif Require Import Messages SpecCodec SpecConsensus SpecMessages.

(** An IPv4 address takes seven bytes: a 0, the four bytes of the address, the port. *)
Definition addr_at (off : nat) (a : addr) (b : bytes) : Prop :=
  unbe (field off 1 b) = 0 /\ as16 (field (off + 1) 4 b) = as16 (ip a) /\
  Z.of_N (unbe (field (off + 5) 2 b)) = port a.

Section Layout.
Context (X : Ext) (P : point -> Prop) (Q : rproof X -> Prop).

(** An input of a block: 34 bytes. *)
Definition input_layout (i : input) (b : bytes) : Prop :=
  List.length b = 34%nat /\ unbe (field 0 1 b) = in_features i /\ field 1 33 b = in_commit i.
(** An input of a transaction, as it is written: 33 bytes. *)
Definition bare_input_layout (i : input) (b : bytes) : Prop := b = in_commit i.
(** An output: 42 bytes and the range proof. *)
Definition output_layout (o : output X) (b : bytes) : Prop :=
  unbe (field 0 1 b) = out_features o /\ field 1 33 b = point_enc X (out_commit o) /\
  unbe (field 34 8 b) = lenN (skipn 42 b) /\ skipn 42 b = rproof_enc X (out_proof o).
(** A kernel: 114 bytes. *)
Definition kernel_layout (k : kernel) (b : bytes) : Prop :=
  List.length b = 114%nat /\ unbe (field 0 1 b) = k_features k /\ unbe (field 1 8 b) = k_fee k /\
  unbe (field 9 8 b) = k_lock k /\ field 17 33 b = point_enc X (k_excess k) /\ field 50 64 b = k_sig k.

(** [b] is the concatenation of the items of [l] in ascending order of [key], each laid out as [lay]. *)
Definition items {A} (key : A -> bytes) (lay : A -> bytes -> Prop) (l : list A) (b : bytes) : Prop :=
  exists l' parts, Permutation l' l /\ key_sorted key l' /\ Forall2 lay l' parts /\ b = concat parts.

(** Three counts of eight bytes, then inputs, outputs and kernels. *)
Definition body_layout (lay : input -> bytes -> Prop) (ins : list input) (outs : list (output X)) (kers : list kernel)
  (b : bytes) : Prop :=
  unbe (field 0 8 b) = lenN ins /\ unbe (field 8 8 b) = lenN outs /\ unbe (field 16 8 b) = lenN kers /\
  exists bi bo bk, skipn 24 b = bi ++ bo ++ bk /\ items (input_key X) lay ins bi /\
    items (output_key X) output_layout outs bo /\ items (kernel_key X) kernel_layout kers bk.

(** The body of a message. *)
Definition layout (m : message X) (b : bytes) : Prop :=
  match m with
  | MError e => unbe (field 0 4 b) = pe_code e /\ unbe (field 4 8 b) = lenN (pe_text e) /\ skipn 12 b = pe_text e
  | MHand h =>
      let n := List.length (hd_agent h) in
      List.length b = (78 + n)%nat /\
      unbe (field 0 4 b) = hd_version h /\ unbe (field 4 4 b) = hd_caps h /\
      unbe (field 8 8 b) = hd_nonce h /\ unbe (field 16 8 b) = hd_difficulty h /\
      (exists s, hd_sender h = Some s /\ addr_at 24 s b) /\
      (exists r, hd_receiver h = Some r /\ addr_at 31 r b) /\
      unbe (field 38 8 b) = N.of_nat n /\ field 46 n b = hd_agent h /\ field (46 + n) 32 b = hd_genesis h
  | MShake s =>
      let n := List.length (sk_agent s) in
      List.length b = (56 + n)%nat /\
      unbe (field 0 4 b) = sk_version s /\ unbe (field 4 4 b) = sk_caps s /\
      unbe (field 8 8 b) = sk_difficulty s /\
      unbe (field 16 8 b) = N.of_nat n /\ field 24 n b = sk_agent s /\ field (24 + n) 32 b = sk_genesis s
  | MPing p | MPong p =>
      List.length b = 16%nat /\ unbe (field 0 8 b) = pg_difficulty p /\ unbe (field 8 8 b) = pg_height p
  | MGetPeerAddrs c => List.length b = 4%nat /\ unbe b = c
  | MPeerAddrs l =>
      List.length b = (4 + 7 * List.length l)%nat /\ unbe (field 0 4 b) = lenN l /\
      forall i a, nth_error l i = Some a -> addr_at (4 + 7 * i) a b
  | MGetHeaders hs =>
      List.length b = (1 + 32 * List.length hs)%nat /\ unbe (field 0 1 b) = lenN hs /\
      forall i h, nth_error hs i = Some h -> field (1 + 32 * i) 32 b = h
  | MHeader h => header_layout h b
  | MHeaders l =>
      unbe (field 0 2 b) = lenN l /\ exists parts, skipn 2 b = concat parts /\ Forall2 header_layout l parts
  | MGetBlock h => b = h
  | MBlock k => exists hb rest, b = hb ++ rest /\ header_layout (b_header k) hb /\
      body_layout input_layout (b_inputs k) (b_outputs k) (b_kernels k) rest
  | MCompact k => exists hb rest, b = hb ++ rest /\ header_layout (cb_header k) hb /\
      unbe (field 0 1 rest) = lenN (cb_outputs k) /\ unbe (field 1 1 rest) = lenN (cb_kernels k) /\
      unbe (field 2 8 rest) = lenN (cb_ids k) /\
      exists bo bk bi, skipn 10 rest = bo ++ bk ++ bi /\ items (output_key X) output_layout (cb_outputs k) bo /\
        items (kernel_key X) kernel_layout (cb_kernels k) bk /\
        items (fun i => i) (fun i b => List.length b = 6%nat /\ b = i) (cb_ids k) bi
  | MTx t => field 0 32 b = tx_offset t /\
      body_layout bare_input_layout (tx_inputs t) (tx_outputs t) (tx_kernels t) (skipn 32 b)
  end.

(** The messages that can be sent, transactions with inputs included. *)
Definition laid_out (m : message X) : Prop :=
  match m with MTx t => tx_wf X P Q t | _ => sendable X P Q m end.
End Layout.
