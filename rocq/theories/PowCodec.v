(** Model of consensus/proof.go: packing and reading the nonces of a proof of work. *)
From Verif Require Export GoRT.

(** consensus/consensus.go:53 — ProofSize. *)
Definition proof_size : nat := 42.

(** consensus/proof.go:19-25 — type Proof. EdgeBits is a uint8, the nonces are uint32 values. *)
Record proof := Proof { p_bits : N; p_nonces : list N }.

(** The field values have their Go types. *)
Definition proof_typed (p : proof) : Prop := is_u8 (p_bits p) /\ Forall is_u32 (p_nonces p).

(** consensus/proof.go:65-66, 116-117 — the length of bitvec: (nonceLengthBits*ProofSize + 7) / 8. *)
Definition bitvec_len (bits : N) : N := (bits * N.of_nat proof_size + 7) / 8.

(** bitvec[k] |= m on a []uint8; an index outside the slice panics. *)
Fixpoint or_at (k : nat) (m : N) (bv : bytes) : res bytes :=
  match bv, k with
  | [], _ => Panic
  | b :: t, O => Ok (n2b (N.lor (b2n b) m) :: t)
  | b :: t, S k' => rmap (cons b) (or_at k' m t)
  end.

(** consensus/proof.go:74-75 — bitvec[offsetBits/8] |= 1 << (offsetBits % 8). *)
Definition set_bit (off : N) (bv : bytes) : res bytes :=
  or_at (N.to_nat (off / 8)) (N.shiftl 1 (off mod 8)) bv.

(** consensus/proof.go:70-77 — the inner loop of ProofBytes from [bit] on, for [k] more bits.
    1<<bit is a uint32, hence 0 from 32 on. *)
Fixpoint pack_bits (k : nat) (n bits bit nonce : N) (bv : bytes) : res bytes :=
  match k with
  | O => Ok bv
  | S k' =>
      let! bv := if negb (N.land nonce (w32 (N.shiftl 1 bit)) =? 0)
                 then set_bit (n * bits + bit) bv else Ok bv in
      pack_bits k' n bits (bit + 1) nonce bv
  end.

(** consensus/proof.go:68-78 — the outer loop of ProofBytes, from nonce number [n] on. *)
Fixpoint pack_nonces (n bits : N) (ns : list N) (bv : bytes) : res bytes :=
  match ns with
  | [] => Ok bv
  | nonce :: t =>
      let! bv := pack_bits (N.to_nat bits) n bits 0 nonce bv in
      pack_nonces (n + 1) bits t bv
  end.

(** consensus/proof.go:56-85 — ProofBytes (writing to a bytes.Buffer cannot fail). *)
Definition proof_bytes (p : proof) : res bytes :=
  pack_nonces 0 (p_bits p) (p_nonces p) (brepeat x00 (N.to_nat (bitvec_len (p_bits p)))).

(** consensus/proof.go:88-99 — Bytes: the graph size, then ProofBytes. *)
Definition proof_enc (p : proof) : res bytes :=
  rmap (fun b => be 1 (p_bits p) ++ b) (proof_bytes p).

(** consensus/proof.go:128-130 — bitvec[offsetBits/8]&(1<<(offsetBits%8)) != 0. *)
Definition get_bit (off : N) (bv : bytes) : res bool :=
  match nth_error bv (N.to_nat (off / 8)) with
  | Some b => Ok (negb (N.land (b2n b) (N.shiftl 1 (off mod 8)) =? 0))
  | None => Panic
  end.

(** consensus/proof.go:126-133 — reading nonce [i], from [bit] on, for [k] more bits. *)
Fixpoint unpack_bits (k : nat) (i bits bit acc : N) (bv : bytes) : res N :=
  match k with
  | O => Ok acc
  | S k' =>
      let! b := get_bit (i * bits + bit) bv in
      unpack_bits k' i bits (bit + 1) (if b then N.lor acc (w32 (N.shiftl 1 bit)) else acc) bv
  end.

(** consensus/proof.go:122-136 — the outer loop of Read, for [k] more nonces. *)
Fixpoint unpack_nonces (k : nat) (i bits : N) (bv : bytes) : res (list N) :=
  match k with
  | O => Ok []
  | S k' =>
      let! nonce := unpack_bits (N.to_nat bits) i bits 0 0 bv in
      let! t := unpack_nonces k' (i + 1) bits bv in
      Ok (nonce :: t)
  end.

(** consensus/proof.go:102-139 — Read. *)
Definition proof_read : reader proof :=
  do bits <- read_be 1;
  if (bits =? 0) || (64 <? bits) then rfail (Msg "invalid cuckoo graph size")
  else
    do bv <- read_full (bitvec_len bits);
    do ns <- lift (unpack_nonces proof_size 0 bits bv);
    rret (Proof bits ns).
