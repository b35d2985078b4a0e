(** Model of secp256k1zkp/schnorr.go. *)
From Verif Require Export Ext.

(** secp256k1zkp/schnorr.go:12-20. *)
Definition tag_even : byte := x02.
Definition tag_odd : byte := x03.

(** bulletproofs.GetB32(v): 32-byte big-endian encoding. The library panics for values of more
    than 32 bytes; no caller in /repo can pass one (coordinates and scalars are reduced or were
    read from 32 bytes), and the model truncates instead. *)
Definition get_b32 (n : N) : bytes := be 32 n.

(** secp256k1zkp/schnorr.go:34-46 — RandomInt on a stream of 32-byte random draws. [None]: the
    finite prefix of the stream was used up without an acceptable draw. Cmp(N) == 1 retries. *)
Fixpoint random_int (X : Ext) (draws : list bytes) : option (N * list bytes) :=
  match draws with
  | [] => None
  | b :: t => if c_order X <? unbe b then random_int X t else Some (unbe b, t)
  end.

(** secp256k1zkp/schnorr.go:50-53 — type Signature. *)
Record signature := Signature { sg_s : N; sg_R : point }.

(** secp256k1zkp/schnorr.go:56-63 — (Signature).Bytes. *)
Definition sig_bytes (s : signature) : bytes := get_b32 (px (sg_R s)) ++ get_b32 (sg_s s).

(** secp256k1zkp/schnorr.go:125-135 — CompressPubkey. *)
Definition compress_pubkey (p : point) : bytes :=
  (if N.odd (py p) then tag_odd else tag_even) :: get_b32 (px p).

(** secp256k1zkp/schnorr.go:168-178 — ComputeHash. *)
Definition compute_hash (X : Ext) (inputs : list bytes) : bytes := sha256 X (concat inputs).

(** secp256k1zkp/schnorr.go:83-89 and 99-107 — the challenge e. *)
Definition challenge (X : Ext) (R P : point) (msg : bytes) : N :=
  unbe (compute_hash X [get_b32 (px R); compress_pubkey P; msg]).

(** secp256k1zkp/schnorr.go:75-94 — SignMessage, with the random nonce k of line 77 as an argument.
    bulletproofs.Sum and Mul reduce modulo the group order. *)
Definition sign_message (X : Ext) (k : N) (P : point) (x : N) (msg : bytes) : signature :=
  let R := c_smul X (c_G X) k in
  let e := challenge X R P msg in
  Signature ((k + (e * x) mod c_order X) mod c_order X) R.

(** secp256k1zkp/schnorr.go:98-114 — VerifySignature: only X coordinates are compared. *)
Definition verify_signature (X : Ext) (P : point) (msg : bytes) (s : signature) : bool :=
  let e := challenge X (sg_R s) P msg in
  let lhs := c_smul X (c_G X) (sg_s s) in
  let rhs := c_add X (sg_R s) (c_smul X P e) in
  px lhs =? px rhs.

(** secp256k1zkp/schnorr.go:118-122 — CommitValue. *)
Definition commit_value (X : Ext) (blind v : N) : point :=
  c_add X (c_smul X (c_G X) blind) (c_smul X (c_H X) v).

(** secp256k1zkp/schnorr.go:138-151 — decompressPoint. *)
Definition decompress_point (X : Ext) (xb : bytes) : N :=
  let x := unbe xb in c_sqrt X (x * x * x + 7).

(** secp256k1zkp/schnorr.go:154-165 — DecodeSignature. *)
Definition decode_signature (X : Ext) (b : bytes) : signature :=
  Signature (unbe (slice 32 32 b)) (Point (unbe (slice 0 32 b)) (decompress_point X (slice 0 32 b))).

(** secp256k1zkp/schnorr.go:181-186 — ComputeMessage. *)
Definition compute_message (fee lock : N) : bytes :=
  brepeat x00 16 ++ be 8 fee ++ be 8 lock.
