(** Code outside /repo that the modelled code calls: hash functions, the curve and the codecs of
    github.com/yoss22/bulletproofs, sort.Sort. Theorems quantify over all of it; what they need
    to know is stated as laws. *)
From Coq Require Import Permutation Sorted.
From Verif Require Export GoRT.

(** bulletproofs.Point: a pair of big integers (non-nil wherever /repo builds one). *)
Record point := Point { px : N; py : N }.

Record Ext := MkExt {
  (** blake2b.Sum256, sha256 (both return 32-byte arrays), siphash.Hash(k0, k1, msg). *)
  blake2b : bytes -> bytes;
  sha256 : bytes -> bytes;
  sip_lib : N -> N -> bytes -> N;
  (** btcec.S256(): the order N, the generators of secp256k1zkp/constants.go:75-98;
      bulletproofs.ScalarMulPoint(p, k), SumPoints(p, q), ModSqrtFast. *)
  c_order : N;
  c_G : point;
  c_H : point;
  c_smul : point -> N -> point;
  c_add : point -> point -> point;
  c_sqrt : N -> N;
  (** (Point).Bytes and (Point).Read. *)
  point_enc : point -> bytes;
  point_read : reader point;
  (** bulletproofs.BulletProof with Bytes and Read; NewProver(64).Verify(commit, proof). *)
  rproof : Type;
  rproof_enc : rproof -> bytes;
  rproof_read : reader rproof;
  rp_verify : point -> rproof -> bool;
  (** sort.Sort on a list whose Less compares byte-string keys with bytes.Compare. *)
  go_sort : forall A : Type, (A -> bytes) -> list A -> list A
}.
Arguments go_sort e {A}.

(** ** Laws *)

(** Digests have their array lengths. *)
Definition hash_laws (X : Ext) : Prop :=
  (forall m, List.length (blake2b X m) = 32%nat) /\ (forall m, List.length (sha256 X m) = 32%nat) /\
  (forall a b m, is_u64 (sip_lib X a b m)).

(** Points and range proofs that survive their own codec; [P] and [Q] say which ones do. Points
    take 33 bytes, range proofs at most MaxProofSize = 5134 (secp256k1zkp/constants.go:42). *)
Record codec_laws (X : Ext) (P : point -> Prop) (Q : rproof X -> Prop) : Prop := {
  point_rt : forall p rest, P p -> point_read X (point_enc X p ++ rest) = Ok (p, rest);
  point_len : forall p, P p -> List.length (point_enc X p) = 33%nat;
  rproof_rt : forall q, Q q -> rproof_read X (rproof_enc X q) = Ok (q, []);
  rproof_len : forall q, Q q -> lenN (rproof_enc X q) <= 5134
}.

(** The external decoders return (an error or a value) on every input. *)
Definition codec_safe (X : Ext) : Prop := safe (point_read X) /\ safe (rproof_read X).

(** No element has a smaller key than one before it. *)
Definition key_sorted {A} (key : A -> bytes) (l : list A) : Prop :=
  StronglySorted (fun a b => bytes_lt (key b) (key a) = false) l.

(** sort.Sort permutes and sorts; which permutation is unspecified. *)
Definition sort_laws (X : Ext) : Prop :=
  forall (A : Type) (key : A -> bytes) (l : list A),
    Permutation (go_sort X key l) l /\ key_sorted key (go_sort X key l).
