(** The instance of [Ext] with the functions the node really calls: BLAKE2b-256, SHA-256, SipHash-2-4
    and secp256k1 (secp256k1zkp/constants.go:48-98). The source of github.com/yoss22/bulletproofs is
    not at hand, so two parts are stand-ins: points are encoded in the format of the repository's test
    vectors (a byte 8 or 9, for a y that is or is not a square, and x), and a range proof is any
    string that always verifies. Used for test vectors (Vectors.v) and to meet the laws of Ext.v. *)
From Coq Require Import Permutation Sorted.
From Verif Require Import Ext EC Hashes Instance CodecProofs.

(** The field of 2^256 - 2^32 - 977 elements. *)
Definition secp_c : N := 2 ^ 32 + 977.
Definition secp_p : N := 2 ^ 256 - secp_c.
Definition secp_n : N := 0xfffffffffffffffffffffffffffffffebaaedce6af48a03bbfd25e8cd0364141.
Definition secp_G : point :=
  Point 0x79be667ef9dcbbac55a06295ce870b07029bfcdb2dce28d959f2815b16f81798
        0x483ada7726a3c4655da4fbfc0e1108a8fd17b448a68554199c47d08ffb10d4b8.
Definition secp_H : point :=
  Point 0x50929b74c1a04954b78b4b6035e97a5e078a5a0f28ec96d547bfee9ace803ac0
        0x31d3c6863973926e049e637cb1b5f40a36dac28af1766968c30c2313f3a38904.

(** Reduction of products by folding: 2^256 = secp_c modulo secp_p. *)
Definition secp_fold (x : N) : N := N.land x (N.ones 256) + secp_c * N.shiftr x 256.
Definition secp_red (x : N) : N :=
  let y := secp_fold (secp_fold x) in if y <? secp_p then y else y - secp_p.
Definition smul_ (a b : N) : N := secp_red (a * b).
Definition ssub_ (a b : N) : N := if b <=? a then a - b else a + secp_p - b.
Fixpoint spow_ (a : N) (e : positive) : N :=
  match e with
  | xH => a
  | xO e => let r := spow_ a e in smul_ r r
  | xI e => let r := spow_ a e in smul_ (smul_ r r) a
  end.

(** Jacobian coordinates (x/z^2, y/z^3); z = 0 is the point at infinity. *)
Definition jac := (N * N * N)%type.
Definition jac_double (p : jac) : jac :=
  let '(x, y, z) := p in
  let a := smul_ x x in
  let b := smul_ y y in
  let c := smul_ b b in
  let d := let t := secp_red (x + b) in secp_red (2 * ssub_ (ssub_ (smul_ t t) a) c) in
  let e := secp_red (3 * a) in
  let f := smul_ e e in
  let x3 := ssub_ f (secp_red (2 * d)) in
  (x3, ssub_ (smul_ e (ssub_ d x3)) (secp_red (8 * c)), secp_red (2 * smul_ y z)).
(** Adding an affine point. *)
Definition jac_add (p : jac) (q : point) : jac :=
  let '(x, y, z) := p in
  if z =? 0 then (px q, py q, 1)
  else
    let zz := smul_ z z in
    let h := ssub_ (smul_ (px q) zz) x in
    let r := ssub_ (smul_ (py q) (smul_ z zz)) y in
    if h =? 0 then if r =? 0 then jac_double p else (1, 1, 0)
    else
      let hh := smul_ h h in
      let hhh := smul_ h hh in
      let v := smul_ x hh in
      let x3 := ssub_ (ssub_ (smul_ r r) hhh) (secp_red (2 * v)) in
      (x3, ssub_ (smul_ r (ssub_ v x3)) (smul_ y hhh), smul_ z h).
Fixpoint jac_mul (q : point) (k : positive) : jac :=
  match k with
  | xH => (px q, py q, 1)
  | xO k => jac_double (jac_mul q k)
  | xI k => jac_add (jac_double (jac_mul q k)) q
  end.
Definition jac_affine (p : jac) : point :=
  let '(x, y, z) := p in
  if z =? 0 then Point 0 0
  else let i := spow_ z (N.succ_pos (secp_p - 3)) in
       let ii := smul_ i i in Point (smul_ x ii) (smul_ y (smul_ i ii)).

(** ScalarMulPoint and SumPoints; the point at infinity is (0, 0). *)
Definition secp_smul (q : point) (k : N) : point :=
  if is_O q then q else match k with 0 => Point 0 0 | N.pos k => jac_affine (jac_mul q k) end.
Definition secp_add (a b : point) : point :=
  if is_O a then b else if is_O b then a else jac_affine (jac_add (px a, py a, 1) b).
(** ModSqrtFast. *)
Definition secp_sqrt (a : N) : N := spow_ (a mod secp_p) (N.succ_pos ((secp_p - 3) / 4)).

(** (Point).Bytes and (Point).Read, in the format of the test vectors. *)
Definition secp_square (y : N) : bool := let r := secp_sqrt y in smul_ r r =? y.
Definition secp_point_enc (q : point) : bytes := (if secp_square (py q) then x08 else x09) :: be 32 (px q).
Definition secp_point_read : reader point :=
  do tag <- read_be 1;
  do x <- read_be 32;
  let y := secp_sqrt (x * x * x + 7) in
  if negb ((tag =? 8) || (tag =? 9)) then rfail (Msg "unexpected tag")
  else if negb (smul_ y y =? (x * x * x + 7) mod secp_p) then rfail (Msg "not on the curve")
  else rret (Point x (if tag =? 8 then y else secp_p - y)).

(** A range proof: all bytes that are there. *)
Definition read_all : reader bytes := fun bs => Ok (bs, []).

Definition real : Ext := {|
  blake2b := blake2b_256; sha256 := sha_256; sip_lib := siphash_2_4;
  c_order := secp_n; c_G := secp_G; c_H := secp_H;
  c_smul := secp_smul; c_add := secp_add; c_sqrt := secp_sqrt;
  point_enc := secp_point_enc; point_read := secp_point_read;
  rproof := bytes; rproof_enc := fun q => q; rproof_read := read_all;
  rp_verify := fun _ _ => true;
  go_sort := @isort
|}.

(** ** Laws *)

Lemma real_hash_laws : hash_laws real.
Proof.
  split; [intro m|split; [intro m|intros a b m]]; cbn [blake2b sha256 sip_lib real].
  - unfold blake2b_256. rewrite !app_length, !le_length. reflexivity.
  - unfold sha_256. rewrite !app_length, !be_length. reflexivity.
  - unfold is_u64, siphash_2_4. apply w64_lt.
Qed.

Lemma real_sort : sort_laws real.
Proof. exact toy_sort. Qed.

Lemma real_safe : codec_safe real.
Proof.
  split; cbn [point_read rproof_read real rproof].
  - unfold secp_point_read. do 2 (apply safe_bind; [apply safe_read_be|intro]).
    destruct (negb _); [apply safe_fail|]. destruct (negb _); [apply safe_fail|]. apply safe_ret.
  - intros bs. split; discriminate.
Qed.
