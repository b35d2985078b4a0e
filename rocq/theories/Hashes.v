(** Executable BLAKE2b-256 (RFC 7693), SHA-256 (FIPS 180-4) and SipHash-2-4, for the instance that
    runs the repository's own test vectors. Nothing of /repo is modelled here: these are the functions
    blake2b.Sum256, sha256.New and siphash.Hash that /repo imports (consensus/block.go,
    secp256k1zkp/schnorr.go:168-178, consensus/id.go:35). *)
From Verif Require Import Ext Siphash.

(** [n] consecutive groups of [k] bytes. *)
Fixpoint groups (k : nat) (n : nat) (m : bytes) : list bytes :=
  match n with O => [] | S n => firstn k m :: groups k n (skipn k m) end.

Definition w32x (n : N) : N := N.land n 0xffffffff.
Definition w64x (n : N) : N := N.land n 0xffffffffffffffff.
Definition rotr (w : N) (x k : N) : N := N.lor (N.shiftr x k) (N.land (N.shiftl x (w - k)) (N.ones w)).

(** ** BLAKE2b *)

Definition blake_iv : list N :=
  [0x6a09e667f3bcc908; 0xbb67ae8584caa73b; 0x3c6ef372fe94f82b; 0xa54ff53a5f1d36f1;
   0x510e527fade682d1; 0x9b05688c2b3e6c1f; 0x1f83d9abfb41bd6b; 0x5be0cd19137e2179].
Definition blake_sigma : list (list nat) :=
  [[0; 1; 2; 3; 4; 5; 6; 7; 8; 9; 10; 11; 12; 13; 14; 15];
   [14; 10; 4; 8; 9; 15; 13; 6; 1; 12; 0; 2; 11; 7; 5; 3];
   [11; 8; 12; 0; 5; 2; 15; 13; 10; 14; 3; 6; 7; 1; 9; 4];
   [7; 9; 3; 1; 13; 12; 11; 14; 2; 6; 5; 10; 4; 0; 15; 8];
   [9; 0; 5; 7; 2; 4; 10; 15; 14; 1; 11; 12; 6; 8; 3; 13];
   [2; 12; 6; 10; 0; 11; 8; 3; 4; 13; 7; 5; 15; 14; 1; 9];
   [12; 5; 1; 15; 14; 13; 4; 10; 0; 7; 6; 3; 9; 2; 8; 11];
   [13; 11; 7; 14; 12; 1; 3; 9; 5; 0; 15; 4; 8; 6; 2; 10];
   [6; 15; 14; 9; 11; 3; 0; 8; 12; 2; 13; 7; 1; 4; 10; 5];
   [10; 2; 8; 4; 7; 6; 1; 5; 15; 11; 9; 14; 3; 12; 13; 0]]%nat.

Definition at_ (l : list N) (i : nat) : N := nth i l 0.
(** The mixing function G on four words. *)
Definition blake_g (a b c d x y : N) : N * N * N * N :=
  let a := w64x (a + b + x) in
  let d := rotr 64 (N.lxor d a) 32 in
  let c := w64x (c + d) in
  let b := rotr 64 (N.lxor b c) 24 in
  let a := w64x (a + b + y) in
  let d := rotr 64 (N.lxor d a) 16 in
  let c := w64x (c + d) in
  let b := rotr 64 (N.lxor b c) 63 in
  (a, b, c, d).
(** One round: columns, then diagonals. *)
Definition blake_round (m : list N) (v : list N) (s : list nat) : list N :=
  let w i := at_ m (nth i s 0%nat) in
  match v with
  | [v0; v1; v2; v3; v4; v5; v6; v7; v8; v9; v10; v11; v12; v13; v14; v15] =>
      let '(v0, v4, v8, v12) := blake_g v0 v4 v8 v12 (w 0%nat) (w 1%nat) in
      let '(v1, v5, v9, v13) := blake_g v1 v5 v9 v13 (w 2%nat) (w 3%nat) in
      let '(v2, v6, v10, v14) := blake_g v2 v6 v10 v14 (w 4%nat) (w 5%nat) in
      let '(v3, v7, v11, v15) := blake_g v3 v7 v11 v15 (w 6%nat) (w 7%nat) in
      let '(v0, v5, v10, v15) := blake_g v0 v5 v10 v15 (w 8%nat) (w 9%nat) in
      let '(v1, v6, v11, v12) := blake_g v1 v6 v11 v12 (w 10%nat) (w 11%nat) in
      let '(v2, v7, v8, v13) := blake_g v2 v7 v8 v13 (w 12%nat) (w 13%nat) in
      let '(v3, v4, v9, v14) := blake_g v3 v4 v9 v14 (w 14%nat) (w 15%nat) in
      [v0; v1; v2; v3; v4; v5; v6; v7; v8; v9; v10; v11; v12; v13; v14; v15]
  | _ => v
  end.
Fixpoint xor3 (h a b : list N) : list N :=
  match h, a, b with
  | x :: h, y :: a, z :: b => N.lxor (N.lxor x y) z :: xor3 h a b
  | _, _, _ => []
  end.
(** The compression function; [t] bytes have been taken in so far. *)
Definition blake_compress (h : list N) (block : bytes) (t : N) (last : bool) : list N :=
  let m := map unle (groups 8 16 block) in
  let v := h ++ [at_ blake_iv 0; at_ blake_iv 1; at_ blake_iv 2; at_ blake_iv 3;
                 N.lxor (at_ blake_iv 4) t; at_ blake_iv 5;
                 (if last then N.lxor (at_ blake_iv 6) (N.ones 64) else at_ blake_iv 6); at_ blake_iv 7] in
  let v := fold_left (blake_round m) (blake_sigma ++ firstn 2 blake_sigma) v in
  xor3 h (firstn 8 v) (skipn 8 v).
(** All blocks but the last, then the last, filled up with zeros. *)
Fixpoint blake_blocks (fuel : nat) (h : list N) (m : bytes) (t : N) : list N :=
  match fuel with
  | O => h
  | S fuel =>
      if lenN m <=? 128
      then blake_compress h (m ++ brepeat x00 (128 - List.length m)) (t + lenN m) true
      else blake_blocks fuel (blake_compress h (firstn 128 m) (t + 128) false) (skipn 128 m) (t + 128)
  end.
(** Digest length 32, no key. *)
Definition blake2b_256 (m : bytes) : bytes :=
  let h := match blake_iv with x :: t => N.lxor x 0x01010020 :: t | [] => [] end in
  let d := blake_blocks (S (List.length m / 128)) h m 0 in
  le 8 (at_ d 0) ++ le 8 (at_ d 1) ++ le 8 (at_ d 2) ++ le 8 (at_ d 3).

(** ** SHA-256 *)

Definition sha_k : list N :=
  [0x428a2f98; 0x71374491; 0xb5c0fbcf; 0xe9b5dba5; 0x3956c25b; 0x59f111f1; 0x923f82a4; 0xab1c5ed5;
   0xd807aa98; 0x12835b01; 0x243185be; 0x550c7dc3; 0x72be5d74; 0x80deb1fe; 0x9bdc06a7; 0xc19bf174;
   0xe49b69c1; 0xefbe4786; 0xfc19dc6; 0x240ca1cc; 0x2de92c6f; 0x4a7484aa; 0x5cb0a9dc; 0x76f988da;
   0x983e5152; 0xa831c66d; 0xb00327c8; 0xbf597fc7; 0xc6e00bf3; 0xd5a79147; 0x6ca6351; 0x14292967;
   0x27b70a85; 0x2e1b2138; 0x4d2c6dfc; 0x53380d13; 0x650a7354; 0x766a0abb; 0x81c2c92e; 0x92722c85;
   0xa2bfe8a1; 0xa81a664b; 0xc24b8b70; 0xc76c51a3; 0xd192e819; 0xd6990624; 0xf40e3585; 0x106aa070;
   0x19a4c116; 0x1e376c08; 0x2748774c; 0x34b0bcb5; 0x391c0cb3; 0x4ed8aa4a; 0x5b9cca4f; 0x682e6ff3;
   0x748f82ee; 0x78a5636f; 0x84c87814; 0x8cc70208; 0x90befffa; 0xa4506ceb; 0xbef9a3f7; 0xc67178f2].
Definition sha_iv : list N :=
  [0x6a09e667; 0xbb67ae85; 0x3c6ef372; 0xa54ff53a; 0x510e527f; 0x9b05688c; 0x1f83d9ab; 0x5be0cd19].
(** The message schedule, the latest word first. *)
Fixpoint sha_schedule (n : nat) (w : list N) : list N :=
  match n with
  | O => w
  | S n =>
      let s0 := let x := at_ w 14 in N.lxor (N.lxor (rotr 32 x 7) (rotr 32 x 18)) (N.shiftr x 3) in
      let s1 := let x := at_ w 1 in N.lxor (N.lxor (rotr 32 x 17) (rotr 32 x 19)) (N.shiftr x 10) in
      sha_schedule n (w32x (at_ w 15 + s0 + at_ w 6 + s1) :: w)
  end.
Definition sha_step (s : list N) (kw : N * N) : list N :=
  match s with
  | [a; b; c; d; e; f; g; h] =>
      let s1 := N.lxor (N.lxor (rotr 32 e 6) (rotr 32 e 11)) (rotr 32 e 25) in
      let ch := N.lxor (N.land e f) (N.land (N.lxor e 0xffffffff) g) in
      let t1 := h + s1 + ch + fst kw + snd kw in
      let s0 := N.lxor (N.lxor (rotr 32 a 2) (rotr 32 a 13)) (rotr 32 a 22) in
      let maj := N.lxor (N.lxor (N.land a b) (N.land a c)) (N.land b c) in
      [w32x (t1 + s0 + maj); a; b; c; w32x (d + t1); e; f; g]
  | _ => s
  end.
Definition sha_compress (h : list N) (block : bytes) : list N :=
  let w := rev (sha_schedule 48 (rev (map unbe (groups 4 16 block)))) in
  let s := fold_left sha_step (combine sha_k w) h in
  map (fun xy => w32x (fst xy + snd xy)) (combine h s).
Definition sha256_pad (m : bytes) : bytes :=
  m ++ x80 :: brepeat x00 (N.to_nat ((119 - lenN m mod 64) mod 64)) ++ be 8 (8 * lenN m).
Definition sha_256 (m : bytes) : bytes :=
  let p := sha256_pad m in
  let d := fold_left sha_compress (groups 64 (List.length p / 64) p) sha_iv in
  be 4 (at_ d 0) ++ be 4 (at_ d 1) ++ be 4 (at_ d 2) ++ be 4 (at_ d 3) ++
  be 4 (at_ d 4) ++ be 4 (at_ d 5) ++ be 4 (at_ d 6) ++ be 4 (at_ d 7).

(** ** SipHash-2-4 of a byte string *)

Definition sip_absorb (h : sip) (m : N) : sip :=
  let h := sip_round (sip_round (Sip (sv0 h) (sv1 h) (sv2 h) (N.lxor (sv3 h) m))) in
  Sip (N.lxor (sv0 h) m) (sv1 h) (sv2 h) (sv3 h).
Definition siphash_2_4 (k0 k1 : N) (m : bytes) : N :=
  let h := Sip (N.lxor k0 0x736f6d6570736575) (N.lxor k1 0x646f72616e646f6d)
               (N.lxor k0 0x6c7967656e657261) (N.lxor k1 0x7465646279746573) in
  let n := (List.length m / 8)%nat in
  let h := fold_left sip_absorb (map unle (groups 8 n m)) h in
  let h := sip_absorb h (unle (skipn (8 * n) m) + 2 ^ 56 * (lenN m mod 256)) in
  let h := Sip (sv0 h) (sv1 h) (N.lxor (sv2 h) 0xff) (sv3 h) in
  w64 (sip_sum64 (sip_round (sip_round (sip_round (sip_round h))))).
