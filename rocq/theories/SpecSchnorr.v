(** What is assumed of the curve, and specifications for signatures and commitments. *)
From Verif Require Import Schnorr.

(** A commutative group of points [On] with neutral element [O], inverse [neg] and the odd order
    [c_order]; multiplication is iterated addition; a point and its inverse are the only two with
    their x coordinate; the generator has exactly that order; the square root finds one of the two
    points with a given x coordinate. *)
Record curve_laws (X : Ext) (On : point -> Prop) (O : point) (neg : point -> point) : Prop := {
  cl_order : 1 < c_order X < 2 ^ 256;
  cl_odd : N.odd (c_order X) = true;
  cl_G : On (c_G X);
  cl_H : On (c_H X);
  cl_O : On O;
  cl_neg_on : forall p, On p -> On (neg p);
  cl_add_on : forall p q, On p -> On q -> On (c_add X p q);
  cl_comm : forall p q, On p -> On q -> c_add X p q = c_add X q p;
  cl_assoc : forall p q r, On p -> On q -> On r -> c_add X p (c_add X q r) = c_add X (c_add X p q) r;
  cl_zero : forall p, On p -> c_add X p O = p;
  cl_neg : forall p, On p -> c_add X p (neg p) = O;
  cl_smul_0 : forall p, On p -> c_smul X p 0 = O;
  cl_smul_S : forall p k, On p -> c_smul X p (N.succ k) = c_add X (c_smul X p k) p;
  cl_smul_n : forall p, On p -> c_smul X p (c_order X) = O;
  cl_gen : forall k, c_smul X (c_G X) k = O -> (c_order X | k);
  cl_coord : forall p, On p -> px p < 2 ^ 256;
  cl_x : forall p q, On p -> On q -> px p = px q -> q = p \/ q = neg p;
  cl_x_neg : forall p, On p -> px (neg p) = px p;
  cl_sqrt : forall p, On p -> p <> O ->
     let q := Point (px p) (c_sqrt X (px p * px p * px p + 7)) in q = p \/ q = neg p
}.

(** The equation a Schnorr signature (R, s) by key P has to satisfy: s*G = R + e*P. *)
Definition schnorr_eq (X : Ext) (P : point) (e : N) (R : point) (s : N) : Prop :=
  c_smul X (c_G X) s = c_add X R (c_smul X P e).

(** The Fiat-Shamir challenge: SHA-256 of R's x coordinate, the compressed key (0x02 or 0x03 for
    an even or odd y, then x) and the message, as a big-endian number. *)
Definition fiat_shamir (X : Ext) (R P : point) (msg : bytes) : N :=
  unbe (sha256 X (be 32 (px R) ++ (if N.even (py P) then x02 else x03) :: be 32 (px P) ++ msg)).

(** The y coordinate that the signature decoder reconstructs for R. *)
Definition canonical_root (X : Ext) (R : point) : Prop :=
  py R = c_sqrt X (px R * px R * px R + 7).
