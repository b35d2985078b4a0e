(** What the constants of secp256k1zkp/constants.go:48-98 are said to define, independently of the
    arithmetic in Real.v. *)
From Verif Require Import Ext Real.

(** A point of the curve y^2 = x^3 + 7 over the integers modulo secp_p, (0, 0) standing for the point
    at infinity. *)
Definition secp_on (q : point) : Prop :=
  q = Point 0 0 \/ (px q < secp_p /\ py q < secp_p /\ (py q * py q) mod secp_p = (px q * px q * px q + 7) mod secp_p).
(** Reflection at the x axis. *)
Definition secp_neg (q : point) : point :=
  if (px q =? 0) && (py q =? 0) then q else Point (px q) (secp_p - py q).
(** The points that have an encoding. *)
Definition secp_affine (q : point) : Prop := secp_on q /\ q <> Point 0 0.
(** Range proofs that fit into a message. *)
Definition proof_sized (q : bytes) : Prop := lenN q <= 5134.

(** [i] is the inverse of a - b modulo n. *)
Definition inverse_of_difference (n i a b : N) : Prop := (i * (a + (n - b mod n))) mod n = 1.
