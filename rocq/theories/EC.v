(** Executable curve y^2 = x^3 + 7 over F_p, for instances and test vectors only: no theorem about
    /repo depends on this file. The point at infinity is (0, 0), as in btcec. *)
From Verif Require Import Ext.

Section Curve.
Context (p : N).

Definition fmul (a b : N) : N := (a * b) mod p.
Definition fsub (a b : N) : N := (a + (p - b mod p)) mod p.
Fixpoint fpow_pos (a : N) (e : positive) : N :=
  match e with
  | xH => a mod p
  | xO e => let r := fpow_pos a e in fmul r r
  | xI e => let r := fpow_pos a e in fmul (fmul r r) a
  end.
Definition fpow (a e : N) : N := match e with 0 => 1 | N.pos e => fpow_pos a e end.
Definition finv (a : N) : N := fpow a (p - 2).
(** A square root when p mod 4 = 3. *)
Definition fsqrt (a : N) : N := fpow a ((p + 1) / 4).

Definition ec_O : point := Point 0 0.
Definition is_O (q : point) : bool := (px q =? 0) && (py q =? 0).
Definition ec_neg (q : point) : point := if is_O q then q else Point (px q) (p - py q).

Definition ec_chord (l : N) (a b : point) : point :=
  let x := fsub (fsub (fmul l l) (px a)) (px b) in
  Point x (fsub (fmul l (fsub (px a) x)) (py a)).

Definition ec_add (a b : point) : point :=
  if is_O a then b else if is_O b then a
  else if px a =? px b then
    if (py a + py b) mod p =? 0 then ec_O
    else ec_chord (fmul (3 * px a * px a) (finv (2 * py a))) a b
  else ec_chord (fmul (fsub (py b) (py a)) (finv (fsub (px b) (px a)))) a b.

Fixpoint ec_smul_pos (a : point) (k : positive) : point :=
  match k with
  | xH => a
  | xO k => let r := ec_smul_pos a k in ec_add r r
  | xI k => let r := ec_smul_pos a k in ec_add (ec_add r r) a
  end.
Definition ec_smul (a : point) (k : N) : point := match k with 0 => ec_O | N.pos k => ec_smul_pos a k end.
End Curve.
