(** Specification for C139: the usual notation of an IPv4 endpoint. *)
From Verif Require Import Messages SpecMessages.

(** A number in decimal digits, without superfluous zeros in front. *)
Definition digit (b : byte) (n : N) : Prop :=
  nth_error [x30; x31; x32; x33; x34; x35; x36; x37; x38; x39] (N.to_nat n) = Some b.
Inductive numeral : bytes -> N -> Prop :=
| NuOne b d : digit b d -> numeral [b] d
| NuMore s n b d : numeral s n -> 0 < n -> digit b d -> numeral (s ++ [b]) (10 * n + d).

(** [s] is "a.b.c.d:p" for the endpoint. *)
Definition spelled (s : bytes) (e : addr) : Prop :=
  exists a b c d ta tb tc td tp, as16 (ip e) = as16 [a; b; c; d] /\
    numeral ta (b2n a) /\ numeral tb (b2n b) /\ numeral tc (b2n c) /\ numeral td (b2n d) /\
    (exists n, n < 65536 /\ port e = Z.of_N n /\ numeral tp n) /\
    s = ta ++ [x2e] ++ tb ++ [x2e] ++ tc ++ [x2e] ++ td ++ [x3a] ++ tp.
