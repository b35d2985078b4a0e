(** Specifications for the proof of work, written from the published algorithms (SipHash, Cuckoo
    Cycle, Cuckaroo), not from the code, and without any definition of the model. *)
From Coq Require Import List NArith Permutation Sorted.
From Coq Require Strings.Byte.
Import ListNotations.
Open Scope N_scope.

(** ** SipHash-2-4 (Aumasson, Bernstein: "SipHash: a fast short-input PRF", figure 2.1) *)

Definition W : N := 2 ^ 64.
(** Addition modulo 2^64 and left rotation by [b] of a 64-bit word, by arithmetic. *)
Definition plus64 (x y : N) : N := (x + y) mod W.
Definition rotl (b x : N) : N := (x * 2 ^ b) mod W + x / 2 ^ (64 - b).

Definition words := (N * N * N * N)%type.

(** SipRound: two half rounds; in each, the two columns are independent. *)
Definition half1 (s : words) : words :=
  let '(a, b, c, d) := s in
  (rotl 32 (plus64 a b), N.lxor (rotl 13 b) (plus64 a b),
   plus64 c d, N.lxor (rotl 16 d) (plus64 c d)).
Definition half2 (s : words) : words :=
  let '(a, b, c, d) := s in
  (plus64 a d, N.lxor (rotl 17 b) (plus64 c b),
   rotl 32 (plus64 c b), N.lxor (rotl 21 d) (plus64 a d)).
Definition sipround (s : words) : words := half2 (half1 s).

Fixpoint rounds (n : nat) (s : words) : words :=
  match n with O => s | S n' => rounds n' (sipround s) end.

(** Compression of one 64-bit word with c = 2 rounds, then finalisation with d = 4 rounds. *)
Definition compress (s : words) (m : N) : words :=
  let '(a, b, c, d) := s in
  let '(a, b, c, d) := rounds 2 (a, b, c, N.lxor d m) in
  (N.lxor a m, b, c, d).
Definition finalize (s : words) : words :=
  let '(a, b, c, d) := s in rounds 4 (a, b, N.lxor c 255, d).
Definition digest (s : words) : N :=
  let '(a, b, c, d) := s in N.lxor a (N.lxor b (N.lxor c d)).

(** The keyed hash of one word, from a 256-bit initial state. *)
Definition siphash_2_4 (key : words) (m : N) : N := digest (finalize (compress key m)).

(** The initial state is given by the 32 bytes of a digest: four words of eight bytes, the least
    significant byte of each first. *)
Fixpoint little (l : list Byte.byte) : N := match l with [] => 0 | b :: r => Byte.to_N b + 256 * little r end.
Definition word_at (i : nat) (d : list Byte.byte) : N := little (firstn 8 (skipn (8 * i) d)).
Definition key_words (d : list Byte.byte) : words := (word_at 0 d, word_at 1 d, word_at 2 d, word_at 3 d).

(** Cuckaroo's blocked variant: absorb the words base, base+1, .., base+i in sequence. *)
Fixpoint absorb (key : words) (base : N) (count : nat) : words :=
  match count with
  | O => key
  | S c => finalize (compress (absorb key base c) (base + N.of_nat c))
  end.
Definition siphash_blocked (key : words) (nonce : N) : N :=
  let base := 64 * (nonce / 64) in
  let last := digest (absorb key base 64) in
  if nonce mod 64 =? 63 then last
  else N.lxor (digest (absorb key base (S (N.to_nat (nonce mod 64))))) last.

(** ** Graphs *)

(** End points of the Cuckaroo edge of a nonce, in a graph with 2^bits edges. *)
Definition cuckaroo_ends (key : words) (bits nonce : N) : N * N :=
  let e := siphash_blocked key nonce in (e mod 2 ^ bits, (e / 2 ^ 32) mod 2 ^ bits).

(** End points of the Cuckoo edge of a nonce, in a graph with 2^shift vertices: even vertices on
    the left, odd ones on the right. *)
Definition cuckoo_ends (key : words) (shift nonce : N) : N * N :=
  (2 * (siphash_2_4 key (2 * nonce) mod 2 ^ (shift - 1)),
   2 * (siphash_2_4 key (2 * nonce + 1) mod 2 ^ (shift - 1)) + 1).

(** A list of edges is a simple cycle if, in some order, it is
    u0v0, u0v1, u1v1, u1v2, ..., with distinct u's and distinct v's. *)
Definition rotate {A} (l : list A) : list A :=
  match l with [] => [] | a :: t => t ++ [a] end.
Definition simple_cycle (es : list (N * N)) : Prop :=
  exists us vs : list N,
    us <> [] /\ length us = length vs /\ NoDup us /\ NoDup vs /\
    Permutation es (combine us vs ++ combine us (rotate vs)).

(** How many of the edges meet a left (right) vertex. *)
Definition degL (es : list (N * N)) (u : N) : nat := count_occ N.eq_dec (map fst es) u.
Definition degR (es : list (N * N)) (v : N) : nat := count_occ N.eq_dec (map snd es) v.
(** No vertex lies on three or more of the edges. *)
Definition max_degree_2 (es : list (N * N)) : Prop :=
  forall x, (degL es x <= 2)%nat /\ (degR es x <= 2)%nat.

(** Nonces of a proof: at least one, strictly increasing, below the bound. *)
Definition valid_nonces (bound : N) (ns : list N) : Prop :=
  ns <> [] /\ StronglySorted N.lt ns /\ Forall (fun n => n < bound) ns.

(** Some of the edges are a simple cycle. *)
Definition contains_cycle (es : list (N * N)) : Prop :=
  exists c r, Permutation es (c ++ r) /\ simple_cycle c.

(** From [e] one gets to [f] by edges of the list, each sharing a vertex with the one before. *)
Inductive linked (es : list (N * N)) (e : N * N) : N * N -> Prop :=
| LinkedSelf : In e es -> linked es e e
| LinkedMore f g : linked es e f -> In g es -> fst f = fst g \/ snd f = snd g -> linked es e g.
Definition connected (es : list (N * N)) : Prop := forall e f, In e es -> In f es -> linked es e f.
