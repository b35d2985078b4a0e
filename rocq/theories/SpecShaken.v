(** Specifications for the outcomes of a handshake (C110): what the other side has to send. *)
From Verif Require Import GoRT Handshake.

(** The start of a frame of type [t] that announces [n] bytes. *)
Definition opening (t n : N) : bytes := [x54; x34] ++ be 1 t ++ be 8 n.

(** A shake of protocol version 1. *)
Definition shake_text (caps difficulty : N) (agent genesis : bytes) : bytes :=
  be 4 1 ++ be 4 caps ++ be 8 difficulty ++ be 8 (lenN agent) ++ agent ++ genesis.
(** [input] starts with such a shake, inside a frame that is long enough; [rest] follows the shake. *)
Definition shaken (input : bytes) (caps difficulty : N) (agent rest : bytes) : Prop :=
  exists n genesis, lenN (shake_text caps difficulty agent genesis) <= n <= 20000000 /\
    List.length genesis = 32%nat /\ is_u32 caps /\ is_u64 difficulty /\
    input = opening 2 n ++ shake_text caps difficulty agent genesis ++ rest.
(** [input] starts with a shake whose user agent is announced to be longer than any slice can be;
    neither the agent nor anything after its length has to follow. *)
Definition shake_bomb (input : bytes) : Prop :=
  exists n caps difficulty k rest, 24 <= n <= 20000000 /\ is_u32 caps /\ is_u64 difficulty /\ is_u64 k /\ 2 ^ 48 < k /\
    input = opening 2 n ++ be 4 1 ++ be 4 caps ++ be 8 difficulty ++ be 8 k ++ rest.

(** An address on the wire: flag 0, 4 bytes and a port; or, with the releases of Go that let the
    code read IPv6 addresses ([lenient]), flag 1, 8 bytes and a port. *)
Definition addr_text (lenient : bool) (b : bytes) : Prop :=
  (exists l, List.length l = 6%nat /\ b = x00 :: l) \/
  (lenient = true /\ exists l, List.length l = 10%nat /\ b = x01 :: l).
(** A hand of protocol version 1. *)
Definition hand_start (caps nonce difficulty : N) (sender receiver : bytes) : bytes :=
  be 4 1 ++ be 4 caps ++ be 8 nonce ++ be 8 difficulty ++ sender ++ receiver.
Definition hand_text (caps nonce difficulty : N) (sender receiver agent genesis : bytes) : bytes :=
  hand_start caps nonce difficulty sender receiver ++ be 8 (lenN agent) ++ agent ++ genesis.
Definition handed (lenient : bool) (input : bytes) (caps nonce difficulty : N) (agent rest : bytes) : Prop :=
  exists n s r genesis, lenN (hand_text caps nonce difficulty s r agent genesis) <= n <= 20000000 /\
    List.length genesis = 32%nat /\ is_u32 caps /\ is_u64 nonce /\ is_u64 difficulty /\
    addr_text lenient s /\ addr_text lenient r /\
    input = opening 1 n ++ hand_text caps nonce difficulty s r agent genesis ++ rest.
Definition hand_bomb (lenient : bool) (input : bytes) : Prop :=
  exists n caps nonce difficulty s r k rest,
    lenN (hand_start caps nonce difficulty s r) + 8 <= n <= 20000000 /\
    is_u32 caps /\ is_u64 nonce /\ is_u64 difficulty /\ addr_text lenient s /\ addr_text lenient r /\
    is_u64 k /\ 2 ^ 48 < k /\
    input = opening 1 n ++ hand_start caps nonce difficulty s r ++ be 8 k ++ rest.

(** The answer of a node running this code: no genesis hash (C14). *)
Definition answer : bytes := opening 2 37 ++ be 4 1 ++ be 4 7 ++ be 8 1 ++ be 8 13 ++ user_agent.

(** Short inputs that are such bombs. *)
Definition bomb2 : bytes := opening 2 24 ++ be 4 1 ++ be 4 0 ++ be 8 0 ++ be 8 (2 ^ 48 + 1).
Definition bomb1 : bytes :=
  opening 1 46 ++ be 4 1 ++ be 4 0 ++ be 8 0 ++ be 8 0 ++ brepeat x00 14 ++ be 8 (2 ^ 48 + 1).
