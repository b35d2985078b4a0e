(** Specifications for the handshake. *)
From Verif Require Import Handshake.

(** An address of a TCP connection: 4 or 16 bytes. *)
Definition tcp_ip (a : addr) : Prop := List.length (ip a) = 4%nat \/ List.length (ip a) = 16%nat.

(** [k] calls of NextNonce, one after another: the nonces in order and the final list. *)
Fixpoint nonce_calls (k : nat) (l : nonce_list) : res (list N * nonce_list) :=
  match k with
  | O => Ok ([], l)
  | S k => let! p := nonce_calls k l in let! q := next_nonce (snd p) in Ok (fst p ++ [fst q], snd q)
  end.

(** The node's nonce state before the first handshake: the index holds 0 and nobody is running. *)
Definition nonce_start : nonce_state := NonceState [0] [].
