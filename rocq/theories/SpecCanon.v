(** Specifications for C104-C106. *)
From Coq Require Import Permutation Sorted.
From Verif Require Import Messages SpecConsensus SpecMessages.

Section Spec.
Context (X : Ext).
(** Two items of [l] with different texts but the same BLAKE2b digest. *)
Definition colliding {A} (text : A -> bytes) (l : list A) : Prop :=
  exists a b, In a l /\ In b l /\ text a <> text b /\ blake2b X (text a) = blake2b X (text b).
(** What identifies an output: everything but the range proof. *)
Definition output_name (o : output X) : bytes := n2b (out_features o) :: point_enc X (out_commit o).
(** Two outputs of [l] that differ only in their range proofs. *)
Definition twins (l : list (output X)) : Prop :=
  exists a b, In a l /\ In b l /\ output_name a = output_name b /\ output_wire X a <> output_wire X b.

Definition same_block (b b' : block X) : Prop :=
  b_header b = b_header b' /\ Permutation (b_inputs b) (b_inputs b') /\
  Permutation (b_outputs b) (b_outputs b') /\ Permutation (b_kernels b) (b_kernels b').
Definition same_tx (t t' : transaction X) : Prop :=
  tx_offset t = tx_offset t' /\ Permutation (tx_inputs t) (tx_inputs t') /\
  Permutation (tx_outputs t) (tx_outputs t') /\ Permutation (tx_kernels t) (tx_kernels t').
Definition same_compact (b b' : compact_block X) : Prop :=
  cb_header b = cb_header b' /\ Permutation (cb_outputs b) (cb_outputs b') /\
  Permutation (cb_kernels b) (cb_kernels b') /\ Permutation (cb_ids b) (cb_ids b').
End Spec.

(** The types of messages with one encoding: error, shake, ping, pong, address request, header
    request, block request. *)
Definition control_types : list N := [0; 2; 3; 4; 5; 7; 10].
(** Addresses in a message. *)
Definition addresses {X} (m : message X) : list addr :=
  match m with
  | MHand h => match hd_sender h with Some a => [a] | None => [] end ++ match hd_receiver h with Some a => [a] | None => [] end
  | MPeerAddrs l => l
  | _ => []
  end.
