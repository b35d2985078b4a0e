(** Property C119: the library's sorts and blocks that are relayed. Statements; proofs are in
    GoSortProofs.v, specifications in SpecRelay.v and SpecGoSort.v. *)
From Coq Require Import Permutation Lia.
From Coq Require Strings.Byte.
From Verif Require Import Relay SpecRelay RelayProofs GoSort SpecGoSort GoSortProofs Ext Consensus SpecConsensus CodecExamples RulesExamples RulesProofs.
Local Open Scope nat_scope.

(** * C119: peers that a valid block is relayed to are sent its lists, whichever Go built the node (refuted) *)

(** Go before 1.19: a list of a valid block that has more than 12 elements, with different hashes, can lose
    its first one, whatever the sort does after its first comparison and exchange. *)
Theorem C119_old_refuted : forall X now (b : block X) rest, block_validate X now b = Ok tt ->
  (12 < length (b_inputs b) -> NoDup (map (input_key X) (b_inputs b)) ->
     loses_first (fun x y => bytes_lt (input_key X x) (input_key X y)) (quick_sort rest (length (b_inputs b))) (b_inputs b)) /\
  (12 < length (b_outputs b) -> NoDup (map (output_key X) (b_outputs b)) ->
     loses_first (fun x y => bytes_lt (output_key X x) (output_key X y)) (quick_sort rest (length (b_outputs b))) (b_outputs b)) /\
  (12 < length (b_kernels b) -> NoDup (map (kernel_key X) (b_kernels b)) ->
     loses_first (fun x y => bytes_lt (kernel_key X x) (kernel_key X y)) (quick_sort rest (length (b_kernels b))) (b_kernels b)).
Proof.
  intros X now b rest V. destruct (valid_keys X now b V) as (K1 & K2 & K3).
  split; [|split]; intros L Nd; now apply keys_lose.
Qed.
Print Assumptions C119_old_refuted.
(** Up to 12 elements it cannot: whatever the number of peers, in every interleaving no list changes, no
    writer crashes or gets stuck, and every peer is sent the list. *)
Theorem C119_old_short : forall X now (b : block X) rest n, block_validate X now b = Ok tt ->
  (length (b_inputs b) <= 12 -> forall s, reach (fun x y => bytes_lt (input_key X x) (input_key X y)) (relayed (quick_sort rest (length (b_inputs b))) n (b_inputs b)) s ->
     all_send (fun x y => bytes_lt (input_key X x) (input_key X y)) (b_inputs b) s) /\
  (length (b_outputs b) <= 12 -> forall s, reach (fun x y => bytes_lt (output_key X x) (output_key X y)) (relayed (quick_sort rest (length (b_outputs b))) n (b_outputs b)) s ->
     all_send (fun x y => bytes_lt (output_key X x) (output_key X y)) (b_outputs b) s) /\
  (length (b_kernels b) <= 12 -> forall s, reach (fun x y => bytes_lt (kernel_key X x) (kernel_key X y)) (relayed (quick_sort rest (length (b_kernels b))) n (b_kernels b)) s ->
     all_send (fun x y => bytes_lt (kernel_key X x) (kernel_key X y)) (b_kernels b) s).
Proof.
  intros X now b rest n V. destruct (valid_keys X now b V) as (K1 & K2 & K3).
  split; [|split]; intros L s; now apply keys_quick.
Qed.
Print Assumptions C119_old_short.
(** Go from 1.19 on: lists of every length are sent. *)
Theorem C119_new : forall X now (b : block X) other shift n, block_validate X now b = Ok tt ->
  (forall s, reach (fun x y => bytes_lt (input_key X x) (input_key X y)) (relayed (pdq_sort other shift (length (b_inputs b))) n (b_inputs b)) s ->
     all_send (fun x y => bytes_lt (input_key X x) (input_key X y)) (b_inputs b) s) /\
  (forall s, reach (fun x y => bytes_lt (output_key X x) (output_key X y)) (relayed (pdq_sort other shift (length (b_outputs b))) n (b_outputs b)) s ->
     all_send (fun x y => bytes_lt (output_key X x) (output_key X y)) (b_outputs b) s) /\
  (forall s, reach (fun x y => bytes_lt (kernel_key X x) (kernel_key X y)) (relayed (pdq_sort other shift (length (b_kernels b))) n (b_kernels b)) s ->
     all_send (fun x y => bytes_lt (kernel_key X x) (kernel_key X y)) (b_kernels b) s).
Proof.
  intros X now b other shift n V. destruct (valid_keys X now b V) as (K1 & K2 & K3).
  split; [|split]; intro s; now apply keys_pdq.
Qed.
Print Assumptions C119_new.
(** Blocks that were not validated are not covered by the last: in a list out of order either sort moves. *)
Theorem C119_new_unsorted_refuted : forall other shift,
  reach Nat.ltb (relayed (pdq_sort other shift 2) 2 [2; 1]) (State [2; 2] [Sent [2; 2]; Sent [2; 2]]).
Proof. intros other shift. apply (exec_reach Nat.ltb [0; 0; 1; 1; 0; 0; 0; 1; 1; 0; 1; 1; 0; 0; 0; 0; 1; 1; 1; 1]). reflexivity. Qed.
Print Assumptions C119_new_unsorted_refuted.

(** A valid block with 13 inputs of different hashes. *)
Definition many_inputs : list input := go_sort mined (input_key mined) (map (fun k => Input 0 (be 33 (N.of_nat k))) (seq 0 13)).
Example C119_case : block_validate mined ex_now (Block mined_header many_inputs [ex_plain_out; ex_coin_out] [ex_plain_ker; ex_coin_ker]) = Ok tt /\
  length many_inputs = 13 /\ NoDup (map (input_key mined) many_inputs).
Proof.
  split; [|split].
  - apply block_validate_iff. cbn [b_header b_inputs b_outputs b_kernels].
    destruct mined_block_ok as (_ & _ & _ & V & _). apply block_validate_iff in V. cbn [mined_block b_header b_inputs b_outputs b_kernels] in V.
    destruct V as (V1 & V2 & V3 & (_ & V4 & V5) & V6). split; [exact V1|]. split; [exact V2|]. split; [exact V3|].
    split; [|exact V6]. split; [|split; [exact V4|exact V5]].
    exact (proj2 (mined_sort _ (input_key mined) _)).
  - vm_compute. reflexivity.
  - assert (D : nodup (list_eq_dec Strings.Byte.byte_eq_dec) (map (input_key mined) many_inputs) = map (input_key mined) many_inputs) by (vm_compute; reflexivity).
    rewrite <- D. apply NoDup_nodup.
Qed.
