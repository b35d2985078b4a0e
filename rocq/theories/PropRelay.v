(** Property C86: sending one block to several peers. Statements; proofs are in RelayProofs.v,
    specifications in SpecRelay.v. *)
From Coq Require Import Permutation Lia.
From Verif Require Import Relay SpecRelay RelayProofs Consensus SpecConsensus RulesExamples.
Local Open Scope nat_scope.

(** * C86: every peer that a block is relayed to is sent the block (refuted) *)

(** Two writers with the library's insertion sort on a list out of order: the element 1 is lost, in
    both messages and in memory. Blocks that were not validated are relayed (C71). *)
Theorem C86_race_refuted : reach Nat.ltb (relayed (insertion 2) 2 [2; 1]) (State [2; 2] [Sent [2; 2]; Sent [2; 2]]).
Proof. apply (exec_reach Nat.ltb [0; 0; 1; 1; 0; 0; 0; 1; 1; 0; 1; 1; 0; 0; 0; 0; 1; 1; 1; 1]). reflexivity. Qed.
Print Assumptions C86_race_refuted.
(** A list in order is no protection against a sort that moves elements on the way, such as [pivoting]. *)
Theorem C86_sorted_refuted : exists p, sorts Nat.ltb p 2 /\ ordered Nat.ltb [1; 2] /\
  reach Nat.ltb (relayed p 2 [1; 2]) (State [2; 2] [Sent [2; 2]; Sent [2; 2]]).
Proof.
  exists pivoting. split; [|split].
  - apply pivoting_sorts. split.
    + intros x y L. apply Nat.ltb_lt in L. apply Nat.ltb_ge. lia.
    + intros x y z. rewrite !Nat.ltb_ge. lia.
  - apply ordered_cons. split; [intros y [<-|[]]; reflexivity|]. apply ordered_cons. split; [intros ? []|]. intros [|i] j x y _ E; discriminate E.
  - apply (exec_reach Nat.ltb [0; 0; 0; 1; 1; 1; 0; 1; 0; 0; 0; 0; 0; 0; 1; 1; 1; 1; 1; 1]). reflexivity.
Qed.
Print Assumptions C86_sorted_refuted.

(** With a sort that exchanges nothing in a list that is in order, as insertion sort does not: whatever
    number of peers the lists of a valid block are sent to, in every interleaving no list changes, no
    writer crashes or gets stuck, and every peer is sent the list. Missing: blocks that were not
    validated, and longer lists, for which the library uses other algorithms. *)
Theorem C86_valid_partial : forall X now (b : block X) n, block_validate X now b = Ok tt ->
  (forall s, reach (fun x y => bytes_lt (input_key X x) (input_key X y)) (relayed (insertion (length (b_inputs b))) n (b_inputs b)) s ->
     all_send (fun x y => bytes_lt (input_key X x) (input_key X y)) (b_inputs b) s) /\
  (forall s, reach (fun x y => bytes_lt (output_key X x) (output_key X y)) (relayed (insertion (length (b_outputs b))) n (b_outputs b)) s ->
     all_send (fun x y => bytes_lt (output_key X x) (output_key X y)) (b_outputs b) s) /\
  (forall s, reach (fun x y => bytes_lt (kernel_key X x) (kernel_key X y)) (relayed (insertion (length (b_kernels b))) n (b_kernels b)) s ->
     all_send (fun x y => bytes_lt (kernel_key X x) (kernel_key X y)) (b_kernels b) s).
Proof.
  intros X now b n V. destruct (valid_keys X now b V) as (K1 & K2 & K3).
  split; [intro s; now apply keys_sent|]. split; intro s; now apply keys_sent.
Qed.
Print Assumptions C86_valid_partial.
(** For any sort that is calm on the list. *)
Theorem C86_calm_partial : forall A (less : A -> A -> bool) p n m s, calm less m p -> reach less (relayed p n m) s -> all_send less m s.
Proof. intros A less p n m s. apply calm_sent. Qed.
Print Assumptions C86_calm_partial.
(** A single writer: the list that is sent is the sorted list, and it never gets stuck. *)
Theorem C86_single_partial : forall A (less : A -> A -> bool) (m : list A), weak_order less ->
  (forall m' l, reach less (relayed (insertion (length m)) 1 m) (State m' [Sent l]) -> m' = l /\ Permutation l m /\ ordered less l) /\
  (forall m' t, reach less (relayed (insertion (length m)) 1 m) (State m' [t]) -> (exists l, t = Sent l) \/ exists s, step less m' t = Some s).
Proof.
  intros A less m W. split; [apply single_sent, insertion_sorts, W|apply single_goes, insertion_sorts, W].
Qed.
Print Assumptions C86_single_partial.
Example C86_case : weak_order Nat.ltb /\ (exists s, exec Nat.ltb (repeat 0 13) (relayed (insertion 3) 1 [2; 1; 3]) = Some s /\ mem s = [1; 2; 3]) /\
  calm Nat.ltb [1; 2; 3] (insertion 3) /\ ~ calm Nat.ltb [2; 1; 3] (insertion 3).
Proof.
  split; [split; [intros x y L; apply Nat.ltb_lt in L; apply Nat.ltb_ge; lia|intros x y z; rewrite !Nat.ltb_ge; lia]|].
  split; [|split].
  - eexists. split; [vm_compute; reflexivity|reflexivity].
  - apply (insertion_calm Nat.ltb [1; 2; 3]). apply ordered_cons. split; [intros y [<-|[<-|[]]]; reflexivity|].
    apply ordered_cons. split; [intros y [<-|[]]; reflexivity|]. apply ordered_cons. split; [intros ? []|]. intros [|i] j x y _ E; discriminate E.
  - intro C. cbn in C. inversion C as [|i j k x y Ex Ey K]; subst. cbn in Ex, Ey. injection Ex as <-. injection Ey as <-. cbn in K. inversion K.
Qed.
Example C86_valid_case : block_validate mined ex_now mined_block = Ok tt /\ length (b_outputs mined_block) = 2 /\ length (b_kernels mined_block) = 2.
Proof. split; [apply mined_block_ok|]. split; reflexivity. Qed.
