(** Property C122: what the adjustment does to the difficulty of a chain. Statements; proofs are in
    DecayProofs.v, the specification in SpecDecay.v. *)
From Verif Require Import Consensus SpecCodec SpecBody SpecDecay Instance DecayProofs.

(** * C122: a chain whose blocks declare what they have to keeps its difficulty (refuted) *)

(** What a block has to declare, after 71 others, is half of the average of the oldest 60 of them, or 1;
    less, if the numbers do not fit into 64 bits. *)
Theorem C122_half : forall X (bl : list (block X)) d, List.length bl = 71%nat -> next_difficulty X bl = Ok d ->
  1 <= d /\ d <= N.max 1 (average (firstn 60 bl) / 2) /\
  (average (firstn 60 bl) < 2 ^ 64 / 3600 -> d = N.max 1 (average (firstn 60 bl) / 2)).
Proof. exact next_half. Qed.
Print Assumptions C122_half.

(** So the difficulty of such a chain is halved every 71 blocks, however much work is done and however
    fast: full statement, false, would be that it stays between bounds that depend on the work done. *)
Theorem C122_decay_refuted : forall X from (b : nat -> block X) D, (71 <= from)%nat -> least from b ->
  (forall n, (from - 71 <= n < from)%nat -> declared b n <= D) ->
  forall k n, (from <= n + 71 - 71 * k)%nat -> declared b n <= N.max 1 (D / 2 ^ N.of_nat k).
Proof. exact decays. Qed.
Print Assumptions C122_decay_refuted.
(** Whatever it was, it is 1 from the 4402nd block on. *)
Theorem C122_fades_refuted : forall X from (b : nat -> block X), (71 <= from)%nat -> least from b ->
  (forall n, (from - 71 <= n < from)%nat -> is_u64 (declared b n)) ->
  forall n, (from + 62 * 71 <= n)%nat -> declared b n = 1.
Proof. exact decayed. Qed.
Print Assumptions C122_fades_refuted.

(** There are such chains: whatever the blocks, some difficulties that they can declare make them one. *)
Theorem C122_any_start : forall X (first : nat -> block X), exists b, least 71 b /\ (forall n, (n < 71)%nat -> b n = first n) /\
  forall n, b n = with_difficulty (declared b n) (first n).
Proof. exact any_start. Qed.
Print Assumptions C122_any_start.

(** More work does not mean that more is asked for: blocks that all declare 120000, and blocks that all
    declare over 5 * 10^15. *)
Theorem C122_more_refuted : exists X (bl bl' : list (block X)) d d', List.length bl = 71%nat /\ List.length bl' = 71%nat /\
  Forall (fun x => Forall (fun y => h_difficulty (b_header x) < h_difficulty (b_header y) < 2 ^ 53) bl') bl /\
  next_difficulty X bl = Ok d /\ next_difficulty X bl' = Ok d' /\ d' < d.
Proof. exact more_less. Qed.
Print Assumptions C122_more_refuted.

(** The average of the first 60 and its half. *)
Example C122_case : List.length (flat_window 120000) = 71%nat /\ next_difficulty toy (flat_window 120000) = Ok 60000 /\
  average (firstn 60 (flat_window 120000)) = 120000 /\ 120000 < 2 ^ 64 / 3600.
Proof. destruct wraps as (A & _ & B & _). split; [exact A|]. split; [exact B|]. split; vm_compute; reflexivity. Qed.
