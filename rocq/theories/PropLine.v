(** Property C123: lines of accepted blocks. Statements; proofs are in LineProofs.v, the specification in SpecLine.v. *)
From Verif Require Import Chain SpecCodec SpecConsensus SpecRules SpecChain SpecLine LineProofs Instance RulesExamples ChainExamples LineExamples.

(** * C123: blocks that are accepted on top of each other are linked, add up, and are no more than the seconds there were *)

(** Each is a second later than the one before and none is more than 720 seconds early: so there are at
    most as many as seconds since the first one, and 720. *)
Theorem C123_time : forall X S clock (b : nat -> block X) n, line S clock b (Datatypes.S n) -> (forall i, (i <= n)%nat -> clock_ok (clock i)) ->
  (forall i, (i <= Datatypes.S n)%nat -> whole_seconds (h_time (b_header (b i)))) ->
  (Z.of_nat (Datatypes.S n) <= t_sec (clock n) + 720 - t_sec (h_time (b_header (b 0%nat))))%Z.
Proof. exact line_time. Qed.
Print Assumptions C123_time.
(** The last one has the total difficulty of the first and of all proofs but its own, in 64 bits. *)
Theorem C123_work : forall X S clock (b : nat -> block X) n top, hash_laws X -> line S clock b n -> is_u64 (h_total_difficulty (b_header (b 0%nat))) ->
  (forall i, (i < n)%nat -> proof_top X (h_pow (b_header (b i))) (top i)) ->
  h_total_difficulty (b_header (b n)) =
    (h_total_difficulty (b_header (b 0%nat)) + sum_to n (fun i => 0x0fffffffffffffff / top i)) mod 2 ^ 64.
Proof. exact line_work. Qed.
Print Assumptions C123_work.
(** With a storage that finds what it is asked for, they are numbered, in 64 bits, and named by the next one. *)
Theorem C123_linked : forall X S clock (b : nat -> block X) n, finds_right S -> line S clock b n ->
  (forall i, (i <= n)%nat -> is_u64 (h_height (b_header (b i)))) ->
  h_height (b_header (b n)) = (h_height (b_header (b 0%nat)) + N.of_nat n) mod 2 ^ 64 /\
  forall i, (i < n)%nat -> block_hash X (b i) = Ok (h_previous (b_header (b (Datatypes.S i)))).
Proof. exact line_linked. Qed.
Print Assumptions C123_linked.

(** A block, its child and the child of that, a second apart. *)
Example C123_case : line (mem_storage mined) (fun _ => ex_now) two_line 2 /\ finds_right (mem_storage mined) /\ clock_ok ex_now /\ hash_laws mined /\
  (forall i, whole_seconds (h_time (b_header (two_line i)))) /\ (forall i, is_u64 (h_height (b_header (two_line i)))) /\
  is_u64 (h_total_difficulty (b_header (two_line 0))) /\
  (forall i, (i < 2)%nat -> proof_top mined (h_pow (b_header (two_line i))) (match i with O => par_top 1 | _ => child_top end)) /\
  map (fun i => h_height (b_header (two_line i))) [0; 1; 2]%nat = [259999; 260000; 260001].
Proof.
  split; [exact two_line_ok|]. split; [apply mem_finds|]. split; [exact ex_now_ok|]. split; [exact mined_hash_laws|].
  split; [exact two_line_seconds|]. split; [exact two_line_heights|]. split; [reflexivity|]. split; [exact two_line_tops|]. reflexivity.
Qed.
