(** Property C115: which check a block fails first. Statements only; proofs are in VerdictProofs.v,
    specifications in SpecVerdict.v. *)
From Coq Require Import String.
From Verif Require Import Consensus Chain SpecPow SpecTrail SpecCodec SpecConsensus SpecSchnorr SpecRules SpecChain
  SpecVerdict CodecProofs VerdictProofs Instance CodecExamples RulesExamples ChainExamples.

(** * C115 *)

(** The answer to a header, a block and a block with a known parent is that of the first rule in the
    table that it breaks. *)
Theorem C115_header : forall X now h, clock_ok now -> header_typed h -> header_sized h ->
  List.length (p_nonces (h_pow h)) = 42%nat -> verdict (header_table X now h) (header_validate X now h).
Proof. exact header_verdict. Qed.
Print Assumptions C115_header.

Theorem C115_block : forall X now (b : block X), clock_ok now -> header_typed (b_header b) -> header_sized (b_header b) ->
  List.length (p_nonces (h_pow (b_header b))) = 42%nat -> verdict (block_table X now b) (block_validate X now b).
Proof. exact block_verdict. Qed.
Print Assumptions C115_block.

Theorem C115_child : forall X S (c : chain X S) (b : block X) now hh bh prev top,
  block_hash X (c_head c) = Ok hh -> block_hash X b = Ok bh -> hash_laws X ->
  clock_ok now -> header_typed (b_header b) -> header_sized (b_header b) ->
  List.length (p_nonces (h_pow (b_header b))) = 42%nat ->
  hh <> bh -> st_get S (c_store c) (parent_id (b_header b)) = Some prev ->
  time_wf (h_time (b_header prev)) -> proof_top X (h_pow (b_header prev)) top ->
  verdict (child_table now (c_store c) top prev b) (fst (process_block now c b)).
Proof. exact child_verdict. Qed.
Print Assumptions C115_child.

(** Such a table leaves no choice of answers. *)
Theorem C115_one_answer : forall l r r', verdict l r -> verdict l r' -> r = r'.
Proof. exact verdict_unique. Qed.
Print Assumptions C115_one_answer.

(** The proof of work of a header, stated on any bytes laid out as C02 says: what an accepted header
    has, and what suffices. Between the two lie trails that are neither (C114). *)
Theorem C115_accepted : forall X now h b,
  clock_ok now -> header_typed h -> header_sized h -> List.length (p_nonces (h_pow h)) = 42%nat ->
  header_layout h b -> header_validate X now h = Ok tt ->
  cheap_rules now h /\ valid_nonces (2 ^ p_bits (h_pow h)) (p_nonces (h_pow h)) /\
  contains_cycle (header_edges X b h) /\ connected (header_edges X b h) /\ returning_trail (header_edges X b h).
Proof. exact sealed_necessary. Qed.
Print Assumptions C115_accepted.

Theorem C115_suffices : forall X now h b,
  clock_ok now -> header_typed h -> header_sized h -> List.length (p_nonces (h_pow h)) = 42%nat ->
  header_layout h b -> cheap_rules now h -> valid_nonces (2 ^ p_bits (h_pow h)) (p_nonces (h_pow h)) ->
  simple_cycle (header_edges X b h) \/ lollipop (header_edges X b h) -> header_validate X now h = Ok tt.
Proof. exact sealed_sufficient. Qed.
Print Assumptions C115_suffices.

(** Blocks that break several rules at once, under an accepted header; the hypotheses of C115_child
    are met as in C35_case. *)
Definition twice (k : kernel) : block mined := Block mined_header [] [ex_plain_out] [k; k].
Definition unproven : output mined := @Output mined 1 (c_smul toy toy_G 3) 0.
Definition forged : kernel := Kernel 1 5 0 (c_smul toy toy_G 3) (brepeat x09 64).
Example C115_case : clock_ok ex_now /\ header_typed mined_header /\ header_sized mined_header /\
  List.length (p_nonces (h_pow mined_header)) = 42%nat /\
  block_validate mined ex_now mined_block = Ok tt /\
  block_validate mined ex_now (twice ex_coin_ker) = refused "invalid block with few coinbase kernels" /\
  block_validate mined ex_now (twice forged) = refused "signature isn't valid" /\
  block_validate mined ex_now (Block mined_header [] [unproven] [forged]) = refused "proof verification failed" /\
  block_validate mined ex_now (Block mined_header [] [unproven; unproven] [forged]) =
    refused "invalid block with few coinbase outputs" /\
  block_validate mined ex_now (Block mined_header [ex_input 0; ex_input 1] [unproven; unproven] [forged]) =
    refused "block inputs are not sorted" /\
  block_validate mined ex_now (Block mined_header [ex_input 0; ex_input 1] [] [forged]) =
    refused "invalid nocoinbase block".
Proof.
  destruct mined_ok as (H1 & H2 & H3 & H4 & H5).
  split; [exact H1|]. split; [exact H2|]. split; [exact H3|]. split; [exact H4|].
  destruct mined_block_ok as (_ & _ & _ & B & _). split; [exact B|].
  unfold twice, block_validate. cbn [b_header]. rewrite H5. cbn [rbind].
  clear H1 H2 H3 H4 H5 B. do 5 (split; [vm_compute; reflexivity|]). vm_compute. reflexivity.
Qed.

Example C115_header_case : exists b, header_layout mined_header b /\ cheap_rules ex_now mined_header /\
  valid_nonces (2 ^ p_bits (h_pow mined_header)) (p_nonces (h_pow mined_header)) /\
  simple_cycle (header_edges mined b mined_header).
Proof.
  destruct mined_ok as (H1 & H2 & H3 & H4 & H5). destruct (header_layout_ok _ H2 H3 H4) as (b & E & L).
  exists b. split; [exact L|]. destruct (C115_accepted mined ex_now mined_header b H1 H2 H3 H4 L H5) as (A & B & _).
  split; [exact A|]. split; [exact B|]. unfold header_edges. rewrite (mined_hash_bwp _ b E). exact mined_cycle.
Qed.
