(** Property C125: the first block after a genesis block. Statements; proofs are in FirstProofs.v, the specification in SpecFirst.v. *)
From Verif Require Import Chain SpecPow SpecCodec SpecConsensus SpecRules SpecChain SpecFirst FirstProofs Real RulesExamples ChainExamples.

(** * C125: what a block says that is accepted on top of a genesis block *)

(** Whatever the hash function: it is later than the second of the genesis block, and adds the difficulty
    of the genesis block's proof, not of its own. *)
Theorem C125_first : forall X S (c : chain X S) b now hh bh,
  block_hash X (c_head c) = Ok hh -> block_hash X b = Ok bh ->
  forall g t td top, In (g, t, td) (networks X) -> hash_laws X ->
  clock_ok now -> header_typed (b_header b) -> header_sized (b_header b) ->
  List.length (p_nonces (h_pow (b_header b))) = 42%nat ->
  hh <> bh -> st_get S (c_store c) (parent_id (b_header b)) = Some g ->
  proof_top X (h_pow (b_header g)) top -> top <> 0 ->
  (fst (process_block now c b) = Ok tt <->
   block_rules X now b /\ later_than t (h_time (b_header b)) /\
   h_total_difficulty (b_header b) = (td + 0x0fffffffffffffff / top) mod 2 ^ 64 /\
   required_difficulty X (window (c_store c) (b_header b)) <= h_difficulty (b_header b)).
Proof. exact (fun X S => @first_known X S). Qed.
Print Assumptions C125_first.
(** With BLAKE2b the total difficulty is one number for each network: 15, 5, 30000, 1856000000 and 1005. *)
Theorem C125_real : forall S (c : chain real S) b now hh bh g t td,
  block_hash real (c_head c) = Ok hh -> block_hash real b = Ok bh ->
  In (g, t, td) (firsts real) -> clock_ok now -> header_typed (b_header b) -> header_sized (b_header b) ->
  List.length (p_nonces (h_pow (b_header b))) = 42%nat ->
  hh <> bh -> st_get S (c_store c) (parent_id (b_header b)) = Some g ->
  (fst (process_block now c b) = Ok tt <->
   block_rules real now b /\ later_than t (h_time (b_header b)) /\ h_total_difficulty (b_header b) = td /\
   required_difficulty real (window (c_store c) (b_header b)) <= h_difficulty (b_header b)).
Proof. exact first_real. Qed.
Print Assumptions C125_real.
(** On Testnet3 and Testnet4 it says that there has been as much work as in the genesis block. *)
Theorem C125_adds_nothing : forall S (c : chain real S) b now hh bh g,
  block_hash real (c_head c) = Ok hh -> block_hash real b = Ok bh ->
  g = testnet3 real \/ g = testnet4 real -> clock_ok now -> header_typed (b_header b) -> header_sized (b_header b) ->
  List.length (p_nonces (h_pow (b_header b))) = 42%nat ->
  hh <> bh -> st_get S (c_store c) (parent_id (b_header b)) = Some g ->
  fst (process_block now c b) = Ok tt -> h_total_difficulty (b_header b) = h_total_difficulty (b_header g).
Proof. exact first_nothing. Qed.
Print Assumptions C125_adds_nothing.
(** A block, with a proof, accepted one second after that of Testnet4. *)
Example C125_case :
  block_hash mined (c_head first_chain) = Ok t4_hash_m /\ block_hash mined first_block = Ok child_hash /\
  In (testnet4 mined, 1539806400%Z, 1856000000) (networks mined) /\ hash_laws mined /\ clock_ok ex_now /\
  header_typed first_header /\ header_sized first_header /\ List.length (p_nonces (h_pow first_header)) = 42%nat /\
  t4_hash_m <> child_hash /\ st_get (mem_storage mined) (c_store first_chain) (parent_id first_header) = Some (testnet4 mined) /\
  proof_top mined (h_pow (b_header (testnet4 mined))) t4_top /\ t4_top <> 0 /\
  fst (process_block ex_now first_chain first_block) = Ok tt.
Proof. exact first_case. Qed.
(** With BLAKE2b: a like block, a second after that of Testnet4, meets the hypotheses; its proof is of
    another graph, so that it is refused. *)
Example C125_real_case :
  block_hash real (c_head real_chain) = Ok real_hash /\ (exists bh, block_hash real real_first = Ok bh /\ real_hash <> bh) /\
  In (testnet4 real, 1539806400%Z, 1856000000) (firsts real) /\ clock_ok ex_now /\
  header_typed (b_header real_first) /\ header_sized (b_header real_first) /\ List.length (p_nonces (h_pow (b_header real_first))) = 42%nat /\
  st_get (mem_storage real) (c_store real_chain) (parent_id (b_header real_first)) = Some (testnet4 real).
Proof. exact first_real_case. Qed.
(** That every accepted block adds work is false. *)
Theorem C125_adds_work_refuted : exists (c : chain mined (mem_storage mined)) b now hh bh,
  block_hash mined (c_head c) = Ok hh /\ block_hash mined b = Ok bh /\ hh <> bh /\ clock_ok now /\ block_rules mined now b /\
  st_get (mem_storage mined) (c_store c) (parent_id (b_header b)) = Some (c_head c) /\ fst (process_block now c b) = Ok tt /\
  h_total_difficulty (b_header b) = h_total_difficulty (b_header (c_head c)).
Proof. exact first_no_work. Qed.
Print Assumptions C125_adds_work_refuted.
