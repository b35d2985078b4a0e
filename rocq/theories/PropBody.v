(** Properties C76-C78: what the contents of a block and its work are checked against. Statements;
    proofs are in BodyProofs.v, specifications in SpecBody.v and SpecRules.v. *)
From Verif Require Import Chain SpecCodec SpecConsensus SpecSchnorr SpecRules SpecChain SpecBody CodecProofs BodyProofs ChainProofs EC Instance
  CodecExamples RulesExamples ChainExamples.

(** * C76: a header belongs to one block (refuted) *)

(** Full statement, false: of all blocks with a given header at most one is valid. Header, inputs,
    outputs and kernels of any valid blocks can be combined: the result is valid. *)
Theorem C76_parts_refuted : forall X now (b1 b2 b3 b4 : block X),
  block_validate X now b1 = Ok tt -> block_validate X now b2 = Ok tt ->
  block_validate X now b3 = Ok tt -> block_validate X now b4 = Ok tt ->
  block_validate X now (Block (b_header b1) (b_inputs b2) (b_outputs b3) (b_kernels b4)) = Ok tt.
Proof. exact parts_independent. Qed.
Print Assumptions C76_parts_refuted.
(** And the chain treats it like the block that the header was mined for. *)
Theorem C76_chain_refuted : forall X S now (c : chain X S) (b b' : block X),
  block_validate X now b = Ok tt -> block_validate X now b' = Ok tt ->
  process_block now c (with_body (b_inputs b') (b_outputs b') (b_kernels b') b) = process_block now c b.
Proof. exact body_exchanged. Qed.
Print Assumptions C76_chain_refuted.
(** A block accepted on top of a stored parent, and a valid block with a reward and two inputs. *)
Example C76_case : exists c : chain mined (mem_storage mined), fst (process_block ex_now c (child 1 1 1003)) = Ok tt /\
  block_validate mined ex_now (child 1 1 1003) = Ok tt /\ block_validate mined ex_now mined_block = Ok tt /\
  b_header mined_block <> b_header (child 1 1 1003) /\ b_outputs mined_block <> b_outputs (child 1 1 1003).
Proof.
  exists (mem_chain [par 1 1000]). split; [apply child_accepted; [auto|discriminate|vm_compute; reflexivity]|].
  split; [apply child_valid; auto; reflexivity|]. split; [apply mined_block_ok|]. split; [|discriminate].
  intro E. apply (f_equal h_difficulty) in E. discriminate E.
Qed.

(** * C77: valid blocks create no money (refuted) *)

(** Full statement, false: block_validate X now b = Ok tt -> balanced O t b, for t the reward and the
    offset of the block. Every valid block gives two that differ in the commitment they spend, both
    valid, and at most one of them balances. *)
Theorem C77_balance_refuted : forall X On O neg P Q now t p q (b : block X),
  curve_laws X On O neg -> codec_laws X P Q ->
  block_validate X now b = Ok tt -> Forall (fun k => On (k_excess k)) (b_kernels b) -> On t ->
  P p -> On p -> P q -> On q -> p <> q ->
  let spending r := with_body [Input 0 (point_enc X r)] (b_outputs b) (b_kernels b) b in
  block_validate X now (spending p) = Ok tt /\ block_validate X now (spending q) = Ok tt /\
  ~ (balanced O t (spending p) /\ balanced O t (spending q)).
Proof. exact not_both_balanced. Qed.
Print Assumptions C77_balance_refuted.
(** Some block balances: 26G is spent, the kernels are 3G and 9G, and the outputs 3G and 4G (7 = 26 + 12 mod 31). *)
Example C77_case : curve_laws mined toy_On ec_O (ec_neg 43) /\ codec_laws mined toy_P toy_Q /\
  block_validate mined ex_now mined_block = Ok tt /\ Forall (fun k => toy_On (k_excess k)) (b_kernels mined_block) /\
  toy_On ec_O /\ toy_P toy_G /\ toy_On toy_G /\ toy_P (c_smul toy toy_G 26) /\ toy_On (c_smul toy toy_G 26) /\ toy_G <> c_smul toy toy_G 26 /\
  balanced ec_O ec_O (with_body [Input 0 (point_enc mined (c_smul toy toy_G 26))] (b_outputs mined_block) (b_kernels mined_block) mined_block).
Proof.
  split. { destruct toy_curve. now constructor. }
  split; [exact mined_codec|]. split; [apply mined_block_ok|].
  split. { repeat constructor; [exists 3%nat|exists 9%nat]; (split; [repeat constructor|reflexivity]). }
  split; [exists 0%nat; split; [repeat constructor|reflexivity]|].
  split; [vm_compute; split; reflexivity|].
  split; [exists 1%nat; split; [repeat constructor|reflexivity]|]. split; [vm_compute; split; reflexivity|].
  split; [exists 26%nat; split; [repeat constructor|reflexivity]|]. split; [vm_compute; discriminate|].
  exists [c_smul toy toy_G 26]. split; [|vm_compute; reflexivity].
  repeat constructor. exists []. vm_compute. reflexivity.
Qed.

(** * C78: blocks carry the work they declare (refuted) *)

(** Full statement, false: if process_block accepts b, whose proof has the difficulty w, then
    h_difficulty (b_header b) <= w. Every accepted block is also accepted when it declares more than
    its proof is worth. *)
Theorem C78_overdeclared_refuted : forall X S now (c : chain X S) (b : block X), hash_laws X ->
  fst (process_block now c b) = Ok tt ->
  exists d, fst (process_block now c (with_difficulty d b)) = Ok tt /\
    (forall w, to_difficulty X (h_pow (b_header (with_difficulty d b))) = Ok w -> w < h_difficulty (b_header (with_difficulty d b))).
Proof. exact overdeclared. Qed.
Print Assumptions C78_overdeclared_refuted.
(** The target is compared with the declared difficulty only: here the proof is worth 0 and the target
    is 1. *)
Theorem C78_below_target_refuted : exists X S now (c : chain X S) b prev w, hash_laws X /\ clock_ok now /\
  st_get S (c_store c) (parent_id (b_header b)) = Some prev /\ fst (process_block now c b) = Ok tt /\
  block_hash X (c_head c) <> block_hash X b /\
  to_difficulty X (h_pow (b_header b)) = Ok w /\ w < required_difficulty X (window (c_store c) (b_header b)).
Proof.
  exists mined, (mem_storage mined), ex_now, (mem_chain [par 1 1000]), (child 1 1 1003), (par 1 1000), 0.
  split; [exact mined_hash_laws|]. split; [exact ex_now_ok|]. split; [apply par_found; auto|].
  split; [apply child_accepted; [auto|discriminate|vm_compute; reflexivity]|].
  split. { change (c_head (mem_chain [par 1 1000])) with (par 1 1000). rewrite par_hashed, child_hashed by auto.
           intro E. apply Ok_inj in E. revert E. apply child_not_par. auto. }
  split; [vm_compute; reflexivity|]. rewrite par_window. vm_compute. reflexivity.
Qed.
Print Assumptions C78_below_target_refuted.
(** What holds: the declared difficulty is at least the target (missing: that the proof has it). *)
Theorem C78_declared_partial : forall X S (c : chain X S) b now hh bh,
  block_hash X (c_head c) = Ok hh -> block_hash X b = Ok bh ->
  forall prev top, hash_laws X ->
  clock_ok now -> header_typed (b_header b) -> header_sized (b_header b) ->
  List.length (p_nonces (h_pow (b_header b))) = 42%nat ->
  hh <> bh -> st_get S (c_store c) (parent_id (b_header b)) = Some prev ->
  time_wf (h_time (b_header prev)) -> proof_top X (h_pow (b_header prev)) top -> top <> 0 ->
  fst (process_block now c b) = Ok tt -> required_difficulty X (window (c_store c) (b_header b)) <= h_difficulty (b_header b).
Proof.
  intros X S c b now hh bh H1 H2 prev top L C T Z N D G W P NZ A.
  apply (process_known X S c b now hh bh H1 H2 prev top L C T Z N D G W P NZ) in A as (_ & _ & _ & H). exact H.
Qed.
Print Assumptions C78_declared_partial.

(** * C57, for kernels: whoever sees a signed kernel can make another one out of it *)
Theorem C57_kernel_refuted : forall X On O neg f fee lock p r s, curve_laws X On O neg -> On p ->
  On (Point r (c_sqrt X (r * r * r + 7))) -> s <= c_order X ->
  kernel_validate X (Kernel f fee lock p (be 32 r ++ be 32 (c_order X - s))) =
  kernel_validate X (Kernel f fee lock p (be 32 r ++ be 32 s)) /\
  be 32 r ++ be 32 (c_order X - s) <> be 32 r ++ be 32 s.
Proof. exact kernel_resigned. Qed.
Print Assumptions C57_kernel_refuted.
(** A kernel the node accepts, and the other one. *)
Example C57_kernel_case : exists On O neg, curve_laws toy On O neg /\ On (Point 20 40) /\
  On (Point 35 (c_sqrt toy (35 * 35 * 35 + 7))) /\ 15 <= c_order toy /\
  kernel_validate toy (Kernel 1 0 0 (Point 20 40) (be 32 35 ++ be 32 15)) = Ok tt /\
  kernel_validate toy (Kernel 1 0 0 (Point 20 40) (be 32 35 ++ be 32 16)) = Ok tt.
Proof.
  exists toy_On, ec_O, (ec_neg 43). split; [exact toy_curve|].
  split; [exists 9%nat; split; [lia|vm_compute; reflexivity]|].
  split; [exists 3%nat; split; [lia|vm_compute; reflexivity]|].
  split; [vm_compute; discriminate|]. split; vm_compute; reflexivity.
Qed.
