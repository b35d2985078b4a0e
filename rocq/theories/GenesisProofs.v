(** Lemmas about the genesis blocks: C103 and the chains of C38 that have no other block. *)
From Verif Require Import Send SpecCodec SpecConsensus SpecMessages CodecProofs PowCodecProofs BlockCodecProofs HandshakeProofs Real SpecRules RulesProofs ChainProofs.

Lemma shared X : block_hash X (testnet1 X) = Ok (blake2b X []) /\ block_hash X (testnet2 X) = Ok (blake2b X []) /\ block_hash X (mainnet X) = Ok (blake2b X []).
Proof. repeat split; apply header_hash_zero; reflexivity. Qed.
Lemma different X : testnet1 X <> testnet2 X /\ testnet1 X <> mainnet X /\ testnet2 X <> mainnet X.
Proof. repeat split; intro E; apply (f_equal (fun b => h_total_difficulty (b_header b))) in E; discriminate E. Qed.

(** The other blocks. *)
Definition hash_is (n : N) (r : res bytes) : bool := match r with Ok h => bytes_eqb h (be 32 n) | _ => false end.
Lemma hash_is_ok n r : hash_is n r = true -> r = Ok (be 32 n).
Proof. destruct r as [h| | |]; try discriminate. cbn [hash_is]. intro E. apply bytes_eqb_eq in E. now subst. Qed.
Lemma t1_hash : block_hash real (testnet1 real) = Ok (be 32 0x0e5751c026e543b2e8ab2eb06099daa1d1e5df47778f7787faab45cdf12fe3a8).
Proof. apply hash_is_ok. vm_compute. reflexivity. Qed.
Lemma t3_hash : block_hash real (testnet3 real) = Ok (be 32 0x3c04ac3a8193749287011942c603ab9cf27d45bd039b5df033bfbea5ad81f038).
Proof. apply hash_is_ok. vm_compute. reflexivity. Qed.
Lemma t4_hash : block_hash real (testnet4 real) = Ok (be 32 0x0644cedb1acfdde4ee9e135ae61de3cbeb301b5f27a40a2c366da8e724292f20).
Proof. apply hash_is_ok. vm_compute. reflexivity. Qed.
Lemma hashes_differ : block_hash real (testnet3 real) <> block_hash real (testnet4 real) /\
  block_hash real (testnet3 real) <> block_hash real (testnet1 real) /\ block_hash real (testnet4 real) <> block_hash real (testnet1 real).
Proof. rewrite t1_hash, t3_hash, t4_hash. repeat split; intro E; apply Ok_inj in E; apply (f_equal unbe) in E; rewrite !unbe_be in E by reflexivity; discriminate E. Qed.

(** Every hand of the shipped node. *)
Lemma told lenient nonces nonce receiver : is_u64 nonce -> ipv4 receiver -> port_ok receiver -> ~ In nonce nonces ->
  exists f1 h ops, (forall input, snd (shake_by_hand real lenient nonce receiver None input) = [Sent f1]) /\
    (forall rest, hand_by_shake real lenient nonces None (f1 ++ rest) = (Ok (h, rest), ops)) /\
    block_hash real (testnet4 real) = Ok (hd_genesis h) /\ block_hash real (c_genesis (nd_chain (shipped real))) <> Ok (hd_genesis h).
Proof.
  intros U I P N. destruct (both_ends real lenient nonces nonce receiver real_hash_laws U I P N) as (f1 & f2 & g & h & Eg & S1 & S2 & R & _).
  exists f1, h, [Sent f2]. split; [exact S1|]. split; [exact S2|]. destruct R as (_ & _ & _ & Rg & _). cbn [hd_genesis] in Rg. rewrite Rg.
  split; [exact Eg|]. change (c_genesis (nd_chain (shipped real))) with (testnet1 real). rewrite <- Eg. intro E. symmetry in E. exact (proj2 (proj2 hashes_differ) E).
Qed.

(** ** Chain validation *)
Lemma not_top n : n < 2 ^ 256 - 1 -> brepeat xff 32 <> be 32 n.
Proof.
  intros L E. apply (f_equal unbe) in E. assert (K : unbe (brepeat xff 32) = 2 ^ 256 - 1) by (vm_compute; reflexivity).
  rewrite K, unbe_be in E; [lia|]. change (256 ^ 32) with (2 ^ 256). lia.
Qed.
(** No other way out of the checks of the header. *)
Lemma unsized_header X now h : (p_bits (h_pow h) = 0 \/ p_bits (h_pow h) = 30 /\ h_scaling h = 0) -> exists e, header_validate X now h = Err e.
Proof.
  intro H. unfold header_validate. destruct (negb _); [eauto|]. destruct (_ <? _)%Z; [eauto|].
  destruct H as [->|(-> & ->)]; cbv zeta; eexists; reflexivity.
Qed.
Lemma unsized_block X now (b : block X) : (p_bits (h_pow (b_header b)) = 0 \/ p_bits (h_pow (b_header b)) = 30 /\ h_scaling (b_header b) = 0) -> exists e, block_validate X now b = Err e.
Proof. intro H. destruct (unsized_header X now _ H) as (e & E). exists e. unfold block_validate. now rewrite E. Qed.
Lemma zero_hash X (b : block X) : p_bits (h_pow (b_header b)) = 0 -> block_hash X b = Ok (blake2b X []).
Proof. apply header_hash_zero. Qed.

Lemma fresh_chain genesis clock : In genesis [testnet1 real; testnet2 real; testnet3 real; mainnet real] ->
  chain_validate 1 clock (@chain_new real (sql_storage real) genesis tt) = Some (Err (Msg "invalid previous hash. blockchain integrity is broken")).
Proof.
  pose proof (proj1 (shared real)) as K. rewrite t1_hash in K. apply Ok_inj in K.
  intros [<-|[<-|[<-|[<-|[]]]]].
  - apply (fresh_broken real (sql_storage real) (testnet1 real) tt _ clock eq_refl t1_hash); [apply not_top; reflexivity| |reflexivity].
    apply unsized_block. left. reflexivity.
  - pose proof (proj1 (proj2 (shared real))) as E. rewrite <- K in E.
    apply (fresh_broken real (sql_storage real) (testnet2 real) tt _ clock eq_refl E); [apply not_top; reflexivity| |reflexivity].
    apply unsized_block. left. reflexivity.
  - apply (fresh_broken real (sql_storage real) (testnet3 real) tt _ clock eq_refl t3_hash); [apply not_top; reflexivity| |reflexivity].
    apply unsized_block. right. split; reflexivity.
  - pose proof (proj2 (proj2 (shared real))) as E. rewrite <- K in E.
    apply (fresh_broken real (sql_storage real) (mainnet real) tt _ clock eq_refl E); [apply not_top; reflexivity| |reflexivity].
    apply unsized_block. left. reflexivity.
Qed.
Lemma t4_fatal X now : clock_ok now -> not_far_future now (h_time (b_header (testnet4 X))) -> block_validate X now (testnet4 X) = Fatal.
Proof.
  intros C F. assert (E : header_validate X now (b_header (testnet4 X)) = Fatal).
  { unfold header_validate. assert (W : time_wf (h_time (b_header (testnet4 X)))) by (repeat split; cbn; lia).
    apply (far_future_iff now _ C W) in F. rewrite F. reflexivity. }
  unfold block_validate. rewrite E. reflexivity.
Qed.
Lemma fresh_t4 clock : clock_ok (clock 0%nat) -> not_far_future (clock 0%nat) (h_time (b_header (testnet4 real))) ->
  chain_validate 1 clock (@chain_new real (sql_storage real) (testnet4 real) tt) = Some Fatal.
Proof.
  intros C F. apply (fresh_fatal real (sql_storage real) (testnet4 real) tt _ clock eq_refl t4_hash); [apply not_top; reflexivity|]. now apply t4_fatal.
Qed.
