(** Lemmas about the first block after a genesis block (C125). *)
From Coq Require Import Lia.
From Verif Require Import Chain SpecPow SpecCodec SpecConsensus SpecSchnorr SpecRules SpecChain SpecFirst PowProofs PowExamples
  PowCodecProofs CodecProofs BlockCodecProofs RulesProofs Instance Real CodecExamples RulesExamples ChainProofs ChainExamples GenesisProofs.

Lemma time_unix_later s t : (0 <= s < 2 ^ 62)%Z -> (instant (time_unix s) < instant t)%Z <-> later_than s t.
Proof.
  intro H. unfold instant, later_than, time_unix. cbn [t_sec t_nsec]. rewrite wrap64_id by (unfold is_i64, unix_to_internal; lia).
  unfold unix_to_internal. lia.
Qed.

Section First.
Context {X : Ext} {S : storage X} (c : chain X S) (b : block X) (now : gotime) (hh bh : bytes).
Hypotheses (Hh : block_hash X (c_head c) = Ok hh) (Bh : block_hash X b = Ok bh).

Lemma first_known g t td top : In (g, t, td) (networks X) -> hash_laws X ->
  clock_ok now -> header_typed (b_header b) -> header_sized (b_header b) ->
  List.length (p_nonces (h_pow (b_header b))) = 42%nat ->
  hh <> bh -> st_get S (c_store c) (parent_id (b_header b)) = Some g ->
  proof_top X (h_pow (b_header g)) top -> top <> 0 ->
  (fst (process_block now c b) = Ok tt <->
   block_rules X now b /\ later_than t (h_time (b_header b)) /\
   h_total_difficulty (b_header b) = (td + 0x0fffffffffffffff / top) mod 2 ^ 64 /\
   required_difficulty X (window (c_store c) (b_header b)) <= h_difficulty (b_header b)).
Proof.
  intros I HL C T Z L N E P Ht.
  assert (H : h_time (b_header g) = time_unix t /\ h_total_difficulty (b_header g) = td /\ (0 <= t < 2 ^ 62)%Z).
  { destruct I as [K|[K|[K|[K|[K|[]]]]]]; apply pair_equal_spec in K as [K <-]; apply pair_equal_spec in K as [<- <-]; (split; [reflexivity|]); (split; [reflexivity|lia]). }
  destruct H as (H1 & H2 & H3).
  rewrite (process_known X S c b now hh bh Hh Bh g top) by (try assumption; rewrite H1; apply time_unix_wf).
  unfold follows. rewrite H1, H2, time_unix_later by exact H3. reflexivity.
Qed.
End First.

(** ** BLAKE2b *)
Definition top_of (X : Ext) (p : proof) : N := match proof_enc p with Ok e => unbe (firstn 8 (blake2b X e)) | _ => 0 end.
Lemma top_of_ok X p : is_ok (proof_enc p) = true -> proof_top X p (top_of X p).
Proof. unfold top_of, proof_top. destruct (proof_enc p) as [e| | |]; try discriminate. intros _. exists e. split; reflexivity. Qed.
Lemma top1 : top_of real (h_pow (b_header (testnet1 real))) = 222657901235779511.
Proof. vm_compute. reflexivity. Qed.
Lemma top2 : top_of real (h_pow (b_header (testnet2 real))) = 222657901235779511.
Proof. vm_compute. reflexivity. Qed.
Lemma top3 : top_of real (h_pow (b_header (testnet3 real))) = 6085678838773185675.
Proof. vm_compute. reflexivity. Qed.
Lemma top4 : top_of real (h_pow (b_header (testnet4 real))) = 18006586614141565847.
Proof. vm_compute. reflexivity. Qed.
Lemma top5 : top_of real (h_pow (b_header (mainnet real))) = 222657901235779511.
Proof. vm_compute. reflexivity. Qed.

Lemma first_real (S : storage real) (c : chain real S) b now hh bh g t td :
  block_hash real (c_head c) = Ok hh -> block_hash real b = Ok bh ->
  In (g, t, td) (firsts real) -> clock_ok now -> header_typed (b_header b) -> header_sized (b_header b) ->
  List.length (p_nonces (h_pow (b_header b))) = 42%nat ->
  hh <> bh -> st_get S (c_store c) (parent_id (b_header b)) = Some g ->
  (fst (process_block now c b) = Ok tt <->
   block_rules real now b /\ later_than t (h_time (b_header b)) /\ h_total_difficulty (b_header b) = td /\
   required_difficulty real (window (c_store c) (b_header b)) <= h_difficulty (b_header b)).
Proof.
  intros Hh Bh I C T Z L N E.
  assert (exists t0 top, In (g, t, t0) (networks real) /\ top_of real (h_pow (b_header g)) = top /\ top <> 0 /\
    is_ok (proof_enc (h_pow (b_header g))) = true /\ td = (t0 + 0x0fffffffffffffff / top) mod 2 ^ 64) as (t0 & top & I' & K & Nz & Ok' & ->).
  { destruct I as [J|[J|[J|[J|[J|[]]]]]]; apply pair_equal_spec in J as [J <-]; apply pair_equal_spec in J as [<- <-].
    - exists 10. eexists. split; [left; reflexivity|]. split; [exact top1|]. split; [discriminate|]. split; vm_compute; reflexivity.
    - exists 0. eexists. split; [right; left; reflexivity|]. split; [exact top2|]. split; [discriminate|]. split; vm_compute; reflexivity.
    - exists 30000. eexists. split; [do 2 right; left; reflexivity|]. split; [exact top3|]. split; [discriminate|]. split; vm_compute; reflexivity.
    - exists 1856000000. eexists. split; [do 3 right; left; reflexivity|]. split; [exact top4|]. split; [discriminate|]. split; vm_compute; reflexivity.
    - exists 1000. eexists. split; [do 4 right; left; reflexivity|]. split; [exact top5|]. split; [discriminate|]. split; vm_compute; reflexivity. }
  apply (first_known c b now hh bh Hh Bh g t t0 top I' real_hash_laws); try assumption. rewrite <- K. now apply top_of_ok.
Qed.

(** ** A first block: after Testnet4's, in the instance that has a mined proof. *)
Definition t4_hash_m : bytes := match block_hash mined (testnet4 mined) with Ok h => h | _ => [] end.
Definition t4_top : N := top_of mined (h_pow (b_header (testnet4 mined))).
Definition first_header : header :=
  Header 1 1 t4_hash_m (brepeat x22 32) (time_unix 1539806401) (brepeat x33 32)
    (brepeat x44 32) (brepeat x55 32) 77 (brepeat x66 32) [] 12 34 (Proof 29 mined_nonces) 1 1856000000 7.
Definition first_block : block mined := Block first_header [] [ex_plain_out] [ex_plain_ker].
Definition first_chain : chain mined (mem_storage mined) := @chain_new mined (mem_storage mined) (testnet4 mined) [testnet4 mined].

Lemma t4_hash_len : List.length t4_hash_m = 32%nat.
Proof. vm_compute. reflexivity. Qed.
Lemma t4_hashed : block_hash mined (testnet4 mined) = Ok t4_hash_m.
Proof.
  unfold t4_hash_m. assert (K : is_ok (block_hash mined (testnet4 mined)) = true) by (vm_compute; reflexivity).
  destruct (block_hash mined (testnet4 mined)); [reflexivity|discriminate K..].
Qed.
Lemma first_typed : header_typed first_header.
Proof.
  unfold header_typed. cbn [first_header h_version h_height h_time h_nonce h_output_mmr h_kernel_mmr
    h_total_difficulty h_scaling h_pow p_bits p_nonces].
  split; [reflexivity|]. split; [reflexivity|]. split; [apply time_unix_wf|].
  do 6 (split; [reflexivity|]). exact mined_u32.
Qed.
Lemma first_sized : header_sized first_header.
Proof. split; [exact t4_hash_len|]. repeat split. Qed.
Lemma first_valid : header_validate mined ex_now first_header = Ok tt.
Proof.
  destruct (header_layout_ok first_header first_typed first_sized mined_len) as (b & E & Lb & _).
  apply (cycle_accepted mined ex_now first_header b ex_now_ok first_typed first_sized mined_len).
  - exists (1, 0, 95000). split; [cbn; auto|]. split; [reflexivity|]. cbn. lia.
  - unfold not_far_future. vm_compute. discriminate.
  - left. reflexivity.
  - exact E.
  - apply increasing_sound. vm_compute. reflexivity.
  - apply below_sound. vm_compute. reflexivity.
  - assert (H : blake2b mined (firstn 246 b) = mined_seed).
    { cbn [blake2b mined]. unfold mined_hash.
      assert (K : List.length (firstn 246 b) = 246%nat).
      { rewrite firstn_length. unfold lenN in Lb. change (p_bits (h_pow first_header)) with 29 in Lb.
        change (bytes_for (42 * 29)) with 153 in Lb. lia. }
      unfold lenN. now rewrite K. }
    rewrite H. exact mined_cycle.
Qed.
Lemma first_rules : block_rules mined ex_now first_block.
Proof.
  apply block_iff; [exact ex_now_ok|exact first_typed|exact first_sized|reflexivity|].
  apply (repeat_accepted mined ex_now first_header ex_plain_out ex_plain_ker 0 0); [exact first_valid|reflexivity|vm_compute; reflexivity|reflexivity].
Qed.
Lemma first_hashed : block_hash mined first_block = Ok child_hash.
Proof. change (block_hash mined first_block) with (block_hash mined (child 1 0 0)). apply child_hashed. Qed.
Lemma first_head : block_hash mined (c_head first_chain) = Ok t4_hash_m.
Proof. change (c_head first_chain) with (testnet4 mined). exact t4_hashed. Qed.
Lemma first_other : t4_hash_m <> child_hash.
Proof. vm_compute. discriminate. Qed.
Lemma first_found : st_get (mem_storage mined) (c_store first_chain) (parent_id first_header) = Some (testnet4 mined).
Proof.
  change (c_store first_chain) with [testnet4 mined]. cbn [st_get mem_storage find]. unfold id_matches, parent_id.
  cbn [id_hash id_height first_header h_previous h_height]. rewrite t4_hashed, bytes_eqb_refl. reflexivity.
Qed.
Lemma first_topped : proof_top mined (h_pow (b_header (testnet4 mined))) t4_top /\ t4_top <> 0.
Proof. split; [apply top_of_ok; vm_compute; reflexivity|vm_compute; discriminate]. Qed.
Lemma first_follows : later_than 1539806400 (h_time first_header) /\
  h_total_difficulty first_header = (1856000000 + 0x0fffffffffffffff / t4_top) mod 2 ^ 64 /\
  required_difficulty mined (window (S := mem_storage mined) (c_store first_chain) first_header) <= h_difficulty first_header.
Proof. split; [vm_compute; reflexivity|]. split; [vm_compute; reflexivity|]. vm_compute. discriminate. Qed.
Lemma first_case :
  block_hash mined (c_head first_chain) = Ok t4_hash_m /\ block_hash mined first_block = Ok child_hash /\
  In (testnet4 mined, 1539806400%Z, 1856000000) (networks mined) /\ hash_laws mined /\ clock_ok ex_now /\
  header_typed first_header /\ header_sized first_header /\ List.length (p_nonces (h_pow first_header)) = 42%nat /\
  t4_hash_m <> child_hash /\ st_get (mem_storage mined) (c_store first_chain) (parent_id first_header) = Some (testnet4 mined) /\
  proof_top mined (h_pow (b_header (testnet4 mined))) t4_top /\ t4_top <> 0 /\
  fst (process_block ex_now first_chain first_block) = Ok tt.
Proof.
  assert (I : In (testnet4 mined, 1539806400%Z, 1856000000) (networks mined)) by (do 3 right; left; reflexivity).
  split; [exact first_head|]. split; [exact first_hashed|]. split; [exact I|]. split; [exact mined_hash_laws|].
  split; [exact ex_now_ok|]. split; [exact first_typed|]. split; [exact first_sized|]. split; [exact mined_len|].
  split; [exact first_other|]. split; [exact first_found|]. split; [exact (proj1 first_topped)|]. split; [exact (proj2 first_topped)|].
  apply (first_known first_chain first_block ex_now _ _ first_head first_hashed _ _ _ _ I mined_hash_laws ex_now_ok first_typed first_sized
    mined_len first_other first_found (proj1 first_topped) (proj2 first_topped)).
  split; [exact first_rules|exact first_follows].
Qed.

(** ** Testnet3 and Testnet4 *)
Lemma first_nothing (S : storage real) (c : chain real S) b now hh bh g :
  block_hash real (c_head c) = Ok hh -> block_hash real b = Ok bh ->
  g = testnet3 real \/ g = testnet4 real -> clock_ok now -> header_typed (b_header b) -> header_sized (b_header b) ->
  List.length (p_nonces (h_pow (b_header b))) = 42%nat ->
  hh <> bh -> st_get S (c_store c) (parent_id (b_header b)) = Some g ->
  fst (process_block now c b) = Ok tt -> h_total_difficulty (b_header b) = h_total_difficulty (b_header g).
Proof.
  intros Hh Bh G C T Z L N E K.
  assert (exists t, In (g, t, h_total_difficulty (b_header g)) (firsts real)) as (t & I).
  { destruct G as [-> | ->]; eexists; [do 2 right; left; reflexivity|do 3 right; left; reflexivity]. }
  apply (first_real S c b now hh bh g t _ Hh Bh I C T Z L N E) in K. apply K.
Qed.

Definition real_hash : bytes := be 32 0x0644cedb1acfdde4ee9e135ae61de3cbeb301b5f27a40a2c366da8e724292f20.
Definition real_chain : chain real (mem_storage real) := @chain_new real (mem_storage real) (testnet4 real) [testnet4 real].
Definition real_first : block real :=
  Block (Header 1 1 real_hash (brepeat x22 32) (time_unix 1539806401) (brepeat x33 32)
    (brepeat x44 32) (brepeat x55 32) 77 (brepeat x66 32) [] 12 34 (Proof 29 mined_nonces) 1 1856000000 7) [] [] [].
Definition real_first_is (r : res bytes) : bool := match r with Ok h => negb (bytes_eqb real_hash h) | _ => false end.
Lemma real_first_ok r : real_first_is r = true -> exists bh, r = Ok bh /\ real_hash <> bh.
Proof. destruct r as [h| | |]; try discriminate. intro K. exists h. split; [reflexivity|]. apply negb_true_iff in K. now apply bytes_eqb_neq. Qed.
Lemma first_real_case :
  block_hash real (c_head real_chain) = Ok real_hash /\ (exists bh, block_hash real real_first = Ok bh /\ real_hash <> bh) /\
  In (testnet4 real, 1539806400%Z, 1856000000) (firsts real) /\ clock_ok ex_now /\
  header_typed (b_header real_first) /\ header_sized (b_header real_first) /\ List.length (p_nonces (h_pow (b_header real_first))) = 42%nat /\
  st_get (mem_storage real) (c_store real_chain) (parent_id (b_header real_first)) = Some (testnet4 real).
Proof.
  split; [exact t4_hash|]. split; [apply real_first_ok; vm_compute; reflexivity|]. split; [do 3 right; left; reflexivity|].
  split; [exact ex_now_ok|]. split.
  { unfold header_typed. unfold real_first. cbn [b_header h_version h_height h_time h_nonce h_output_mmr h_kernel_mmr
      h_total_difficulty h_scaling h_pow p_bits p_nonces].
    split; [reflexivity|]. split; [reflexivity|]. split; [apply time_unix_wf|].
    do 6 (split; [reflexivity|]). exact mined_u32. }
  split; [split; [apply be_length|]; repeat split|]. split; [exact mined_len|].
  change (c_store real_chain) with [testnet4 real]. unfold parent_id, real_first. cbn [st_get mem_storage find b_header h_previous h_height].
  unfold id_matches. cbn [id_hash id_height]. rewrite t4_hash. unfold real_hash. rewrite bytes_eqb_refl. reflexivity.
Qed.

Lemma first_no_work : exists (c : chain mined (mem_storage mined)) b now hh bh,
  block_hash mined (c_head c) = Ok hh /\ block_hash mined b = Ok bh /\ hh <> bh /\ clock_ok now /\ block_rules mined now b /\
  st_get (mem_storage mined) (c_store c) (parent_id (b_header b)) = Some (c_head c) /\ fst (process_block now c b) = Ok tt /\
  h_total_difficulty (b_header b) = h_total_difficulty (b_header (c_head c)).
Proof.
  exists first_chain, first_block, ex_now, t4_hash_m, child_hash.
  split; [exact first_head|]. split; [exact first_hashed|]. split; [exact first_other|]. split; [exact ex_now_ok|].
  split; [exact first_rules|]. split; [exact first_found|]. split; [apply first_case|]. reflexivity.
Qed.
