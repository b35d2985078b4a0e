(** Concrete cases for C136: a hash under which every proof hashes to zero, a parent stored with such a
    proof, and a genuine child of it that comes off the wire. *)
From Coq Require Import Permutation Sorted.
From Verif Require Import Sync SpecPow SpecCodec SpecConsensus SpecSchnorr SpecRules SpecChain SpecPool SpecSync SpecFate PowProofs PowExamples
  PowCodecProofs CodecProofs BlockCodecProofs RulesProofs Instance CodecExamples RulesExamples ChainProofs ChainExamples
  PoolProofs PoolExamples SyncProofs SyncExamples FateProofs.

(** [mined], but what is 154 bytes long, as proofs of 29 bits are with their size, hashes to zeros. *)
Definition zero_hash (m : bytes) : bytes := if lenN m =? 154 then zero32 else mined_hash m.
Definition zeroed : Ext := {|
  blake2b := zero_hash; sha256 := sha256 toy; sip_lib := sip_lib toy;
  c_order := c_order toy; c_G := c_G toy; c_H := c_H toy;
  c_smul := c_smul toy; c_add := c_add toy; c_sqrt := c_sqrt toy;
  point_enc := point_enc toy; point_read := point_read toy;
  rproof := N; rproof_enc := rproof_enc toy; rproof_read := rproof_read toy;
  rp_verify := rp_verify toy; go_sort := @go_sort toy
|}.
Lemma zeroed_laws : hash_laws zeroed.
Proof.
  split; [|exact (proj2 toy_hash_laws)]. intro m. cbn [blake2b zeroed]. unfold zero_hash. destruct (_ =? _); [reflexivity|apply mined_hash_len].
Qed.
Lemma zeroed_sort : sort_laws zeroed.
Proof. exact toy_sort. Qed.
Lemma zeroed_codec : codec_laws zeroed toy_P toy_Q.
Proof. destruct toy_codec as [A B C D]. exact (@Build_codec_laws zeroed toy_P toy_Q A B C D). Qed.

Definition zpar : block zeroed := Block (b_header (par 1 1000)) [] [] [].
Definition zout : output zeroed := @Output zeroed 0 (c_smul toy toy_G 3) (px (c_smul toy toy_G 3)).
Definition zchild : block zeroed := Block (mined_on (par_hash 1) 0 1003) [] [zout] [ex_plain_ker].
Definition zchain : chain zeroed (mem_storage zeroed) := @chain_new zeroed (mem_storage zeroed) (testnet4 zeroed) [zpar].
Definition znode : node zeroed (mem_storage zeroed) := Node zchain two None.

Lemma zpar_hashed : block_hash zeroed zpar = Ok (par_hash 1).
Proof. vm_compute. reflexivity. Qed.
Lemma zchild_hashed : block_hash zeroed zchild = Ok child_hash.
Proof. vm_compute. reflexivity. Qed.
Lemma zpar_top : proof_top zeroed (h_pow (b_header zpar)) 0.
Proof. eexists. split; vm_compute; reflexivity. Qed.

Lemma zheader_valid : header_validate zeroed ex_now (b_header zchild) = Ok tt.
Proof.
  assert (L32 : List.length (par_hash 1) = 32%nat) by (apply par_hash_len; auto).
  pose proof (mined_on_typed (par_hash 1) 0 1003 eq_refl) as Ty. pose proof (mined_on_sized (par_hash 1) 0 1003 L32) as Sz.
  destruct (header_layout_ok (mined_on (par_hash 1) 0 1003) Ty Sz mined_len) as (b & E & Lb & _).
  apply (cycle_accepted zeroed ex_now (mined_on (par_hash 1) 0 1003) b ex_now_ok Ty Sz mined_len).
  - exists (3, 250000, 500000). split; [cbn; auto|]. split; [reflexivity|]. cbn. lia.
  - unfold not_far_future. vm_compute. discriminate.
  - left. reflexivity.
  - exact E.
  - apply increasing_sound. vm_compute. reflexivity.
  - apply below_sound. vm_compute. reflexivity.
  - assert (H : blake2b zeroed (firstn 246 b) = mined_seed).
    { cbn [blake2b zeroed]. unfold zero_hash, mined_hash.
      assert (K : List.length (firstn 246 b) = 246%nat).
      { rewrite firstn_length. unfold lenN in Lb. change (p_bits (h_pow (mined_on (par_hash 1) 0 1003))) with 29 in Lb.
        change (bytes_for (42 * 29)) with 153 in Lb. lia. }
      unfold lenN. now rewrite K. }
    rewrite H. exact mined_cycle.
Qed.
Lemma zchild_rules : block_rules zeroed ex_now zchild.
Proof.
  apply block_iff; [exact ex_now_ok|now apply mined_on_typed|apply mined_on_sized; apply par_hash_len; auto|reflexivity|].
  apply (repeat_accepted zeroed ex_now (b_header zchild) zout ex_plain_ker 0 0); [exact zheader_valid|reflexivity|vm_compute; reflexivity|reflexivity].
Qed.
Lemma zpar_found : st_get (mem_storage zeroed) (c_store zchain) (parent_id (b_header zchild)) = Some zpar.
Proof.
  change (c_store zchain) with [zpar]. cbn [st_get mem_storage find]. unfold id_matches. rewrite zpar_hashed.
  cbn [parent_id id_hash id_height zchild b_header mined_on h_previous h_height]. rewrite bytes_eqb_refl.
  change ((260000 + 2 ^ 64 - 1) mod 2 ^ 64) with 259999. reflexivity.
Qed.
Lemma zchild_on_zero : on_zero ex_now zchain zchild.
Proof.
  split.
  { change (c_head zchain) with zpar. rewrite zpar_hashed, zchild_hashed. intro E. apply Ok_inj in E.
    exact (child_not_par 1 (or_introl eq_refl) (eq_sym E)). }
  split; [exact zchild_rules|]. exists zpar. split; [exact zpar_found|]. split; [exact zpar_top|]. vm_compute. reflexivity.
Qed.
Lemma zchain_hashable : hashable zchain.
Proof.
  split; [exists (par_hash 1); exact zpar_hashed|]. intros i b E. change (c_store zchain) with [zpar] in E.
  cbn [st_get mem_storage] in E. apply find_some in E as ([<-|[]] & _). split; [apply time_unix_wf|exists 0; exact zpar_top].
Qed.
Lemma zchild_received lenient : received lenient (MBlock zchild).
Proof.
  destruct (block_roundtrip zeroed toy_P toy_Q zeroed_codec zchild [] zeroed_sort) as
    (bs & b' & E & Hh & Hi & Ho & Hk & Hs & R).
  - split; [split; [now apply mined_on_typed|split; [apply mined_on_sized; apply par_hash_len; auto|exact mined_canonical]]|].
    split; [constructor|]. split; [repeat constructor|]. split; [repeat constructor|].
    repeat split; vm_compute; discriminate.
  - exists type_block, bs. rewrite app_nil_r in R.
    assert (R' : block_read zeroed bs = Ok (zchild, [])).
    { rewrite R. f_equal. f_equal. unfold zchild at 2.
      apply Permutation_sym, Permutation_length_1_inv in Ho. apply Permutation_sym, Permutation_length_1_inv in Hk.
      apply Permutation_sym, Permutation_nil in Hi. rewrite Hi, Ho, Hk. reflexivity. }
    change (decode_frame zeroed lenient type_block bs) with
      (let! r := block_read zeroed bs in let! _ := header_hash zeroed (b_header (fst r)) in Ok (Some (@MBlock zeroed (fst r)))).
    rewrite R'. cbn [rbind fst]. change (header_hash zeroed (b_header zchild)) with (block_hash zeroed zchild). rewrite zchild_hashed. reflexivity.
Qed.
Lemma znode_sender remote : sender (first remote) znode 1 (Info StConnected (Some 0%nat) 1 0 30000 7 false).
Proof.
  split; [left; reflexivity|]. split; [|reflexivity].
  constructor; [|constructor; [intros []|constructor]]. intros [E|[]]. discriminate E.
Qed.
Lemma two_valid : valid_table two.
Proof. intros a i [E|[E|[]]]; injection E as <- <-; repeat constructor. Qed.
