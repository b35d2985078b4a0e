(** A line of two accepted blocks, for C123. *)
From Coq Require Import Lia.
From Verif Require Import Chain SpecPow SpecCodec SpecConsensus SpecSchnorr SpecRules SpecChain SpecLine PowProofs PowExamples
  PowCodecProofs CodecProofs BlockCodecProofs RulesProofs Instance CodecExamples RulesExamples ChainProofs ChainExamples.

Lemma mem_finds X : finds_right (mem_storage X).
Proof.
  intros st i p E. cbn [st_get mem_storage] in E. apply find_some in E as [_ E]. unfold id_matches in E.
  apply andb_true_iff in E as [A B]. split.
  - intros h Eh. rewrite Eh in A. destruct (block_hash X p) as [h'| | |]; try discriminate A. apply bytes_eqb_eq in A. congruence.
  - intros n En. rewrite En in B. now apply N.eqb_eq.
Qed.

(** The proof difficulty of [child]. *)
Definition child_top : N :=
  match proof_enc (Proof 29 mined_nonces) with Ok e => unbe (firstn 8 (blake2b mined e)) | _ => 0 end.
Definition grand_td : N := (1003 + 0x0fffffffffffffff / child_top) mod 2 ^ 64.
(** A child of it, a second later. *)
Definition grand_header : header :=
  Header 3 260001 child_hash (brepeat x22 32) (time_unix 1794787201) (brepeat x33 32)
    (brepeat x44 32) (brepeat x55 32) 77 (brepeat x66 32) [] 12 34 (Proof 29 mined_nonces) 1 grand_td 7.
Definition grandchild : block mined := Block grand_header [] [ex_plain_out] [ex_plain_ker].

Lemma child_hash_len : List.length child_hash = 32%nat.
Proof. vm_compute. reflexivity. Qed.
Lemma grand_typed : header_typed grand_header.
Proof.
  unfold header_typed. cbn [grand_header h_version h_height h_time h_nonce h_output_mmr h_kernel_mmr
    h_total_difficulty h_scaling h_pow p_bits p_nonces].
  split; [reflexivity|]. split; [reflexivity|]. split; [apply time_unix_wf|].
  do 3 (split; [reflexivity|]). split; [now apply N.mod_lt|]. do 2 (split; [reflexivity|]). exact mined_u32.
Qed.
Lemma grand_sized : header_sized grand_header.
Proof. split; [exact child_hash_len|]. repeat split. Qed.
Lemma grand_valid : header_validate mined ex_now grand_header = Ok tt.
Proof.
  destruct (header_layout_ok grand_header grand_typed grand_sized mined_len) as (b & E & Lb & _).
  apply (cycle_accepted mined ex_now grand_header b ex_now_ok grand_typed grand_sized mined_len).
  - exists (3, 250000, 500000). split; [cbn; auto|]. split; [reflexivity|]. cbn. lia.
  - unfold not_far_future. vm_compute. discriminate.
  - left. reflexivity.
  - exact E.
  - apply increasing_sound. vm_compute. reflexivity.
  - apply below_sound. vm_compute. reflexivity.
  - assert (H : blake2b mined (firstn 246 b) = mined_seed).
    { cbn [blake2b mined]. unfold mined_hash.
      assert (K : List.length (firstn 246 b) = 246%nat).
      { rewrite firstn_length. unfold lenN in Lb. change (p_bits (h_pow grand_header)) with 29 in Lb.
        change (bytes_for (42 * 29)) with 153 in Lb. lia. }
      unfold lenN. now rewrite K. }
    rewrite H. exact mined_cycle.
Qed.
Lemma grand_rules : block_rules mined ex_now grandchild.
Proof.
  apply block_iff; [exact ex_now_ok|exact grand_typed|exact grand_sized|reflexivity|].
  apply (repeat_accepted mined ex_now grand_header ex_plain_out ex_plain_ker 0 0); [exact grand_valid|reflexivity|vm_compute; reflexivity|reflexivity].
Qed.
Lemma grand_hashed : block_hash mined grandchild = Ok child_hash.
Proof. change (block_hash mined grandchild) with (block_hash mined (child 1 0 0)). apply child_hashed. Qed.
Lemma child_topped : proof_top mined (h_pow (b_header (child 1 1 1003))) child_top.
Proof. eexists. split; vm_compute; reflexivity. Qed.
Lemma child_top_pos : child_top <> 0.
Proof. vm_compute. discriminate. Qed.

Definition two_line (i : nat) : block mined := match i with O => par 1 1000 | S O => child 1 1 1003 | _ => grandchild end.
Lemma one_accepted : accepted_on (mem_storage mined) ex_now (par 1 1000) (child 1 1 1003).
Proof.
  exists (mem_chain [par 1 1000]), (par_hash 1), child_hash.
  split; [apply par_hashed; auto|]. split; [apply child_hashed|]. split; [apply child_not_par; auto|].
  split; [apply par_found; auto|]. apply child_accepted; [auto|discriminate|vm_compute; reflexivity].
Qed.
Lemma two_accepted : accepted_on (mem_storage mined) ex_now (child 1 1 1003) grandchild.
Proof.
  set (c := mem_chain [par 5 1000; child 1 1 1003]).
  assert (Hh : block_hash mined (c_head c) = Ok (par_hash 5)) by (apply par_hashed; auto).
  assert (G : st_get (mem_storage mined) (c_store c) (parent_id (b_header grandchild)) = Some (child 1 1 1003)).
  { unfold c. cbn [mem_chain chain_new st_last mem_storage hd_error c_store st_get find]. unfold id_matches.
    cbn [parent_id id_hash id_height grandchild grand_header b_header h_previous h_height].
    rewrite (par_hashed 5 1000 (or_intror eq_refl)), (child_hashed 1 1 1003), bytes_eqb_refl.
    destruct (bytes_eqb child_hash (par_hash 5)) eqn:K.
    { apply bytes_eqb_eq in K. symmetry in K. exfalso. revert K. apply child_not_par. auto. }
    cbn [andb]. change ((260001 + 2 ^ 64 - 1) mod 2 ^ 64) with 260000. reflexivity. }
  exists c, (par_hash 5), child_hash. split; [exact Hh|]. split; [exact grand_hashed|]. split; [apply child_not_par; auto|].
  split; [exact G|].
  apply (process_known mined (mem_storage mined) c grandchild ex_now (par_hash 5) child_hash Hh grand_hashed (child 1 1 1003) child_top).
  - exact mined_hash_laws.
  - exact ex_now_ok.
  - exact grand_typed.
  - exact grand_sized.
  - reflexivity.
  - apply child_not_par. auto.
  - exact G.
  - apply time_unix_wf.
  - exact child_topped.
  - exact child_top_pos.
  - split; [exact grand_rules|]. split; [vm_compute; reflexivity|]. split; [reflexivity|].
    assert (W : window (c_store c) (b_header grandchild) = [child 1 1 1003; par 5 1000]) by reflexivity.
    rewrite W. cbn. lia.
Qed.
Lemma two_line_ok : line (mem_storage mined) (fun _ => ex_now) two_line 2.
Proof. intros [|[|i]] H; [exact one_accepted|exact two_accepted|lia]. Qed.
Lemma two_line_seconds i : whole_seconds (h_time (b_header (two_line i))).
Proof. destruct i as [|[|i]]; (split; [apply time_unix_wf|reflexivity]). Qed.
Lemma two_line_tops i : (i < 2)%nat -> proof_top mined (h_pow (b_header (two_line i))) (match i with O => par_top 1 | _ => child_top end).
Proof. intro H. destruct i as [|[|i]]; [apply par_topped; auto|exact child_topped|lia]. Qed.
Lemma two_line_heights i : is_u64 (h_height (b_header (two_line i))).
Proof. destruct i as [|[|i]]; reflexivity. Qed.
