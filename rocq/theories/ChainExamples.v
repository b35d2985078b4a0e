(** Concrete cases for the chain theorems: a storage backend that keeps blocks in a list, parents
    with different proof difficulties, and children with the genuine proof of work of
    RulesExamples.v. *)
From Coq Require Import Permutation Sorted.
From Verif Require Import Chain SpecPow SpecCodec SpecConsensus SpecSchnorr SpecRules SpecChain PowProofs PowExamples
  PowCodecProofs CodecProofs BlockCodecProofs RulesProofs Instance CodecExamples RulesExamples ChainProofs.

(** A list of blocks, latest first. *)
Section Mem.
Context (X : Ext).
Definition id_matches (i : block_id) (b : block X) : bool :=
  match id_hash i, block_hash X b with
  | Some h, Ok h' => bytes_eqb h h'
  | Some _, _ => false
  | None, _ => true
  end &&
  match id_height i with Some n => h_height (b_header b) =? n | None => true end.
Fixpoint drop_until (f : block X -> bool) (l : list (block X)) : list (block X) :=
  match l with [] => [] | a :: t => if f a then l else drop_until f t end.
Definition mem_from (st : list (block X)) (i : block_id) (n : N) : list (block X) :=
  firstn (N.to_nat n)
    (match id_hash i, id_height i with
     | None, Some h => filter (fun b => h <=? h_height (b_header b)) (rev st)
     | _, _ => drop_until (id_matches i) (rev st)
     end).
Definition mem_storage : storage X :=
  {| st_state := list (block X);
     st_add := fun st b => b :: st;
     st_del := fun st i => filter (fun b => negb (id_matches i b)) st;
     st_get := fun st i => find (id_matches i) st;
     st_last := fun st => hd_error st;
     st_from := mem_from |}.
Lemma mem_limit (st : st_state mem_storage) i n : (List.length (st_from mem_storage st i n) <= N.to_nat n)%nat.
Proof. cbn [st_from mem_storage]. unfold mem_from. rewrite firstn_length. lia. Qed.
Lemma mem_second a b ha h : block_hash X a = Ok ha -> block_hash X b = Ok h -> h <> ha ->
  st_get mem_storage [a; b] (by_hash h) = Some b.
Proof.
  intros Ea Eb N. cbn [st_get mem_storage find]. unfold id_matches. cbn [by_hash id_hash id_height].
  rewrite Ea, Eb, bytes_eqb_refl. destruct (bytes_eqb h ha) eqn:K; [|reflexivity]. now apply bytes_eqb_eq in K.
Qed.
Lemma mem_parent a b ha h : block_hash X a = Ok ha -> block_hash X b = Ok h -> h <> ha ->
  h_previous (b_header a) = h -> h <> [] -> ancestor (S := mem_storage) [a; b] 1 a = Some b.
Proof.
  intros Ea Eb N P H. cbn [ancestor]. rewrite P. destruct h as [|x l]; [easy|]. now apply mem_second with (ha := ha).
Qed.
Lemma mem_first a h : block_hash X a = Ok h -> st_get mem_storage [a] (by_hash h) = Some a.
Proof.
  intros Ea. cbn [st_get mem_storage find]. unfold id_matches. cbn [by_hash id_hash id_height].
  now rewrite Ea, bytes_eqb_refl.
Qed.
End Mem.
Definition mem_chain (st : list (block mined)) : chain mined (mem_storage mined) :=
  @chain_new mined (mem_storage mined) (testnet4 mined) st.

(** A stored parent with proof nonces k, k+1, ...: proof difficulty 3 for k = 1 and 0 for k = 5. *)
Definition par (k : nat) (td : N) : block mined :=
  Block (Header 3 259999 (brepeat x11 32) (brepeat x22 32) (time_unix 1794787100) (brepeat x33 32)
    (brepeat x44 32) (brepeat x55 32) 77 (brepeat x66 32) [] 12 34 (Proof 29 (map N.of_nat (seq k 42))) 1 td 7) [] [] [].
Definition par_hash (k : nat) : bytes := match block_hash mined (par k 0) with Ok h => h | _ => [] end.

(** Children of it. *)
Definition mined_on (prev : bytes) (diff td : N) : header :=
  Header 3 260000 prev (brepeat x22 32) (time_unix 1794787200) (brepeat x33 32)
    (brepeat x44 32) (brepeat x55 32) 77 (brepeat x66 32) [] 12 34 (Proof 29 mined_nonces) diff td 7.
Definition child (k : nat) (diff td : N) : block mined :=
  Block (mined_on (par_hash k) diff td) [] [ex_plain_out] [ex_plain_ker].

Lemma mined_on_typed prev diff td : is_u64 td -> header_typed (mined_on prev diff td).
Proof.
  intro H. unfold header_typed. cbn [mined_on h_version h_height h_time h_nonce h_output_mmr h_kernel_mmr
    h_total_difficulty h_scaling h_pow p_bits p_nonces].
  split; [reflexivity|]. split; [reflexivity|]. split; [apply time_unix_wf|].
  do 3 (split; [reflexivity|]). split; [exact H|]. do 2 (split; [reflexivity|]). exact mined_u32.
Qed.
Lemma mined_on_sized prev diff td : List.length prev = 32%nat -> header_sized (mined_on prev diff td).
Proof. intro H. repeat split. exact H. Qed.

Lemma mined_on_valid prev diff td : List.length prev = 32%nat -> is_u64 td ->
  header_validate mined ex_now (mined_on prev diff td) = Ok tt.
Proof.
  intros L T.
  pose proof (mined_on_typed prev diff td T) as Ty. pose proof (mined_on_sized prev diff td L) as Sz.
  destruct (header_layout_ok (mined_on prev diff td) Ty Sz mined_len) as (b & E & Lb & _).
  apply (cycle_accepted mined ex_now (mined_on prev diff td) b ex_now_ok Ty Sz mined_len).
  - exists (3, 250000, 500000). split; [cbn; auto|]. split; [reflexivity|]. cbn. lia.
  - unfold not_far_future. vm_compute. discriminate.
  - left. reflexivity.
  - exact E.
  - apply increasing_sound. vm_compute. reflexivity.
  - apply below_sound. vm_compute. reflexivity.
  - assert (H : blake2b mined (firstn 246 b) = mined_seed).
    { cbn [blake2b mined]. unfold mined_hash.
      assert (K : List.length (firstn 246 b) = 246%nat).
      { rewrite firstn_length. unfold lenN in Lb. change (p_bits (h_pow (mined_on prev diff td))) with 29 in Lb.
        change (bytes_for (42 * 29)) with 153 in Lb. lia. }
      unfold lenN. now rewrite K. }
    rewrite H. exact mined_cycle.
Qed.

Lemma par_hash_len k : k = 1%nat \/ k = 5%nat -> List.length (par_hash k) = 32%nat.
Proof. intros [->| ->]; vm_compute; reflexivity. Qed.
Lemma par_hash_cons k : k = 1%nat \/ k = 5%nat -> par_hash k <> [].
Proof. intros K E. apply par_hash_len in K. rewrite E in K. discriminate K. Qed.
Lemma par_hashed k td : k = 1%nat \/ k = 5%nat -> block_hash mined (par k td) = Ok (par_hash k).
Proof. intros [->| ->]; vm_compute; reflexivity. Qed.
Definition child_hash : bytes := match block_hash mined (child 1 0 0) with Ok h => h | _ => [] end.
Lemma child_hashed k diff td : block_hash mined (child k diff td) = Ok child_hash.
Proof.
  unfold child_hash. change (block_hash mined (child k diff td)) with (block_hash mined (child 1 0 0)).
  assert (K : is_ok (block_hash mined (child 1 0 0)) = true) by (vm_compute; reflexivity).
  destruct (block_hash mined (child 1 0 0)); [reflexivity|discriminate K..].
Qed.
Lemma child_not_par k : k = 1%nat \/ k = 5%nat -> par_hash k <> child_hash.
Proof. intros [->| ->]; vm_compute; discriminate. Qed.

Lemma child_valid k diff td : k = 1%nat \/ k = 5%nat -> is_u64 td -> block_validate mined ex_now (child k diff td) = Ok tt.
Proof.
  intros K T. apply (repeat_accepted mined ex_now (mined_on (par_hash k) diff td) ex_plain_out ex_plain_ker 0 0).
  - apply mined_on_valid; [now apply par_hash_len|exact T].
  - reflexivity.
  - vm_compute. reflexivity.
  - reflexivity.
Qed.
Lemma child_rules k diff td : k = 1%nat \/ k = 5%nat -> is_u64 td -> block_rules mined ex_now (child k diff td).
Proof.
  intros K T. apply block_iff; [exact ex_now_ok|now apply mined_on_typed|apply mined_on_sized; now apply par_hash_len|reflexivity|].
  now apply child_valid.
Qed.

Definition par_top (k : nat) : N :=
  match proof_enc (Proof 29 (map N.of_nat (seq k 42))) with Ok e => unbe (firstn 8 (blake2b mined e)) | _ => 0 end.
Lemma par_topped k td : k = 1%nat \/ k = 5%nat -> proof_top mined (h_pow (b_header (par k td))) (par_top k).
Proof. intros [->| ->]; eexists; split; vm_compute; reflexivity. Qed.

Lemma par_found k td diff td' : k = 1%nat \/ k = 5%nat ->
  st_get (mem_storage mined) (c_store (mem_chain [par k td])) (parent_id (b_header (child k diff td'))) = Some (par k td).
Proof.
  intro K. cbn [mem_chain chain_new st_last mem_storage hd_error c_store st_get find]. unfold id_matches.
  cbn [parent_id id_hash id_height child b_header mined_on h_previous h_height par].
  change (Block (Header 3 259999 (brepeat x11 32) (brepeat x22 32) (time_unix 1794787100) (brepeat x33 32)
    (brepeat x44 32) (brepeat x55 32) 77 (brepeat x66 32) [] 12 34 (Proof 29 (map N.of_nat (seq k 42))) 1 td 7) [] [] []) with (par k td).
  rewrite (par_hashed k td K), bytes_eqb_refl. change ((260000 + 2 ^ 64 - 1) mod 2 ^ 64) with 259999. reflexivity.
Qed.
Lemma par_window k td diff td' : window (c_store (mem_chain [par k td])) (b_header (child k diff td')) = [par k td].
Proof. reflexivity. Qed.

Lemma child_follows k td diff td' : k = 1%nat \/ k = 5%nat -> 1 <= diff ->
  td' = (td + 0x0fffffffffffffff / par_top k) mod 2 ^ 64 ->
  follows (c_store (mem_chain [par k td])) (par_top k) (par k td) (child k diff td').
Proof.
  intros K D T. split; [vm_compute; reflexivity|]. split; [exact T|]. rewrite par_window. cbn. lia.
Qed.
Lemma par_top_pos k : k = 1%nat \/ k = 5%nat -> par_top k <> 0.
Proof. intros [->| ->]; vm_compute; discriminate. Qed.

Lemma child_accepted k td diff td' : k = 1%nat \/ k = 5%nat -> 1 <= diff ->
  td' = (td + 0x0fffffffffffffff / par_top k) mod 2 ^ 64 ->
  fst (process_block ex_now (mem_chain [par k td]) (child k diff td')) = Ok tt.
Proof.
  intros K D T.
  assert (U : is_u64 td') by (rewrite T; now apply N.mod_lt).
  apply (process_known mined (mem_storage mined) _ _ ex_now (par_hash k) child_hash) with (prev := par k td) (top := par_top k).
  - now apply par_hashed.
  - apply child_hashed.
  - exact mined_hash_laws.
  - exact ex_now_ok.
  - now apply mined_on_typed.
  - apply mined_on_sized. now apply par_hash_len.
  - reflexivity.
  - now apply child_not_par.
  - now apply par_found.
  - apply time_unix_wf.
  - now apply par_topped.
  - now apply par_top_pos.
  - split; [now apply child_rules|now apply child_follows].
Qed.

(** The child as it comes off the wire. *)
Lemma child_wire td : is_u64 td -> exists bs, block_read mined bs = Ok (child 1 0 td, []).
Proof.
  intro T. destruct (block_roundtrip mined toy_P toy_Q mined_codec (child 1 0 td) [] mined_sort) as
    (bs & b' & E & Hh & Hi & Ho & Hk & Hs & R).
  - split; [split; [now apply mined_on_typed|split; [apply mined_on_sized; apply par_hash_len; auto|exact mined_canonical]]|].
    split; [constructor|]. split; [repeat constructor|]. split; [repeat constructor|].
    repeat split; vm_compute; discriminate.
  - exists bs. rewrite app_nil_r in R. rewrite R. f_equal. f_equal. unfold child at 2.
    apply Permutation_sym, Permutation_length_1_inv in Ho. apply Permutation_sym, Permutation_length_1_inv in Hk.
    apply Permutation_sym, Permutation_nil in Hi. rewrite Hi, Ho, Hk. reflexivity.
Qed.

(** The chain of the shipped node, whose store is empty, takes it. *)
Lemma node_takes_child td : is_u64 td -> fst (process_block ex_now (node_chain mined) (child 1 0 td)) = Ok tt.
Proof.
  intro T. rewrite (process_unknown_parent mined (sql_storage mined) (node_chain mined) (child 1 0 td) ex_now
    (blake2b mined []) child_hash).
  - apply child_valid; [now left|exact T].
  - exact (header_hash_zero mined (b_header (testnet1 mined)) eq_refl).
  - apply child_hashed.
  - vm_compute. discriminate.
  - reflexivity.
Qed.

(** A block that is its own parent: its hash does not depend on its Previous field. *)
Definition ouroboros : block mined :=
  Block (Header 9 5 (par_hash 1) (brepeat x22 32) (time_unix 1794787100) (brepeat x33 32)
    (brepeat x44 32) (brepeat x55 32) 77 (brepeat x66 32) [] 12 34 (Proof 29 (map N.of_nat (seq 1 42))) 1 7 7) [] [] [].
Lemma ouroboros_parent : block_hash mined ouroboros = Ok (h_previous (b_header ouroboros)).
Proof. vm_compute. reflexivity. Qed.
Lemma ouroboros_invalid now : block_validate mined now ouroboros = Err (Msg "invalid block version").
Proof. reflexivity. Qed.

(** A child of the genesis block that breaks every rule. *)
Definition t4_hash : bytes := match block_hash mined (testnet4 mined) with Ok h => h | _ => [] end.
Lemma t4_hashed : block_hash mined (testnet4 mined) = Ok t4_hash.
Proof. vm_compute. reflexivity. Qed.
Definition bad_child : block mined :=
  Block (Header 9 5 t4_hash [] (time_unix 0) [] [] [] 0 [] [] 0 0 (Proof 0 []) 0 0 0) [] [] [].
