(** Properties C26-C33 and C61: consensus rules, difficulty and short ids. Statements only; proofs
    are in RulesProofs.v, examples in RulesExamples.v, specifications in SpecRules.v. *)
From Coq Require Import Permutation Sorted.
From Verif Require Import Consensus SpecPow SpecCodec SpecConsensus SpecSchnorr SpecRules SipProofs PowProofs RulesProofs
  Instance CodecExamples RulesExamples.

(** * C26: header validation *)
Theorem C26_header_validate : forall X now h,
  clock_ok now -> header_typed h -> header_sized h -> List.length (p_nonces (h_pow h)) = 42%nat ->
  (header_validate X now h = Ok tt <-> header_rules X now h).
Proof. exact header_iff. Qed.
Print Assumptions C26_header_validate.

(** Consequences in terms of the graph: accepted nonces are strictly increasing and in range, and
    every genuine 42-cycle of the header's graph is accepted if the other rules hold. *)
Theorem C26_accepted_nonces : forall X now h,
  clock_ok now -> header_typed h -> header_sized h -> List.length (p_nonces (h_pow h)) = 42%nat ->
  header_validate X now h = Ok tt ->
  StronglySorted N.lt (p_nonces (h_pow h)) /\ Forall (fun n => n < 2 ^ p_bits (h_pow h)) (p_nonces (h_pow h)).
Proof. exact accepted_nonces. Qed.
Print Assumptions C26_accepted_nonces.

Theorem C26_cycle_accepted : forall X now h b,
  clock_ok now -> header_typed h -> header_sized h -> List.length (p_nonces (h_pow h)) = 42%nat ->
  version_valid (h_height h) (h_version h) -> not_far_future now (h_time h) -> graph_valid h ->
  header_bytes h = Ok b ->
  StronglySorted N.lt (p_nonces (h_pow h)) -> Forall (fun n => n < 2 ^ p_bits (h_pow h)) (p_nonces (h_pow h)) ->
  simple_cycle (map (cuckaroo_ends (key_words (blake2b X (firstn 246 b))) (p_bits (h_pow h))) (p_nonces (h_pow h))) ->
  header_validate X now h = Ok tt.
Proof. exact cycle_accepted. Qed.
Print Assumptions C26_cycle_accepted.

(** A header with a genuine 42-cycle of the 2^29-edge graph. *)
Example C26_case : clock_ok ex_now /\ header_typed mined_header /\ header_sized mined_header /\
  List.length (p_nonces (h_pow mined_header)) = 42%nat /\ header_validate mined ex_now mined_header = Ok tt.
Proof. exact mined_ok. Qed.
Example C26_case_cycle :
  simple_cycle (map (cuckaroo_ends (key_words mined_seed) 29) mined_nonces).
Proof. exact mined_cycle. Qed.

(** * C27: version schedule *)
Theorem C27_versions : forall height version,
  validate_block_version height version = true <->
  (version = 1 /\ height < 95000) \/ (version = 2 /\ 95000 <= height < 250000) \/
  (version = 3 /\ 250000 <= height < 500000).
Proof. exact version_cases. Qed.
Print Assumptions C27_versions.

Theorem C27_unique : forall height v w,
  validate_block_version height v = true -> validate_block_version height w = true -> v = w.
Proof. exact version_at_most_one. Qed.
Print Assumptions C27_unique.

Theorem C27_none_after : forall height version, 500000 <= height ->
  validate_block_version height version = false.
Proof. exact version_none_after. Qed.
Print Assumptions C27_none_after.

Example C27_case : validate_block_version 249999 2 = true /\ validate_block_version 250000 2 = false /\
  validate_block_version 250000 3 = true.
Proof. vm_compute. auto. Qed.

(** * C28: far-future headers *)

(** Full statement, false: for all clocks and wire headers more than 720 s ahead of the clock,
    header_validate X now h <> Ok tt. For timestamps that do not overflow it holds (missing: the
    last 62135596800 timestamps). *)
Theorem C28_far_future_partial : forall X now bs h rest,
  clock_ok now -> header_read bs = Ok (h, rest) ->
  (wire_time bs <= 2 ^ 63 - 1 - 62135596800)%Z ->
  (unix_nanos now + 720 * 1000000000 < wire_time bs * 1000000000)%Z ->
  header_validate X now h = Err (Msg "invalid block version") \/
  header_validate X now h = Err (Msg "invalid block time").
Proof. exact far_future_refused. Qed.
Print Assumptions C28_far_future_partial.

(** Every larger timestamp passes the time rule, whatever the clock (from the year 1 on). *)
Theorem C28_overflow_refuted : forall X now bs h rest,
  clock_ok now -> (0 <= t_sec now)%Z -> header_read bs = Ok (h, rest) ->
  (2 ^ 63 - 1 - 62135596800 < wire_time bs)%Z ->
  not_far_future now (h_time h) /\ header_validate X now h <> Err (Msg "invalid block time") /\
  (header_validate X now h = Ok tt <->
   version_valid (h_height h) (h_version h) /\ graph_valid h /\ pow_valid X h).
Proof. exact overflow_accepted. Qed.
Print Assumptions C28_overflow_refuted.

(** A header dated 292 billion years ahead that is accepted in 2026. *)
Theorem C28_witness_refuted : exists X now bs h,
  hash_laws X /\ clock_ok now /\ header_read bs = Ok (h, []) /\
  (unix_nanos now + 720 * 1000000000 < wire_time bs * 1000000000)%Z /\ header_validate X now h = Ok tt.
Proof. exact future_witness. Qed.
Print Assumptions C28_witness_refuted.

Example C28_case : exists bs h, clock_ok ex_now /\ header_read bs = Ok (h, []) /\
  (wire_time bs <= 2 ^ 63 - 1 - 62135596800)%Z /\
  (unix_nanos ex_now + 720 * 1000000000 < wire_time bs * 1000000000)%Z /\
  header_validate mined ex_now h = Err (Msg "invalid block time").
Proof. exact future_case. Qed.

(** * C29: block validation *)
Theorem C29_block_validate : forall X now b,
  clock_ok now -> header_typed (b_header b) -> header_sized (b_header b) ->
  List.length (p_nonces (h_pow (b_header b))) = 42%nat ->
  (block_validate X now b = Ok tt <-> block_rules X now b).
Proof. exact block_iff. Qed.
Print Assumptions C29_block_validate.

(** A block with a signed coinbase kernel, a coinbase output, an ordinary one and two inputs. *)
Example C29_case : header_typed (b_header mined_block) /\ header_sized (b_header mined_block) /\
  List.length (p_nonces (h_pow (b_header mined_block))) = 42%nat /\
  block_validate mined ex_now mined_block = Ok tt /\
  existsb (fun o => coinbase (out_features o)) (b_outputs mined_block) = true /\
  existsb (fun k => coinbase (k_features k)) (b_kernels mined_block) = true.
Proof. exact mined_block_ok. Qed.

(** * C30: full consensus rules *)

(** Full statement, false: block_validate X now b = Ok tt implies kernel_signed for every kernel,
    a coinbase output and kernel, no duplicate items and weight b <= 80000.
    For every valid header, any output with a valid proof and any non-coinbase kernel, the block
    that repeats them any number of times is accepted. *)
Theorem C30_repeated_refuted : forall X now h o k n m,
  header_validate X now h = Ok tt -> coinbase (out_features o) = false ->
  rp_verify X (out_commit o) (out_proof o) = true -> coinbase (k_features k) = false ->
  block_validate X now (Block h [] (repeat o (S n)) (repeat k (S m))) = Ok tt.
Proof. exact repeat_accepted. Qed.
Print Assumptions C30_repeated_refuted.

Theorem C30_unsigned_kernel_refuted : exists X now b, clock_ok now /\ block_validate X now b = Ok tt /\
  ~ Forall (kernel_signed X) (b_kernels b).
Proof. exact unsigned_witness. Qed.
Print Assumptions C30_unsigned_kernel_refuted.

Theorem C30_no_coinbase_refuted : exists X now (b : block X), clock_ok now /\ block_validate X now b = Ok tt /\
  count (fun o => coinbase (out_features o)) (b_outputs b) = 0%nat /\
  count (fun k => coinbase (k_features k)) (b_kernels b) = 0%nat.
Proof. exact no_coinbase_witness. Qed.
Print Assumptions C30_no_coinbase_refuted.

Theorem C30_duplicates_refuted : exists X now (b : block X), clock_ok now /\ block_validate X now b = Ok tt /\
  ~ NoDup (b_outputs b) /\ ~ NoDup (b_kernels b).
Proof. exact duplicate_witness. Qed.
Print Assumptions C30_duplicates_refuted.

Theorem C30_weight_refuted : forall w, exists X now (b : block X), clock_ok now /\
  block_validate X now b = Ok tt /\ w < weight b.
Proof. exact weight_witness. Qed.
Print Assumptions C30_weight_refuted.

(** What holds of the four rules: the signature of every coinbase kernel is checked (missing: all
    other kernels, and the other three rules). *)
Theorem C30_coinbase_signed_partial : forall X now b, block_validate X now b = Ok tt ->
  Forall (fun k => coinbase (k_features k) = true -> kernel_signed X k) (b_kernels b).
Proof. exact coinbase_signed. Qed.
Print Assumptions C30_coinbase_signed_partial.

(** * C31: difficulty adjustment *)

(** Full statement, false: there are block lists that differ only in timestamps and get different
    difficulties. None do: *)
Theorem C31_times_ignored_refuted : forall X (bl bl' : list (block X)),
  map (fun b => h_difficulty (b_header b)) bl = map (fun b => h_difficulty (b_header b)) bl' ->
  next_difficulty X bl = next_difficulty X bl'.
Proof. exact @next_difficulty_times. Qed.
Print Assumptions C31_times_ignored_refuted.

Theorem C31_closed_form : forall X (bl : list (block X)),
  (bl = [] -> next_difficulty X bl = Ok 0) /\
  (bl <> [] -> List.length bl <> 71%nat -> next_difficulty X bl = Ok 1) /\
  (List.length bl = 71%nat -> next_difficulty X bl = Ok (target_difficulty bl)).
Proof. exact closed_form. Qed.
Print Assumptions C31_closed_form.

(** Two chains of 71 blocks of difficulty 120000, one a second apart, one a year apart. *)
Example C31_case : List.length (ex_chain 1) = 71%nat /\
  map (fun b => h_difficulty (b_header b)) (ex_chain 1) = map (fun b => h_difficulty (b_header b)) (ex_chain 31536000) /\
  next_difficulty toy (ex_chain 1) = Ok 60000 /\ next_difficulty toy (ex_chain 31536000) = Ok 60000.
Proof. exact ex_chain_ok. Qed.

(** * C32: proof difficulty *)

(** Full statement, false: diff_from_hash hash = Ok d -> 1 <= d, and it never panics. *)
Theorem C32_difficulty : forall hash, List.length hash = 32%nat ->
  let top := unbe (firstn 8 hash) in
  (top = 0 -> diff_from_hash hash = Panic) /\
  (0 < top -> diff_from_hash hash = Ok (0x0fffffffffffffff / top)) /\
  (0x0fffffffffffffff < top -> diff_from_hash hash = Ok 0) /\
  (0 < top <= 0x0fffffffffffffff -> exists d, diff_from_hash hash = Ok d /\ 1 <= d).
Proof. exact diff_cases. Qed.
Print Assumptions C32_difficulty.

Theorem C32_zero_refuted : exists hash, List.length hash = 32%nat /\ diff_from_hash hash = Ok 0.
Proof. exists (x10 :: repeat x00 31). split; reflexivity. Qed.
Print Assumptions C32_zero_refuted.
Theorem C32_panic_refuted : exists hash, List.length hash = 32%nat /\ diff_from_hash hash = Panic.
Proof. exists (repeat x00 8 ++ repeat xff 24). split; reflexivity. Qed.
Print Assumptions C32_panic_refuted.

(** ToDifficulty of a proof, for every hash function. *)
Theorem C32_to_difficulty : forall X p e, hash_laws X -> proof_enc p = Ok e ->
  let top := unbe (firstn 8 (blake2b X e)) in
  to_difficulty X p = if top =? 0 then Panic else Ok (0x0fffffffffffffff / top).
Proof. exact to_difficulty_eq. Qed.
Print Assumptions C32_to_difficulty.

Example C32_case : diff_from_hash (repeat x00 7 ++ [x02] ++ repeat xff 24) = Ok 576460752303423487 /\
  exists e, proof_enc (ex_proof 29) = Ok e.
Proof. split; [reflexivity|]. eexists. vm_compute. reflexivity. Qed.

(** * C33: headers and blocks from the wire *)
Theorem C33_header_safe : forall X now bs h rest, header_read bs = Ok (h, rest) ->
  (exists d, header_hash X h = Ok d) /\ (exists b, header_bytes h = Ok b) /\
  header_validate X now h <> Panic /\ header_validate X now h <> Fatal.
Proof. exact wire_header_safe. Qed.
Print Assumptions C33_header_safe.

Theorem C33_block_safe : forall X now bs b rest, block_read X bs = Ok (b, rest) ->
  (exists d, block_hash X b = Ok d) /\ (exists r, block_bytes X b = Ok r) /\
  block_validate X now b <> Panic /\ block_validate X now b <> Fatal.
Proof. exact wire_block_safe. Qed.
Print Assumptions C33_block_safe.

(** The fatal checks are there for headers that do not come from the wire. *)
Example C33_case_fatal : header_bytes (Header 1 0 [] [] (time_unix 0) [] [] [] 0 [] [] 0 0 (ex_proof 29) 0 0 0) = Fatal.
Proof. reflexivity. Qed.
Example C33_case : exists bs h, header_read bs = Ok (h, []) /\ header_validate mined ex_now h = Ok tt.
Proof. exact mined_wire. Qed.

(** * C61: short ids *)
Theorem C61_short_id : forall X h bh, (16 <= List.length bh)%nat ->
  exists id, short_id X h bh = Ok id /\ List.length id = 6%nat /\
    unle id = sip_lib X (unle (firstn 8 bh)) (unle (firstn 8 (skipn 8 bh))) h mod 2 ^ 48.
Proof. exact short_id_eq. Qed.
Print Assumptions C61_short_id.

Theorem C61_short_hash_panics : forall X h bh, (List.length bh < 16)%nat -> short_id X h bh = Panic.
Proof. exact short_id_panics. Qed.
Print Assumptions C61_short_hash_panics.

Example C61_case : short_id toy [x05; x06] (be 16 0x01000000000000000200000000000000) =
  Ok (be 6 0x0d0500000000).
Proof. vm_compute. reflexivity. Qed.
