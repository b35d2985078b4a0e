(** Properties C34-C41 and C62-C64: the chain and its storage. Statements; proofs are in
    ChainProofs.v, examples in ChainExamples.v, specifications in SpecChain.v. *)
From Coq Require Import Permutation Sorted.
From Verif Require Import Chain SpecPow SpecCodec SpecConsensus SpecSchnorr SpecRules SpecChain PowCodecProofs
  RulesProofs ChainProofs Instance CodecExamples RulesExamples ChainExamples.

(** * C34: nothing a peer can send changes the chain *)
Theorem C34_unchanged : forall X S (c : chain X S) genesis head height td st os,
  reports c genesis head height td st -> reports (fold_left run os c) genesis head height td st.
Proof. exact unchanged. Qed.
Print Assumptions C34_unchanged.
(** In particular an accepted block is not applied. *)
Example C34_accepted_not_applied :
  fst (process_block ex_now (mem_chain [par 1 1000]) (child 1 1 1003)) = Ok tt /\
  reports (run (mem_chain [par 1 1000]) (DoBlock ex_now (child 1 1 1003)))
    (testnet4 mined) (par 1 1000) 259999 1000 [par 1 1000].
Proof.
  split; [|repeat split]. apply child_accepted; [auto|discriminate|]. vm_compute. reflexivity.
Qed.

(** * C35: acceptance against a known parent *)
Theorem C35_known_parent : forall X S (c : chain X S) b now hh bh,
  block_hash X (c_head c) = Ok hh -> block_hash X b = Ok bh ->
  forall prev top, hash_laws X ->
  clock_ok now -> header_typed (b_header b) -> header_sized (b_header b) ->
  List.length (p_nonces (h_pow (b_header b))) = 42%nat ->
  hh <> bh -> st_get S (c_store c) (parent_id (b_header b)) = Some prev ->
  time_wf (h_time (b_header prev)) -> proof_top X (h_pow (b_header prev)) top -> top <> 0 ->
  (fst (process_block now c b) = Ok tt <-> block_rules X now b /\ follows (c_store c) top prev b).
Proof. exact process_known. Qed.
Print Assumptions C35_known_parent.
Theorem C35_unknown_parent : forall X S (c : chain X S) b now hh bh,
  block_hash X (c_head c) = Ok hh -> block_hash X b = Ok bh ->
  hh <> bh -> st_get S (c_store c) (parent_id (b_header b)) = None ->
  fst (process_block now c b) = block_validate X now b.
Proof. exact process_unknown_parent. Qed.
Print Assumptions C35_unknown_parent.
(** The excluded case: a parent whose proof hash starts with 64 zero bits divides by zero. *)
Theorem C35_zero_parent_panics : forall X S (c : chain X S) b now hh bh,
  block_hash X (c_head c) = Ok hh -> block_hash X b = Ok bh ->
  forall prev, hash_laws X -> hh <> bh ->
  st_get S (c_store c) (parent_id (b_header b)) = Some prev ->
  proof_top X (h_pow (b_header prev)) 0 -> block_validate X now b = Ok tt ->
  time_wf (h_time (b_header b)) -> time_wf (h_time (b_header prev)) ->
  (instant (h_time (b_header prev)) < instant (h_time (b_header b)))%Z ->
  fst (process_block now c b) = Panic.
Proof. exact process_panics. Qed.
Print Assumptions C35_zero_parent_panics.
Example C35_case :
  let c := mem_chain [par 1 1000] in
  block_hash mined (c_head c) = Ok (par_hash 1) /\ block_hash mined (child 1 1 1003) = Ok child_hash /\
  hash_laws mined /\ clock_ok ex_now /\ header_typed (b_header (child 1 1 1003)) /\
  header_sized (b_header (child 1 1 1003)) /\ par_hash 1 <> child_hash /\
  st_get (mem_storage mined) (c_store c) (parent_id (b_header (child 1 1 1003))) = Some (par 1 1000) /\
  proof_top mined (h_pow (b_header (par 1 1000))) (par_top 1) /\ par_top 1 <> 0 /\
  block_rules mined ex_now (child 1 1 1003) /\ follows (c_store c) (par_top 1) (par 1 1000) (child 1 1 1003).
Proof.
  assert (K : 1%nat = 1%nat \/ 1%nat = 5%nat) by auto.
  split; [now apply par_hashed|]. split; [apply child_hashed|]. split; [exact mined_hash_laws|].
  split; [exact ex_now_ok|]. split; [now apply mined_on_typed|].
  split; [apply mined_on_sized; now apply par_hash_len|]. split; [now apply child_not_par|].
  split; [now apply par_found|]. split; [now apply par_topped|]. split; [now apply par_top_pos|].
  split; [now apply child_rules|]. apply child_follows; [exact K|discriminate|vm_compute; reflexivity].
Qed.

(** * C36: blocks from peers are always too easy (refuted) *)
Theorem C36_too_easy_refuted : forall X S (c : chain X S) bs b rest now hh bh prev,
  block_read X bs = Ok (b, rest) ->
  block_hash X (c_head c) = Ok hh -> block_hash X b = Ok bh -> hh <> bh ->
  st_get S (c_store c) (parent_id (b_header b)) = Some prev -> window (c_store c) (b_header b) <> [] ->
  fst (process_block now c b) <> Ok tt /\
  (hash_laws X -> forall top, clock_ok now -> header_typed (b_header b) -> header_sized (b_header b) ->
   List.length (p_nonces (h_pow (b_header b))) = 42%nat -> time_wf (h_time (b_header prev)) ->
   proof_top X (h_pow (b_header prev)) top -> top <> 0 -> block_rules X now b ->
   (instant (h_time (b_header prev)) < instant (h_time (b_header b)))%Z ->
   h_total_difficulty (b_header b) = (h_total_difficulty (b_header prev) + 0x0fffffffffffffff / top) mod 2 ^ 64 ->
   fst (process_block now c b) = Err (Msg "difficulty is too low")).
Proof.
  intros X S c bs b rest now hh bh prev R Hh Hb N P W.
  exact (process_undeclared X S c b now hh bh Hh Hb prev N P (wire_difficulty X bs b rest R) W).
Qed.
Print Assumptions C36_too_easy_refuted.
(** A block with a genuine proof of work that follows its stored parent, refused. *)
Theorem C36_witness_refuted : exists bs b,
  block_read mined bs = Ok (b, []) /\ block_rules mined ex_now b /\
  fst (process_block ex_now (mem_chain [par 1 1000]) b) = Err (Msg "difficulty is too low").
Proof.
  assert (K : 1%nat = 1%nat \/ 1%nat = 5%nat) by auto.
  destruct (child_wire 1003 eq_refl) as (bs & R). exists bs, (child 1 0 1003).
  split; [exact R|]. split; [now apply child_rules|].
  apply (C36_too_easy_refuted mined (mem_storage mined) (mem_chain [par 1 1000]) bs (child 1 0 1003) [] ex_now
           (par_hash 1) child_hash (par 1 1000) R (par_hashed 1 1000 K) (child_hashed 1 0 1003) (child_not_par 1 K)
           (par_found 1 1000 0 1003 K)) with (top := par_top 1).
  - rewrite par_window. discriminate.
  - exact mined_hash_laws.
  - exact ex_now_ok.
  - now apply mined_on_typed.
  - apply mined_on_sized. now apply par_hash_len.
  - reflexivity.
  - apply time_unix_wf.
  - now apply par_topped.
  - now apply par_top_pos.
  - now apply child_rules.
  - vm_compute. reflexivity.
  - vm_compute. reflexivity.
Qed.
Print Assumptions C36_witness_refuted.

(** * C37: header responses *)
Theorem C37_responses : forall X S (c : chain X S) hs hh, block_hash X (c_head c) = Ok hh ->
  (Forall (unknown (c_store c) hh) (firstn 14 hs) -> get_block_headers c hs = Ok []) /\
  (forall pre h post, firstn 14 hs = pre ++ h :: post -> Forall (unknown (c_store c) hh) pre ->
     (h = hh -> get_block_headers c hs = Ok []) /\
     (forall b bl, h <> hh -> st_from S (c_store c) (by_hash h) 513 = b :: bl ->
        get_block_headers c hs = Ok (map b_header bl))).
Proof. exact headers_cases. Qed.
Print Assumptions C37_responses.
Theorem C37_bound : forall X S (c : chain X S) hs r,
  (forall i n, (List.length (st_from S (c_store c) i n) <= N.to_nat n)%nat) ->
  get_block_headers c hs = Ok r -> (List.length r <= 512)%nat.
Proof. exact headers_bound. Qed.
Print Assumptions C37_bound.
(** Two stored blocks, a locator with an unknown hash first and the older block second. *)
Example C37_case :
  get_block_headers (mem_chain [child 1 1 1003; par 1 1000]) [brepeat x00 32; par_hash 1] =
  Ok [b_header (child 1 1 1003)].
Proof.
  destruct (C37_responses mined (mem_storage mined) (mem_chain [child 1 1 1003; par 1 1000])
              [brepeat x00 32; par_hash 1] child_hash (child_hashed 1 1 1003)) as (_ & H).
  destruct (H [brepeat x00 32] (par_hash 1) [] eq_refl) as (_ & H2).
  - constructor; [|constructor]. split; [vm_compute; discriminate|].
    match goal with |- ?l = [] => assert (K : match l with [] => true | _ => false end = true) by (vm_compute; reflexivity);
      destruct l; [reflexivity|discriminate K] end.
  - rewrite (H2 (par 1 1000) [child 1 1 1003]); [reflexivity|now apply child_not_par; auto|].
    cbn [st_from mem_storage]. unfold mem_from.
    cbn [by_hash id_hash id_height mem_chain chain_new st_last mem_storage hd_error c_store rev app drop_until].
    unfold id_matches. cbn [by_hash id_hash id_height].
    rewrite (par_hashed 1 1000 (or_introl eq_refl)), bytes_eqb_refl. cbn [andb]. reflexivity.
Qed.
Example C37_limit : forall st : list (block mined),
  forall i n, (List.length (st_from (mem_storage mined) (c_store (mem_chain st)) i n) <= N.to_nat n)%nat.
Proof. intros st i n. apply mem_limit. Qed.

(** * C38: chain validation (refuted both ways), and what it decides *)
Theorem C38_exactly : forall X S (c : chain X S) clock g, block_hash X (c_genesis c) = Ok g ->
  (exists fuel, chain_validate fuel clock c = Some (Ok tt)) <->
  exists k a, ancestor (c_store c) k (c_head c) = Some a /\
    (h_previous (b_header a) = g \/ block_validate X (clock k) a = Ok tt) /\
    (forall j x, (j < k)%nat -> ancestor (c_store c) j (c_head c) = Some x -> exists e, block_validate X (clock j) x = Err e).
Proof. exact validate_nil. Qed.
Print Assumptions C38_exactly.
(** Otherwise, if it ends, either the walk arrived at an invalid block without a stored parent, or the
    validation of a block whose header does not come from the wire crashed. *)
Theorem C38_outcomes : forall X S (c : chain X S) clock g, block_hash X (c_genesis c) = Ok g ->
  forall fuel r, chain_validate fuel clock c = Some r ->
  r = Ok tt \/ exists k a, ancestor (c_store c) k (c_head c) = Some a /\ h_previous (b_header a) <> g /\
    ((r = Err (Msg "invalid previous hash. blockchain integrity is broken") /\ (exists e, block_validate X (clock k) a = Err e) /\
      ancestor (c_store c) (Datatypes.S k) (c_head c) = None) \/
     (r = block_validate X (clock k) a /\ (r = Panic \/ r = Fatal) /\ ~ header_sized (b_header a))).
Proof. exact validate_outcomes. Qed.
Print Assumptions C38_outcomes.
(** A head with an invalid stored parent is fine; so is a child of genesis that breaks every rule;
    and a stored block that is its own parent keeps the loop running for ever. *)
Theorem C38_invalid_parent_refuted : exists c : chain mined (mem_storage mined),
  chain_validate 1 (fun _ => ex_now) c = Some (Ok tt) /\
  exists p, ancestor (c_store c) 1 (c_head c) = Some p /\ block_validate mined ex_now p <> Ok tt.
Proof.
  exists (mem_chain [child 1 1 1003; par 1 1000]). split.
  - apply validate_head with (g := t4_hash); [exact t4_hashed|]. apply child_valid; auto. reflexivity.
  - exists (par 1 1000). split.
    + exact (mem_parent mined (child 1 1 1003) (par 1 1000) child_hash (par_hash 1) (child_hashed 1 1 1003)
        (par_hashed 1 1000 (or_introl eq_refl)) (child_not_par 1 (or_introl eq_refl)) eq_refl (@par_hash_cons 1 (or_introl eq_refl))).
    + assert (K : is_ok (block_validate mined ex_now (par 1 1000)) = false) by (vm_compute; reflexivity).
      intro E. exact (Bool.diff_false_true (eq_trans (eq_sym K) (f_equal is_ok E))).
Qed.
Print Assumptions C38_invalid_parent_refuted.
Theorem C38_invalid_child_refuted : exists c : chain mined (mem_storage mined),
  (forall clock, chain_validate 1 clock c = Some (Ok tt)) /\
  forall now, block_validate mined now (c_head c) = Err (Msg "invalid block version").
Proof.
  exists (mem_chain [bad_child]). split; [|reflexivity].
  intro clock. now apply validate_child with (g := t4_hash); [exact t4_hashed|].
Qed.
Print Assumptions C38_invalid_child_refuted.
Theorem C38_diverges_refuted : exists c : chain mined (mem_storage mined),
  forall clock fuel, chain_validate fuel clock c = None.
Proof.
  exists (mem_chain [ouroboros]). intros clock. apply validate_loops with (g := t4_hash).
  - exact t4_hashed.
  - vm_compute. discriminate.
  - vm_compute. discriminate.
  - exact (mem_first mined ouroboros (h_previous (b_header ouroboros)) ouroboros_parent).
  - intro i. eexists. apply ouroboros_invalid.
Qed.
Print Assumptions C38_diverges_refuted.

(** * C39: opening a chain *)
Theorem C39_opened : forall X S genesis (st : st_state S),
  reports (chain_new (X := X) (S := S) genesis st) genesis
    (match st_last S st with Some l => l | None => genesis end)
    (h_height (b_header (match st_last S st with Some l => l | None => genesis end)))
    (h_total_difficulty (b_header (match st_last S st with Some l => l | None => genesis end))) st.
Proof. exact opened. Qed.
Print Assumptions C39_opened.
(** Closing and reopening after any activity gives the same chain. *)
Theorem C39_restart : forall X S genesis (st : st_state S) os,
  chain_new genesis (c_store (fold_left run os (chain_new (X := X) (S := S) genesis st))) = chain_new genesis st.
Proof. exact restart. Qed.
Print Assumptions C39_restart.
Example C39_case : c_height (mem_chain [child 1 1 1003; par 1 1000]) = 260000 /\ c_td (mem_chain [par 1 1000]) = 1000.
Proof. split; reflexivity. Qed.

(** * C40: total difficulty along accepted blocks (strictness refuted) *)
Theorem C40_total_partial : forall X S (c : chain X S) b now hh bh prev top, hash_laws X ->
  block_hash X (c_head c) = Ok hh -> block_hash X b = Ok bh -> hh <> bh ->
  st_get S (c_store c) (parent_id (b_header b)) = Some prev -> proof_top X (h_pow (b_header prev)) top ->
  fst (process_block now c b) = Ok tt ->
  top <> 0 /\ h_total_difficulty (b_header b) =
    (h_total_difficulty (b_header prev) + 0x0fffffffffffffff / top) mod 2 ^ 64 /\
  (h_total_difficulty (b_header prev) + 0x0fffffffffffffff / top < 2 ^ 64 ->
   h_total_difficulty (b_header prev) <= h_total_difficulty (b_header b)).
Proof. exact accepted_total. Qed.
Print Assumptions C40_total_partial.
Theorem C40_equal_refuted : exists (c : chain mined (mem_storage mined)) b prev,
  st_get (mem_storage mined) (c_store c) (parent_id (b_header b)) = Some prev /\
  fst (process_block ex_now c b) = Ok tt /\
  h_total_difficulty (b_header b) = h_total_difficulty (b_header prev).
Proof.
  exists (mem_chain [par 5 1000]), (child 5 1 1000), (par 5 1000). split; [apply par_found; auto|]. split; [|reflexivity].
  apply child_accepted; [auto|discriminate|vm_compute; reflexivity].
Qed.
Print Assumptions C40_equal_refuted.
Theorem C40_wraps_refuted : exists (c : chain mined (mem_storage mined)) b prev,
  st_get (mem_storage mined) (c_store c) (parent_id (b_header b)) = Some prev /\
  fst (process_block ex_now c b) = Ok tt /\
  h_total_difficulty (b_header b) = 2 /\ h_total_difficulty (b_header prev) = 2 ^ 64 - 1.
Proof.
  exists (mem_chain [par 1 (2 ^ 64 - 1)]), (child 1 1 2), (par 1 (2 ^ 64 - 1)). split; [apply par_found; auto|].
  split; [|split; reflexivity]. apply child_accepted; [auto|discriminate|vm_compute; reflexivity].
Qed.
Print Assumptions C40_wraps_refuted.

(** * C41: the SQL storage stores nothing (refuted) *)
Theorem C41_stores_nothing_refuted : forall X (ops : list (block X)) (st : st_state (sql_storage X)) (i : block_id) (n : N),
  st_get (sql_storage X) (fold_left (st_add (sql_storage X)) ops st) i = None /\
  st_last (sql_storage X) (fold_left (st_add (sql_storage X)) ops st) = None /\
  st_from (sql_storage X) (fold_left (st_add (sql_storage X)) ops st) i n = [].
Proof. exact sql_empty. Qed.
Print Assumptions C41_stores_nothing_refuted.

(** * C62: accepted blocks need not be valid (refuted), and the exact exception *)
Theorem C62_accepted_valid_partial : forall X S (c : chain X S) b now hh bh,
  block_hash X (c_head c) = Ok hh -> block_hash X b = Ok bh ->
  fst (process_block now c b) = Ok tt -> hh = bh \/ block_validate X now b = Ok tt.
Proof. exact accepted_valid. Qed.
Print Assumptions C62_accepted_valid_partial.
Theorem C62_same_hash_refuted : forall X S (c : chain X S) b now hh bh,
  block_hash X (c_head c) = Ok hh -> block_hash X b = Ok bh -> hh = bh -> fst (process_block now c b) = Ok tt.
Proof. exact process_tip. Qed.
Print Assumptions C62_same_hash_refuted.
(** ProcessBlock of the shipped node accepts every block whose proof claims a graph of size 2^0 ... *)
Theorem C62_node_refuted : forall X now (b : block X), p_bits (h_pow (b_header b)) = 0 ->
  fst (process_block now (node_chain X) b) = Ok tt.
Proof. exact node_accepts. Qed.
Print Assumptions C62_node_refuted.
(** ... but blocks decoded from the wire never have one, so what it accepts from peers is valid unless
    BLAKE2b collides with its value on the empty string. *)
Theorem C62_node_wire_partial : forall X now bs (b : block X) rest, block_read X bs = Ok (b, rest) ->
  fst (process_block now (node_chain X) b) = Ok tt ->
  block_validate X now b = Ok tt \/ exists m, m <> [] /\ blake2b X m = blake2b X [].
Proof. exact node_wire. Qed.
Print Assumptions C62_node_wire_partial.
(** The shipped node's chain takes a block with a genuine proof of work from the wire. *)
Example C62_wire_case : exists bs b, block_read mined bs = Ok (b, []) /\
  fst (process_block ex_now (node_chain mined) b) = Ok tt /\ block_rules mined ex_now b.
Proof.
  destruct (child_wire 1003 eq_refl) as (bs & R). exists bs, (child 1 0 1003). split; [exact R|].
  split; [now apply node_takes_child|]. apply child_rules; [now left|reflexivity].
Qed.
Example C62_case : forall X now, fst (process_block now (node_chain X) (Block (b_header bad_child) [] [] [])) = Ok tt /\
  block_validate X now (Block (b_header bad_child) [] [] []) = Err (Msg "invalid block version").
Proof. intros X now. split; [now apply C62_node_refuted|reflexivity]. Qed.

(** * C63: a block's hash commits only to its proof (refuted) *)
Theorem C63_only_proof_refuted : forall X (b1 b2 : block X),
  h_pow (b_header b1) = h_pow (b_header b2) -> block_hash X b1 = block_hash X b2.
Proof. exact hash_of_pow. Qed.
Print Assumptions C63_only_proof_refuted.
Theorem C63_own_parent_refuted : exists b : block mined, block_hash mined b = Ok (h_previous (b_header b)).
Proof. exists ouroboros. exact ouroboros_parent. Qed.
Print Assumptions C63_own_parent_refuted.
Example C63_case : h_pow (b_header ouroboros) = h_pow (b_header (par 1 1000)) /\ b_header ouroboros <> b_header (par 1 1000).
Proof. split; [reflexivity|]. intro E. apply (f_equal h_version) in E. discriminate E. Qed.

(** * C64: batches of headers *)
Theorem C64_batch : forall X S clock (c : chain X S) hs,
  fst (process_headers clock c hs) = Ok tt <->
  forall k h, nth_error hs k = Some h -> header_validate X (clock k) h = Ok tt.
Proof. exact headers_iff. Qed.
Print Assumptions C64_batch.
Theorem C64_first_error : forall X S clock (c : chain X S) pre h post e,
  (forall k x, nth_error pre k = Some x -> header_validate X (clock k) x = Ok tt) ->
  header_validate X (clock (List.length pre)) h = Err e ->
  fst (process_headers clock c (pre ++ h :: post)) = Err e.
Proof. exact headers_error. Qed.
Print Assumptions C64_first_error.
(** Headers in a batch are not checked against each other: one header repeated is accepted. *)
Theorem C64_unlinked_refuted : forall n,
  fst (process_headers (fun _ => ex_now) (mem_chain []) (repeat (mined_on (brepeat x11 32) 0 1) n)) = Ok tt.
Proof.
  intro n. apply C64_batch. intros k h E. apply nth_error_In, repeat_spec in E. subst h.
  apply mined_on_valid; reflexivity.
Qed.
Print Assumptions C64_unlinked_refuted.
Example C64_case : header_validate mined ex_now (b_header bad_child) = Err (Msg "invalid block version") /\
  header_validate mined ex_now (mined_on (brepeat x11 32) 0 1) = Ok tt.
Proof. split; [reflexivity|]. apply mined_on_valid; reflexivity. Qed.
