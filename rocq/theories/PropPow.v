(** Properties C20-C25: proof-of-work verification. Statements only; proofs are in
    SipProofs.v, CycleProofs.v and PowProofs.v; specifications in SpecPow.v. *)
From Coq Require Import Permutation Sorted.
From Verif Require Import Cuckoo SpecPow SipProofs CycleProofs PowProofs ContainProofs PowExamples.

(** * C20: accepted proofs use valid nonces *)
Theorem C20_cuckaroo_nonces_valid : forall v ns eb,
  Forall is_u32 ns -> cuckaroo_verify v ns eb = true ->
  ns <> [] /\ StronglySorted N.lt ns /\ Forall (fun n => n < 2 ^ eb) ns.
Proof. exact cuckaroo_nonces. Qed.
Print Assumptions C20_cuckaroo_nonces_valid.

Theorem C20_cuckoo_nonces_valid : forall b sh ns ease,
  1 <= sh <= 63 -> cuckoo_verify (cuckoo_new b sh) ns ease = true ->
  ns <> [] /\ StronglySorted N.lt ns /\ Forall (fun n => n < (ease * 2 ^ sh) mod 2 ^ 64 / 100) ns.
Proof. intros b sh ns ease Hs H. exact (proj1 (proj1 (cuckoo_verify_unfold b sh ns ease Hs) H)). Qed.
Print Assumptions C20_cuckoo_nonces_valid.

(** Hypotheses are met by a genuine 6-cycle, and by a 4-cycle of the older variant. *)
Example C20_cuckaroo_case : Forall is_u32 ex6_nonces /\ cuckaroo_verify ex6_key ex6_nonces 3 = true.
Proof. exact (conj ex6_u32 ex6_accepted). Qed.
Example C20_cuckoo_case : cuckoo_verify (cuckoo_new ex4_digest 4) ex4_nonces 100 = true.
Proof. exact ex4_accepted. Qed.

(** * C21: every genuine cycle is accepted *)
Theorem C21_cuckaroo_cycles_accepted : forall v ns eb,
  sip_wf v -> Forall is_u32 ns ->
  ns <> [] -> StronglySorted N.lt ns -> Forall (fun n => n < 2 ^ eb) ns ->
  simple_cycle (map (cuckaroo_ends (words_of v) eb) ns) ->
  cuckaroo_verify v ns eb = true.
Proof. exact (fun v ns eb Hv Hu H1 H2 H3 => cuckaroo_complete v ns eb Hv Hu (conj H1 (conj H2 H3))). Qed.
Print Assumptions C21_cuckaroo_cycles_accepted.

Theorem C21_cuckoo_cycles_accepted : forall b sh ns ease,
  1 <= sh <= 63 -> Forall is_u32 ns ->
  ns <> [] -> StronglySorted N.lt ns ->
  Forall (fun n => n < (ease * 2 ^ sh) mod 2 ^ 64 / 100) ns ->
  simple_cycle (map (cuckoo_ends (key_words b) sh) ns) ->
  cuckoo_verify (cuckoo_new b sh) ns ease = true.
Proof. exact (fun b sh ns ease Hs Hu H1 H2 H3 => cuckoo_complete b sh ns ease Hs Hu (conj H1 (conj H2 H3))). Qed.
Print Assumptions C21_cuckoo_cycles_accepted.

(** The graph of a header is keyed by the words of a digest. *)
Theorem C21_cuckaroo_digest : forall d ns eb,
  Forall is_u32 ns -> ns <> [] -> StronglySorted N.lt ns -> Forall (fun n => n < 2 ^ eb) ns ->
  simple_cycle (map (cuckaroo_ends (key_words d) eb) ns) ->
  cuckaroo_verify (new_cuckaroo d) ns eb = true.
Proof. exact (fun d ns eb Hu H1 H2 H3 => cuckaroo_digest_complete d ns eb Hu (conj H1 (conj H2 H3))). Qed.
Print Assumptions C21_cuckaroo_digest.

Example C21_cuckaroo_case :
  sip_wf ex6_key /\ Forall is_u32 ex6_nonces /\ ex6_nonces <> [] /\ StronglySorted N.lt ex6_nonces /\
  Forall (fun n => n < 2 ^ 3) ex6_nonces /\
  simple_cycle (map (cuckaroo_ends (words_of ex6_key) 3) ex6_nonces).
Proof. exact ex6_hyps. Qed.
Example C21_cuckoo_case :
  simple_cycle (map (cuckoo_ends (key_words ex4_digest) 4) ex4_nonces).
Proof. exact ex4_cycle. Qed.

(** * C22: only genuine cycles are accepted *)

(** Full statement, false: for all v ns eb, sip_wf v -> Forall is_u32 ns ->
    cuckaroo_verify v ns eb = true -> simple_cycle (map (cuckaroo_ends (words_of v) eb) ns).
    Witness: 42 nonces (the proof size of the protocol) forming a 10-cycle with a 32-edge path
    hanging off it are accepted. *)
Theorem C22_only_cycles_refuted : exists v ns eb,
  sip_wf v /\ Forall is_u32 ns /\ List.length ns = 42%nat /\
  cuckaroo_verify v ns eb = true /\ ~ simple_cycle (map (cuckaroo_ends (words_of v) eb) ns).
Proof. exact lollipop42. Qed.
Print Assumptions C22_only_cycles_refuted.

Theorem C22_cuckoo_only_cycles_refuted : exists b sh ns ease,
  1 <= sh <= 63 /\ Forall is_u32 ns /\
  cuckoo_verify (cuckoo_new b sh) ns ease = true /\
  ~ simple_cycle (map (cuckoo_ends (key_words b) sh) ns).
Proof. exact lollipop_cuckoo. Qed.
Print Assumptions C22_cuckoo_only_cycles_refuted.

(** What holds: an accepted proof is a cycle exactly if no vertex has more than two of its edges.
    Missing: the verifier itself does not enforce that condition. What every accepted proof is, C100
    says. *)
Theorem C22_cuckaroo_sound_partial : forall v ns eb,
  sip_wf v -> Forall is_u32 ns -> cuckaroo_verify v ns eb = true ->
  simple_cycle (map (cuckaroo_ends (words_of v) eb) ns) <->
  (forall x, (degL (map (cuckaroo_ends (words_of v) eb) ns) x <= 2)%nat /\
             (degR (map (cuckaroo_ends (words_of v) eb) ns) x <= 2)%nat).
Proof. exact cuckaroo_exactly. Qed.
Print Assumptions C22_cuckaroo_sound_partial.

Theorem C22_cuckoo_sound_partial : forall b sh ns ease,
  1 <= sh <= 63 -> Forall is_u32 ns -> cuckoo_verify (cuckoo_new b sh) ns ease = true ->
  simple_cycle (map (cuckoo_ends (key_words b) sh) ns) <->
  (forall x, (degL (map (cuckoo_ends (key_words b) sh) ns) x <= 2)%nat /\
             (degR (map (cuckoo_ends (key_words b) sh) ns) x <= 2)%nat).
Proof. exact cuckoo_exactly. Qed.
Print Assumptions C22_cuckoo_sound_partial.

Example C22_case :
  max_degree_2 (map (cuckaroo_ends (words_of ex6_key) 3) ex6_nonces) /\
  cuckaroo_verify ex6_key ex6_nonces 3 = true.
Proof. exact (conj ex6_degrees ex6_accepted). Qed.

(** * C100: an accepted proof is connected and contains a cycle *)
Theorem C100_cuckaroo_contains_cycle : forall v ns eb,
  sip_wf v -> Forall is_u32 ns -> cuckaroo_verify v ns eb = true ->
  contains_cycle (map (cuckaroo_ends (words_of v) eb) ns) /\ connected (map (cuckaroo_ends (words_of v) eb) ns).
Proof. exact cuckaroo_shape. Qed.
Print Assumptions C100_cuckaroo_contains_cycle.

Theorem C100_cuckoo_contains_cycle : forall b sh ns ease,
  1 <= sh <= 63 -> Forall is_u32 ns -> cuckoo_verify (cuckoo_new b sh) ns ease = true ->
  contains_cycle (map (cuckoo_ends (key_words b) sh) ns) /\
  connected (map (cuckoo_ends (key_words b) sh) ns).
Proof. exact cuckoo_shape. Qed.
Print Assumptions C100_cuckoo_contains_cycle.

Theorem C100_cuckaroo_digest : forall d ns eb,
  Forall is_u32 ns -> cuckaroo_verify (new_cuckaroo d) ns eb = true ->
  contains_cycle (map (cuckaroo_ends (key_words d) eb) ns) /\ connected (map (cuckaroo_ends (key_words d) eb) ns).
Proof. exact cuckaroo_digest_shape. Qed.
Print Assumptions C100_cuckaroo_digest.

(** The 42 nonces of C22, which are not a cycle, and the cycles of C20. *)
Example C100_case : exists v ns eb, sip_wf v /\ Forall is_u32 ns /\ cuckaroo_verify v ns eb = true /\
  ~ simple_cycle (map (cuckaroo_ends (words_of v) eb) ns).
Proof. destruct lollipop42 as (v & ns & eb & A & B & _ & C & D). exists v, ns, eb. auto. Qed.
Example C100_cuckoo_case : Forall is_u32 ex4_nonces /\ cuckoo_verify (cuckoo_new ex4_digest 4) ex4_nonces 100 = true.
Proof. split; [repeat constructor|exact ex4_accepted]. Qed.
(** A digest whose words are the key of the 6-cycle of C20. *)
Example C100_digest_case : cuckaroo_verify (new_cuckaroo ex6_digest) ex6_nonces 3 = true /\ List.length ex6_digest = 32%nat /\
  simple_cycle (map (cuckaroo_ends (key_words ex6_digest) 3) ex6_nonces).
Proof. exact ex6_from_digest. Qed.

(** * C23: the search terminates within the number of edges. [None] stands for "did not stop". *)
Theorem C23_search_terminates : forall es,
  exists c, find_cycle_length es = Some c /\ (c <= List.length es)%nat.
Proof. exact find_cycle_length_bound. Qed.
Print Assumptions C23_search_terminates.

(** The graph of figure 1 of the Cuckoo Cycle paper (cuckoo_test.go:91-106), and the two graphs of
    cuckoo_test.go that must not be taken for cycles. *)
Example C23_case_figure1 : find_cycle_length
  [new_edge 8 5; new_edge 10 5; new_edge 4 9; new_edge 4 13; new_edge 8 9; new_edge 10 13] = Some 6%nat.
Proof. vm_compute. reflexivity. Qed.
Example C23_case_open : find_cycle_length
  [new_edge 1 5; new_edge 5 4; new_edge 4 9; new_edge 9 8; new_edge 8 11; new_edge 11 10] = Some 0%nat.
Proof. vm_compute. reflexivity. Qed.
Example C23_case_triangle : find_cycle_length [new_edge 2 4; new_edge 4 5; new_edge 5 2] = Some 0%nat.
Proof. vm_compute. reflexivity. Qed.

(** * C24: SipHash *)
Theorem C24_siphash : forall v m,
  sip_wf v -> m < 2 ^ 64 ->
  siphash24 v m = siphash_2_4 (sv0 v, sv1 v, sv2 v, sv3 v) m /\ siphash24 v m < 2 ^ 64.
Proof. exact siphash24_eq. Qed.
Print Assumptions C24_siphash.

(** All nonces in use are 32-bit; the statement covers 64-bit ones up to the last block. *)
Theorem C24_siphash_block : forall v n,
  sip_wf v -> n < 2 ^ 64 - 64 ->
  siphash_block v n = siphash_blocked (sv0 v, sv1 v, sv2 v, sv3 v) n /\ siphash_block v n < 2 ^ 64.
Proof. exact siphash_block_eq. Qed.
Print Assumptions C24_siphash_block.

(** The vectors of cuckoo_test.go. *)
Example C24_vectors :
  siphash24 (Sip 1 2 3 4) 10 = 928382149599306901 /\
  siphash24 (Sip 1 2 3 4) 111 = 10524991083049122233 /\
  siphash24 (Sip 9 7 6 7) 12 = 1305683875471634734 /\
  siphash24 (Sip 9 7 6 7) 10 = 11589833042187638814 /\
  siphash_block (Sip 1 2 3 4) 10 = 1182162244994096396 /\
  siphash_block (Sip 1 2 3 4) 123 = 11303676240481718781 /\
  siphash_block (Sip 9 7 6 7) 12 = 4886136884237259030.
Proof. vm_compute. repeat split. Qed.

(** * C25: end points are in range *)
Theorem C25_cuckaroo_edges_in_range : forall v eb n,
  sip_wf v -> is_u32 n ->
  eU (cuckaroo_edge v (cuckaroo_mask eb) n) < 2 ^ eb /\ eV (cuckaroo_edge v (cuckaroo_mask eb) n) < 2 ^ eb.
Proof. exact cuckaroo_edge_range. Qed.
Print Assumptions C25_cuckaroo_edges_in_range.

Theorem C25_cuckoo_edges_in_range : forall b sh n,
  1 <= sh <= 63 -> is_u32 n ->
  eU (cuckoo_edge (cuckoo_new b sh) n) < 2 ^ sh /\ N.even (eU (cuckoo_edge (cuckoo_new b sh) n)) = true /\
  eV (cuckoo_edge (cuckoo_new b sh) n) < 2 ^ sh /\ N.odd (eV (cuckoo_edge (cuckoo_new b sh) n)) = true.
Proof. exact cuckoo_edge_range. Qed.
Print Assumptions C25_cuckoo_edges_in_range.

Example C25_case : ends (cuckaroo_edge ex6_key (cuckaroo_mask 3) 0) = (6, 5).
Proof. vm_compute. reflexivity. Qed.

(** The two proofs of work of cuckoo_test.go (a 42-cycle each way) are accepted: checked by
    evaluation at build time, not part of any proof. *)
Check (@eq_refl bool true <: cuckaroo_verify
  (Sip 0x23796193872092ea 0xf1017d8a68c4b745 0xd312bd53d2cd307b 0x840acce5833ddc52)
  [0x45e9; 0x6a59; 0xf1ad; 0x10ef7; 0x129e8; 0x13e58; 0x17936; 0x19f7f; 0x208df; 0x23704;
   0x24564; 0x27e64; 0x2b828; 0x2bb41; 0x2ffc0; 0x304c5; 0x31f2a; 0x347de; 0x39686; 0x3ab6c;
   0x429ad; 0x45254; 0x49200; 0x4f8f8; 0x5697f; 0x57ad1; 0x5dd47; 0x607f8; 0x66199; 0x686c7;
   0x6d5f3; 0x6da7a; 0x6dbdf; 0x6f6bf; 0x6ffbb; 0x7580e; 0x78594; 0x785ac; 0x78b1d; 0x7b80d;
   0x7c11c; 0x7da35] 19 = true).
