(** In which order blocks are checked, for C115. The rules are those of SpecRules.v and SpecChain.v. *)
From Coq Require Import String.
From Verif Require Import Consensus Chain SpecPow SpecTrail SpecCodec SpecConsensus SpecSchnorr SpecRules SpecChain.

(** Rules in the order they are checked in, each with what is answered if it is the first one broken. *)
Fixpoint verdict (rules : list (Prop * res unit)) (answer : res unit) : Prop :=
  match rules with
  | [] => answer = Ok tt
  | (rule, broken) :: t => (rule /\ verdict t answer) \/ (~ rule /\ answer = broken)
  end.

Definition refused (why : string) : res unit := Err (Msg why).
Arguments refused why%string.

(** The checks on a header: everything cheap before the proof of work. *)
Definition header_table (X : Ext) (now : gotime) (h : header) : list (Prop * res unit) :=
  [(version_valid (h_height h) (h_version h), refused "invalid block version");
   (not_far_future now (h_time h), refused "invalid block time");
   (p_bits (h_pow h) = 29 \/ 30 <= p_bits (h_pow h), refused "cuckoo size too small");
   (p_bits (h_pow h) <> 29 -> h_scaling h = 1, refused "invalid scaling difficulty");
   (pow_valid X h, refused "invalid pow verify")].

(** The first coinbase item of a list. *)
Definition first_coinbase {A} (features : A -> N) (l : list A) (ok : A -> Prop) : Prop :=
  forall a, nth_error (filter (fun x => coinbase (features x)) l) 0 = Some a -> ok a.

(** The checks on a block: range proofs before signatures, the signature of the first coinbase kernel
    before their number. *)
Definition block_table (X : Ext) (now : gotime) (b : block X) : list (Prop * res unit) :=
  header_table X now (b_header b) ++
  [(b_outputs b <> [] /\ b_kernels b <> [], refused "invalid nocoinbase block");
   (key_sorted (input_key X) (b_inputs b), refused "block inputs are not sorted");
   (key_sorted (output_key X) (b_outputs b), refused "block outputs are not sorted");
   (key_sorted (kernel_key X) (b_kernels b), refused "block kernels are not sorted");
   ((count (fun o => coinbase (out_features o)) (b_outputs b) <= 1)%nat, refused "invalid block with few coinbase outputs");
   (Forall (fun o => rp_verify X (out_commit o) (out_proof o) = true) (b_outputs b), refused "proof verification failed");
   (first_coinbase k_features (b_kernels b) (kernel_signed X), refused "signature isn't valid");
   ((count (fun k => coinbase (k_features k)) (b_kernels b) <= 1)%nat, refused "invalid block with few coinbase kernels")].

(** The checks on a block whose parent is known; [top] is the number the parent's difficulty is
    computed from. *)
Definition child_table {X} {S : storage X} (now : gotime) (st : st_state S) (top : N) (parent b : block X) : list (Prop * res unit) :=
  block_table X now b ++
  [((instant (h_time (b_header parent)) < instant (h_time (b_header b)))%Z, refused "invalid block time");
   (top <> 0, Panic);
   (h_total_difficulty (b_header b) =
      (h_total_difficulty (b_header parent) + 0x0fffffffffffffff / top) mod 2 ^ 64, refused "wrong block total difficulty");
   (required_difficulty X (window st (b_header b)) <= h_difficulty (b_header b), refused "difficulty is too low")].

(** The edges a header's nonces stand for, in the graph keyed by the hash of the first 246 bytes of
    [b]. *)
Definition header_edges (X : Ext) (b : bytes) (h : header) : list (N * N) :=
  map (cuckaroo_ends (key_words (blake2b X (firstn 246 b))) (p_bits (h_pow h))) (p_nonces (h_pow h)).

(** All rules on a header but the proof of work. *)
Definition cheap_rules (now : gotime) (h : header) : Prop :=
  version_valid (h_height h) (h_version h) /\ not_far_future now (h_time h) /\ graph_valid h.
