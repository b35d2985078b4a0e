(** Model of consensus/block.go, transaction.go, locator.go, id.go, difficulty.go, consensus.go and
    of Proof.Validate/ToDifficulty/Hash in consensus/proof.go. Logging is dropped. *)
From Verif Require Export Schnorr PowCodec Cuckoo.

(** ** Constants: consensus/consensus.go *)
Definition block_hash_size : N := 32.                        (* line 16 *)
Definition max_coinbase_outputs : nat := 1.                  (* line 39 *)
Definition max_coinbase_kernels : nat := 1.                  (* line 44 *)
Definition block_time_sec : Z := 60.                         (* line 50 *)
Definition default_min_edge_bits : N := 30.                  (* line 57 *)
Definition second_pow_edge_bits : N := 29.                   (* line 60 *)
Definition hard_fork_interval : N := 250000.                 (* line 91 *)
Definition hard_fork_v2_height : N := 95000.                 (* line 94 *)
Definition median_time_window : nat := 11.                   (* line 97 *)
Definition difficulty_adjust_window : nat := 60.             (* line 103 *)
Definition block_time_window : Z := 60 * block_time_sec.     (* line 106; a Duration, so in ns *)
Definition upper_time_bound : Z := block_time_window * 2.    (* line 109 *)
Definition lower_time_bound : Z := block_time_window * 2.    (* line 112 *)
Definition max_target : bytes := [x0f; xff; xff; xff; xff; xff; xff; xff]. (* line 12 *)
(** secp256k1zkp/constants.go:39, 42, 17. *)
Definition pedersen_commitment_size : N := 33.
Definition max_proof_size : N := 5134.
Definition secret_key_size : N := 32.
(** consensus/network.go:70. *)
Definition max_locators : N := 14.
(** consensus/id.go:17. *)
Definition short_id_size : N := 6.
(** consensus/block.go:157, transaction.go:106 — the literal 1000000. *)
Definition max_items : N := 1000000.

(** ** Inputs: consensus/block.go:467-505 *)

(** consensus/block.go:467-470 — type Input. *)
Record input := Input { in_features : N; in_commit : bytes }.

(** consensus/block.go:472-484 — (Input).Bytes. *)
Definition input_bytes (i : input) : bytes := be 1 (in_features i) ++ in_commit i.

(** consensus/block.go:486-499 — (Input).Read. *)
Definition input_read : reader input :=
  do f <- read_be 1;
  do c <- read_full pedersen_commitment_size;
  rret (Input f c).

Section WithExt.
Context (X : Ext).

(** consensus/block.go:502-505 — (Input).Hash. *)
Definition input_hash (i : input) : bytes := blake2b X (input_bytes i).

(** ** Outputs: consensus/block.go:534-626 *)

(** consensus/block.go:534-541 — type Output. Commit is a pointer in Go; every construction in
    /repo sets it. *)
Record output := Output { out_features : N; out_commit : point; out_proof : rproof X }.

(** consensus/block.go:543-556 — BytesWithoutProof. *)
Definition output_bytes_without_proof (o : output) : bytes :=
  be 1 (out_features o) ++ point_enc X (out_commit o).

(** consensus/block.go:559-577 — (Output).Bytes. *)
Definition output_bytes (o : output) : bytes :=
  let proof := rproof_enc X (out_proof o) in
  output_bytes_without_proof o ++ be 8 (lenN proof) ++ proof.

(** consensus/block.go:603-606 — every error of the range proof decoder is replaced. *)
Definition rproof_read_limited (n : N) : reader (rproof X) :=
  fun bs => match limit_reader n (rproof_read X) bs with
            | Err _ => Err (Msg "failed to deserialize range proof")
            | r => r
            end.

(** consensus/block.go:580-610 — (Output).Read. *)
Definition output_read : reader output :=
  do f <- read_be 1;
  do c <- point_read X;
  do n <- read_be 8;
  if max_proof_size <? n then rfail (Msg "invalid range proof length")
  else do q <- rproof_read_limited n; rret (Output f c q).

(** consensus/block.go:613-615 — (Output).Validate: always nil. *)
Definition output_validate (o : output) : res unit := Ok tt.

(** consensus/block.go:623-626 — (Output).Hash. *)
Definition output_hash (o : output) : bytes := blake2b X (output_bytes_without_proof o).

(** ** Kernels: consensus/block.go:652-751 *)

(** consensus/block.go:652-667 — type TxKernel. *)
Record kernel := Kernel {
  k_features : N; k_fee : N; k_lock : N; k_excess : point; k_sig : bytes (* [64]byte *) }.

(** consensus/block.go:676-703 — (TxKernel).Bytes. *)
Definition kernel_bytes (k : kernel) : bytes :=
  be 1 (k_features k) ++ be 8 (k_fee k) ++ be 8 (k_lock k) ++ point_enc X (k_excess k) ++ k_sig k.

(** consensus/block.go:706-730 — (TxKernel).Read. *)
Definition kernel_read : reader kernel :=
  do f <- read_be 1;
  do fee <- read_be 8;
  do lock <- read_be 8;
  do p <- point_read X;
  do s <- read_full 64;
  rret (Kernel f fee lock p s).

(** consensus/block.go:670-673 — (TxKernel).Hash. *)
Definition kernel_hash (k : kernel) : bytes := blake2b X (kernel_bytes k).

(** consensus/block.go:735-751 — (TxKernel).Validate. *)
Definition kernel_validate (k : kernel) : res unit :=
  if verify_signature X (k_excess k) (compute_message (k_fee k) (k_lock k)) (decode_signature X (k_sig k))
  then Ok tt else Err (Msg "signature isn't valid").

(** ** Headers: consensus/block.go:775-1043 *)

(** consensus/block.go:775-812 — type BlockHeader. *)
Record header := Header {
  h_version : N; h_height : N; h_previous : bytes; h_prev_root : bytes; h_time : gotime;
  h_utxo_root : bytes; h_rp_root : bytes; h_kernel_root : bytes; h_nonce : N;
  h_offset : bytes; h_kernel_sum : bytes; h_output_mmr : N; h_kernel_mmr : N;
  h_pow : proof; h_difficulty : N; h_total_difficulty : N; h_scaling : N }.

(** consensus/block.go:815-819 — (BlockHeader).Hash. *)
Definition header_hash (h : header) : res bytes := rmap (blake2b X) (proof_bytes (h_pow h)).

(** len(x) != BlockHashSize, then logrus.Fatal (consensus/block.go:840-861). *)
Definition fatal_unless_32 (l : bytes) : res unit :=
  if lenN l =? block_hash_size then Ok tt else Fatal.

(** consensus/block.go:822-901 — bytesWithoutPOW. The length checks terminate the process before
    anything is returned, so their position among the writes is immaterial. *)
Definition header_bytes_without_pow (h : header) : res bytes :=
  let! _ := fatal_unless_32 (h_previous h) in
  let! _ := fatal_unless_32 (h_prev_root h) in
  let! _ := fatal_unless_32 (h_utxo_root h) in
  let! _ := fatal_unless_32 (h_rp_root h) in
  let! _ := fatal_unless_32 (h_kernel_root h) in
  Ok (be 2 (h_version h) ++ be 8 (h_height h) ++ be 8 (u64_of_i64 (time_to_unix (h_time h))) ++
      h_previous h ++ h_prev_root h ++ h_utxo_root h ++ h_rp_root h ++ h_kernel_root h ++
      h_offset h ++ be 8 (h_output_mmr h) ++ be 8 (h_kernel_mmr h) ++
      be 8 (h_total_difficulty h) ++ be 4 (h_scaling h) ++ be 8 (h_nonce h)).

(** consensus/block.go:903-914 — bytesPOW and (BlockHeader).Bytes. *)
Definition header_bytes (h : header) : res bytes :=
  let! a := header_bytes_without_pow h in
  let! b := proof_enc (h_pow h) in
  Ok (a ++ b).

(** consensus/block.go:917-993 — (BlockHeader).Read, into a fresh header: Difficulty and
    TotalKernelSum keep their zero values. (Every caller in /repo reads into a fresh value.) *)
Definition header_read : reader header :=
  do version <- read_be 2;
  do height <- read_be 8;
  do ts <- read_i64;
  do previous <- read_full block_hash_size;
  do prev_root <- read_full block_hash_size;
  do utxo <- read_full block_hash_size;
  do rp <- read_full block_hash_size;
  do kr <- read_full block_hash_size;
  do offset <- read_full secret_key_size;
  do om <- read_be 8;
  do km <- read_be 8;
  do td <- read_be 8;
  do sc <- read_be 4;
  do nonce <- read_be 8;
  do pow <- proof_read;
  rret (Header version height previous prev_root (time_unix ts) utxo rp kr nonce
               offset [] om km pow 0 td sc).

(** consensus/block.go:1033-1043 — ValidateBlockVersion. *)
Definition validate_block_version (height version : N) : bool :=
  if height <? hard_fork_v2_height then version =? 1
  else if height <? hard_fork_interval then version =? 2
  else if height <? 2 * hard_fork_interval then version =? 3
  else false.

(** consensus/proof.go:32-41 — (Proof).Validate. *)
Definition pow_validate (h : header) : res unit :=
  let! b := header_bytes_without_pow h in
  if cuckaroo_verify (new_cuckaroo (blake2b X b)) (p_nonces (h_pow h)) (p_bits (h_pow h))
  then Ok tt else Err (Msg "invalid pow verify").

(** consensus/block.go:996-1030 — (BlockHeader).Validate at time [now]. *)
Definition header_validate (now : gotime) (h : header) : res unit :=
  if negb (validate_block_version (h_height h) (h_version h)) then Err (Msg "invalid block version")
  else if (1000000000 * 12 * block_time_sec <? time_sub (h_time h) now)%Z then Err (Msg "invalid block time")
  else
    let primary := negb (p_bits (h_pow h) =? second_pow_edge_bits) in
    if (p_bits (h_pow h) <? default_min_edge_bits) && primary then Err (Msg "cuckoo size too small")
    else if primary && negb (h_scaling h =? 1) then Err (Msg "invalid scaling difficulty")
    else pow_validate h.

(** ** Blocks: consensus/block.go:73-326 *)

(** consensus/block.go:73-79 — type Block. *)
Record block := Block {
  b_header : header; b_inputs : list input; b_outputs : list output; b_kernels : list kernel }.

(** consensus/block.go:102-104 — the in-place sorts of Bytes. *)
Definition block_sort (b : block) : block :=
  Block (b_header b) (go_sort X input_hash (b_inputs b)) (go_sort X output_hash (b_outputs b))
        (go_sort X kernel_hash (b_kernels b)).

(** consensus/block.go:82-128 — (Block).Bytes: the bytes, and the block as it is left behind. *)
Definition block_bytes (b : block) : res (bytes * block) :=
  let! hb := header_bytes (b_header b) in
  let b' := block_sort b in
  Ok (hb ++ be 8 (lenN (b_inputs b)) ++ be 8 (lenN (b_outputs b)) ++ be 8 (lenN (b_kernels b)) ++
      flat_map input_bytes (b_inputs b') ++ flat_map output_bytes (b_outputs b') ++
      flat_map kernel_bytes (b_kernels b'), b').

(** The item lists that follow the counts (block.go:167-189, transaction.go:116-135). The counts
    are at most 1000000 here, so make cannot fail. *)
Definition lists_read (ni no nk : N) : reader (list input * list output * list kernel) :=
  do ins <- read_n (N.to_nat ni) input_read;
  do outs <- read_n (N.to_nat no) output_read;
  do kers <- read_n (N.to_nat nk) kernel_read;
  rret (ins, outs, kers).

(** consensus/block.go:136-192 — (Block).Read. *)
Definition block_read : reader block :=
  do h <- header_read;
  do ni <- read_be 8;
  do no <- read_be 8;
  do nk <- read_be 8;
  if max_items <? ni then rfail (Msg "transaction contains too many inputs")
  else if max_items <? no then rfail (Msg "transaction contains too many outputs")
  else if max_items <? nk then rfail (Msg "transaction contains too many kernels")
  else do l <- lists_read ni no nk; rret (Block h (fst (fst l)) (snd (fst l)) (snd l)).

(** consensus/block.go:200-202 — (Block).Hash. *)
Definition block_hash (b : block) : res bytes := header_hash (b_header b).

(** consensus/block.go:252, 276 — Features & 1 == 1. *)
Definition is_coinbase (features : N) : bool := N.land features 1 =? 1.

(** consensus/block.go:248-270 — verifyCoinbase, from a running count. *)
Fixpoint verify_coinbase_from (coinbase : nat) (l : list output) : res unit :=
  match l with
  | [] => Ok tt
  | o :: t =>
      if is_coinbase (out_features o) then
        if Nat.ltb max_coinbase_outputs (S coinbase) then Err (Msg "invalid block with few coinbase outputs")
        else let! _ := output_validate o in verify_coinbase_from (S coinbase) t
      else verify_coinbase_from coinbase t
  end.

(** consensus/block.go:272-296 — verifyKernels, from a running count. *)
Fixpoint verify_kernels_from (coinbase : nat) (l : list kernel) : res unit :=
  match l with
  | [] => Ok tt
  | k :: t =>
      if is_coinbase (k_features k) then
        if Nat.ltb max_coinbase_kernels (S coinbase) then Err (Msg "invalid block with few coinbase kernels")
        else let! _ := kernel_validate k in verify_kernels_from (S coinbase) t
      else verify_kernels_from coinbase t
  end.

(** consensus/block.go:299-313 — verifySorted. *)
Definition verify_sorted (b : block) : res unit :=
  if negb (is_sorted input_hash (b_inputs b)) then Err (Msg "block inputs are not sorted")
  else if negb (is_sorted output_hash (b_outputs b)) then Err (Msg "block outputs are not sorted")
  else if negb (is_sorted kernel_hash (b_kernels b)) then Err (Msg "block kernels are not sorted")
  else Ok tt.

(** consensus/block.go:316-326 — verifyRangeProofs. *)
Fixpoint verify_range_proofs (l : list output) : res unit :=
  match l with
  | [] => Ok tt
  | o :: t => if negb (rp_verify X (out_commit o) (out_proof o)) then Err (Msg "proof verification failed")
              else verify_range_proofs t
  end.

(** consensus/block.go:205-246 — (Block).Validate at time [now]. *)
Definition block_validate (now : gotime) (b : block) : res unit :=
  let! _ := header_validate now (b_header b) in
  if (lenN (b_outputs b) =? 0) || (lenN (b_kernels b) =? 0) then Err (Msg "invalid nocoinbase block")
  else
    let! _ := verify_sorted b in
    let! _ := verify_coinbase_from 0 (b_outputs b) in
    let! _ := verify_range_proofs (b_outputs b) in
    verify_kernels_from 0 (b_kernels b).

(** ** Compact blocks: consensus/block.go:334-463 *)

(** consensus/block.go:334-343 — type CompactBlock. *)
Record compact_block := CompactBlock {
  cb_header : header; cb_outputs : list output; cb_kernels : list kernel; cb_ids : list bytes }.

(** consensus/block.go:365-367 — the in-place sorts; ShortIDList compares the ids themselves
    (id.go:56-58). *)
Definition compact_sort (b : compact_block) : compact_block :=
  CompactBlock (cb_header b) (go_sort X output_hash (cb_outputs b))
    (go_sort X kernel_hash (cb_kernels b)) (go_sort X (fun i => i) (cb_ids b)).

(** consensus/block.go:346-391 — (CompactBlock).Bytes; uint8(len) truncates. *)
Definition compact_bytes (b : compact_block) : res (bytes * compact_block) :=
  let! hb := header_bytes (cb_header b) in
  let b' := compact_sort b in
  Ok (hb ++ be 1 (lenN (cb_outputs b)) ++ be 1 (lenN (cb_kernels b)) ++ be 8 (lenN (cb_ids b)) ++
      flat_map output_bytes (cb_outputs b') ++ flat_map kernel_bytes (cb_kernels b') ++
      concat (cb_ids b'), b').

(** consensus/block.go:442-450 — reading [n] short ids. The announced count is 64-bit, so the loop
    is fuelled by the bytes at hand: it stops with an error when they run out. *)
Fixpoint ids_read (fuel : nat) (n : N) (bs : bytes) : res (list bytes * bytes) :=
  if n =? 0 then Ok ([], bs)
  else match fuel with
       | O => Err EOF
       | S fuel' =>
           match read_full short_id_size bs with
           | Ok (id, rest) => let! r := ids_read fuel' (n - 1) rest in Ok (id :: fst r, snd r)
           | Err e => Err e
           | Panic => Panic
           | Fatal => Fatal
           end
       end.

(** consensus/block.go:399-453 — (CompactBlock).Read. make(ShortIDList, kernelIDs) is unchecked;
    a ShortID is a 24-byte slice header. *)
Definition compact_read : reader compact_block :=
  do h <- header_read;
  do no <- read_be 1;
  do nk <- read_be 1;
  do nid <- read_be 8;
  do outs <- read_n (N.to_nat no) output_read;
  do kers <- read_n (N.to_nat nk) kernel_read;
  do _ <- lift (go_make 24 nid);
  do ids <- (fun bs => ids_read (List.length bs) nid bs);
  rret (CompactBlock h outs kers ids).

(** ** Transactions: consensus/transaction.go *)

(** consensus/transaction.go:18-27 — type Transaction. *)
Record transaction := Transaction {
  tx_offset : bytes (* [32]byte *);
  tx_inputs : list input; tx_outputs : list output; tx_kernels : list kernel }.

(** consensus/transaction.go:52-54 — the in-place sorts. *)
Definition tx_sort (t : transaction) : transaction :=
  Transaction (tx_offset t) (go_sort X input_hash (tx_inputs t)) (go_sort X output_hash (tx_outputs t))
    (go_sort X kernel_hash (tx_kernels t)).

(** consensus/transaction.go:30-78 — (Transaction).Bytes. Inputs are written without their feature
    byte (line 58). *)
Definition tx_bytes (t : transaction) : bytes * transaction :=
  let t' := tx_sort t in
  (tx_offset t ++ be 8 (lenN (tx_inputs t)) ++ be 8 (lenN (tx_outputs t)) ++ be 8 (lenN (tx_kernels t)) ++
   flat_map in_commit (tx_inputs t') ++ flat_map output_bytes (tx_outputs t') ++
   flat_map kernel_bytes (tx_kernels t'), t').

(** consensus/transaction.go:86-153 — (Transaction).Read. *)
Definition tx_read : reader transaction :=
  do off <- read_full 32;
  do ni <- read_be 8;
  do no <- read_be 8;
  do nk <- read_be 8;
  if max_items <? ni then rfail (Msg "transaction contains too many inputs")
  else if max_items <? no then rfail (Msg "transaction contains too many outputs")
  else if max_items <? nk then rfail (Msg "transaction contains too many kernels")
  else
    do l <- lists_read ni no nk;
    let ins := fst (fst l) in let outs := snd (fst l) in let kers := snd l in
    if negb (is_sorted input_hash ins) then rfail (Msg "consensus error: inputs are not sorted")
    else if negb (is_sorted output_hash outs) then rfail (Msg "consensus error: outputs are not sorted")
    else if negb (is_sorted kernel_hash kers) then rfail (Msg "consensus error: kernels are not sorted")
    else rret (Transaction off ins outs kers).

(** ** Short ids: consensus/id.go *)

(** consensus/id.go:29-40 — (Hash).ShortID; blockHash[:8] and blockHash[8:16] panic on a short
    slice. (Slicing up to cap rather than len is not modelled: hashes in /repo are exact-size.) *)
Definition short_id (h block_hash : bytes) : res bytes :=
  if lenN block_hash <? 16 then Panic
  else
    let k0 := unle (slice 0 8 block_hash) in
    let k1 := unle (slice 8 8 block_hash) in
    Ok (slice 0 6 (le 8 (sip_lib X k0 k1 h))).

(** ** Difficulty: consensus/difficulty.go *)

(** consensus/difficulty.go:29-36 — FromHash: hash[:8] panics on a short slice, the division on 0. *)
Definition diff_from_hash (hash : bytes) : res N :=
  if lenN hash <? 8 then Panic
  else let num := unbe (slice 0 8 hash) in
       if num =? 0 then Panic else Ok (unbe max_target / num).

(** consensus/proof.go:45-53 — (Proof).ToDifficulty and (Proof).Hash. *)
Definition proof_hash (p : proof) : res bytes := rmap (blake2b X) (proof_enc p).
Definition to_difficulty (p : proof) : res N := let! h := proof_hash p in diff_from_hash h.

(** consensus/difficulty.go:69-83 — the loop of NextDifficulty, i running down from [i - 1]; the
    accumulators are sumDiff, windowBegin, windowEnd. Break: no further iteration. *)
Fixpoint window_loop (i : nat) (bl : list block) (acc : N * list gotime * list gotime)
  : N * list gotime * list gotime :=
  match i with
  | O => acc
  | S i' =>
      match nth_error bl i' with
      | None => acc (* unreachable: i' < len(blist) *)
      | Some b =>
          let '(sum, wb, we) := acc in
          if Nat.ltb i' difficulty_adjust_window then
            window_loop i' bl
              (w64 (sum + h_difficulty (b_header b)),
               if Nat.ltb i' median_time_window then wb ++ [h_time (b_header b)] else wb, we)
          else if Nat.ltb i' (difficulty_adjust_window + median_time_window) then
            window_loop i' bl (sum, wb, we ++ [h_time (b_header b)])
          else acc
      end
  end.

(** sort.SliceStable by Before: the stable sort is unique, so any one will do. *)
Fixpoint time_insert (t : gotime) (l : list gotime) : list gotime :=
  match l with
  | [] => [t]
  | u :: r => if time_before t u then t :: l else u :: time_insert t r
  end.
Fixpoint time_sort_acc (acc l : list gotime) : list gotime :=
  match l with [] => acc | t :: r => time_sort_acc (time_insert t acc) r end.
Definition time_sort (l : list gotime) : list gotime := time_sort_acc [] l.

(** l[len(l)/2]. *)
Definition median (l : list gotime) : res gotime :=
  match nth_error l (List.length l / 2) with Some t => Ok t | None => Panic end.

(** consensus/difficulty.go:54-120 — NextDifficulty. Durations are int64: + wraps, / truncates
    toward zero. Difficulty is uint64: + and * wrap. *)
Definition next_difficulty (bl : list block) : res N :=
  match bl with
  | [] => Ok 0
  | _ =>
      let '(sum, wb, we) := window_loop (List.length bl) bl (0, [], []) in
      if Nat.ltb (List.length we) median_time_window then Ok 1
      else
        let! bt := median (time_sort wb) in
        let! et := median (time_sort we) in
        let avg := sum / N.of_nat difficulty_adjust_window in
        let ts := Z.quot (wrap64 (3 * block_time_window + time_sub bt et)) 4 in
        let ts := if (ts <? lower_time_bound)%Z then lower_time_bound else ts in
        let ts := if (upper_time_bound <? ts)%Z then upper_time_bound else ts in
        let diff := w64 (avg * Z.to_N block_time_window) / u64_of_i64 ts in
        Ok (if 1 <? diff then diff else 1)
  end.

End WithExt.

(** ** Locators: consensus/locator.go *)

(** consensus/locator.go:20-39 — (Locator).Bytes. *)
Definition locator_bytes (hs : list bytes) : res bytes :=
  if max_locators <? lenN hs then Fatal else Ok (be 1 (lenN hs) ++ concat hs).

(** consensus/locator.go:42-63 — (Locator).Read. *)
Definition locator_read : reader (list bytes) :=
  do n <- read_be 1;
  if max_locators <? n then rfail (Msg "too big locator len from peer")
  else read_n (N.to_nat n) (read_full block_hash_size).

Arguments Output {X}.
Arguments out_features {X}.
Arguments out_commit {X}.
Arguments out_proof {X}.
Arguments Block {X}.
Arguments b_header {X}.
Arguments b_inputs {X}.
Arguments b_outputs {X}.
Arguments b_kernels {X}.
Arguments CompactBlock {X}.
Arguments cb_header {X}.
Arguments cb_outputs {X}.
Arguments cb_kernels {X}.
Arguments cb_ids {X}.
Arguments Transaction {X}.
Arguments tx_offset {X}.
Arguments tx_inputs {X}.
Arguments tx_outputs {X}.
Arguments tx_kernels {X}.
