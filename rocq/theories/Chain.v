(** The chain and its storage: chain/chain.go, chain/storage.go, storage/mysql.go. *)
From Verif Require Export Consensus.

(** ** Identifiers and storage *)

(** consensus/block.go:65-70 — BlockID; a nil hash or height is None. *)
Record block_id := BlockId { id_hash : option bytes; id_height : option N }.

Section WithExt.
Context (X : Ext).

(** chain/storage.go:11-24 — interface Storage. A backend has a state; the read methods do not
    change it. (A backend whose reads have side effects is not modelled.) Blocks are values: that
    GetBlock hands out pointers which Bytes later sorts in place is not modelled. *)
Record storage := Storage {
  st_state : Type;
  st_add : st_state -> block X -> st_state;
  st_del : st_state -> block_id -> st_state;
  st_get : st_state -> block_id -> option (block X);
  st_last : st_state -> option (block X);
  st_from : st_state -> block_id -> N -> list (block X) }.

(** storage/mysql.go:32-55 — SqlStorage: every method is a stub. *)
Definition sql_storage : storage :=
  {| st_state := unit;
     st_add := fun _ _ => tt;                                (* 32-34 *)
     st_del := fun _ _ => tt;                                (* 37-39 *)
     st_get := fun _ _ => None;                              (* 43-45 *)
     st_last := fun _ => None;                               (* 53-55 *)
     st_from := fun _ _ _ => [] |}.                          (* 48-50 *)

Context (S : storage).

(** chain/chain.go:171-185 — type Chain, without its lock: every method that takes it holds it
    until it returns, and no method called under the lock takes it again. *)
Record chain := Chain {
  c_store : st_state S; c_genesis : block X; c_head : block X; c_height : N; c_td : N }.

(** chain/chain.go:187-205 — New. *)
Definition chain_new (genesis : block X) (st : st_state S) : chain :=
  match st_last S st with
  | Some last => Chain st genesis last (h_height (b_header last)) (h_total_difficulty (b_header last))
  | None => Chain st genesis genesis (h_height (b_header genesis)) (h_total_difficulty (b_header genesis))
  end.

(** consensus/network.go — MaxBlockHeaders + 1 (chain.go:247). *)
Definition headers_limit : N := 512 + 1.

(** chain/chain.go:234-259 — the loop of GetBlockHeaders. *)
Fixpoint locate (c : chain) (hs : list bytes) : res (list header) :=
  match hs with
  | [] => Ok []
  | h :: t =>
      let! hh := block_hash X (c_head c) in
      if bytes_eqb h hh then Ok []
      else match st_from S (c_store c) (BlockId (Some h) None) headers_limit with
           | [] => locate c t
           | _ :: bl => Ok (map b_header bl)
           end
  end.
(** chain/chain.go:223-262 — GetBlockHeaders. *)
Definition get_block_headers (c : chain) (hs : list bytes) : res (list header) :=
  locate c (if max_locators <? lenN hs then takeN max_locators hs else hs).

(** chain/chain.go:265-274 — GetBlock; a nil hash is the empty byte string (other empty hashes do
    not occur: hashes come from 32-byte reads and digests). *)
Definition get_block (c : chain) (h : bytes) : option (block X) :=
  match h with [] => None | _ => st_get S (c_store c) (BlockId (Some h) None) end.
(** chain/chain.go:277-279 — GetBlockID. *)
Definition get_block_id (c : chain) (i : block_id) : option (block X) := st_get S (c_store c) i.

(** chain/chain.go:281-288 — ProcessHeaders; the clock read by the [i]-th validation is [clock i]. *)
Fixpoint process_headers_from (clock : nat -> gotime) (i : nat) (hs : list header) : res unit :=
  match hs with
  | [] => Ok tt
  | h :: t => let! _ := header_validate X (clock i) h in process_headers_from clock (Datatypes.S i) t
  end.
Definition process_headers (clock : nat -> gotime) (c : chain) (hs : list header) : res unit * chain :=
  (process_headers_from clock 0 hs, c).

(** chain/chain.go:338 — int(DifficultyAdjustWindow + MedianTimeWindow). *)
Definition window_limit : N := N.of_nat (difficulty_adjust_window + median_time_window).

(** chain/chain.go:290-357 — ProcessBlock at time [now]; heights and difficulties are uint64, so
    Height - 1 and the sum wrap. Logging is left out. (Previous is taken as non-nil in line 312:
    it is 32 bytes in every block that was read.) *)
Definition process_block (now : gotime) (c : chain) (b : block X) : res unit * chain :=
  (let! hh := block_hash X (c_head c) in
   let! bh := block_hash X b in
   if bytes_eqb hh bh then Ok tt
   else
     let! _ := block_validate X now b in
     let prev_height := w64 (h_height (b_header b) + (2 ^ 64 - 1)) in
     match st_get S (c_store c) (BlockId (Some (h_previous (b_header b))) (Some prev_height)) with
     | None => Ok tt
     | Some prev =>
         if negb (time_after (h_time (b_header b)) (h_time (b_header prev))) then Err (Msg "invalid block time")
         else
           let! d := to_difficulty X (h_pow (b_header prev)) in
           if negb (h_total_difficulty (b_header b) =? w64 (h_total_difficulty (b_header prev) + d))
           then Err (Msg "wrong block total difficulty")
           else
             let from := if window_limit <? h_height (b_header b)
                         then h_height (b_header b) - window_limit else 0 in
             let! avg := next_difficulty X (st_from S (c_store c) (BlockId None (Some from)) window_limit) in
             if h_difficulty (b_header b) <? avg then Err (Msg "difficulty is too low") else Ok tt
     end, c).

(** chain/chain.go:365-387 — the loop of Validate, from [b], for at most [fuel] iterations; None: it
    is still running. The clock read by the [i]-th validation is [clock i]. *)
Fixpoint validate_from (fuel : nat) (clock : nat -> gotime) (i : nat) (c : chain) (b : block X) : option (res unit) :=
  match fuel with
  | O => None
  | Datatypes.S fuel =>
      match block_hash X (c_genesis c) with
      | Ok g =>
          if bytes_eqb (h_previous (b_header b)) g then Some (Ok tt)
          else
            match block_validate X (clock i) b with
            | Ok _ => Some (Ok tt)
            | Err _ =>
                match get_block c (h_previous (b_header b)) with
                | None => Some (Err (Msg "invalid previous hash. blockchain integrity is broken"))
                | Some p => validate_from fuel clock (Datatypes.S i) c p
                end
            | Panic => Some Panic
            | Fatal => Some Fatal
            end
      | Err e => Some (Err e)
      | Panic => Some Panic
      | Fatal => Some Fatal
      end
  end.
Definition chain_validate (fuel : nat) (clock : nat -> gotime) (c : chain) : option (res unit) :=
  validate_from fuel clock 0 c (c_head c).

(** ** Genesis blocks: chain/chain.go:17-169. Fields not mentioned there have their zero values
    (nil slices: []). *)
Definition zero32 : bytes := brepeat x00 32.
Definition genesis_block (ts : Z) (td nonce : N) (offset sum : bytes) (pow : proof) : block X :=
  Block (Header 1 0 (brepeat xff 32) [] (time_unix ts) zero32 zero32 zero32 nonce offset sum 0 0 pow 0 td 0) [] [] [].

(** Lines 31-39 and 158-166. *)
Definition testnet1_nonces : list N :=
  [0x21e; 0x7a2; 0xeae; 0x144e; 0x1b1c; 0x1fbd; 0x203a; 0x214b; 0x293b; 0x2b74; 0x2bfa; 0x2c26;
   0x32bb; 0x346a; 0x34c7; 0x37c5; 0x4164; 0x42cc; 0x4cc3; 0x55af; 0x5a70; 0x5b14; 0x5e1c; 0x5f76;
   0x6061; 0x60f9; 0x61d7; 0x6318; 0x63a1; 0x63fb; 0x649b; 0x64e5; 0x65a1; 0x6b69; 0x70f8; 0x71c7;
   0x71cd; 0x7492; 0x7b11; 0x7db8; 0x7f29; 0x7ff8].
(** Lines 60-68. *)
Definition testnet2_nonces : list N :=
  [0x43ee48; 0x18d5a49; 0x2b76803; 0x3181a29; 0x39d6a8a; 0x39ef8d8;
   0x478a0fb; 0x69c1f9e; 0x6da4bca; 0x6f8782c; 0x9d842d7; 0xa051397;
   0xb56934c; 0xbf1f2c7; 0xc992c89; 0xce53a5a; 0xfa87225; 0x1070f99e;
   0x107b39af; 0x1160a11b; 0x11b379a8; 0x12420e02; 0x12991602; 0x12cc4a71;
   0x13d91075; 0x15c950d0; 0x1659b7be; 0x1682c2b4; 0x1796c62f; 0x191cf4c9;
   0x19d71ac0; 0x1b812e44; 0x1d150efe; 0x1d15bd77; 0x1d172841; 0x1d51e967;
   0x1ee1de39; 0x1f35c9b3; 0x1f557204; 0x1fbf884f; 0x1fcf80bf; 0x1fd59d40].
(** Lines 95-102. *)
Definition testnet3_nonces : list N :=
  [0xa420dc; 0xc8ffee; 0x10e433e; 0x1de9428; 0x2ed4cea; 0x52d907b; 0x5af0e3f;
   0x6b8fcae; 0x8319b53; 0x845ca8c; 0x8d2a13e; 0x8d6e4cc; 0x9349e8d; 0xa7a33c5;
   0xaeac3cb; 0xb193e23; 0xb502e19; 0xb5d9804; 0xc9ac184; 0xd4f4de3; 0xd7a23b8;
   0xf1d8660; 0xf443756; 0x10b833d2; 0x11418fc5; 0x11b8aeaf; 0x131836ec; 0x132ab818;
   0x13a46a55; 0x13df89fe; 0x145d65b5; 0x166f9c3a; 0x166fe0ef; 0x178cb36f; 0x185baf68;
   0x1bbfe563; 0x1bd637b4; 0x1cfc8382; 0x1d1ed012; 0x1e391ca5; 0x1e999b4c; 0x1f7c6d21].
(** Lines 131-138. *)
Definition testnet4_nonces : list N :=
  [0x46f3b4; 0x1135f8c; 0x1a1596f; 0x1e10f71; 0x41c03ea; 0x63fe8e7; 0x65af34f;
   0x73c16d3; 0x8216dc3; 0x9bc75d0; 0xae7d9ad; 0xc1cb12b; 0xc65e957; 0xf67a152;
   0xfac6559; 0x100c3d71; 0x11eea08b; 0x1225dfbb; 0x124d61a1; 0x132a14b4; 0x13f4ec38;
   0x1542d236; 0x155f2df0; 0x1577394e; 0x163c3513; 0x19349845; 0x19d46953; 0x19f65ed4;
   0x1a0411b9; 0x1a2fa039; 0x1a72a06c; 0x1b02ddd2; 0x1b594d59; 0x1b7bffd3; 0x1befe12e;
   0x1c82e4cd; 0x1d492478; 0x1de132a5; 0x1e578b3c; 0x1ed96855; 0x1f222896; 0x1fea0da6].

(** Lines 17-42: 16 November 2017, 20:00 UTC. *)
Definition testnet1 : block X := genesis_block 1510862400 10 28205 [] [] (Proof 0 testnet1_nonces).
(** Lines 45-71. *)
Definition testnet2 : block X := genesis_block 1510862400 0 70081 [] [] (Proof 0 testnet2_nonces).
(** Lines 75-105: 8 July 2018, 18:00 UTC. *)
Definition testnet3 : block X :=
  genesis_block 1531072800 30000 4956988373127691 zero32 (brepeat x00 33) (Proof 30 testnet3_nonces).
(** Lines 107-141: 17 October 2018, 20:00 UTC; difficulty (2 << (29-24)) * 29 * 1000000. *)
Definition testnet4 : block X :=
  genesis_block 1539806400 (N.shiftl 2 (29 - 24) * 29 * 1000000) 8612241555342799290 zero32 (brepeat x00 33)
    (Proof 29 testnet4_nonces).
(** Lines 144-169: 14 August 2018, 00:00 UTC. *)
Definition mainnet : block X := genesis_block 1534204800 1000 28205 [] [] (Proof 0 testnet1_nonces).
End WithExt.

Arguments st_state {X}. Arguments st_add {X}. Arguments st_del {X}. Arguments st_get {X}.
Arguments st_last {X}. Arguments st_from {X}.
Arguments Chain {X S}. Arguments c_store {X S}. Arguments c_genesis {X S}. Arguments c_head {X S}.
Arguments c_height {X S}. Arguments c_td {X S}.
Arguments locate {X S}. Arguments get_block_headers {X S}. Arguments get_block {X S}. Arguments get_block_id {X S}.
Arguments process_headers {X S}. Arguments process_block {X S}. Arguments validate_from {X S}.
Arguments chain_validate {X S}. Arguments chain_new {X S}.

(** cmd/node/main.go:22 — the chain of the shipped node. *)
Definition node_chain (X : Ext) : chain X (sql_storage X) :=
  @chain_new X (sql_storage X) (testnet1 X) tt.
