(** Concrete nodes for the syncer's theorems. *)
From Coq Require Import Permutation.
From Verif Require Import Sync SpecPool SpecSync SpecCodec SpecConsensus SpecRules PoolProofs PoolExamples ChainProofs SyncProofs
  PowCodecProofs BlockCodecProofs RulesProofs Instance CodecExamples RulesExamples ChainExamples.

(** A pool with two connections: the address the shipped node starts with, and "b:2". *)
Definition two : pool := Pool 2 2
  [Info StConnected (Some 1%nat) 1 0 30000 7 false; Info StConnected (Some 0%nat) 1 0 30000 7 false]
  [(seed, 1%nat); (addr_b, 0%nat)] [(addr_b, 0%nat); (seed, 1%nat)] None.
Ltac step tac ::= eapply sys_cons; [tac|cbv -[Z.add Z.sub]].
Lemma run_two : exists s, sys_steps (sys_start None) s /\ y_pool s = two /\ y_run s = RuSelect /\ y_crash s = None /\ live s = 2%nat.
Proof.
  eexists. split.
  - add addr_b. add seed. run_dialled [(seed, 1%nat); (addr_b, 0%nat)] seed 1%nat StNew. run_finish seed 1%nat.
    run_dialled [(seed, 1%nat); (addr_b, 0%nat)] addr_b 0%nat StNew. run_finish addr_b 0%nat. apply YsNone.
  - repeat split; reflexivity.
Qed.

(** The shipped node in that state, and the context of the first connection; [remote] is what that
    connection reports as its address. *)
Definition busy (X : Ext) : node X (sql_storage X) := Node (node_chain X) two None.
Definition first (remote : bytes) : context :=
  Context (fun _ => ex_now) (fun _ => home) (fun _ => addr_a) (pl_table two) seed remote (fun _ => false).
Lemma busy_sender X remote : sender (first remote) (busy X) 1 (Info StConnected (Some 0%nat) 1 0 30000 7 false).
Proof.
  split; [left; reflexivity|]. split; [|reflexivity].
  constructor; [|constructor; [intros []|constructor]]. intros [E|[]]. discriminate E.
Qed.

(** A node on Testnet4 in the same state. *)
Definition busy4 (X : Ext) : node X (sql_storage X) := Node (@chain_new X (sql_storage X) (testnet4 X) tt) two None.
Lemma busy4_sender X remote : sender (first remote) (busy4 X) 1 (Info StConnected (Some 0%nat) 1 0 30000 7 false).
Proof. exact (busy_sender X remote). Qed.

(** Blocks that nobody worked for: version 9, and the proof of the Testnet4 genesis block. *)
Definition junk (X : Ext) (height td : N) : block X :=
  Block (Header 9 height (brepeat x00 32) (brepeat x00 32) (time_unix 0) (brepeat x00 32) (brepeat x00 32) (brepeat x00 32) 0 (brepeat x00 32) [] 0 0
    (h_pow (b_header (testnet4 X))) 0 td 0) [] [] [].
Lemma junk_invalid X td now : exists e, block_validate X now (junk X 0 td) = Err e.
Proof. eexists. reflexivity. Qed.
Definition junk_frame (h td : N) : bytes := match header_bytes (b_header (junk toy h td)) with Ok b => b ++ brepeat x00 24 | _ => [] end.
Lemma junk_received X lenient : received lenient (MBlock (junk X 0 65536)) /\ received lenient (MBlock (junk X 6 3)).
Proof.
  split.
  - exists type_block, (junk_frame 0 65536). vm_compute. reflexivity.
  - exists type_block, (junk_frame 6 3). vm_compute. reflexivity.
Qed.
Lemma junk_accepted X now h td : fst (process_block now (nd_chain (busy4 X)) (junk X h td)) = Ok tt.
Proof.
  assert (K : exists bs, proof_bytes (h_pow (b_header (testnet4 X))) = Ok bs) by (eexists; vm_compute; reflexivity).
  destruct K as (bs & E).
  apply (process_tip X (sql_storage X) (nd_chain (busy4 X)) (junk X h td) now (blake2b X bs) (blake2b X bs)).
  - unfold block_hash, header_hash. cbn [b_header c_head]. change (c_head (nd_chain (busy4 X))) with (testnet4 X). now rewrite E.
  - unfold block_hash, header_hash. change (h_pow (b_header (junk X h td))) with (h_pow (b_header (testnet4 X))). now rewrite E.
  - reflexivity.
Qed.

(** A block at the height of the shipped node's chain that it refuses. *)
Definition bad_block (td : N) : block mined :=
  Block (Header 9 0 [] [] (time_unix 0) [] [] [] 0 [] [] 0 0 (Proof 29 (map N.of_nat (seq 1 42))) 0 td 0) [] [] [].
Lemma bad_refused td : fst (process_block ex_now (node_chain mined) (bad_block td)) = Err (Msg "invalid block version").
Proof. reflexivity. Qed.

(** From the wire: an empty transaction, and a list with one header that does not pass. *)
Definition empty_tx (X : Ext) : transaction X := Transaction (brepeat x00 32) [] [] [].
Lemma empty_tx_received X lenient : received lenient (MTx (empty_tx X)).
Proof. exists type_transaction, (brepeat x00 56). vm_compute. reflexivity. Qed.
Definition junk_header : header := b_header (junk toy 0 65536).
Lemma junk_headers_received X lenient : received (X := X) lenient (MHeaders [junk_header]).
Proof.
  exists type_headers, (match header_bytes junk_header with Ok b => be 2 1 ++ b | _ => [] end). vm_compute. reflexivity.
Qed.
Lemma junk_headers_refused X remote : refused (first remote) (busy X) (MHeaders [junk_header]).
Proof. cbn [refused]. eexists. reflexivity. Qed.

(** The shipped node never lacks what C52 asks of its chain and storage. *)
Lemma shipped_sound X : sound_chain (nd_chain (busy X)) /\ sendable_store (c_store (nd_chain (busy X))).
Proof.
  split; [split|split; [|split]].
  - exists (blake2b X []). exact (header_hash_zero X (b_header (testnet1 X)) eq_refl).
  - intros i b E. discriminate E.
  - intros i n. apply Nat.le_0_l.
  - intros i n b [].
  - intros i b E. discriminate E.
Qed.
