(** Property C112: what the shipped node says. Statements; proofs are in ShippedProofs.v. *)
From Coq Require Import String.
From Verif Require Import GoRT Ext Consensus Messages Chain Pool Sync SpecSync ShippedProofs SyncExamples PoolExamples.

(** The one address it starts with, as written in cmd/node/main.go:24. *)
Example C112_seed : seed = String.list_byte_of_string "127.0.0.1:13414"%string /\
  forall X, map fst (pl_table (nd_pool (shipped X))) = [seed].
Proof. split; reflexivity. Qed.

(** However long it has run and whatever it was sent, a ping is answered with the height and the total
    difficulty of the genesis block, a request for headers with none, a request for a block not at all. *)
Theorem C112_answers : forall X t c i x m, history (shipped X) t -> sender c t i x ->
  match m with
  | MPing _ => o_answers (process_message c t m) = [MPong (PingMsg 10 0)]
  | MGetHeaders _ => o_answers (process_message c t m) = [MHeaders []]
  | MGetPeerAddrs _ => exists l, o_answers (process_message c t m) = [MPeerAddrs l]
  | _ => o_answers (process_message c t m) = []
  end.
Proof. exact shipped_answers. Qed.
Print Assumptions C112_answers.

(** The bytes of the first two answers. *)
Theorem C112_wire : forall X,
  write_message X (MPong (PingMsg 10 0)) = Ok ([x54; x34; x04] ++ be 8 16 ++ be 8 10 ++ be 8 0, 27) /\
  write_message X (MHeaders []) = Ok ([x54; x34; x09] ++ be 8 2 ++ [x00; x00], 13).
Proof. exact pong_frame. Qed.
Print Assumptions C112_wire.

(** The blocks it accepts: those that pass validation on their own, whatever their parent, and those
    with the hash of the genesis block, whatever else is in them. *)
Theorem C112_blocks : forall X t now b, history (shipped X) t ->
  (fst (process_block now (nd_chain t) b) = Ok tt <->
   exists h, block_hash X b = Ok h /\ (h = blake2b X [] \/ block_validate X now b = Ok tt)).
Proof. exact shipped_blocks. Qed.
Print Assumptions C112_blocks.

(** After a ping with a huge height from the first of two connections. *)
Example C112_case : forall X, exists t i x,
  history (shipped X) t /\ sender (first seed) t i x /\ i_height x = 2 ^ 63 /\ t <> shipped X.
Proof.
  intro X. exists (o_node (process_message (first seed) (busy X) (MPing (PingMsg 5 (2 ^ 63))))), 1%nat. eexists.
  split; [apply HyMessage; exact (HyPool _ _ (shipped X) two (shipped X) (HyStart _ _ (shipped X)))|].
  split; [|split].
  - destruct (busy_sender X seed) as (A & B & C). split; [exact A|]. split; [exact B|reflexivity].
  - reflexivity.
  - intro E. apply (f_equal (fun n => List.length (pl_infos (nd_pool n)))) in E. discriminate E.
Qed.
