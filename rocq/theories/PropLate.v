(** Property C120: to whom a block is relayed when the records change meanwhile. Statements; proofs are in
    LateProofs.v, executions in LateExamples.v, the specification in SpecLate.v. *)
From Verif Require Import Sync SpecPool SpecSync SpecDial SpecRecord SpecLate LateProofs PoolExamples SyncExamples LateExamples.

(** * C120: the goroutines that relay a block read the records late *)

(** If nothing happens in between, the block goes to those that [propagate] says (C73). *)
Theorem C120_alone : forall height td p, propagate height td p =
  flat_map (fun kv => match relay_late height td (snd kv) p p p with Some c => [c] | None => [] end) (pl_up p).
Proof. exact late_alone. Qed.
Print Assumptions C120_alone.

(** In general, if it is sent, then the record was behind at one moment, and the block goes to the
    connection which the record has when Peer is read; that was made by Run. *)
Theorem C120_reads : forall bans s l t height td i v1 v2 v3 cn, sys_steps (sys_start bans) s -> trace s l t -> in_order l v1 v2 v3 ->
  relay_late height td i (y_pool v1) (y_pool v2) (y_pool v3) = Some cn ->
  (exists v x, In v l /\ nth_error (pl_infos (y_pool v)) i = Some x /\ below height td x) /\
  (exists x, nth_error (pl_infos (y_pool v3)) i = Some x /\ i_peer x = Some cn) /\
  (exists a d, connected_before bans v3 a i cn d).
Proof. exact late_reads. Qed.
Print Assumptions C120_reads.
(** And it is sent if the record has the connection all the time and its height, or its difficulty, is too low
    all the time. *)
Theorem C120_sent : forall l height td i v1 v2 v3 cn, in_order l v1 v2 v3 ->
  (forall v, In v l -> exists x, nth_error (pl_infos (y_pool v)) i = Some x /\ i_peer x = Some cn) ->
  (forall v x, In v l -> nth_error (pl_infos (y_pool v)) i = Some x -> i_height x < height) \/
  (forall v x, In v l -> nth_error (pl_infos (y_pool v)) i = Some x -> i_td x < td) ->
  relay_late height td i (y_pool v1) (y_pool v2) (y_pool v3) = Some cn.
Proof. exact late_sent. Qed.
Print Assumptions C120_sent.
Example C120_sent_case : forall bans, exists s, sys_steps (sys_start bans) s /\ trace s [s] s /\ in_order [s] s s s /\
  (forall v, In v [s] -> exists x, nth_error (pl_infos (y_pool v)) 0 = Some x /\ i_peer x = Some 0%nat) /\
  (forall v x, In v [s] -> nth_error (pl_infos (y_pool v)) 0 = Some x -> i_height x < 5) /\
  relay_late 5 100 0 (y_pool s) (y_pool s) (y_pool s) = Some 0%nat.
Proof. exact stays. Qed.

(** It is not enough that the record is behind all the time: first in the difficulty, then in the height. *)
Theorem C120_missed_refuted : forall bans, exists s t, sys_steps (sys_start bans) s /\ trace s [s; t] t /\ in_order [s; t] s t t /\ y_crash t = None /\
  In (addr_a, 0%nat) (pl_up (y_pool s)) /\
  (forall v, In v [s; t] -> exists x, nth_error (pl_infos (y_pool v)) 0 = Some x /\ i_peer x = Some 0%nat /\ below 5 100 x) /\
  relay_late 5 100 0 (y_pool s) (y_pool t) (y_pool t) = None.
Proof. exact missed. Qed.
Print Assumptions C120_missed_refuted.
(** The block can go to a connection that was not there when it arrived and whose peer has it already. *)
Theorem C120_other_refuted : forall bans, exists s l t x y, sys_steps (sys_start bans) s /\ trace s l t /\ in_order l s s t /\ y_run t = RuSelect /\ y_crash t = None /\
  In (addr_a, 0%nat) (pl_up (y_pool s)) /\
  nth_error (pl_infos (y_pool s)) 0 = Some x /\ i_peer x = Some 0%nat /\ nth_error (pl_infos (y_pool t)) 0 = Some y /\ i_peer y = Some 1%nat /\
  ~ below 0 50000 y /\ relay_late 0 50000 0 (y_pool s) (y_pool s) (y_pool t) = Some 1%nat.
Proof. exact other_connection. Qed.
Print Assumptions C120_other_refuted.

(** It can go back to the one that sent it: if the sender's next message is a ping that says less than the
    block, as all pings of this program do, and the goroutine reads the record after that. Had it read the
    record before, it would not have. *)
Theorem C120_echo_refuted : forall X S c (n : node X S) i x b p cn, sender c n i x -> fst (process_block (x_clock c 0%nat) (nd_chain n) b) = Ok tt ->
  i_peer x = Some cn -> pg_height p < h_height (b_header b) \/ pg_difficulty p < h_total_difficulty (b_header b) ->
  let n1 := o_node (process_message c n (MBlock b)) in let n2 := o_node (process_message c n1 (MPing p)) in
  relay_late (h_height (b_header b)) (h_total_difficulty (b_header b)) i (nd_pool n1) (nd_pool n1) (nd_pool n1) = None /\
  relay_late (h_height (b_header b)) (h_total_difficulty (b_header b)) i (nd_pool n2) (nd_pool n2) (nd_pool n2) = Some cn.
Proof. exact echoed. Qed.
Print Assumptions C120_echo_refuted.
Example C120_echo_case : forall X remote, sender (first remote) (busy4 X) 1 (Info StConnected (Some 0%nat) 1 0 30000 7 false) /\
  fst (process_block (x_clock (first remote) 0%nat) (nd_chain (busy4 X)) (junk X 0 65536)) = Ok tt /\
  h_height (b_header (junk X 0 65536)) = c_height (nd_chain (busy4 X)) /\ 1 < h_total_difficulty (b_header (junk X 0 65536)).
Proof.
  intros X remote. split; [exact (busy4_sender X remote)|]. split; [exact (junk_accepted X _ 0 65536)|]. split; [reflexivity|].
  cbn [junk b_header]. reflexivity.
Qed.
