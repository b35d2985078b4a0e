(** Property C136: how the handling of a message ends. Statements only; proofs are in FateProofs.v,
    specifications in SpecFate.v, concrete nodes in FateExamples.v. *)
From Verif Require Import Sync SpecPow SpecCodec SpecConsensus SpecRules SpecChain SpecPool SpecSync SpecFate FateProofs
  Instance RulesExamples BlockCodecProofs ChainProofs SyncProofs SyncExamples FateExamples.

(** * C136 *)

(** For every message a peer can send, exactly when the handler panics, ends the process, or does not
    return; otherwise it returns. *)
Theorem C136_endings : forall X S lenient c (n : node X S) m i x,
  hash_laws X -> clock_ok (x_clock c 0%nat) -> sender c n i x -> valid_table (nd_pool n) -> hashable (nd_chain n) -> received lenient m ->
  (o_end (process_message c n m) = HPanic <-> panics c n m) /\
  (o_end (process_message c n m) = HHang <-> hangs c n m) /\
  (o_end (process_message c n m) = HFatal <-> ends_process n m).
Proof. exact fate. Qed.
Print Assumptions C136_endings.

(** If the address the peer was dialled under is not in the table, any message at all ends the process. *)
Theorem C136_unlisted : forall X S c (n : node X S) m, ~ In (x_me c) (map fst (pl_table (nd_pool n))) ->
  o_end (process_message c n m) = HFatal.
Proof. exact unlisted_fatal. Qed.
Print Assumptions C136_unlisted.
Example C136_unlisted_case : forall X, (exists i, In (seed, i) (pl_table (nd_pool (shipped X)))) /\
  ~ In (x_me (Context (fun _ => ex_now) (fun _ => None) (fun _ => []) [] [x61] [] (fun _ => true))) (map fst (pl_table (nd_pool (shipped X)))).
Proof. intro X. split; [exists 0%nat; now left|]. intros [E|[]]. discriminate E. Qed.

(** In particular a genuine block on a stored parent whose proof hashes to 64 zero bits takes the node
    down. *)
Theorem C136_zero_refuted : forall X S lenient c (n : node X S) i x b,
  hash_laws X -> clock_ok (x_clock c 0%nat) -> sender c n i x -> valid_table (nd_pool n) -> hashable (nd_chain n) ->
  received lenient (MBlock b) -> on_zero (x_clock c 0%nat) (nd_chain n) b ->
  o_end (process_message c n (MBlock b)) = HPanic.
Proof.
  intros X S lenient c n i x b HL C H V Hc R Z. apply (C136_endings X S lenient c n (MBlock b) i x HL C H V Hc R). now left.
Qed.
Print Assumptions C136_zero_refuted.
Example C136_zero_case : forall lenient remote, hash_laws zeroed /\ clock_ok (x_clock (first remote) 0%nat) /\
  (exists i x, sender (first remote) znode i x) /\ valid_table (nd_pool znode) /\ hashable (nd_chain znode) /\
  received lenient (MBlock zchild) /\ on_zero (x_clock (first remote) 0%nat) (nd_chain znode) zchild.
Proof.
  intros lenient remote. split; [exact zeroed_laws|]. split; [exact ex_now_ok|]. split; [exact (ex_intro _ _ (ex_intro _ _ (znode_sender remote)))|].
  split; [exact two_valid|]. split; [exact zchain_hashable|]. split; [apply zchild_received|exact zchild_on_zero].
Qed.
(** The shipped node: a bad header hangs the handler if the connection reports the address it was
    dialled under, and does nothing if it reports an unlisted one. *)
Example C136_case : forall X lenient, received (X := X) lenient (MHeaders [junk_header]) /\ hashable (nd_chain (busy X)) /\ valid_table (nd_pool (busy X)) /\
  (exists i x, sender (first seed) (busy X) i x) /\
  hangs (first seed) (busy X) (MHeaders [junk_header]) /\ ~ hangs (first []) (busy X) (MHeaders [junk_header]).
Proof.
  intros X lenient. split; [apply junk_headers_received|]. split; [split|].
  - exists (blake2b X []). exact (BlockCodecProofs.header_hash_zero X (b_header (testnet1 X)) eq_refl).
  - intros i b E. discriminate E.
  - split; [exact two_valid|]. split; [exact (ex_intro _ _ (ex_intro _ _ (busy_sender X seed)))|]. split.
    + split; [apply junk_headers_refused|]. exists (Info StConnected (Some 0%nat) 1 0 30000 7 false), 0%nat.
      split; [exists 1%nat; split; [now left|reflexivity]|]. split; reflexivity.
    + intros (_ & y & k & (j & [E|[E|[]]] & _) & _); discriminate E.
Qed.
