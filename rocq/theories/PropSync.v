(** Properties C51-C53 and C71-C75: handling of messages, relaying of blocks, and stopping. Statements;
    proofs are in SyncProofs.v, PoolProofs.v and ShutdownProofs.v, concrete nodes in SyncExamples.v,
    specifications in SpecSync.v. *)
From Coq Require Import Permutation.
From Verif Require Import Sync SpecChain SpecPool SpecSync Shutdown SpecPeer PoolProofs ShutdownProofs LiveProofs SyncProofs PoolExamples Instance RulesExamples
  ChainExamples SyncExamples.

(** * C51: answers and records *)
Theorem C51_ping : forall X S c (n : node X S) i x p, sender c n i x ->
  let o := process_message c n (MPing p) in
  o_end o = HDone /\ o_answers o = [MPong (PingMsg (c_td (nd_chain n)) (c_height (nd_chain n)))] /\ o_relay o = [] /\
  recorded i (pg_difficulty p) (pg_height p) (nd_pool n) (nd_pool (o_node o)).
Proof. exact ping_handled. Qed.
Print Assumptions C51_ping.
Theorem C51_pong : forall X S c (n : node X S) i x p, sender c n i x ->
  let o := process_message c n (MPong p) in
  o_end o = HDone /\ o_answers o = [] /\ o_relay o = [] /\
  recorded i (pg_difficulty p) (pg_height p) (nd_pool n) (nd_pool (o_node o)).
Proof. exact pong_handled. Qed.
Print Assumptions C51_pong.
(** What GetBlockHeaders returns is characterised in C37. *)
Theorem C51_get_headers : forall X S c (n : node X S) i x hs l, sender c n i x -> get_block_headers (nd_chain n) hs = Ok l ->
  process_message c n (MGetHeaders hs) = Outcome HDone n [MHeaders l] [].
Proof. exact get_headers_handled. Qed.
Print Assumptions C51_get_headers.
Theorem C51_get_block : forall X S c (n : node X S) i x h, sender c n i x -> h <> [] ->
  process_message c n (MGetBlock h) =
    Outcome HDone n (match st_get S (c_store (nd_chain n)) (by_hash h) with Some b => [MBlock b] | None => [] end) [].
Proof. exact get_block_answered. Qed.
Print Assumptions C51_get_block.
Theorem C51_get_peers : forall X S c (n : node X S) i x caps, sender c n i x -> valid_table (nd_pool n) ->
  Permutation (x_order c) (pl_table (nd_pool n)) ->
  exists l, process_message c n (MGetPeerAddrs caps) = Outcome HDone n [MPeerAddrs l] [] /\ lenN l <= 256 /\
    (forall r, In r l -> exists a j y, In (a, j) (pl_table (nd_pool n)) /\ nth_error (pl_infos (nd_pool n)) j = Some y /\ eligible caps y /\
       x_resolve c a = Some r) /\
    (lenN l < 256 -> forall a j y r, In (a, j) (pl_table (nd_pool n)) -> nth_error (pl_infos (nd_pool n)) j = Some y -> eligible caps y ->
       x_resolve c a = Some r -> In r l).
Proof. exact get_peers_handled. Qed.
Print Assumptions C51_get_peers.
Theorem C51_peers : forall X S c (n : node X S) i x l, sender c n i x ->
  process_message c n (MPeerAddrs l) =
    Outcome HDone (Node (nd_chain n) (adds (map (fun a => (x_resolve c (x_string c a), x_string c a)) l) (nd_pool n)) (nd_mempool n)) [] [].
Proof. exact peers_handled. Qed.
Print Assumptions C51_peers.
(** Nothing else is answered, *)
Theorem C51_silent : forall X S c (n : node X S) m,
  match m with MPing _ | MGetPeerAddrs _ | MGetHeaders _ | MGetBlock _ => False | _ => True end ->
  o_answers (process_message c n m) = [].
Proof. exact silent. Qed.
Print Assumptions C51_silent.
(** and no message changes the chain. *)
Theorem C51_chain : forall X S c (n : node X S) m, nd_chain (o_node (process_message c n m)) = nd_chain n.
Proof. exact chain_kept. Qed.
Print Assumptions C51_chain.
(** The shipped node with two connections, in a reachable state of the pool. *)
Example C51_case : (exists s, sys_steps (sys_start None) s /\ y_pool s = two /\ y_crash s = None /\ live s = 2%nat) /\
  (forall X remote, exists i x, sender (first remote) (busy X) i x) /\ valid_table two /\ Permutation (x_order (first seed)) (pl_table two).
Proof.
  split; [|split; [|split]].
  - destruct run_two as (s & R & P & _ & C & L). eauto.
  - intros X remote. exact (ex_intro _ _ (ex_intro _ _ (busy_sender X remote))).
  - intros a i [E|[E|[]]]; injection E as <- <-; repeat constructor.
  - apply Permutation_refl.
Qed.
Example C51_get_peers_case : forall X, o_answers (process_message (first seed) (busy X) (MGetPeerAddrs 3)) =
  [MPeerAddrs [Addr [x7f; x00; x00; x01] 13414; Addr [x7f; x00; x00; x01] 13414]].
Proof. reflexivity. Qed.

(** * C52: no message terminates the node (refuted) *)

(** Any transaction makes a node without a mempool panic. *)
Theorem C52_tx_refuted : forall X S c (n : node X S) i x t, sender c n i x -> nd_mempool n = None ->
  o_end (process_message c n (MTx t)) = HPanic.
Proof. exact tx_panics. Qed.
Print Assumptions C52_tx_refuted.
Example C52_tx_case : forall X lenient, nd_mempool (shipped X) = None /\ received lenient (MTx (empty_tx X)).
Proof. intros X lenient. split; [reflexivity|apply empty_tx_received]. Qed.

(** Anything refused, from a connection whose reported address is in the table: the handler panics or
    never returns; ... *)
Theorem C52_refused_refuted : forall X S c (n : node X S) m i x, sender c n i x -> refused c n m -> remote_listed c n ->
  pl_bans (nd_pool n) = None ->
  o_end (process_message c n m) = HPanic \/ o_end (process_message c n m) = HHang.
Proof. exact refused_listed. Qed.
Print Assumptions C52_refused_refuted.
(** ... it never returns if the reported address is the dialled one and Close does not return (C44). *)
Theorem C52_own_refuted : forall X S c (n : node X S) m i x cn, sender c n i x -> refused c n m -> x_remote c = x_me c ->
  i_peer x = Some cn -> x_closes c cn = false -> o_end (process_message c n m) = HHang.
Proof. exact refused_own. Qed.
Print Assumptions C52_own_refuted.
Example C52_refused_case : forall X lenient, received (X := X) lenient (MHeaders [junk_header]) /\
  refused (first seed) (busy X) (MHeaders [junk_header]) /\ remote_listed (first seed) (busy X) /\
  o_end (process_message (first seed) (busy X) (MHeaders [junk_header])) = HHang.
Proof.
  intros X lenient. split; [apply junk_headers_received|]. split; [apply junk_headers_refused|]. split; [now left|].
  exact (C52_own_refuted X _ (first seed) (busy X) (MHeaders [junk_header]) 1 _ 0%nat (busy_sender X seed) (junk_headers_refused X seed) eq_refl eq_refl eq_refl).
Qed.

(** Every other message from the wire is handled. *)
Theorem C52_otherwise_partial : forall X S lenient c (n : node X S) m i x, sender c n i x -> sound_chain (nd_chain n) -> received lenient m ->
  (forall f t, nd_mempool n = Some f -> survives (f t)) ->
  o_end (process_message c n m) = HDone \/ (exists t, m = MTx t /\ nd_mempool n = None) \/ (refused c n m /\ remote_listed c n).
Proof. exact safe_otherwise. Qed.
Print Assumptions C52_otherwise_partial.
(** The answers can be encoded, if what is stored and what addresses resolve to can; ... *)
Theorem C52_answers_partial : forall X S c (n : node X S) m a, sendable_store (c_store (nd_chain n)) -> valid_table (nd_pool n) ->
  Permutation (x_order c) (pl_table (nd_pool n)) ->
  (forall s r, x_resolve c s = Some r -> List.length (ip r) = 4%nat \/ List.length (ip r) = 16%nat) ->
  In a (o_answers (process_message c n m)) -> exists b, msg_bytes X a = Ok b.
Proof. exact answers_encode. Qed.
Print Assumptions C52_answers_partial.
Example C52_shipped_case : forall X, sound_chain (nd_chain (busy X)) /\ sendable_store (c_store (nd_chain (busy X))) /\
  (forall s r, x_resolve (first seed) s = Some r -> List.length (ip r) = 4%nat \/ List.length (ip r) = 16%nat).
Proof.
  intro X. destruct (shipped_sound X) as (A & B). split; [exact A|]. split; [exact B|]. intros s r E. injection E as <-. now left.
Qed.
(** ... but with a storage that has the genesis block, a request for it takes the process down when
    the answer is encoded. *)
Theorem C52_genesis_refuted : exists (n : node mined (mem_storage mined)) h b,
  o_answers (process_message (first seed) n (MGetBlock h)) = [MBlock b] /\ b = testnet4 mined /\ msg_bytes mined (MBlock b) = Fatal.
Proof.
  exists (Node (mem_chain [testnet4 mined]) two None), t4_hash, (testnet4 mined). split; [|split; [reflexivity|]].
  - rewrite (C51_get_block _ _ (first seed) (Node (mem_chain [testnet4 mined]) two None) 1 _ t4_hash (busy_sender mined seed)) by (vm_compute; discriminate).
    cbn [o_answers nd_chain]. change (c_store (mem_chain [testnet4 mined])) with [testnet4 mined].
    now rewrite (mem_first mined (testnet4 mined) t4_hash t4_hashed).
  - reflexivity.
Qed.
Print Assumptions C52_genesis_refuted.

(** * C53: records under blocks (refuted) *)

(** Exactly what an accepted block does to its sender's record: both values are replaced when either
    is larger. *)
Theorem C53_record_partial : forall X S c (n : node X S) i x b, sender c n i x ->
  fst (process_block (x_clock c 0%nat) (nd_chain n) b) = Ok tt ->
  exists y, nth_error (pl_infos (nd_pool (o_node (process_message c n (MBlock b))))) i = Some y /\
    ((behind (b_header b) x /\ i_td y = h_total_difficulty (b_header b) /\ i_height y = h_height (b_header b)) \/
     (~ behind (b_header b) x /\ i_td y = i_td x /\ i_height y = i_height x)).
Proof. exact block_recorded. Qed.
Print Assumptions C53_record_partial.
(** A block from the wire that lowers the recorded total difficulty. *)
Theorem C53_lowered_refuted : forall X lenient, exists (n : node X (sql_storage X)) c i x b y, sender c n i x /\ received lenient (MBlock b) /\
  o_end (process_message c n (MBlock b)) = HDone /\
  nth_error (pl_infos (nd_pool (o_node (process_message c n (MBlock b))))) i = Some y /\ i_td y < i_td x.
Proof.
  intros X lenient. exists (busy4 X), (first seed), 1%nat. do 1 eexists. exists (junk X 6 3). eexists.
  split; [apply busy4_sender|]. split; [apply junk_received|].
  unfold process_message. rewrite (sender_info X _ (first seed) (busy4 X) 1 _ (busy4_sender X seed)).
  change (x_clock (first seed) 0) with ex_now. rewrite junk_accepted. split; [reflexivity|]. split; reflexivity.
Qed.
Print Assumptions C53_lowered_refuted.

(** * C71: only accepted blocks are relayed (refuted) *)

(** With the reported address in the table and the ban map as it is: relayed blocks were accepted. *)
Theorem C71_accepted_partial : forall X S c (n : node X S) b i x, sender c n i x -> pl_bans (nd_pool n) = None -> remote_listed c n ->
  o_relay (process_message c n (MBlock b)) <> [] -> fst (process_block (x_clock c 0%nat) (nd_chain n) b) = Ok tt.
Proof. exact relayed_accepted. Qed.
Print Assumptions C71_accepted_partial.
(** Otherwise a refused block at the height of the chain is relayed like an accepted one. *)
Theorem C71_refused_refuted : forall X S c (n : node X S) b i x e cn, sender c n i x -> ~ remote_listed c n ->
  fst (process_block (x_clock c 0%nat) (nd_chain n) b) = Err e -> h_height (b_header b) = c_height (nd_chain n) ->
  In cn (o_relay (process_message c n (MBlock b))) <->
  exists a j y, j <> i /\ In (a, j) (pl_up (nd_pool n)) /\ nth_error (pl_infos (nd_pool n)) j = Some y /\ behind (b_header b) y /\ i_peer y = Some cn.
Proof. exact refused_relayed. Qed.
Print Assumptions C71_refused_refuted.
Example C71_refused_case : exists c, sender c (busy mined) 1 (Info StConnected (Some 0%nat) 1 0 30000 7 false) /\
  ~ remote_listed c (busy mined) /\ fst (process_block (x_clock c 0%nat) (nd_chain (busy mined)) (bad_block 65536)) = Err (Msg "invalid block version") /\
  In 1%nat (o_relay (process_message c (busy mined) (MBlock (bad_block 65536)))).
Proof.
  exists (first addr_a). split; [apply busy_sender|]. assert (R : ~ remote_listed (first addr_a) (busy mined)).
  { intros [E|[E|[]]]; discriminate E. }
  split; [exact R|]. split; [apply bad_refused|].
  apply (C71_refused_refuted mined (sql_storage mined) (first addr_a) (busy mined) (bad_block 65536) 1%nat _ (Msg "invalid block version") 1%nat (busy_sender mined addr_a) R (bad_refused 65536) eq_refl).
  exists addr_b, 0%nat. eexists. split; [discriminate|]. split; [left; reflexivity|]. split; [reflexivity|]. split; [right; reflexivity|reflexivity].
Qed.
(** And accepted is not valid: a Testnet4 node relays a block from the wire that copies the proof of
    the genesis block and is otherwise empty. *)
Theorem C71_invalid_refuted : forall X lenient, exists (n : node X (sql_storage X)) c i x b cn, sender c n i x /\ received lenient (MBlock b) /\
  (exists e, block_validate X (x_clock c 0%nat) b = Err e) /\ In cn (o_relay (process_message c n (MBlock b))).
Proof.
  intros X lenient. exists (busy4 X), (first seed), 1%nat. eexists. exists (junk X 0 65536), 1%nat.
  split; [apply busy4_sender|]. split; [apply junk_received|]. split; [apply junk_invalid|].
  apply (accepted_relay X (sql_storage X) (first seed) (busy4 X) 1%nat _ (junk X 0 65536) 1%nat (busy4_sender X seed) (junk_accepted X _ 0 65536) eq_refl).
  exists addr_b, 0%nat. eexists. split; [discriminate|]. split; [left; reflexivity|]. split; [reflexivity|]. split; [right; reflexivity|reflexivity].
Qed.
Print Assumptions C71_invalid_refuted.

(** * C72: new blocks on top of the chain are relayed (refuted) *)

(** After any history only blocks at the height the chain had at the start are relayed: none that
    extends it. *)
Theorem C72_height_refuted : forall X S (n t : node X S) c m, history n t -> o_relay (process_message c t m) <> [] ->
  exists b, m = MBlock b /\ h_height (b_header b) = c_height (nd_chain n).
Proof. exact history_relay. Qed.
Print Assumptions C72_height_refuted.
(** For the shipped node: only blocks of height 0. *)
Theorem C72_shipped_refuted : forall X (t : node X (sql_storage X)) c b, history (shipped X) t -> 0 < h_height (b_header b) ->
  o_relay (process_message c t (MBlock b)) = [].
Proof.
  intros X t c b H P. destruct (o_relay (process_message c t (MBlock b))) as [|x l] eqn:E; [reflexivity|].
  destruct (C72_height_refuted X _ (shipped X) t c (MBlock b) H) as (b' & Eb & Eh); [now rewrite E|].
  injection Eb as <-. rewrite Eh in P. discriminate P.
Qed.
Print Assumptions C72_shipped_refuted.
Example C72_case : forall X, history (shipped X) (busy X) /\ o_relay (process_message (first seed) (busy4 X) (MBlock (junk X 0 65536))) <> [].
Proof.
  intro X. split; [exact (HyPool _ _ (shipped X) two (shipped X) (HyStart _ _ (shipped X)))|].
  intro E. pose proof (proj2 (accepted_relay X (sql_storage X) (first seed) (busy4 X) 1%nat _ (junk X 0 65536) 1%nat (busy4_sender X seed) (junk_accepted X _ 0 65536) eq_refl)) as H.
  rewrite E in H. apply H. exists addr_b, 0%nat. eexists. split; [discriminate|]. split; [left; reflexivity|]. split; [reflexivity|]. split; [right; reflexivity|reflexivity].
Qed.

(** * C73: to whom a block is relayed *)

(** Exactly to the connections in ConnectedPeers whose record is behind the block, and never to the
    one it came from. *)
Theorem C73_relay : forall X S c (n : node X S) i x b cn, sender c n i x ->
  fst (process_block (x_clock c 0%nat) (nd_chain n) b) = Ok tt -> h_height (b_header b) = c_height (nd_chain n) ->
  In cn (o_relay (process_message c n (MBlock b))) <->
  exists a j y, j <> i /\ In (a, j) (pl_up (nd_pool n)) /\ nth_error (pl_infos (nd_pool n)) j = Some y /\ behind (b_header b) y /\ i_peer y = Some cn.
Proof. exact accepted_relay. Qed.
Print Assumptions C73_relay.
Example C73_case : forall X, o_relay (process_message (first seed) (busy4 X) (MBlock (junk X 0 65536))) = [1%nat].
Proof.
  intro X. unfold process_message. rewrite (sender_info X _ (first seed) (busy4 X) 1 _ (busy4_sender X seed)).
  change (x_clock (first seed) 0) with ex_now. rewrite junk_accepted. reflexivity.
Qed.

(** * C74: the peer of a handler is in the table *)

(** So the "unexpected error" that would end the process is not reached. *)
Theorem C74_listed : forall s, sys_steps (sys_start None) s ->
  (forall w, In w (y_watch s) -> peer_info (wt_addr w) (y_pool s) = Some (wt_info w)) /\
  (forall a i, y_run s = RuGo a i \/ y_run s = RuWatch a i -> peer_info a (y_pool s) = Some i).
Proof. exact listed_reach. Qed.
Print Assumptions C74_listed.
Example C74_case : exists s w, sys_steps (sys_start None) s /\ In w (y_watch s).
Proof.
  destruct run_two as (s & R & _ & Y & _ & L). unfold live in L. rewrite Y in L. destruct (y_watch s) as [|w l] eqn:E; [discriminate L|].
  exists s, w. split; [exact R|]. rewrite E. now left.
Qed.

(** * C75: stopping while a message is handled (refuted) *)

(** The closing goroutine holds the lock of the record and waits for the read handler, which waits
    for the lock: neither gets any further, whatever happens. *)
Theorem C75_stuck_refuted : forall X bans s t k d, lsteps (l_start X bans) s ->
  l_lock s = LCloser k -> l_wants s = true -> p_reader (l_peer s) = RHandle ->
  nth_error (p_others (l_peer s)) k = Some (ODisc d) -> holding d = true -> lsteps s t ->
  p_reader (l_peer t) = RHandle /\ ~ In OWaited (p_others (l_peer t)) /\ nth_error (p_others (l_peer t)) k <> Some (ODisc DRet).
Proof. intros X bans s t k d R L W H E Hd Rt. apply (caught_waits X bans k s t R); [|exact Rt]. repeat split; eauto. Qed.
Print Assumptions C75_stuck_refuted.
Theorem C75_happens_refuted : forall X bans, exists s, lsteps (l_start X bans) s /\ p_crash (l_peer s) = None /\
  l_lock s = LCloser 0 /\ l_wants s = true /\ p_reader (l_peer s) = RHandle /\ nth_error (p_others (l_peer s)) 0 = Some (ODisc DWait).
Proof. intros X bans. destruct (run_caught X bans) as (s & R & (L & W & H & _) & C & E). exists s. auto 7. Qed.
Print Assumptions C75_happens_refuted.

(** Otherwise stopping can finish: unless the closing goroutine has the lock while the read handler
    waits for it, all goroutines can end and the lock comes back. *)
Theorem C75_otherwise_partial : forall X bans s, lsteps (l_start X bans) s -> p_crash (l_peer s) = None ->
  ~ banning (p_reader (l_peer s)) -> encodable (l_peer s) -> (l_wants s = true -> forall k, l_lock s <> LCloser k) ->
  exists t, lsteps s t /\ p_crash (l_peer t) = None /\ all_ended (l_peer t) /\ p_closed (l_peer t) = true /\
    l_lock t = LFree /\ l_wants t = false.
Proof. exact lock_comes_back. Qed.
Print Assumptions C75_otherwise_partial.
Example C75_otherwise_case : exists s, lsteps (l_start toy None) s /\ p_crash (l_peer s) = None /\ ~ banning (p_reader (l_peer s)) /\
  encodable (l_peer s) /\ l_wants s = true /\ l_lock s = LFree.
Proof. exact (run_wanting toy None). Qed.
