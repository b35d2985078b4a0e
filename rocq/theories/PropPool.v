(** Properties C46-C50, C54 and C68-C70: the pool of peers. Statements; proofs are in PoolProofs.v,
    executions in PoolExamples.v, specifications in SpecPool.v. [bans] is what BannedPeers starts as:
    nil (None) in the code, see C50. *)
From Verif Require Import Pool SpecPool PoolProofs PoolExamples.

(** * C46: at most 15 connections *)
Theorem C46_limit : forall bans s, sys_steps (sys_start bans) s -> (live s <= 15)%nat /\ (pl_slots (y_pool s) <= 15)%nat.
Proof. exact limit. Qed.
Print Assumptions C46_limit.
Example C46_case : exists s, sys_steps (sys_start None) s /\ live s = 1%nat.
Proof. destruct (run_connected None) as (s & R & L & _). eauto. Qed.

(** * C47: slots are not leaked (refuted) *)

(** Between iterations the slots taken are those of unfinished connections and the leaked ones. *)
Theorem C47_slots_partial : forall bans s, sys_steps (sys_start bans) s -> idle (y_run s) ->
  pl_slots (y_pool s) = (List.length (filter running (y_watch s)) + y_leaked s)%nat.
Proof. exact slots_exact. Qed.
Print Assumptions C47_slots_partial.

(** A leaked slot never comes back. *)
Theorem C47_never_back_refuted : forall bans s t, sys_steps (sys_start bans) s -> sys_steps s t -> (live t + y_leaked s <= 15)%nat.
Proof. exact capacity. Qed.
Print Assumptions C47_never_back_refuted.

(** Whenever every entry is connected or banned, Run can leak all free slots, one per iteration,
    nobody else doing anything. *)
Theorem C47_idle_refuted : forall s, y_crash s = None -> y_run s = RuSelect -> (pl_slots (y_pool s) <= 15)%nat ->
  nobody_to_connect (y_pool s) ->
  exists t, sys_steps s t /\ pl_slots (y_pool t) = 15%nat /\ y_leaked t = (y_leaked s + (15 - pl_slots (y_pool s)))%nat /\
    y_watch t = y_watch s /\ pl_table (y_pool t) = pl_table (y_pool s) /\ pl_infos (y_pool t) = pl_infos (y_pool s) /\ y_crash t = None.
Proof. exact starved. Qed.
Print Assumptions C47_idle_refuted.
Example C47_idle_case : exists s, sys_steps (sys_start None) s /\ y_crash s = None /\ y_run s = RuSelect /\ live s = 1%nat /\
  (pl_slots (y_pool s) <= 15)%nat /\ nobody_to_connect (y_pool s).
Proof. destruct (run_connected None) as (s & R & L & E & C & _ & _ & Nb & Sl & _). exists s. rewrite Sl. repeat split; auto. repeat constructor. Qed.

(** From an empty table: no connection, no crash, and Run never tries to connect again, whatever
    happens. *)
Theorem C47_dead_refuted : forall bans, exists s, sys_steps (sys_start bans) s /\ y_crash s = None /\ live s = 0%nat /\
  forall t, sys_steps s t -> idle (y_run t) /\ live t = 0%nat.
Proof. exact dead_start. Qed.
Print Assumptions C47_dead_refuted.

(** With one connection: no second one is ever made, even after it ends. *)
Theorem C47_one_peer_refuted : forall bans, exists s, sys_steps (sys_start bans) s /\ y_crash s = None /\ live s = 1%nat /\
  forall t, sys_steps s t -> (live t <= 1)%nat.
Proof. exact one_peer. Qed.
Print Assumptions C47_one_peer_refuted.

(** * C48: the peers table *)

(** Any calls of Add: at most 10001 entries, no address twice, each pointing to a record. *)
Theorem C48_table : forall l, NoDup (map fst (pl_table (adds l pool_new))) /\ lenN (pl_table (adds l pool_new)) <= 10001 /\
  valid_table (adds l pool_new).
Proof. exact adds_ok. Qed.
Print Assumptions C48_table.

(** The same in every reachable state of the pool. *)
Theorem C48_always : forall bans s, sys_steps (sys_start bans) s ->
  NoDup (map fst (pl_table (y_pool s))) /\ lenN (pl_table (y_pool s)) <= 10001 /\ valid_table (y_pool s).
Proof. exact table_reach. Qed.
Print Assumptions C48_always.

(** Add changes no entry and no record. *)
Theorem C48_keeps : forall l p b i x, NoDup (map fst (pl_table p)) /\ lenN (pl_table p) <= 10001 /\ valid_table p ->
  In (b, i) (pl_table p) -> nth_error (pl_infos p) i = Some x ->
  In (b, i) (pl_table (adds l p)) /\ nth_error (pl_infos (adds l p)) i = Some x.
Proof. exact adds_keep. Qed.
Print Assumptions C48_keeps.

(** Only what was added, resolving to an address that is not multicast with a port, is in the table. *)
Theorem C48_only : forall l b, In b (map fst (pl_table (adds l pool_new))) -> exists r, In (r, b) l /\ usable r.
Proof. exact adds_only. Qed.
Print Assumptions C48_only.

(** And nothing is forgotten up to 10001 entries. *)
Theorem C48_all : forall l p, Forall (fun c => usable (fst c)) l -> NoDup (map snd l) ->
  (forall a, In a (map snd l) -> ~ In a (map fst (pl_table p))) -> lenN (pl_table p) + lenN l <= 10001 ->
  lenN (pl_table (adds l p)) = lenN (pl_table p) + lenN l.
Proof. exact adds_all. Qed.
Print Assumptions C48_all.

(** The bound is 10001, not the 10000 of maxPeersTableSize. *)
Theorem C48_10000_refuted : exists l, lenN (pl_table (adds l pool_new)) = 10001.
Proof. exists (many 10001). now apply many_all. Qed.
Print Assumptions C48_10000_refuted.
Example C48_case : map fst (pl_table (adds [(home, addr_a); (home, addr_b); (home, addr_a); (None, [x63]);
    (Some (Addr [xe0; x00; x00; x01] 1), [x64]); (Some (Addr [x7f; x00; x00; x01] 0), [x65])] pool_new)) = [addr_b; addr_a].
Proof. reflexivity. Qed.

(** * C49: addresses handed out *)
Theorem C49_peers : forall resolve caps order p, valid_table p -> Permutation order (pl_table p) ->
  lenN (pool_peers resolve caps order p) <= 256 /\
  (forall n, In n (pool_peers resolve caps order p) ->
     exists a i x, In (a, i) (pl_table p) /\ nth_error (pl_infos p) i = Some x /\ eligible caps x /\ resolve a = Some n) /\
  (lenN (pool_peers resolve caps order p) < 256 ->
     forall a i x n, In (a, i) (pl_table p) -> nth_error (pl_infos p) i = Some x -> eligible caps x -> resolve a = Some n ->
       In n (pool_peers resolve caps order p)).
Proof. exact peers_ok. Qed.
Print Assumptions C49_peers.
(** Addresses that were only added are handed out to those who ask for no capability, *)
Theorem C49_added : forall l resolve order a n, Permutation order (pl_table (adds l pool_new)) ->
  lenN (pool_peers resolve 0 order (adds l pool_new)) < 256 -> In a (map fst (pl_table (adds l pool_new))) -> resolve a = Some n ->
  In n (pool_peers resolve 0 order (adds l pool_new)).
Proof. exact heard_all. Qed.
Print Assumptions C49_added.
(** and to nobody else. *)
Theorem C49_unheard : forall l resolve caps order, caps <> 0 -> Permutation order (pl_table (adds l pool_new)) ->
  pool_peers resolve caps order (adds l pool_new) = [].
Proof. exact unheard. Qed.
Print Assumptions C49_unheard.
Example C49_added_case : let p := adds [(home, addr_a); (home, addr_b)] pool_new in map fst (pl_table p) = [addr_b; addr_a] /\
  lenN (pool_peers (fun _ => home) 0 (pl_table p) p) = 2 /\ pool_peers (fun _ => home) 7 (pl_table p) p = [].
Proof. repeat split. Qed.
(** Four entries: one suits, one is banned, one failed, one lacks a capability. *)
Definition four : pool := Pool 0 0
  [Info StConnected (Some 0%nat) 1 5 9 7 false; Info StBanned None 1 5 9 7 false; Info StFailedConn None 1 5 9 7 false;
   Info StNew None 0 0 0 1 false]
  [(addr_a, 0%nat); (addr_b, 1%nat); ([x63], 2%nat); ([x64], 3%nat)] [] None.
Example C49_case : valid_table four /\ pool_peers (fun _ => home) 3 (pl_table four) four = [Addr [x7f; x00; x00; x01] 13414].
Proof.
  split; [|reflexivity]. intros a i I. cbn in *.
  destruct I as [E|[E|[E|[E|[]]]]]; injection E as <- <-; repeat constructor.
Qed.

(** * C50: banned addresses (refuted) *)

(** In the code the map is never made: nothing is ever recorded as banned. *)
Theorem C50_never_recorded_refuted : forall s, sys_steps (sys_start None) s -> forall a, is_ban a (y_pool s) = false.
Proof. exact never_banned. Qed.
Print Assumptions C50_never_recorded_refuted.

(** A ban of a connected peer takes the process down. *)
Theorem C50_crash_refuted : exists s, sys_steps (sys_start None) s /\ y_crash s = Some NilBans.
Proof. exact run_ban_crash. Qed.
Print Assumptions C50_crash_refuted.

(** Were the map made, a banned address could be added again and dialled. *)
Theorem C50_dialled_again_refuted : exists s i, sys_steps (sys_start (Some [])) s /\ y_crash s = None /\
  is_ban addr_a (y_pool s) = true /\ y_run s = RuDial addr_a i /\ peer_info addr_a (y_pool s) = Some i.
Proof. exact run_banned_again. Qed.
Print Assumptions C50_dialled_again_refuted.

(** Add and notConnected do not look at the banned addresses. *)
Theorem C50_ignored_refuted : forall r a o1 o2 p b,
  pl_table (pool_add r a (set_banned p b)) = pl_table (pool_add r a p) /\
  pl_infos (pool_add r a (set_banned p b)) = pl_infos (pool_add r a p) /\
  not_connected o1 o2 (set_banned p b) = not_connected o1 o2 p.
Proof. exact bans_ignored. Qed.
Print Assumptions C50_ignored_refuted.

(** * C54: stopping (refuted) *)

(** If some entry has no peer, the goroutines that close the connections never all end; ... *)
Theorem C54_never_closed_refuted : forall s t a i, y_run s = RuSelect -> In (a, i) (pl_table (y_pool s)) -> no_peer (y_pool s) i ->
  run_step s t -> y_run t = RuStopped -> forall u, sys_steps t u -> ~ all_closed u.
Proof. exact stop_hangs. Qed.
Print Assumptions C54_never_closed_refuted.

(** ... and one of them can take the process down. *)
Theorem C54_crash_refuted : forall s t a i, y_crash s = None -> y_run s = RuSelect -> In (a, i) (pl_table (y_pool s)) ->
  no_peer (y_pool s) i -> unlocked (y_pool s) i -> run_step s t -> y_run t = RuStopped ->
  exists u, sys_steps t u /\ y_crash u = Some NilPeer.
Proof. exact stop_crashes. Qed.
Print Assumptions C54_crash_refuted.
Example C54_case : exists s t, sys_steps (sys_start None) s /\ y_crash s = None /\ y_run s = RuSelect /\
  In (addr_a, 0%nat) (pl_table (y_pool s)) /\ no_peer (y_pool s) 0 /\ unlocked (y_pool s) 0 /\ run_step s t /\ y_run t = RuStopped.
Proof. exact run_stop_case. Qed.

(** If every entry has had a connection, all can be closed. Missing: that they will be — Close may
    hang (C44), and whoever calls Stop does not wait. *)
Theorem C54_clean_partial : forall bans s t, sys_steps (sys_start bans) s -> y_crash s = None -> y_run s = RuSelect ->
  (forall a i, In (a, i) (pl_table (y_pool s)) -> has_peer (y_pool s) i) -> run_step s t -> y_run t = RuStopped ->
  exists u, sys_steps t u /\ y_crash u = None /\ all_closed u /\
    forall a i, In (a, i) (pl_table (y_pool s)) -> status_of (y_pool u) i = Some StDisconnected.
Proof. exact stop_clean_all. Qed.
Print Assumptions C54_clean_partial.
Example C54_clean_case : exists s t, sys_steps (sys_start None) s /\ y_crash s = None /\ y_run s = RuSelect /\
  pl_table (y_pool s) = [(addr_a, 0%nat)] /\ has_peer (y_pool s) 0 /\ run_step s t /\ y_run t = RuStopped.
Proof. exact run_stop_clean. Qed.

(** * C68: the connection counter (refuted) *)

(** The counter can reach 16 with a single connection and nothing else going on; connectPeer then
    refuses. *)
Theorem C68_drift_refuted : forall bans, exists s, sys_steps (sys_start bans) s /\ live s = 1%nat /\ pl_connected (y_pool s) = 16%Z /\
  y_run s = RuSelect /\ y_crash s = None /\ y_leaked s = 0%nat /\ forall w, In w (y_watch s) -> waiting w = true \/ running w = false.
Proof. exact run_drift. Qed.
Print Assumptions C68_drift_refuted.
(** It never exceeds 16. Missing: equality with the number of connections. *)
Theorem C68_bound_partial : forall bans s, sys_steps (sys_start bans) s -> (pl_connected (y_pool s) <= 16)%Z.
Proof. exact count_reach. Qed.
Print Assumptions C68_bound_partial.

(** It can also sink without limit while there is a connection: after [n + 1] connections to 1 - n, and the
    test of connectPeer then never refuses. *)
Theorem C68_sinks_refuted : forall bans n, exists s, sys_steps (sys_start bans) s /\ live s = 1%nat /\
  pl_connected (y_pool s) = (1 - Z.of_nat n)%Z /\ List.length (y_watch s) = S n /\ y_run s = RuSelect /\ y_crash s = None /\
  y_leaked s = 0%nat /\ forall w, In w (y_watch s) -> waiting w = true \/ running w = false.
Proof. exact run_sink. Qed.
Print Assumptions C68_sinks_refuted.
(** But by no more than one for each connection ever made, so the code's int32 does not wrap before 2^31 of
    them, and may be modelled as an integer. *)
Theorem C68_range_partial : forall bans s, sys_steps (sys_start bans) s -> (Z.of_nat (List.length (y_watch s)) <= 2 ^ 31)%Z ->
  (- Z.of_nat (List.length (y_watch s)) <= pl_connected (y_pool s) <= 16)%Z /\ (- 2 ^ 31 <= pl_connected (y_pool s) < 2 ^ 31)%Z.
Proof. exact range_reach. Qed.
Print Assumptions C68_range_partial.
Example C68_range_case : exists s, sys_steps (sys_start None) s /\ (Z.of_nat (List.length (y_watch s)) <= 2 ^ 31)%Z /\
  pl_connected (y_pool s) = (- 4)%Z.
Proof. destruct (run_sink None 5) as (s & R & _ & K & L & _). exists s. split; [exact R|]. rewrite L, K. split; [lia|reflexivity]. Qed.

(** * C69: ConnectedPeers (refuted) *)

(** A connection lives, nothing else is going on, and ConnectedPeers is empty: no block is sent to it. *)
Theorem C69_forgotten_refuted : forall bans, exists s, sys_steps (sys_start bans) s /\ live s = 1%nat /\ y_run s = RuSelect /\
  y_crash s = None /\ pl_up (y_pool s) = [] /\ (forall h td, propagate h td (y_pool s) = []) /\
  forall w, In w (y_watch s) -> waiting w = true \/ running w = false.
Proof. exact run_forgotten_blocks. Qed.
Print Assumptions C69_forgotten_refuted.
(** What is in ConnectedPeers belongs to a connection that was not yet cleaned up. Missing: the
    converse. *)
Theorem C69_up_partial : forall bans s a i, sys_steps (sys_start bans) s -> In (a, i) (pl_up (y_pool s)) ->
  (exists w, In w (y_watch s) /\ wt_addr w = a /\ before_delete w = true) \/ (exists j, y_run s = RuGo a j \/ y_run s = RuWatch a j).
Proof. exact up_reach. Qed.
Print Assumptions C69_up_partial.
Example C69_case : exists s, sys_steps (sys_start None) s /\ pl_up (y_pool s) = [(addr_a, 0%nat)].
Proof. destruct (run_connected None) as (s & R & _ & _ & _ & _ & U & _). eauto. Qed.

(** * C70: no second connection to an entry *)
Theorem C70_once : forall bans s a i w, sys_steps (sys_start bans) s -> y_run s = RuDial a i -> In w (y_watch s) -> wt_info w = i ->
  waiting w = false.
Proof. exact dial_alone. Qed.
Print Assumptions C70_once.
(** An entry dialled a second time, after its disconnect. *)
Example C70_case : exists s w, sys_steps (sys_start None) s /\ y_run s = RuDial addr_a 0 /\ In w (y_watch s) /\ wt_info w = 0%nat.
Proof. exact run_redial. Qed.
