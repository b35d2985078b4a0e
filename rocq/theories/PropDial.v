(** Properties C107, C116 and C117: whom Run dials, and what Peers returns meanwhile. Statements; proofs are in DialProofs.v, executions in DialExamples.v. *)
From Verif Require Import Pool SpecPool SpecDial DialProofs PeersProofs PoolExamples DialExamples.

(** * C107: new addresses first, failed ones when there is no new one *)
(** The whole claim, that a failed address is picked only when no entry is new or disconnected, is false:
    other goroutines change the records while notConnected looks at them one after the other, and a failed
    address is picked although some entry is new or disconnected at every moment from the first to the last. *)
Theorem C107_first_refuted : forall bans, exists s0 s l t u, sys_steps (sys_start bans) s0 /\ y_run s0 = RuPick /\ run_step s0 s /\
  trace s l t /\ (forall v, In v l -> scanning v) /\ run_step t u /\ y_run u = RuTest addr_b /\ In (addr_b, 1%nat) (pl_table (y_pool t)) /\
  status_of (y_pool t) 1 = Some StFailedConn /\ y_crash u = None /\ forall v, In v l -> ~ nobody_fresh (y_pool v).
Proof. exact missed. Qed.
Print Assumptions C107_first_refuted.
(** What is true: what was picked was right when it was looked at, and what was passed over was, when it was
    looked at, not to be picked. *)
Theorem C107_picked : forall bans s0 s l t u a, sys_steps (sys_start bans) s0 -> y_run s0 = RuPick -> sys_step s0 s -> trace s l t ->
  (forall v, In v l -> scanning v) -> sys_step t u -> y_run u = RuTest a ->
  y_pool u = y_pool t /\ (forall v, In v l -> pl_table (y_pool v) = pl_table (y_pool t)) /\
   ((exists i st, In (a, i) (pl_table (y_pool t)) /\ status_of (y_pool t) i = Some st /\ (st = StNew \/ st = StDisconnected)) \/
    (exists i, In (a, i) (pl_table (y_pool t)) /\ status_of (y_pool t) i = Some StFailedConn /\
       forall b j, In (b, j) (pl_table (y_pool t)) -> once_stale l j) \/
    (a = [] /\ exists l1 l2, l = l1 ++ l2 /\ forall b j, In (b, j) (pl_table (y_pool t)) -> once_stale l1 j /\ once_sound l2 j)).
Proof. exact picked. Qed.
Print Assumptions C107_picked.
(** The claim holds when no status changes meanwhile. *)
Theorem C107_undisturbed_partial : forall bans s0 s l t u a, sys_steps (sys_start bans) s0 -> y_run s0 = RuPick -> sys_step s0 s -> trace s l t ->
  (forall v, In v l -> scanning v) -> sys_step t u -> y_run u = RuTest a ->
  (forall v j, In v l -> status_of (y_pool v) j = status_of (y_pool t) j) ->
  (exists i st, In (a, i) (pl_table (y_pool t)) /\ status_of (y_pool t) i = Some st /\ (st = StNew \/ st = StDisconnected)) \/
  (nobody_fresh (y_pool t) /\ exists i, In (a, i) (pl_table (y_pool t)) /\ status_of (y_pool t) i = Some StFailedConn) \/
  (a = [] /\ nobody_to_connect (y_pool t)).
Proof. exact picked_undisturbed. Qed.
Print Assumptions C107_undisturbed_partial.
Example C107_case : exists s0 s l t u, sys_steps (sys_start None) s0 /\ y_run s0 = RuPick /\ sys_step s0 s /\ trace s l t /\
  (forall v, In v l -> scanning v) /\ sys_step t u /\ y_run u = RuTest addr_b /\ nobody_fresh (y_pool t) /\
  (forall v j, In v l -> status_of (y_pool v) j = status_of (y_pool t) j).
Proof. exact run_all_failed. Qed.

(** Any of them can be the next one. *)
Theorem C107_dials : forall bans s a i, sys_steps (sys_start bans) s -> y_run s = RuSelect -> (pl_slots (y_pool s) < 15)%nat ->
  (pl_connected (y_pool s) <= 15)%Z -> In (a, i) (pl_table (y_pool s)) -> a <> [] ->
  status_of (y_pool s) i = Some StNew \/ status_of (y_pool s) i = Some StDisconnected \/
    (status_of (y_pool s) i = Some StFailedConn /\ nobody_fresh (y_pool s)) ->
  exists t, run_steps s t /\ y_run t = RuDial a i.
Proof. exact dials. Qed.
Print Assumptions C107_dials.
Example C107_dials_case : exists s, sys_steps (sys_start None) s /\ y_run s = RuSelect /\ y_crash s = None /\ pl_slots (y_pool s) = 0%nat /\
  pl_connected (y_pool s) = 0%Z /\ pl_table (y_pool s) = both /\
  status_of (y_pool s) 0 = Some StNew /\ status_of (y_pool s) 1 = Some StFailedConn.
Proof. exact run_failed. Qed.

(** So a failed address can wait for ever: any number of connections to another one are made and lost,
    each slot is returned, and it is not dialled. *)
Theorem C107_starved : exists s, sys_steps (sys_start None) s /\ In (addr_b, 1%nat) (pl_table (y_pool s)) /\
  status_of (y_pool s) 1 = Some StFailedConn /\ y_watch s = [] /\
  forall n, exists t, path_without addr_b s t /\ List.length (y_watch t) = n /\ live t = 0%nat /\ pl_slots (y_pool t) = 0%nat /\
    y_run t = RuSelect /\ status_of (y_pool t) 1 = Some StFailedConn.
Proof. exact starve. Qed.
Print Assumptions C107_starved.

(** * C116: the record being dialled is not connected *)
(** From the moment Run has taken the record's lock to the moment it stores the new connection, the record
    is not marked connected; so the part of the check at pool.go:221 that refuses connected ones never applies. *)
Theorem C116_not_connected : forall bans s a i, sys_steps (sys_start bans) s ->
  y_run s = RuCheck a i \/ y_run s = RuDial a i \/ (exists d, y_run s = RuVersion a i d) \/ (exists d, y_run s = RuUpdate a i d) ->
  status_of (y_pool s) i <> Some StConnected.
Proof. exact dialling_not_up. Qed.
Print Assumptions C116_not_connected.
(** Only Run, storing the new connection, marks a record connected; only Add makes a record new. *)
Theorem C116_marks : forall s t i st, sys_step s t -> status_of (y_pool t) i = Some st ->
  status_of (y_pool s) i = Some st \/
  (st = StNew /\ i = List.length (pl_infos (y_pool s))) \/
  (st = StConnected /\ exists a d, y_run s = RuUpdate a i d /\ run_step s t) \/
  (st <> StNew /\ st <> StConnected).
Proof. exact step_status. Qed.
Print Assumptions C116_marks.
(** The check is reached, and both for a record that passes it and for one that it refuses. *)
Example C116_case : (exists s, sys_steps (sys_start None) s /\ y_run s = RuCheck addr_a 0 /\ status_of (y_pool s) 0 = Some StNew) /\
  (exists s, sys_steps (sys_start None) s /\ y_run s = RuCheck addr_a 0 /\ status_of (y_pool s) 0 = Some StBanned).
Proof. exact checks. Qed.

(** * C117: what Peers returns while the records change *)
(** Peers reads Status twice and Capabilities once, and the records may change between the reads: the claim that
    whatever is handed out was at some moment neither banned nor failed is false. *)
Theorem C117_filter_refuted : forall bans, exists s l t, sys_steps (sys_start bans) s /\ trace s l t /\
  (forall v, In v l -> pl_table (y_pool v) = [(addr_a, 0%nat)]) /\
  (forall v, In v l -> status_of (y_pool v) 0 = Some StFailedConn \/ status_of (y_pool v) 0 = Some StBanned) /\
  read_during l 0 StFailedConn StBanned 0 /\
  peers_seen (fun _ => home) 0 (fun _ => (StFailedConn, StBanned, 0)) [(addr_a, 0%nat)] [] = [Addr [x7f; x00; x00; x01] 13414].
Proof. exact failed_then_banned. Qed.
Print Assumptions C117_filter_refuted.
(** What is true of every execution: at one moment it was not banned, at one not failed, and at one it had the
    capabilities; and of fewer than 256, none is missing that was eligible all the time. *)
Theorem C117_interleaved : forall resolve caps l order see, (forall v, In v l -> Permutation order (pl_table (y_pool v))) ->
  (forall a i, In (a, i) order -> exists st1 st2 c, see i = (st1, st2, c) /\ read_during l i st1 st2 c) ->
  lenN (peers_seen resolve caps see order []) <= 256 /\
  (forall n, In n (peers_seen resolve caps see order []) -> exists a i v1 v2 v3 x3, In (a, i) (pl_table (y_pool v1)) /\ resolve a = Some n /\
     (In v1 l /\ In v2 l /\ In v3 l) /\ status_of (y_pool v1) i <> Some StBanned /\ status_of (y_pool v2) i <> Some StFailedConn /\
     nth_error (pl_infos (y_pool v3)) i = Some x3 /\ forall k, N.testbit caps k = true -> N.testbit (i_caps x3) k = true) /\
  (lenN (peers_seen resolve caps see order []) < 256 -> forall a i n v0, In v0 l -> In (a, i) (pl_table (y_pool v0)) -> resolve a = Some n ->
     (forall v, In v l -> exists x, nth_error (pl_infos (y_pool v)) i = Some x /\ eligible caps x) ->
     In n (peers_seen resolve caps see order [])).
Proof. exact seen_during. Qed.
Print Assumptions C117_interleaved.
(** When no record changes, it returns what [pool_peers] of C49_peers does. *)
Theorem C117_undisturbed : forall resolve caps order p see,
  (forall a i, In (a, i) order -> exists x, nth_error (pl_infos p) i = Some x /\ see i = (i_status x, i_status x, i_caps x)) ->
  peers_seen resolve caps see order [] = pool_peers resolve caps order p.
Proof. exact seen_alone. Qed.
Print Assumptions C117_undisturbed.
Example C117_undisturbed_case : (forall a i, In (a, i) (pl_table two_peers) -> exists x, nth_error (pl_infos two_peers) i = Some x /\
    (fun i => match i with O => (StConnected, StConnected, 7) | _ => (StBanned, StBanned, 7) end) i = (i_status x, i_status x, i_caps x)) /\
  peers_seen (fun _ => home) 3 (fun i => match i with O => (StConnected, StConnected, 7) | _ => (StBanned, StBanned, 7) end) (pl_table two_peers) [] =
    [Addr [x7f; x00; x00; x01] 13414].
Proof. exact two_seen. Qed.
