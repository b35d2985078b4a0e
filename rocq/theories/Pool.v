(** The pool of peers: p2p/pool.go. First its functions run alone, then the pool as a system of
    goroutines.

    Addresses are byte strings. A Go map is a list of pairs without repeated keys, and iterating over
    it visits the pairs of some permutation of that list, which is an argument. A *peerInfo is an
    index into the list of all peerInfo records ever made. *)
From Coq Require Export Permutation.
From Verif Require Export Messages Handshake.

(** ** Data *)

(** pool.go:20-21. *)
Definition max_online : nat := 15.
Definition max_table : N := 10000.

(** pool.go:358-364. *)
Inductive status := StNew | StConnected | StBanned | StDisconnected | StFailedConn.

(** pool.go:342-354 — peerInfo. The peer is the number of its connection (nil: None); LastConn, which
    nothing reads, is left out; the mutex is [i_locked]. *)
Record info := Info {
  i_status : status; i_peer : option nat; i_version : N; i_height : N; i_td : N; i_caps : N; i_locked : bool }.

(** pool.go:39-58 — peersPool: the counter (an int32 in the code, here an integer: C68 shows that it stays in
    range for the first 2^31 connections), the number of tokens in the channel pool, the records,
    PeersTable, ConnectedPeers and BannedPeers (nil: None). The mutexes cpmu and bnmu are held for
    single steps only; for ptmu see [table_free]. The quit channel is below. *)
Record pool := Pool {
  pl_connected : Z; pl_slots : nat; pl_infos : list info;
  pl_table : list (bytes * nat); pl_up : list (bytes * nat); pl_bans : option (list bytes) }.

(** Reading, assigning and deleting a key of a map. *)
Fixpoint lookup {A} (k : bytes) (l : list (bytes * A)) : option A :=
  match l with [] => None | (k', v) :: t => if bytes_eqb k k' then Some v else lookup k t end.
Definition remove {A} (k : bytes) (l : list (bytes * A)) : list (bytes * A) :=
  filter (fun kv => negb (bytes_eqb k (fst kv))) l.
Definition assign {A} (k : bytes) (v : A) (l : list (bytes * A)) : list (bytes * A) := (k, v) :: remove k l.

(** Changing the record with index [i]. *)
Definition update (i : nat) (f : info -> info) (l : list info) : list info :=
  match nth_error l i with Some x => firstn i l ++ f x :: skipn (S i) l | None => l end.

(** Single fields of the pool. *)
Definition set_connected p v := Pool v (pl_slots p) (pl_infos p) (pl_table p) (pl_up p) (pl_bans p).
Definition set_slots p n := Pool (pl_connected p) n (pl_infos p) (pl_table p) (pl_up p) (pl_bans p).
Definition set_infos p l := Pool (pl_connected p) (pl_slots p) l (pl_table p) (pl_up p) (pl_bans p).
Definition set_table p l := Pool (pl_connected p) (pl_slots p) (pl_infos p) l (pl_up p) (pl_bans p).
Definition set_up p l := Pool (pl_connected p) (pl_slots p) (pl_infos p) (pl_table p) l (pl_bans p).
Definition set_banned p b := Pool (pl_connected p) (pl_slots p) (pl_infos p) (pl_table p) (pl_up p) b.

(** ** Functions *)

(** pool.go:25-36 — newPeersPool: BannedPeers is not made. *)
Definition pool_new : pool := Pool 0 0 [] [] [] None.

(** net.IP.IsMulticast: 224.0.0.0/4 or ff00::/8. *)
Definition is_multicast (i : bytes) : bool :=
  match to4 i with
  | Some (b :: _) => (224 <=? Byte.to_N b) && (Byte.to_N b <? 240)
  | Some [] => false
  | None => (lenN i =? 16) && match i with b :: _ => Byte.eqb b xff | [] => false end
  end.

(** pool.go:125-133 — a new record. *)
Definition fresh_info : info := Info StNew None 0 0 0 0 false.

(** pool.go:95-134 — Add; [resolved] is what net.ResolveTCPAddr returns for [a]. *)
Definition pool_add (resolved : option addr) (a : bytes) (p : pool) : pool :=
  match resolved with
  | None => p
  | Some n =>
      if is_multicast (ip n) then p
      else if (port n =? 0)%Z then p
      else if max_table <? lenN (pl_table p) then p
      else match lookup a (pl_table p) with
           | Some _ => p
           | None => set_table (set_infos p (pl_infos p ++ [fresh_info]))
                       (assign a (List.length (pl_infos p)) (pl_table p))
           end
  end.

(** pool.go:145-152 — the entries Peers looks at. *)
Definition offered (caps : N) (x : info) : bool :=
  negb (match i_status x with StBanned | StFailedConn => true | _ => false end) &&
  (N.land (i_caps x) caps =? caps).
(** pool.go:144-163 — the loop of Peers over [order], with [acc] found so far. *)
Fixpoint peers_loop (resolve : bytes -> option addr) (caps : N) (infos : list info) (order : list (bytes * nat))
    (acc : list addr) : list addr :=
  match order with
  | [] => acc
  | (a, i) :: t =>
      match nth_error infos i with
      | None => peers_loop resolve caps infos t acc            (* not reached: indices are valid *)
      | Some x =>
          if negb (offered caps x) then peers_loop resolve caps infos t acc
          else
            let acc' := match resolve a with Some n => acc ++ [n] | None => acc end in
            if lenN acc' =? max_peer_addrs then acc' else peers_loop resolve caps infos t acc'
      end
  end.
(** pool.go:137-168 — Peers. *)
Definition pool_peers (resolve : bytes -> option addr) (caps : N) (order : list (bytes * nat)) (p : pool) : list addr :=
  peers_loop resolve caps (pl_infos p) order [].

(** pool.go:144-163 — the same loop while other goroutines write to the records, which ptmu does not
    protect. [see i] are the values of the three reads of the record [i]: of Status, of Status again (145),
    and of Capabilities (150). Different addresses have different records, so each is read in one turn. *)
Fixpoint peers_seen (resolve : bytes -> option addr) (caps : N) (see : nat -> status * status * N) (order : list (bytes * nat))
    (acc : list addr) : list addr :=
  match order with
  | [] => acc
  | (a, i) :: t =>
      let '(st1, st2, c) := see i in
      if match st1 with StBanned => true | _ => false end || match st2 with StFailedConn => true | _ => false end
         || negb (N.land c caps =? caps)
      then peers_seen resolve caps see t acc
      else
        let acc' := match resolve a with Some n => acc ++ [n] | None => acc end in
        if lenN acc' =? max_peer_addrs then acc' else peers_seen resolve caps see t acc'
  end.

(** pool.go:86-92 — IsBan; reading a nil map finds nothing. *)
Definition is_ban (a : bytes) (p : pool) : bool :=
  match pl_bans p with Some l => existsb (bytes_eqb a) l | None => false end.

(** pool.go:171-180 — PeerInfo. *)
Definition peer_info (a : bytes) (p : pool) : option nat := lookup a (pl_table p).

(** pool.go:326-330 and 333-337 — the first entry of [order] whose status is one of [good]. *)
Definition first_with (good : status -> bool) (infos : list info) (order : list (bytes * nat)) : option bytes :=
  match find (fun kv => match nth_error infos (snd kv) with Some x => good (i_status x) | None => false end) order with
  | Some kv => Some (fst kv)
  | None => None
  end.
(** pool.go:321-340 — notConnected; the two loops may see different orders. *)
Definition not_connected (order1 order2 : list (bytes * nat)) (p : pool) : bytes :=
  match first_with (fun s => match s with StNew | StDisconnected => true | _ => false end) (pl_infos p) order1 with
  | Some a => a
  | None =>
      match first_with (fun s => match s with StFailedConn => true | _ => false end) (pl_infos p) order2 with
      | Some a => a
      | None => []
      end
  end.

(** pool.go:183-197 — PropagateBlock: the connections a block with this height and total difficulty is
    sent to. The goroutines that send it read the records at some later time, see [relay_late]; here they read
    them at once. *)
Definition propagate (height td : N) (p : pool) : list nat :=
  flat_map (fun kv =>
    match nth_error (pl_infos p) (snd kv) with
    | Some x => if (i_height x <? height) || (i_td x <? td)
                then match i_peer x with Some c => [c] | None => [] end
                else []
    | None => []
    end) (pl_up p).

(** pool.go:187-196 — one of those goroutines, for the record [i], when others write to the record meanwhile:
    its Height is read from [p1], TotalDifficulty from [p2] (always: where the code does not read it, the value
    does not matter) and Peer from [p3]. The connection that the block is sent to. *)
Definition relay_late (height td : N) (i : nat) (p1 p2 p3 : pool) : option nat :=
  match nth_error (pl_infos p1) i, nth_error (pl_infos p2) i, nth_error (pl_infos p3) i with
  | Some x1, Some x2, Some x3 => if (i_height x1 <? height) || (i_td x2 <? td) then i_peer x3 else None
  | _, _, _ => None
  end.

(** ** The pool as a system *)

(** Points of Run (pool.go:282-313), inlining connectPeer (200-279). A connection that NewPeer returned
    is its version, capabilities and total difficulty (its height is 0). *)
Record dialled := Dialled { dl_version : N; dl_caps : N; dl_td : N }.
Inductive run_pc :=
| RuSelect                                     (* 286 *)
| RuPick                                       (* 291: has put a token, before notConnected *)
| RuScan (second : bool) (todo : list (bytes * nat))      (* 326-330, 333-337: in notConnected, [todo] left to visit *)
| RuTest (a : bytes)                           (* 202-208 *)
| RuLookup (a : bytes)                         (* 210-216 *)
| RuLock (a : bytes) (i : nat)                 (* 218 *)
| RuCheck (a : bytes) (i : nat)                (* 221 *)
| RuDial (a : bytes) (i : nat)                 (* 226: in NewPeer *)
| RuVersion (a : bytes) (i : nat) (d : dialled)           (* 233 *)
| RuRead (a : bytes) (i : nat) (d : dialled)              (* 237: before reading pp.connected *)
| RuWrite (a : bytes) (i : nat) (d : dialled) (v : Z)     (* 237: before writing it *)
| RuUpdate (a : bytes) (i : nat) (d : dialled)            (* 240-242 *)
| RuFill (a : bytes) (i : nat) (d : dialled)              (* 244-247 *)
| RuUp (a : bytes) (i : nat)                   (* 250-252 *)
| RuGo (a : bytes) (i : nat)                   (* 255-257: the handlers run, before SendPeerRequest returns *)
| RuWatch (a : bytes) (i : nat)                (* 260-278 *)
| RuFail                                       (* 293: before taking a token back *)
| RuStopped.                                   (* 300-313 *)

(** Points of the goroutine waiting for a disconnect (pool.go:260-276). *)
Inductive watch_pc :=
| WtWait                                       (* 261 *)
| WtStatus                                     (* 265-267 *)
| WtRead                                       (* 270: before reading pp.connected *)
| WtWrite (v : Z)                              (* 270: before writing it *)
| WtDelete                                     (* 271-273 *)
| WtRelease                                    (* 275 *)
| WtEnd.
(** Such a goroutine: address, record and point. *)
Record watch := Watch { wt_addr : bytes; wt_info : nat; wt_pc : watch_pc }.

(** Points of a goroutine in Ban (pool.go:61-83). *)
Inductive ban_pc :=
| BnLookup (a : bytes)                         (* 62-68 *)
| BnStatus (a : bytes) (i : nat)               (* 71 *)
| BnClose (a : bytes) (i : nat)                (* 72 *)
| BnMap (a : bytes)                            (* 75-77 *)
| BnDelete (a : bytes)                         (* 80-82 *)
| BnEnd.

(** Points of a goroutine closing a connection after Stop (pool.go:305-310). *)
Inductive close_pc :=
| ClLock (i : nat)                             (* 306 *)
| ClClose (i : nat)                            (* 307 *)
| ClStatus (i : nat)                           (* 308-309 *)
| ClEnd.

(** Ways to take the process down: Close on a nil peer (72, 307), a write to the nil map (76), closing
    quit twice (317). *)
Inductive pool_crash := NilPeer | NilBans | StopTwice.

(** [y_leaked] counts, as a ghost, the iterations of Run that kept their token without starting a
    connection. *)
Record sys := Sys {
  y_pool : pool; y_quits : nat; y_run : run_pc; y_watch : list watch; y_bans : list ban_pc;
  y_close : list close_pc; y_leaked : nat; y_crash : option pool_crash }.

(** The start: the pool of newPeersPool, with Run about to select. The shipped code has [bans] = None;
    other values show what a made map would change. *)
Definition sys_start (bans : option (list bytes)) : sys := Sys (set_banned pool_new bans) 0 RuSelect [] [] [] 0 None.

(** Single fields of the state; [go s p r] is a step of Run to [r] leaving the pool [p]. *)
Definition go s p r := Sys p (y_quits s) r (y_watch s) (y_bans s) (y_close s) (y_leaked s) (y_crash s).
Definition set_pool s p := Sys p (y_quits s) (y_run s) (y_watch s) (y_bans s) (y_close s) (y_leaked s) (y_crash s).
Definition set_watch s p w := Sys p (y_quits s) (y_run s) w (y_bans s) (y_close s) (y_leaked s) (y_crash s).
Definition set_ban s p b := Sys p (y_quits s) (y_run s) (y_watch s) b (y_close s) (y_leaked s) (y_crash s).
Definition set_close s p c := Sys p (y_quits s) (y_run s) (y_watch s) (y_bans s) c (y_leaked s) (y_crash s).
Definition leak s := Sys (y_pool s) (y_quits s) (y_run s) (y_watch s) (y_bans s) (y_close s) (S (y_leaked s)) (y_crash s).
Definition stop s := Sys (y_pool s) (S (y_quits s)) (y_run s) (y_watch s) (y_bans s) (y_close s) (y_leaked s) (y_crash s).
Definition down s c := Sys (y_pool s) (y_quits s) (y_run s) (y_watch s) (y_bans s) (y_close s) (y_leaked s) (Some c).

(** Changes of a record: status; lock; what a connection sets (240-247); what a message sets
    (sync.go:115-118, 134-137, 199-206). *)
Definition with_status st x := Info st (i_peer x) (i_version x) (i_height x) (i_td x) (i_caps x) (i_locked x).
Definition with_lock b x := Info (i_status x) (i_peer x) (i_version x) (i_height x) (i_td x) (i_caps x) b.
(** pool.go:240-247 — what connectPeer writes once it is connected, without locks that readers take. In two
    steps: nobody reads Peer and Status of one record together, and of the other fields Peers reads only
    Capabilities, and [relay_late] Height before TotalDifficulty: it does not read the second if it finds the
    new Height, 0, less than that of the block, and else the first plays no role. LastConn is not modelled. *)
Definition with_conn c x := Info StConnected (Some c) (i_version x) (i_height x) (i_td x) (i_caps x) (i_locked x).
Definition with_told d x := Info (i_status x) (i_peer x) (dl_version d) 0 (dl_td d) (dl_caps d) (i_locked x).
Definition with_record td h x := Info (i_status x) (i_peer x) (i_version x) h td (i_caps x) (i_locked x).
Definition upd p i f := set_infos p (update i f (pl_infos p)).

Definition status_of p i : option status := match nth_error (pl_infos p) i with Some x => Some (i_status x) | None => None end.
(** What the first (326-330) and the second loop (333-337) of notConnected look for. Status is read twice
    in the first (327): as no record becomes new again, that is one read. *)
Definition wanted (second : bool) (st : status) : bool :=
  match st with StNew | StDisconnected => negb second | StFailedConn => second | _ => false end.
Definition wanted_at (second : bool) p i : bool :=
  match nth_error (pl_infos p) i with Some x => wanted second (i_status x) | None => false end.
(** Nobody is in notConnected, which holds ptmu while others write to the records. All other holders of
    ptmu access nothing but the table. *)
Definition table_free s : Prop := match y_run s with RuScan _ _ => False | _ => True end.

Definition locked p i : Prop := exists x, nth_error (pl_infos p) i = Some x /\ i_locked x = true.
Definition unlocked p i : Prop := exists x, nth_error (pl_infos p) i = Some x /\ i_locked x = false.

(** A step of Run. The channel pool has capacity 15. Whether NewPeer succeeds is up to the network, and so is
    when it returns and when the two messages at 256-257 are taken off the send queue (the second when the first
    is written, or the connection closed).
    The check at 221 reads Status twice, and Ban may write in between; as the record is never connected
    there (C116), that is one read. *)
Inductive run_step : sys -> sys -> Prop :=
| RnQuit s : y_run s = RuSelect -> y_quits s <> O ->
    run_step s (Sys (y_pool s) (y_quits s) RuStopped (y_watch s) (y_bans s)
                  (y_close s ++ map (fun kv => ClLock (snd kv)) (pl_table (y_pool s))) (y_leaked s) (y_crash s))
| RnToken s : y_run s = RuSelect -> (pl_slots (y_pool s) < max_online)%nat ->
    run_step s (go s (set_slots (y_pool s) (S (pl_slots (y_pool s)))) RuPick)
| RnScan s o : y_run s = RuPick -> Permutation o (pl_table (y_pool s)) -> run_step s (go s (y_pool s) (RuScan false o))
| RnHit s sec a i l : y_run s = RuScan sec ((a, i) :: l) -> wanted_at sec (y_pool s) i = true ->
    run_step s (go s (y_pool s) (RuTest a))
| RnPass s sec a i l : y_run s = RuScan sec ((a, i) :: l) -> wanted_at sec (y_pool s) i = false ->
    run_step s (go s (y_pool s) (RuScan sec l))
| RnAgain s o : y_run s = RuScan false [] -> Permutation o (pl_table (y_pool s)) -> run_step s (go s (y_pool s) (RuScan true o))
| RnNone s : y_run s = RuScan true [] -> run_step s (go s (y_pool s) (RuTest []))
| RnNobody s : y_run s = RuTest [] -> run_step s (leak (go s (y_pool s) RuSelect))
| RnTooMany s a : y_run s = RuTest a -> a <> [] -> (Z.of_nat max_online < pl_connected (y_pool s))%Z ->
    run_step s (go s (y_pool s) RuFail)
| RnTest s a : y_run s = RuTest a -> a <> [] -> (pl_connected (y_pool s) <= Z.of_nat max_online)%Z ->
    run_step s (go s (y_pool s) (RuLookup a))
| RnMissing s a : y_run s = RuLookup a -> lookup a (pl_table (y_pool s)) = None -> run_step s (go s (y_pool s) RuFail)
| RnFound s a i : y_run s = RuLookup a -> lookup a (pl_table (y_pool s)) = Some i -> run_step s (go s (y_pool s) (RuLock a i))
| RnLock s a i : y_run s = RuLock a i -> unlocked (y_pool s) i ->
    run_step s (go s (upd (y_pool s) i (with_lock true)) (RuCheck a i))
| RnRefused s a i st : y_run s = RuCheck a i -> status_of (y_pool s) i = Some st -> (st = StBanned \/ st = StConnected) ->
    run_step s (leak (go s (upd (y_pool s) i (with_lock false)) RuSelect))
| RnCheck s a i st : y_run s = RuCheck a i -> status_of (y_pool s) i = Some st -> st <> StBanned -> st <> StConnected ->
    run_step s (go s (y_pool s) (RuDial a i))
| RnDialFailed s a i : y_run s = RuDial a i ->
    run_step s (go s (upd (y_pool s) i (fun x => with_lock false (with_status StFailedConn x))) RuFail)
| RnDialled s a i d : y_run s = RuDial a i -> run_step s (go s (y_pool s) (RuVersion a i d))
| RnOther s a i d : y_run s = RuVersion a i d -> dl_version d <> protocol_version ->
    run_step s (go s (upd (y_pool s) i (with_lock false)) RuFail)
| RnVersion s a i d : y_run s = RuVersion a i d -> dl_version d = protocol_version -> run_step s (go s (y_pool s) (RuRead a i d))
| RnRead s a i d : y_run s = RuRead a i d -> run_step s (go s (y_pool s) (RuWrite a i d (pl_connected (y_pool s))))
| RnWrite s a i d v : y_run s = RuWrite a i d v -> run_step s (go s (set_connected (y_pool s) (v + 1)) (RuUpdate a i d))
| RnUpdate s a i d : y_run s = RuUpdate a i d ->
    run_step s (go s (upd (y_pool s) i (with_conn (List.length (y_watch s)))) (RuFill a i d))
| RnFill s a i d : y_run s = RuFill a i d -> run_step s (go s (upd (y_pool s) i (with_told d)) (RuUp a i))
| RnUp s a i : y_run s = RuUp a i -> run_step s (go s (set_up (y_pool s) (assign a i (pl_up (y_pool s)))) (RuGo a i))
| RnGo s a i : y_run s = RuGo a i -> run_step s (go s (y_pool s) (RuWatch a i))
| RnWatch s a i : y_run s = RuWatch a i ->
    run_step s (go (set_watch s (y_pool s) (y_watch s ++ [Watch a i WtWait])) (upd (y_pool s) i (with_lock false)) RuSelect)
| RnRelease s n : y_run s = RuFail -> pl_slots (y_pool s) = S n -> run_step s (go s (set_slots (y_pool s) n) RuSelect).

(** A step of a waiting goroutine. WaitForDisconnect may return at any time. *)
Inductive watch_step : sys -> sys -> Prop :=
| WaReturn s pre a i post : y_watch s = pre ++ Watch a i WtWait :: post ->
    watch_step s (set_watch s (y_pool s) (pre ++ Watch a i WtStatus :: post))
| WaStatus s pre a i post : y_watch s = pre ++ Watch a i WtStatus :: post -> unlocked (y_pool s) i ->
    watch_step s (set_watch s (upd (y_pool s) i (with_status StDisconnected)) (pre ++ Watch a i WtRead :: post))
| WaRead s pre a i post : y_watch s = pre ++ Watch a i WtRead :: post ->
    watch_step s (set_watch s (y_pool s) (pre ++ Watch a i (WtWrite (pl_connected (y_pool s))) :: post))
| WaWrite s pre a i v post : y_watch s = pre ++ Watch a i (WtWrite v) :: post ->
    watch_step s (set_watch s (set_connected (y_pool s) (v - 1)) (pre ++ Watch a i WtDelete :: post))
| WaDelete s pre a i post : y_watch s = pre ++ Watch a i WtDelete :: post ->
    watch_step s (set_watch s (set_up (y_pool s) (remove a (pl_up (y_pool s)))) (pre ++ Watch a i WtRelease :: post))
| WaRelease s pre a i n post : y_watch s = pre ++ Watch a i WtRelease :: post -> pl_slots (y_pool s) = S n ->
    watch_step s (set_watch s (set_slots (y_pool s) n) (pre ++ Watch a i WtEnd :: post)).

(** A step of a goroutine in Ban, or of one closing after Stop. Close on a peer may return at any
    time (or never: see Peer.v). *)
Inductive ban_step : sys -> sys -> Prop :=
| BaUnknown s pre a post : y_bans s = pre ++ BnLookup a :: post -> table_free s -> lookup a (pl_table (y_pool s)) = None ->
    ban_step s (set_ban s (y_pool s) (pre ++ BnEnd :: post))
| BaFound s pre a i post : y_bans s = pre ++ BnLookup a :: post -> table_free s -> lookup a (pl_table (y_pool s)) = Some i ->
    ban_step s (set_ban s (y_pool s) (pre ++ BnStatus a i :: post))
| BaStatus s pre a i post : y_bans s = pre ++ BnStatus a i :: post ->
    ban_step s (set_ban s (upd (y_pool s) i (with_status StBanned)) (pre ++ BnClose a i :: post))
| BaNil s pre a i post x : y_bans s = pre ++ BnClose a i :: post -> nth_error (pl_infos (y_pool s)) i = Some x ->
    i_peer x = None -> ban_step s (down s NilPeer)
| BaClosed s pre a i post x c : y_bans s = pre ++ BnClose a i :: post -> nth_error (pl_infos (y_pool s)) i = Some x ->
    i_peer x = Some c -> ban_step s (set_ban s (y_pool s) (pre ++ BnMap a :: post))
| BaNilMap s pre a post : y_bans s = pre ++ BnMap a :: post -> pl_bans (y_pool s) = None -> ban_step s (down s NilBans)
| BaMap s pre a post l : y_bans s = pre ++ BnMap a :: post -> pl_bans (y_pool s) = Some l ->
    ban_step s (set_ban s (set_banned (y_pool s) (Some (a :: l))) (pre ++ BnDelete a :: post))
| BaDelete s pre a post : y_bans s = pre ++ BnDelete a :: post -> table_free s ->
    ban_step s (set_ban s (set_table (y_pool s) (remove a (pl_table (y_pool s)))) (pre ++ BnEnd :: post)).
Inductive close_step : sys -> sys -> Prop :=
| CsLock s pre i post : y_close s = pre ++ ClLock i :: post -> unlocked (y_pool s) i ->
    close_step s (set_close s (upd (y_pool s) i (with_lock true)) (pre ++ ClClose i :: post))
| CsNil s pre i post x : y_close s = pre ++ ClClose i :: post -> nth_error (pl_infos (y_pool s)) i = Some x ->
    i_peer x = None -> close_step s (down s NilPeer)
| CsClosed s pre i post x c : y_close s = pre ++ ClClose i :: post -> nth_error (pl_infos (y_pool s)) i = Some x ->
    i_peer x = Some c -> close_step s (set_close s (y_pool s) (pre ++ ClStatus i :: post))
| CsStatus s pre i post : y_close s = pre ++ ClStatus i :: post ->
    close_step s (set_close s (upd (y_pool s) i (fun x => with_lock false (with_status StDisconnected x))) (pre ++ ClEnd :: post)).

(** What others do: Add, a call of Ban, a message that records height and total difficulty, Stop
    (pool.go:316-318). *)
Inductive env_step : sys -> sys -> Prop :=
| EnAdd s r a : table_free s -> env_step s (set_pool s (pool_add r a (y_pool s)))
| EnBan s a : env_step s (set_ban s (y_pool s) (y_bans s ++ [BnLookup a]))
| EnRecord s i td h : unlocked (y_pool s) i -> env_step s (set_pool s (upd (y_pool s) i (with_record td h)))
| EnStop s : y_quits s = O -> env_step s (stop s)
| EnStopAgain s : y_quits s <> O -> env_step s (down s StopTwice).

(** A step of the system; nothing runs after a crash. *)
Inductive sys_step (s t : sys) : Prop :=
| YsRun : y_crash s = None -> run_step s t -> sys_step s t
| YsWatch : y_crash s = None -> watch_step s t -> sys_step s t
| YsBan : y_crash s = None -> ban_step s t -> sys_step s t
| YsClose : y_crash s = None -> close_step s t -> sys_step s t
| YsEnv : y_crash s = None -> env_step s t -> sys_step s t.
(** Any number of steps. *)
Inductive sys_steps : sys -> sys -> Prop :=
| YsNone s : sys_steps s s
| YsMore s t u : sys_steps s t -> sys_step t u -> sys_steps s u.
