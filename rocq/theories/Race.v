(** The goroutines of a node as sequences of accesses to shared memory: which locks of the pool are
    taken and which shared variables of p2p/pool.go are read and written, statement by statement.
    Unlike Pool.v, nothing that a mutex protects is taken to be a single step. Data is left out: any
    branch of a function may be taken, and any record may be the one found, so there are at least the
    executions of the code. *)
From Coq Require Export List Bool Arith Lia.
Export ListNotations.

(** The fields of peerInfo (pool.go:342-354). *)
Inductive field := FStatus | FPeer | FVersion | FHeight | FDifficulty | FCaps | FLastConn.
(** The shared variables of the pool (pool.go:39-58): the maps PeersTable, ConnectedPeers and BannedPeers,
    the counter connected, and the fields of the records. The composite literal with which Add makes a
    record (pool.go:125-133) initialises memory that is not shared yet and is not listed. *)
Inductive loc := LTable | LUp | LBans | LConnected | LField (i : nat) (f : field).
(** The mutexes: ptmu, cpmu, bnmu (pool.go:40-42) and that of each record (pool.go:343). *)
Inductive lock := Ptmu | Cpmu | Bnmu | Mu (i : nat).
(** Other means of synchronisation: the channel quit of the pool, its channel pool, the RWMutex of the
    chain, and all channels, atomics and the WaitGroup of connection [c] together. *)
Inductive chan := CQuit | CPool | CChain | CPeer (c : nat).
(** What a goroutine runs: main; the two handlers of connection [c]; the goroutine waiting for its end
    (pool.go:260-276); one sending a block to a peer (pool.go:188-195); one closing after Stop
    (pool.go:305-310); any other user of the pool. *)
Inductive role := Main | Writer (c : nat) | Reader (c : nat) | Watcher (i c : nat) | Relayer (i : nat) | Closer (i : nat) | User.
(** One action. [Sync] is an operation on something in [chan]; [Go] starts a goroutine. *)
Inductive act := Acq (l : lock) | Rel (l : lock) | Rd (x : loc) | Wr (x : loc) | Sync (c : chan) | Go (r : role).

(** ** The functions, as the sets of their action sequences *)

(** A lookup in the table: pool.go:62-64, 172-174 (PeerInfo), 210-212. *)
Definition look : list act := [Acq Ptmu; Rd LTable; Rel Ptmu].
(** (Peer).Disconnect (peer.go:344-354), Close, WriteMessage (peer.go:159-165), an atomic access. *)
Definition peer_op (c : nat) : list act := [Sync (CPeer c)].

(** Add (pool.go:95-134). *)
Inductive add_acts : list act -> Prop :=
| AddInvalid : add_acts []
| AddFull : add_acts [Acq Ptmu; Rd LTable; Rel Ptmu]
| AddKnown : add_acts [Acq Ptmu; Rd LTable; Rd LTable; Rel Ptmu]
| AddNew : add_acts [Acq Ptmu; Rd LTable; Rd LTable; Wr LTable; Rel Ptmu].

(** Ban (pool.go:61-83). *)
Inductive ban_acts : list act -> Prop :=
| BanUnknown : ban_acts look
| BanKnown i c : ban_acts (look ++ [Wr (LField i FStatus); Rd (LField i FPeer)] ++ peer_op c ++
    [Acq Bnmu; Wr LBans; Rel Bnmu; Acq Ptmu; Wr LTable; Rel Ptmu]).

(** IsBan (pool.go:86-92). *)
Definition is_ban_acts : list act := [Acq Bnmu; Rd LBans; Rel Bnmu].

(** What Peers reads of one entry (pool.go:144-152), and notConnected (pool.go:326-337): the map for the
    iteration, and up to three fields. *)
Inductive entry_acts : list act -> Prop :=
| EntryStatus i : entry_acts [Rd LTable; Rd (LField i FStatus)]
| EntryTwice i : entry_acts [Rd LTable; Rd (LField i FStatus); Rd (LField i FStatus)]
| EntryCaps i : entry_acts [Rd LTable; Rd (LField i FStatus); Rd (LField i FStatus); Rd (LField i FCaps)].
(** Peers (pool.go:137-168) and notConnected (pool.go:321-340). *)
Inductive scan_acts : list act -> Prop :=
| Scan es : Forall entry_acts es -> scan_acts ([Acq Ptmu; Rd LTable] ++ concat es ++ [Rel Ptmu]).

(** PropagateBlock (pool.go:183-197). *)
Inductive propagate_acts : list act -> Prop :=
| Propagate is : propagate_acts ([Acq Cpmu; Rd LUp] ++ map (fun i => Go (Relayer i)) is ++ [Rel Cpmu]).
(** Its goroutine (pool.go:188-195). *)
Inductive relay_acts (i : nat) : list act -> Prop :=
| RelayBehind : relay_acts i [Rd (LField i FHeight); Rd (LField i FDifficulty)]
| RelayNil : relay_acts i [Rd (LField i FHeight); Rd (LField i FDifficulty); Rd (LField i FPeer)]
| RelayHeight c : relay_acts i ([Rd (LField i FHeight); Rd (LField i FPeer)] ++ peer_op c)
| RelayDifficulty c : relay_acts i ([Rd (LField i FHeight); Rd (LField i FDifficulty); Rd (LField i FPeer)] ++ peer_op c).

(** What connectPeer does to a record once connected (pool.go:237-276), the lock being held. *)
Definition connected_acts (i c : nat) : list act :=
  [Rd LConnected; Wr LConnected; Wr (LField i FPeer); Wr (LField i FStatus); Wr (LField i FLastConn);
   Wr (LField i FVersion); Wr (LField i FHeight); Wr (LField i FDifficulty); Wr (LField i FCaps);
   Acq Cpmu; Wr LUp; Rel Cpmu; Go (Writer c); Go (Reader c)] ++ peer_op c ++ peer_op c ++ [Go (Watcher i c)].
(** connectPeer (pool.go:200-279); NewPeer touches no variable listed here. [ConRefused] is also the
    return for a wrong protocol version (233-235). *)
Inductive connect_acts : list act -> Prop :=
| ConEmpty : connect_acts []
| ConTooMany : connect_acts [Rd LConnected]
| ConMissing : connect_acts ([Rd LConnected] ++ look)
| ConBanned i : connect_acts ([Rd LConnected] ++ look ++ [Acq (Mu i); Rd (LField i FStatus); Rel (Mu i)])
| ConRefused i : connect_acts ([Rd LConnected] ++ look ++
    [Acq (Mu i); Rd (LField i FStatus); Rd (LField i FStatus); Rel (Mu i)])
| ConFailed i : connect_acts ([Rd LConnected] ++ look ++
    [Acq (Mu i); Rd (LField i FStatus); Rd (LField i FStatus); Wr (LField i FStatus); Rel (Mu i)])
| ConDone i c : connect_acts ([Rd LConnected] ++ look ++
    [Acq (Mu i); Rd (LField i FStatus); Rd (LField i FStatus)] ++ connected_acts i c ++ [Rel (Mu i)]).

(** Run (pool.go:282-313). *)
Inductive round_acts : list act -> Prop :=
| RoundKept s k : scan_acts s -> connect_acts k -> round_acts ([Sync CPool] ++ s ++ k)
| RoundFreed s k : scan_acts s -> connect_acts k -> round_acts ([Sync CPool] ++ s ++ k ++ [Sync CPool]).
Definition stopped_acts (is : list nat) : list act :=
  [Sync CQuit; Acq Ptmu; Rd LTable] ++ map (fun i => Go (Closer i)) is ++ [Rel Ptmu].
(** Its goroutines after Stop (pool.go:305-310). *)
Definition closer_acts (i c : nat) : list act :=
  [Acq (Mu i); Rd (LField i FPeer)] ++ peer_op c ++ [Wr (LField i FStatus); Rel (Mu i)].
(** The goroutine that waits for a disconnect (pool.go:260-276). *)
Definition watcher_acts (i c : nat) : list act :=
  peer_op c ++ [Acq (Mu i); Wr (LField i FStatus); Rel (Mu i); Rd LConnected; Wr LConnected;
                Acq Cpmu; Wr LUp; Rel Cpmu; Sync CPool].

(** ProcessMessage (sync.go:103-221) after its lookup (105), on a message of connection [c], with the
    record [i] found. *)
Inductive process_acts (c i : nat) : list act -> Prop :=
| PrPing : process_acts c i ([Acq (Mu i); Wr (LField i FDifficulty); Wr (LField i FHeight); Rel (Mu i); Sync CChain] ++ peer_op c)
| PrPong : process_acts c i [Acq (Mu i); Wr (LField i FDifficulty); Wr (LField i FHeight); Rel (Mu i)]
| PrGetPeers s : scan_acts s -> process_acts c i (s ++ peer_op c)
| PrPeers ls : Forall add_acts ls -> process_acts c i (concat ls)
| PrAnswer : process_acts c i ([Sync CChain] ++ peer_op c)
| PrNothing : process_acts c i []
| PrBan b : ban_acts b -> process_acts c i b
| PrBlock b u r : (b = [] \/ ban_acts b) ->
    In u [[Rd (LField i FDifficulty); Rd (LField i FHeight)];
          [Rd (LField i FDifficulty); Wr (LField i FDifficulty); Wr (LField i FHeight)];
          [Rd (LField i FDifficulty); Rd (LField i FHeight); Wr (LField i FDifficulty); Wr (LField i FHeight)]] ->
    (r = [] \/ propagate_acts r) ->
    process_acts c i ([Sync CChain] ++ b ++ [Acq (Mu i)] ++ u ++ [Rel (Mu i)] ++ r).
(** One turn of readHandler (peer.go:171-341). *)
Inductive turn_acts (c : nat) : list act -> Prop :=
| TurnMessage i p : process_acts c i p -> turn_acts c (peer_op c ++ look ++ p)
| TurnOther : turn_acts c (peer_op c).

(** A call by any other user: Add, Ban, IsBan, Peers, PeerInfo, PropagateBlock, Stop (pool.go:316-318). *)
Inductive call_acts : list act -> Prop :=
| CallAdd a : add_acts a -> call_acts a
| CallBan b : ban_acts b -> call_acts b
| CallIsBan : call_acts is_ban_acts
| CallPeers s : scan_acts s -> call_acts s
| CallInfo : call_acts look
| CallPropagate r : propagate_acts r -> call_acts r
| CallStop : call_acts [Sync CQuit].

(** What a goroutine does from its start to its end. main: NewSyncer (sync.go:79-91), any number of
    other users (the shipped program has none), Run. A goroutine that goes on for ever, or waits for
    ever, is one that never gets to the end of a long enough sequence. *)
Inductive acts_of : role -> list act -> Prop :=
| OfMain adds n rounds is : Forall add_acts adds -> Forall round_acts rounds ->
    acts_of Main (concat adds ++ repeat (Go User) n ++ concat rounds ++ stopped_acts is)
| OfWriter c n : acts_of (Writer c) (concat (repeat (peer_op c) n))
| OfReader c turns : Forall (turn_acts c) turns -> acts_of (Reader c) (concat turns ++ peer_op c)
| OfWatcher i c : acts_of (Watcher i c) (watcher_acts i c)
| OfRelayer i l : relay_acts i l -> acts_of (Relayer i) l
| OfCloser i c : acts_of (Closer i) (closer_acts i c)
| OfUser calls : Forall call_acts calls -> acts_of User (concat calls).

(** ** Executions *)

(** The goroutines, each with what it still has to do, and the locks held, each with its holder. *)
Record threads := Threads { th_progs : list (list act); th_held : list (lock * nat) }.
(** What happened: goroutine [t] did [a]; goroutine [t] started goroutine [u]. *)
Inductive event := Did (t : nat) (a : act) | Forked (t u : nat).

Fixpoint set_nth {A} (n : nat) (x : A) (l : list A) : list A :=
  match n, l with
  | _, [] => []
  | O, _ :: t => x :: t
  | S n, y :: t => y :: set_nth n x t
  end.
Definition next (s : threads) (t : nat) (a : act) (w : list act) : Prop := nth_error (th_progs s) t = Some (a :: w).
Definition free (s : threads) (l : lock) : Prop := ~ In l (map fst (th_held s)).

(** One action of one goroutine. sync.Mutex: Lock waits until the mutex is free. *)
Inductive thread_step : threads -> event -> threads -> Prop :=
| DoAcq s t l w : next s t (Acq l) w -> free s l ->
    thread_step s (Did t (Acq l)) (Threads (set_nth t w (th_progs s)) ((l, t) :: th_held s))
| DoRel s t l w pre post : next s t (Rel l) w -> th_held s = pre ++ (l, t) :: post ->
    thread_step s (Did t (Rel l)) (Threads (set_nth t w (th_progs s)) (pre ++ post))
| DoGo s t r w v : next s t (Go r) w -> acts_of r v ->
    thread_step s (Forked t (length (th_progs s))) (Threads (set_nth t w (th_progs s) ++ [v]) (th_held s))
| DoAccess s t a w : next s t a w -> (exists x, a = Rd x \/ a = Wr x) \/ (exists c, a = Sync c) ->
    thread_step s (Did t a) (Threads (set_nth t w (th_progs s)) (th_held s)).
(** Any number of them, starting with main alone; the events in order. *)
Inductive thread_steps : threads -> list event -> threads -> Prop :=
| NoSteps s : thread_steps s [] s
| MoreSteps s tr s' e s'' : thread_steps s tr s' -> thread_step s' e s'' -> thread_steps s (tr ++ [e]) s''.
Definition execution (tr : list event) (s : threads) : Prop :=
  exists w, acts_of Main w /\ thread_steps (Threads [w] []) tr s.
