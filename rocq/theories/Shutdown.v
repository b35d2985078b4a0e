(** One connection while the pool is being stopped: the goroutine of p2p/pool.go:305-310 that closes
    it, together with the peer of Peer.v and the lock of its record, which the read handler takes when
    it handles a ping, a pong or a block (p2p/sync.go:115, 134, 199). *)
From Verif Require Export Peer.

Section WithExt.
Context (X : Ext).

(** Who holds the lock: nobody, the read handler, or the closing goroutine, which is number [k] of the
    peer's other goroutines. (Only one peer and one closing goroutine at a time are modelled; other
    holders, pool.go:218 and 265, do not block while they hold the lock of a connected peer.) *)
Inductive holder := LFree | LReader | LCloser (k : nat).

(** [l_wants]: the read handler, inside ProcessMessage, waits for the lock or holds it. *)
Record lstate := LState { l_peer : pstate X; l_lock : holder; l_wants : bool }.

Definition l_start (bans : option nat) : lstate := LState (p_start X bans) LFree false.

(** A step: of the peer's goroutines (the read handler only if it is not at the lock); the read
    handler arrives at the lock, takes it, releases it (sync.go:115-118); the closing goroutine takes
    the lock and calls Close (pool.go:306-307); it has returned from Close and releases the lock (308-309). *)
Inductive lstep : lstate -> lstate -> Prop :=
| LsWriter p l w p' : p_crash p = None -> wstep p p' -> lstep (LState p l w) (LState p' l w)
| LsReader p l p' : p_crash p = None -> rstep p p' -> lstep (LState p l false) (LState p' l false)
| LsOther p l w p' : p_crash p = None -> ostep p p' -> lstep (LState p l w) (LState p' l w)
| LsSpawn p l w p' : p_crash p = None -> ospawn X p p' -> lstep (LState p l w) (LState p' l w)
| LsWant p l : p_crash p = None -> p_reader p = RHandle -> lstep (LState p l false) (LState p l true)
| LsLock p : p_crash p = None -> lstep (LState p LFree true) (LState p LReader true)
| LsUnlock p : p_crash p = None -> lstep (LState p LReader true) (LState p LFree false)
| LsClose p w : p_crash p = None ->
    lstep (LState p LFree w) (LState (set_others p (p_others p ++ [ODisc DCas])) (LCloser (List.length (p_others p))) w)
| LsClosed p k w : p_crash p = None -> nth_error (p_others p) k = Some (ODisc DRet) ->
    lstep (LState p (LCloser k) w) (LState p LFree w).
(** Any number of steps. *)
Inductive lsteps : lstate -> lstate -> Prop :=
| LsNone s : lsteps s s
| LsMore s t u : lsteps s t -> lstep t u -> lsteps s u.
End WithExt.

Arguments LState {X}. Arguments l_peer {X}. Arguments l_lock {X}. Arguments l_wants {X}.
Arguments lstep {X}. Arguments lsteps {X}. Arguments LsNone {X}. Arguments LsMore {X}.
