(** The pool with its peers: p2p/pool.go:200-312 as in Pool.v, where each connection that Run makes has the peer of
    Start.v, and the goroutine that waits for its end (pool.go:260-277) goes on when WaitForDisconnect has returned
    on that peer. The peers are numbered as in Pool.v, in the order in which they are stored in a record.
    Simplifications: any goroutine may start to use a stored peer at any time, which covers the handlers of other
    peers, Ban, the goroutines after Stop (pool.go:304-311) and relays. Those after Stop go on once some call of Close
    on their peer has returned, be it their own or not, and those in Ban at any time, as in Pool.v. *)
From Verif Require Export Start Pool.

Section WithExt.
Context (X : Ext).
(** [w_waits] has for each connection the index of its waiting goroutine among the users of its peer. *)
Record world := World { w_sys : sys; w_peers : list (pstate X); w_waits : list nat }.
(** Nothing runs after a crash, be it of the pool or of a peer. *)
Definition alive (w : world) : Prop := y_crash (w_sys w) = None /\ Forall (fun p => p_crash p = None) (w_peers w).
(** Steps of Run that do something with the peer of the new connection: pool.go:240, 255, 260. *)
Definition on_peer (r : run_pc) : bool := match r with RuUpdate _ _ _ | RuGo _ _ | RuWatch _ _ => true | _ => false end.
(** A goroutine in WaitForDisconnect, pool.go:261. *)
Definition in_wait (w : watch) : bool := match wt_pc w with WtWait => true | _ => false end.
(** After Stop, the call of Close on the peer of the record [i] returns, pool.go:307. *)
Definition close_returns (s t : sys) : Prop :=
  exists pre i post, y_close s = pre ++ ClClose i :: post /\ y_close t = pre ++ ClStatus i :: post.

(** One step; [n] is the initial p_bans of peers. *)
Inductive world_step (n : option nat) : world -> world -> Prop :=
| WoRun s t ps ws : alive (World s ps ws) -> run_step s t -> on_peer (y_run s) = false -> world_step n (World s ps ws) (World t ps ws)
| WoStore s t ps ws a i d : alive (World s ps ws) -> run_step s t -> y_run s = RuUpdate a i d ->
    world_step n (World s ps ws) (World t (ps ++ [p_new n]) ws)
| WoStart s t ps p ws a i : alive (World s (ps ++ [p]) ws) -> run_step s t -> y_run s = RuGo a i ->
    world_step n (World s (ps ++ [p]) ws) (World t (ps ++ [started p]) ws)
| WoWait s t ps p ws a i : alive (World s (ps ++ [p]) ws) -> run_step s t -> y_run s = RuWatch a i ->
    world_step n (World s (ps ++ [p]) ws)
      (World t (ps ++ [set_others p (p_others p ++ [OWait])]) (ws ++ [List.length (p_others p)]))
| WoReturn s ps ws pre a i post p j : alive (World s ps ws) -> y_watch s = pre ++ Watch a i WtWait :: post ->
    nth_error ps (List.length pre) = Some p -> nth_error ws (List.length pre) = Some j -> nth_error (p_others p) j = Some OWaited ->
    world_step n (World s ps ws) (World (set_watch s (y_pool s) (pre ++ Watch a i WtStatus :: post)) ps ws)
| WoClean s t ps ws : alive (World s ps ws) -> watch_step s t -> map in_wait (y_watch t) = map in_wait (y_watch s) ->
    world_step n (World s ps ws) (World t ps ws)
| WoBan s t ps ws : alive (World s ps ws) -> ban_step s t -> world_step n (World s ps ws) (World t ps ws)
| WoClosed s ps ws pre i post x c p j : alive (World s ps ws) -> y_close s = pre ++ ClClose i :: post ->
    nth_error (pl_infos (y_pool s)) i = Some x -> i_peer x = Some c -> nth_error ps c = Some p -> nth_error (p_others p) j = Some (ODisc DRet) ->
    world_step n (World s ps ws) (World (set_close s (y_pool s) (pre ++ ClStatus i :: post)) ps ws)
| WoClose s t ps ws : alive (World s ps ws) -> close_step s t -> ~ close_returns s t -> world_step n (World s ps ws) (World t ps ws)
| WoOthers s t ps ws : alive (World s ps ws) -> env_step s t -> world_step n (World s ps ws) (World t ps ws)
| WoPeer s pre p q post ws : alive (World s (pre ++ p :: post) ws) -> pstep p q ->
    world_step n (World s (pre ++ p :: post) ws) (World s (pre ++ q :: post) ws).
(** Any number of steps, from the start of the pool. *)
Inductive world_steps (n : option nat) : world -> world -> Prop :=
| WoNone w : world_steps n w w
| WoMore w v u : world_steps n w v -> world_step n v u -> world_steps n w u.
Definition world_start (bans : option (list bytes)) : world := World (sys_start bans) [] [].
End WithExt.
Arguments World {X}. Arguments w_sys {X}. Arguments w_peers {X}. Arguments w_waits {X}. Arguments alive {X}.
Arguments world_step {X}. Arguments world_steps {X}. Arguments world_start {X}.
