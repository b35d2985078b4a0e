(** Specifications for the pool of peers. *)
From Verif Require Import Pool.

(** ** The table *)

(** Every entry of the table points to a record. *)
Definition valid_table (p : pool) : Prop :=
  forall a i, In (a, i) (pl_table p) -> (i < List.length (pl_infos p))%nat.

(** What an address must resolve to: not 224.0.0.0/4 (also when written as an IPv6 address), not
    ff00::/8, and a port other than 0. *)
Definition ipv4_part (i v4 : bytes) : Prop :=
  (i = v4 /\ List.length v4 = 4%nat) \/
  (i = brepeat x00 10 ++ [xff; xff] ++ v4 /\ List.length v4 = 4%nat).
Definition multicast (i : bytes) : Prop :=
  (exists b rest, ipv4_part i (b :: rest) /\ 224 <= Byte.to_N b <= 239) \/
  (List.length i = 16%nat /\ exists rest, i = xff :: rest).
Definition usable (r : option addr) : Prop :=
  exists n, r = Some n /\ ~ multicast (ip n) /\ port n <> 0%Z.

(** Calls of Add one after another, each with what its address resolved to at that time. *)
Definition adds (l : list (option addr * bytes)) (p : pool) : pool :=
  fold_left (fun p c => pool_add (fst c) (snd c) p) l p.

(** An entry that may be handed out: neither banned nor failed, and with every requested capability
    bit. *)
Definition eligible (caps : N) (x : info) : Prop :=
  i_status x <> StBanned /\ i_status x <> StFailedConn /\
  forall k, N.testbit caps k = true -> N.testbit (i_caps x) k = true.

(** ** Connections *)

(** The connections that NewPeer has returned and whose disconnect nobody has been told of: one per
    goroutine still waiting, and the one Run is setting up. *)
Definition waiting (w : watch) : bool := match wt_pc w with WtWait => true | _ => false end.
Definition setting_up (r : run_pc) : nat :=
  match r with RuRead _ _ _ | RuWrite _ _ _ _ | RuUpdate _ _ _ | RuFill _ _ _ | RuUp _ _ | RuGo _ _ | RuWatch _ _ => 1 | _ => 0 end.
Definition live (s : sys) : nat := (List.length (filter waiting (y_watch s)) + setting_up (y_run s))%nat.

(** Run is between iterations or gone: it is not trying to connect. *)
Definition idle (r : run_pc) : Prop := r = RuSelect \/ r = RuStopped.

(** No entry can be connected: all are connected or banned. *)
Definition nobody_to_connect (p : pool) : Prop :=
  forall a i, In (a, i) (pl_table p) -> status_of p i = Some StConnected \/ status_of p i = Some StBanned.

(** A goroutine waiting for a disconnect that has not ended, or has not yet taken its address out of
    ConnectedPeers. *)
Definition running (w : watch) : bool := match wt_pc w with WtEnd => false | _ => true end.
Definition before_delete (w : watch) : bool := match wt_pc w with WtRelease | WtEnd => false | _ => true end.

(** Whether the record with index [i] has a peer. *)
Definition no_peer (p : pool) (i : nat) : Prop := exists x, nth_error (pl_infos p) i = Some x /\ i_peer x = None.
Definition has_peer (p : pool) (i : nat) : Prop :=
  exists x c, nth_error (pl_infos p) i = Some x /\ i_peer x = Some c /\ i_locked x = false.
(** Every goroutine closing a connection after Stop has ended. *)
Definition all_closed (s : sys) : Prop := Forall (fun c => c = ClEnd) (y_close s).

(** ** A call that does not return *)

(** Steps of everything but Run: the goroutines waiting for a disconnect, banning or closing, and
    what others do (Add, Ban, messages, Stop). While NewPeer or a write does not return, these are all. *)
Inductive others_step (s t : sys) : Prop :=
| OsWatch : y_crash s = None -> watch_step s t -> others_step s t
| OsBan : y_crash s = None -> ban_step s t -> others_step s t
| OsClose : y_crash s = None -> close_step s t -> others_step s t
| OsEnv : y_crash s = None -> env_step s t -> others_step s t.
Inductive others_steps : sys -> sys -> Prop :=
| OsNone s : others_steps s s
| OsMore s t u : others_steps s t -> others_step t u -> others_steps s u.
(** The points at which Run waits for the network, with the record that it has locked: NewPeer (pool.go:226), and
    the second message to a new peer (257), which is taken when the first has been written. *)
Definition at_network (r : run_pc) : option nat := match r with RuDial _ i | RuGo _ i => Some i | _ => None end.
(** Steps of Run alone, every call of NewPeer and every write returning. *)
Inductive run_steps : sys -> sys -> Prop :=
| RsNone s : run_steps s s
| RsMore s t u : run_step s t -> run_steps t u -> run_steps s u.
(** Run has nothing to do: it has ended, or it waits at its select with all 15 slots taken and no
    call of Stop. *)
Definition at_rest (s : sys) : Prop :=
  y_run s = RuStopped \/ (y_run s = RuSelect /\ pl_slots (y_pool s) = 15%nat /\ y_quits s = 0%nat).
