(** Specification for C127: what it means that the steps of Pool.v are made of the accesses of Race.v. *)
From Verif Require Import Pool.
From Verif Require Import Race.
Local Open Scope nat_scope.

(** ** What a step changes *)
Definition differ (f : field) (x y : info) : Prop :=
  match f with
  | FStatus => i_status x <> i_status y
  | FPeer => i_peer x <> i_peer y
  | FVersion => i_version x <> i_version y
  | FHeight => i_height x <> i_height y
  | FDifficulty => i_td x <> i_td y
  | FCaps => i_caps x <> i_caps y
  | FLastConn => False
  end.
(** A shared variable has one content in [p] and another in [q]. *)
Definition changed (p q : pool) (x : loc) : Prop :=
  match x with
  | LTable => pl_table p <> pl_table q
  | LUp => pl_up p <> pl_up q
  | LBans => pl_bans p <> pl_bans q
  | LConnected => pl_connected p <> pl_connected q
  | LField i f => exists a b, nth_error (pl_infos p) i = Some a /\ nth_error (pl_infos q) i = Some b /\ differ f a b
  end.
Definition by_one (g : nat) (e : event) : Prop := match e with Did t _ => t = g | Forked t _ => t = g end.
(** The events of a step: one goroutine writes every variable that changes, uses the channels that change,
    and starts the goroutines that there are more of. The first goroutine does the steps of Run. *)
Definition covers (s t : sys) (seg : list event) : Prop := exists g, Forall (by_one g) seg /\ (y_run s <> y_run t -> g = 0) /\
  (forall x, changed (y_pool s) (y_pool t) x -> In (Did g (Wr x)) seg) /\
  (pl_slots (y_pool s) <> pl_slots (y_pool t) -> In (Did g (Sync CPool)) seg) /\
  (y_quits s <> y_quits t -> In (Did g (Sync CQuit)) seg) /\
  (List.length (y_watch s) <> List.length (y_watch t) \/ List.length (y_close s) <> List.length (y_close t) -> exists h, In (Forked g h) seg).
Fixpoint follows (s : sys) (path : list sys) (segs : list (list event)) : Prop :=
  match path, segs with
  | [], [] => True
  | t :: path, seg :: segs => covers s t seg /\ follows t path segs
  | _, _ => False
  end.

(** ** Which executions of Pool.v *)

(** There is a connection whose handlers were started. *)
Definition handling (s : sys) : Prop := y_watch s <> [] \/ exists a i, y_run s = RuGo a i \/ y_run s = RuWatch a i.
(** What a peer tells of itself is recorded when there is a peer, and not while Run goes through the table: in the
    code the lookup of the record comes before (sync.go:105), and it waits for Run. In Pool.v that is no condition. *)
Definition heard (s t : sys) : Prop := forall i f, f = FHeight \/ f = FDifficulty -> changed (y_pool s) (y_pool t) (LField i f) ->
  y_run t = y_run s -> table_free s /\ handling s.
Fixpoint sys_run (s : sys) (path : list sys) : Prop :=
  match path with [] => True | t :: path => sys_step s t /\ heard s t /\ sys_run t path end.

(** ** Where the locks are *)
Definition same_locks (s : sys) (ts : threads) : Prop :=
  (forall i, locked (y_pool s) i <-> exists g, In (Mu i, g) (th_held ts)) /\
  (table_free s <-> ~ exists g, In (Ptmu, g) (th_held ts)) /\
  (forall g, ~ In (Cpmu, g) (th_held ts) /\ ~ In (Bnmu, g) (th_held ts)).
