(** What it means that a critical section is atomic (C121): nothing comes of its being interrupted. *)
From Verif Require Import Race SpecRace.

(** ** What an execution computes *)

(** The contents of every shared variable and channel, and what each goroutine has done and seen. *)
Record world := World { w_var : loc -> nat; w_chan : chan -> nat; w_seen : nat -> list (act * nat) }.
Definition loc_eqb (a b : loc) : bool :=
  match a, b with
  | LTable, LTable | LUp, LUp | LBans, LBans | LConnected, LConnected => true
  | LField i FStatus, LField j FStatus | LField i FPeer, LField j FPeer | LField i FVersion, LField j FVersion
  | LField i FHeight, LField j FHeight | LField i FDifficulty, LField j FDifficulty | LField i FCaps, LField j FCaps
  | LField i FLastConn, LField j FLastConn => Nat.eqb i j
  | _, _ => false
  end.
Definition chan_eqb (a b : chan) : bool :=
  match a, b with
  | CQuit, CQuit | CPool, CPool | CChain, CChain => true
  | CPeer i, CPeer j => Nat.eqb i j
  | _, _ => false
  end.
(** The effect of one event. A read sees the contents of the variable; what is written, to a variable or
    to a channel, is any function of what the goroutine has done and seen; an operation on a channel
    sees the contents of it. A new goroutine knows what the one that started it knew. *)
Definition effect (choose : nat -> list (act * nat) -> act -> nat) (e : event) (w : world) : world :=
  let see t a v := fun u => if Nat.eqb u t then w_seen w t ++ [(a, v)] else w_seen w u in
  match e with
  | Did t (Rd x) => World (w_var w) (w_chan w) (see t (Rd x) (w_var w x))
  | Did t (Wr x) =>
      let v := choose t (w_seen w t) (Wr x) in
      World (fun y => if loc_eqb y x then v else w_var w y) (w_chan w) (see t (Wr x) v)
  | Did t (Sync c) =>
      let v := choose t (w_seen w t) (Sync c) in
      World (w_var w) (fun d => if chan_eqb d c then v else w_chan w d) (see t (Sync c) (w_chan w c))
  | Did t a => World (w_var w) (w_chan w) (see t a 0)
  | Forked t u => World (w_var w) (w_chan w) (fun v => if Nat.eqb v u then w_seen w t else w_seen w v)
  end.
Definition outcome choose (tr : list event) (w : world) : world := fold_left (fun w e => effect choose e w) tr w.
Definition same_world (w w' : world) : Prop :=
  (forall x, w_var w x = w_var w' x) /\ (forall c, w_chan w c = w_chan w' c) /\ (forall t, w_seen w t = w_seen w' t).

(** The events of one goroutine. *)
Definition is_by (t : nat) (e : event) : bool := match e with Did u _ | Forked u _ => Nat.eqb u t end.
Definition of_goroutine (t : nat) (tr : list event) : list event := filter (is_by t) tr.

(** The same is done: by every goroutine, and with the same result, whatever is written and whatever
    was in the variables and channels at first. *)
Definition same_doings (tr tr' : list event) : Prop :=
  (forall t, of_goroutine t tr = of_goroutine t tr') /\
  (forall choose w, same_world (outcome choose tr w) (outcome choose tr' w)).

(** ** Critical sections *)

(** The map behind each of the mutexes of the pool. *)
Definition guards (l : lock) (x : loc) : Prop :=
  match l, x with Ptmu, LTable | Cpmu, LUp | Bnmu, LBans => True | _, _ => False end.
Definition pool_lock (l : lock) : Prop := match l with Mu _ => False | _ => True end.
(** Goroutine [t] holds [l] during the events [b]. *)
Definition section (tr : list event) (t : nat) (l : lock) (b : list event) : Prop :=
  exists a c, tr = a ++ Did t (Acq l) :: b ++ Did t (Rel l) :: c /\ ~ In (Did t (Rel l)) b.
(** It does nothing then but use the map behind [l]. *)
Definition plain (t : nat) (l : lock) (b : list event) : Prop :=
  forall e, In e b -> done_by t e -> exists a x, e = Did t a /\ accesses a x /\ guards l x.
(** No other goroutine does anything meanwhile. *)
Definition uninterrupted (t : nat) (b : list event) : Prop := forall e, In e b -> done_by t e.
