(** Which goroutine touches which shared variable of the pool, for C138. *)
From Verif Require Import Race.

(** What is written: main by Add and connectPeer; a read handler by Add, Ban and what its peer reports;
    the goroutine that waits for a disconnect; the one that closes after Stop; other users by Add and
    Ban. *)
Definition writes (r : role) (x : loc) : Prop :=
  match r, x with
  | Main, LBans => False
  | Main, _ => True
  | Reader _, (LTable | LBans) | Reader _, LField _ (FStatus | FHeight | FDifficulty) => True
  | Watcher i _, LField j FStatus => i = j
  | Watcher _ _, (LConnected | LUp) => True
  | Closer i, LField j FStatus => i = j
  | User, (LTable | LBans) | User, LField _ FStatus => True
  | _, _ => False
  end.
(** What is read. *)
Definition reads (r : role) (x : loc) : Prop :=
  match r, x with
  | Main, (LTable | LConnected) | Main, LField _ FStatus => True
  | Reader _, (LTable | LUp) | Reader _, LField _ (FStatus | FCaps | FPeer | FHeight | FDifficulty) => True
  | Watcher _ _, LConnected => True
  | Relayer i, LField j (FHeight | FDifficulty | FPeer) => i = j
  | Closer i, LField j FPeer => i = j
  | User, (LTable | LUp | LBans) | User, LField _ (FStatus | FCaps | FPeer) => True
  | _, _ => False
  end.
(** The one place where the goroutines of Race.v read more than those of the code: notConnected is taken
    to read what Peers reads. *)
Definition merged (r : role) (x : loc) : Prop := r = Main /\ exists i, x = LField i FCaps.
