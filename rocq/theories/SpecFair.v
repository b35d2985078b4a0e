(** What it takes for the goroutines of a peer to be run fairly. *)
From Verif Require Import Start SpecPeer.

(** The goroutines of a peer; [GOther k] is the k-th that was started from elsewhere. *)
Inductive goroutine := GWriter | GReader | GOther (k : nat).

Section Spec.
Context {X : Ext}.

(** Inside Disconnect, everything but waiting for the handlers can go on. *)
Definition can_go (s : pstate X) (d : dpc) : Prop :=
  d = DCas \/ d = DQuit \/ d = DConn \/ (d = DWait /\ p_wg s = 0%Z).

(** The goroutine is not waiting for anything from outside: not for a message to write or to read, not
    for a connection that is open to accept bytes, not for a handler of messages to come back. *)
Definition must (g : goroutine) (s : pstate X) : Prop :=
  match g with
  | GWriter =>
      match p_writer s with
      | WSelect => p_quits s <> O
      | WWrite _ => p_closed s = true
      | WCheck _ | WDone => True
      | WDisc d => can_go s d
      end
  | GReader =>
      match p_reader s with
      | RTest | RDone => True
      | RRead => p_closed s = true
      | RHandle => False
      | RSend _ => p_quits s <> O
      | RBan d => can_go s d \/ d = DRet
      | RDisc d => can_go s d
      end
  | GOther k =>
      match nth_error (p_others s) k with
      | Some (OSend _) | Some OWait => p_quits s <> O
      | Some OWaitWg => p_wg s = 0%Z
      | Some (ODisc d) => can_go s d
      | _ => False
      end
  end.

(** The goroutine takes a step. *)
Definition takes (g : goroutine) (s t : pstate X) : Prop :=
  match g with
  | GWriter => wstep s t
  | GReader => rstep s t
  | GOther k => ostep s t /\ nth_error (p_others t) k <> nth_error (p_others s) k
  end.

(** An endless run of a peer that has been started (and may have been used before), in which nothing may happen
    for any time. *)
Definition run (bans : option nat) (f : nat -> pstate X) : Prop :=
  life bans (f O) /\ forall n, f (S n) = f n \/ pstep (f n) (f (S n)).
(** No goroutine that can go on is passed over for ever. *)
Definition fair (f : nat -> pstate X) : Prop :=
  forall g n, exists m, (n <= m)%nat /\ (~ must g (f m) \/ takes g (f m) (f (S m))).

(** The handling of one message comes to its end, if what it sends is let go. *)
Definition sending (s : pstate X) : Prop := exists m, p_reader s = RSend m.
Definition handling (s : pstate X) : Prop := p_reader s = RHandle \/ sending s.
Definition handled (f : nat -> pstate X) : Prop :=
  forall n, (forall m, (n <= m)%nat -> sending (f m) -> exists k, (m <= k)%nat /\ ~ sending (f k)) ->
  handling (f n) -> exists m, (n <= m)%nat /\ ~ handling (f m).

(** Disconnect has been called or a handler has left its loop. *)
Definition ending (s : pstate X) : Prop :=
  p_flag s = true \/ p_writer s = WDone \/ (exists d, p_writer s = WDisc d) \/
  p_reader s = RDone \/ (exists d, p_reader s = RDisc d) \/ exists k d, nth_error (p_others s) k = Some (ODisc d).
End Spec.
