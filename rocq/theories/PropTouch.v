(** Property C138: which goroutine touches which shared variable of the pool. Statements only; proofs are in
    TouchProofs.v, the specification in SpecTouch.v. *)
From Verif Require Import Race SpecTouch TouchProofs.

(** * C138 *)

(** A goroutine can write the variables in the table, and no others. *)
Theorem C138_writes : forall r x, (exists w, acts_of r w /\ In (Wr x) w) <-> writes r x.
Proof. exact writes_exact. Qed.
Print Assumptions C138_writes.
(** The same for reading, with one exception that is an approximation of the model. *)
Theorem C138_reads : forall r x, ~ merged r x -> ((exists w, acts_of r w /\ In (Rd x) w) <-> reads r x).
Proof. exact reads_exact. Qed.
Print Assumptions C138_reads.

(** What a version or the time of the last connection is changed by, and who reads them: main alone, and
    nobody. *)
Theorem C138_unread : forall r i w f, f = FVersion \/ f = FLastConn -> acts_of r w ->
  (In (Wr (LField i f)) w -> r = Main) /\ ~ In (Rd (LField i f)) w.
Proof.
  intros r i w f F A. split.
  - intro I. assert (K : writes r (LField i f)) by (apply C138_writes; eauto). destruct F as [-> | ->]; destruct r; cbn in K; easy.
  - intro I. assert (K : reads r (LField i f)).
    { apply C138_reads; [|eauto]. intros (_ & j & E). destruct F as [-> | ->]; discriminate E. }
    destruct F as [-> | ->]; destruct r; cbn in K; easy.
Qed.
Print Assumptions C138_unread.
(** Only Run and the goroutines that wait for a disconnect touch the number of connections and write the
    table of connected peers. *)
Theorem C138_counter : forall r w, acts_of r w -> In (Wr LConnected) w \/ In (Rd LConnected) w \/ In (Wr LUp) w -> r = Main \/ exists i c, r = Watcher i c.
Proof.
  intros r w A [I|[I|I]].
  - assert (K : writes r LConnected) by (apply C138_writes; eauto). destruct r; cbn in K; try easy; eauto.
  - assert (K : reads r LConnected) by (apply C138_reads; [intros (_ & j & E); discriminate E|eauto]). destruct r; cbn in K; try easy; eauto.
  - assert (K : writes r LUp) by (apply C138_writes; eauto). destruct r; cbn in K; try easy; eauto.
Qed.
Print Assumptions C138_counter.

(** A goroutine that sends a block to a peer, and one that closes a peer. *)
Example C138_case : (exists w, acts_of (Relayer 3) w /\ In (Rd (LField 3 FPeer)) w) /\ (exists w, acts_of (Closer 3) w /\ In (Wr (LField 3 FStatus)) w) /\
  ~ (exists w, acts_of (Relayer 3) w /\ In (Wr (LField 3 FHeight)) w) /\ ~ merged (Relayer 3) (LField 3 FCaps).
Proof.
  split; [apply C138_reads; [now intros (E & _)|reflexivity]|]. split; [now apply C138_writes|]. split; [|now intros (E & _)].
  intro H. apply C138_writes in H. exact H.
Qed.
