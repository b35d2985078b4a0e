(** C140: under a fair scheduler, a peer that begins to end ends. *)
From Verif Require Import Start SpecPeer SpecFair FairProofs FairExamples.

(** Once Disconnect has been called or a handler has left its loop, both handlers end and the connection is closed. *)
Theorem C140_ends : forall (X : Ext) (bans : option nat) (f : nat -> pstate X),
  run bans f -> (forall n, p_crash (f n) = None) -> (forall n, ~ banning (p_reader (f n))) -> handled f -> fair f ->
  forall n, ending (f n) ->
  exists m, (n <= m)%nat /\ forall j, (m <= j)%nat ->
    writer_ended (p_writer (f j)) /\ reader_ended (p_reader (f j)) /\ p_closed (f j) = true.
Proof. exact both_end. Qed.
Print Assumptions C140_ends.

(** And every call of Disconnect, of WriteMessage and of WaitForDisconnect returns, whenever it was made. *)
Theorem C140_calls : forall (X : Ext) (bans : option nat) (f : nat -> pstate X),
  run bans f -> (forall n, p_crash (f n) = None) -> (forall n, ~ banning (p_reader (f n))) -> handled f -> fair f ->
  forall n k o, ending (f n) -> nth_error (p_others (f n)) k = Some o ->
  exists m, (n <= m)%nat /\ forall j, (m <= j)%nat -> exists o', nth_error (p_others (f j)) k = Some o' /\ other_ended o'.
Proof. exact other_ends. Qed.
Print Assumptions C140_calls.

(** A run in which Disconnect is called, with all the hypotheses. *)
Example C140_ends_case : forall X : Ext, exists f : nat -> pstate X,
  run None f /\ (forall n, p_crash (f n) = None) /\ (forall n, ~ banning (p_reader (f n))) /\ handled f /\ fair f /\
  ending (f 1%nat) /\ nth_error (p_others (f 1%nat)) 0 = Some (ODisc DCas).
Proof. intro X. exists (e_run X). exact (e_ok X). Qed.

(** Fairness asks nothing impossible: what must take a step can. *)
Theorem C140_possible : forall (X : Ext) (bans : option nat) (s : pstate X) g,
  life bans s -> must g s -> exists t, takes g s t.
Proof. exact must_can. Qed.
Print Assumptions C140_possible.
Example C140_possible_case : forall X : Ext, life None (p_start X None) /\ must GReader (p_start X None) /\
  exists s : pstate X, must (GOther 0) s /\ life None s.
Proof.
  intro X. split; [apply life_start, PsNone|]. split; [exact I|]. exists (e_called X). split; [now left|]. apply life_start.
  eapply PsMore; [apply PsNone|]. apply PsSpawn; [reflexivity|]. apply (OsNew X (p_start X None) (ODisc DCas)). now left.
Qed.

(** Without the hypothesis on bans it fails: a read handler that bans its own peer never ends, however
    fair the scheduler. *)
Theorem C140_ban_refuted : forall X : Ext, exists f : nat -> pstate X,
  run None f /\ (forall n, p_crash (f n) = None) /\ handled f /\ fair f /\
  p_flag (f 4%nat) = true /\ forall n, ~ reader_ended (p_reader (f n)).
Proof. intro X. exists (b_run X). exact (b_ok X). Qed.
Print Assumptions C140_ban_refuted.
