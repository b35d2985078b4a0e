(** Endless runs of the pool for C142. *)
From Coq Require Import Lia.
From Verif Require Import World SpecPeer SpecFair SpecPool SpecDone SpecTeam PeerProofs WorldProofs WorldExactProofs WorldEndProofs WorldEndExamples FairProofs TeamProofs.
Local Open Scope nat_scope.

Section Paths.
Context (X : Ext) (bans : option (list bytes)).
(** Some steps, and then nothing more. *)
Lemma path_run pb (w v : world X) : world_steps pb w v -> exists (W : nat -> world X) k,
  W 0 = w /\ (forall j, k <= j -> W j = v) /\ forall n, W (S n) = W n \/ world_step pb (W n) (W (S n)).
Proof.
  intro H. induction H as [w|w v u H (W & k & E0 & Ek & St) H1]; [exists (fun _ => w), 0; repeat split; auto|].
  exists (fun n => if n <=? k then W n else u), (S k). split; [exact E0|]. split.
  - intros j Lj. destruct (Nat.leb_spec j k); [lia|reflexivity].
  - intro n. destruct (Nat.leb_spec n k), (Nat.leb_spec (S n) k); try lia; auto.
    right. replace n with k by lia. now rewrite (Ek k (le_n k)).
Qed.
Lemma step_alive pb (w v : world X) : world_step pb w v -> alive w.
Proof. intro H. now destruct H. Qed.

(** Every run that comes to its end is fair. *)
Lemma finish_fair (W : nat -> world X) k v : world_run None bans W -> (forall j, k <= j -> W j = v) -> alive v -> finished v ->
  (forall k, alive (W k)) /\ (exists k, forall j, k <= j -> finished (W j)) /\
    forall c n, connection c (W n) -> (forall k, n <= k -> ~ banning (p_reader (conn_peer c (W k)))) /\ handled (of_peer c n W) /\ fair (of_peer c n W) /\ cleaner_fair c W.
Proof.
  intros Rw Ek Av Fv. pose proof (proj2 Rw) as St.
  assert (Aw : forall d n, k <= d + n -> alive (W n)).
  { induction d as [|d IH]; intros n Ln; [now rewrite Ek|]. destruct (St n) as [E|H]; [rewrite <- E; apply IH; lia|exact (step_alive None _ _ H)]. }
  assert (Sw : forall d n, k <= d + n -> world_steps None (W n) v).
  { induction d as [|d IH]; intros n Ln; [rewrite Ek by exact Ln; apply WoNone|]. destruct (St n) as [E|H]; [rewrite <- E; apply IH; lia|].
    apply (world_app X None _ (W (S n))); [exact (WoMore X _ _ _ _ (WoNone X _ _) H)|apply IH; lia]. }
  split; [intro n; apply (Aw k n); lia|]. split; [exists k; intros j Lj; now rewrite Ek|]. intros c n L.
  assert (Lc : forall j, n <= j -> connection c (W j)). { intros j Lj. replace j with ((j - n) + n) by lia. now apply (team_stays X None bans W Rw). }
  assert (Nc : forall j, n <= j -> In (conn_peer c (W j)) (w_peers (W j))).
  { intros j Lj. destruct (set_up X None bans (W j) c (team_inv X None bans W Rw j) (Lc j Lj)) as (b & p & i & _ & Np & _). rewrite (nth_of X c _ p Np). exact (nth_error_In _ _ Np). }
  destruct Fv as (Fv & Fc & Fw & Fp).
  assert (En : forall j, n <= j -> k <= j -> all_ended (conn_peer c (W j))).
  { intros j Ln Lj. pose proof (Nc j Ln) as I. rewrite (Ek j Lj) in *. rewrite Forall_forall in Fp. now apply Fp. }
  repeat split.
  - intros j Lj. pose proof (over_no_ban X bans (W j) v (team_steps X None bans W Rw j) (Sw k j ltac:(lia)) (conj Fv (conj Fc (conj Fw Fp)))) as B.
    rewrite Forall_forall in B. apply B, Nc, Lj.
  - intros j _ _. exists (k + j). split; [lia|]. unfold of_peer. destruct (En (k + j + n) ltac:(lia) ltac:(lia)) as (_ & Er & _). unfold reader_ended in Er. intros [H|(m & H)]; congruence.
  - intros g j. exists (k + j). split; [lia|]. left. unfold of_peer. destruct (En (k + j + n) ltac:(lia) ltac:(lia)) as (Ew & Er & Eo). unfold writer_ended, reader_ended in *.
    destruct g as [| |q]; cbn; [rewrite Ew|rewrite Er|]; try (intros [H|[H|[H|(H & _)]]]; discriminate H).
    destruct (nth_error _ q) as [o|] eqn:N; [|auto]. apply nth_error_In in N. rewrite Forall_forall in Eo. destruct (Eo o N) as [->|[->| ->]]; auto.
    intros [H|[H|[H|(H & _)]]]; discriminate H.
  - intro j. exists (k + n + j). split; [lia|]. right. left. pose proof (Lc (k + n + j) ltac:(lia)) as Q. unfold connection, cleaner in *. rewrite Ek in * by lia.
    destruct (nth_error (y_watch (w_sys v)) c) as [[a i pc]|] eqn:N; [|apply nth_error_None in N; lia]. exists a, i.
    rewrite Forall_forall in Fw. pose proof (Fw _ (nth_error_In _ _ N)) as E. cbn in E. now rewrite E.
Qed.
Lemma team_finish (w : world X) : world_steps None (world_start bans) w -> alive w -> Forall can_finish (w_peers w) ->
  (forall i, to_close (w_sys w) i -> peered (y_pool (w_sys w)) i) ->
  exists (W : nat -> world X) k v, W 0 = w /\ world_run None bans W /\ (forall j, k <= j -> W j = v) /\ alive v /\ finished v.
Proof.
  intros R Al Cf Tc. destruct (can_stop X None bans w R Al Cf Tc) as (v & Sv & Av & Fv). destruct (path_run None w v Sv) as (W & k & E0 & Ek & St).
  exists W, k, v. split; [exact E0|]. split; [split; [now rewrite E0|exact St]|auto].
Qed.
Lemma team_possible (w : world X) : world_steps None (world_start bans) w -> alive w -> Forall can_finish (w_peers w) ->
  (forall i, to_close (w_sys w) i -> peered (y_pool (w_sys w)) i) ->
  exists W : nat -> world X, W 0 = w /\ world_run None bans W /\ (forall k, alive (W k)) /\
    forall c n, connection c (W n) -> (forall k, n <= k -> ~ banning (p_reader (conn_peer c (W k)))) /\ handled (of_peer c n W) /\ fair (of_peer c n W) /\ cleaner_fair c W.
Proof. intros R Al Cf Tc. destruct (team_finish w R Al Cf Tc) as (W & k & v & A & B & Ek & Av & Fv). destruct (finish_fair W k v B Ek Av Fv) as (C & _ & D). exists W. auto. Qed.
End Paths.

(** One connection, on whose peer Disconnect has been called. *)
Definition called X : pstate X := PState X false 0 false 2 WSelect RTest [OWait; ODisc DCas] None [] [] 0 None.
Lemma team_case X : exists W : nat -> world X, world_run None None W /\ (forall k, alive (W k)) /\ connection 0 (W 0) /\ conn_peer 0 (W 0) = called X /\ ending (called X) /\
  (forall k, 0 <= k -> ~ banning (p_reader (conn_peer 0 (W k)))) /\ handled (of_peer 0 0 W) /\ fair (of_peer 0 0 W) /\ cleaner_fair 0 W /\
  exists a i, cleaner 0 (W 0) = Some (Watch a i WtWait).
Proof.
  assert (Sp : psteps (up X None) (called X)).
  { eapply PsMore; [apply PsNone|]. apply PsSpawn; [reflexivity|]. apply (OsNew X (up X None) (ODisc DCas)). now left. }
  destruct (world_one X None None (called X) Sp eq_refl) as (w & R & Al & Er & Qw & Ep & Tc & P).
  destruct (team_possible X None w R Al) as (W & E0 & Rw & Aw & H).
  - rewrite Ep. repeat constructor; [intros (d & E); discriminate E|]. intros m [U|[U|[U|U]]]; try discriminate U. destruct U as [U|[U|[]]]; discriminate U.
  - intros i Hi. apply Tc in Hi as ->. exact P.
  - pose proof (winv_all X None None w R) as (_ & L1 & L2 & I1 & _). rewrite Ep, Er in L2. cbn in L2.
    assert (L : connection 0 (W 0)) by (unfold connection; rewrite E0; lia). destruct (H 0 0 L) as (A & B & C & D).
    exists W. split; [exact Rw|]. split; [exact Aw|]. split; [exact L|]. split; [unfold conn_peer; now rewrite E0, Ep|].
    split; [do 5 right; now exists 1, DCas|]. repeat (split; [assumption|]).
    destruct (set_up X None None w 0 (winv_all X None None w R) ltac:(unfold connection; lia)) as (b & p & j & Nb & Np & Nj & (_ & Wj & Wf)).
    rewrite Ep in Np. cbn in Np. injection Np as <-. unfold cleaner. rewrite E0. rewrite nth_error_map in Nb.
    destruct (nth_error (y_watch (w_sys w)) 0) as [[a i pc]|]; [|discriminate Nb]. exists a, i. cbn in Nb. unfold in_wait in Nb. cbn in Nb.
    assert (Nf : b <> false). { intros ->. specialize (Wf eq_refl). cbn in Wf. destruct j as [|[|[|j]]]; discriminate Wf. }
    destruct pc; [reflexivity|..]; injection Nb as <-; now elim Nf.
Qed.
