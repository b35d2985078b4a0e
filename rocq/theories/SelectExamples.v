(** A select that never looks at quit: Run dials one address for ever after Stop; and a run that stops. *)
From Verif Require Import Pool PoolExamples SpecSelect.

Definition v4 : addr := Addr [x7f; x00; x00; x01] 3414.
Definition d_add : sys := set_pool (sys_start None) (pool_add (Some v4) addr_a (y_pool (sys_start None))).
Definition d_stop : sys := stop d_add.
Definition listed : list (bytes * nat) := [(addr_a, 0%nat)].
(** Run at a point, after Stop, having [n] tokens, the record with the given status and lock. *)
Definition d_at (n : nat) (st : status) (lk : bool) (r : run_pc) : sys :=
  Sys (set_slots (upd (y_pool d_add) 0 (fun x => with_lock lk (with_status st x))) n) 1 r [] [] [] 0 None.
Definition round : list sys :=
  [d_at 0 StFailedConn false RuSelect; d_at 1 StFailedConn false RuPick; d_at 1 StFailedConn false (RuScan false listed);
   d_at 1 StFailedConn false (RuScan false []); d_at 1 StFailedConn false (RuScan true listed); d_at 1 StFailedConn false (RuTest addr_a);
   d_at 1 StFailedConn false (RuLookup addr_a); d_at 1 StFailedConn false (RuLock addr_a 0); d_at 1 StFailedConn true (RuCheck addr_a 0);
   d_at 1 StFailedConn true (RuDial addr_a 0); d_at 1 StFailedConn false RuFail].
Definition d_run (n : nat) : sys := nth (n mod 11) round d_stop.

Lemma perm_listed : Permutation listed (pl_table (y_pool d_add)).
Proof. apply Permutation_refl. Qed.
Lemma first_round : sys_steps (sys_start None) (d_at 0 StFailedConn false RuSelect).
Proof.
  assert (E0 : sys_steps (sys_start None) d_stop).
  { eapply YsMore; [eapply YsMore; [apply YsNone|]|].
    - apply YsEnv; [reflexivity|]. apply (EnAdd (sys_start None) (Some v4) addr_a). exact I.
    - apply YsEnv; [reflexivity|]. now apply (EnStop d_add). }
  assert (E1 : sys_steps (sys_start None) (d_at 1 StNew false RuPick)).
  { eapply YsMore; [exact E0|]. apply YsRun; [reflexivity|]. apply (RnToken d_stop); [reflexivity|]. apply Nat.ltb_lt. reflexivity. }
  assert (E2 : sys_steps (sys_start None) (d_at 1 StNew false (RuScan false listed))).
  { eapply YsMore; [exact E1|]. apply YsRun; [reflexivity|]. apply (RnScan (d_at 1 StNew false RuPick) listed); [reflexivity|exact perm_listed]. }
  assert (E3 : sys_steps (sys_start None) (d_at 1 StNew false (RuTest addr_a))).
  { eapply YsMore; [exact E2|]. apply YsRun; [reflexivity|]. now apply (RnHit (d_at 1 StNew false (RuScan false listed)) false addr_a 0 []). }
  assert (E4 : sys_steps (sys_start None) (d_at 1 StNew false (RuLookup addr_a))).
  { eapply YsMore; [exact E3|]. apply YsRun; [reflexivity|]. apply (RnTest (d_at 1 StNew false (RuTest addr_a)) addr_a); [reflexivity|discriminate|]. apply Z.leb_le. reflexivity. }
  assert (E5 : sys_steps (sys_start None) (d_at 1 StNew false (RuLock addr_a 0))).
  { eapply YsMore; [exact E4|]. apply YsRun; [reflexivity|]. now apply (RnFound (d_at 1 StNew false (RuLookup addr_a)) addr_a 0). }
  assert (E6 : sys_steps (sys_start None) (d_at 1 StNew true (RuCheck addr_a 0))).
  { eapply YsMore; [exact E5|]. apply YsRun; [reflexivity|]. apply (RnLock (d_at 1 StNew false (RuLock addr_a 0)) addr_a 0); [reflexivity|]. eexists. split; reflexivity. }
  assert (E7 : sys_steps (sys_start None) (d_at 1 StNew true (RuDial addr_a 0))).
  { eapply YsMore; [exact E6|]. apply YsRun; [reflexivity|]. apply (RnCheck (d_at 1 StNew true (RuCheck addr_a 0)) addr_a 0 StNew); [reflexivity|reflexivity|discriminate|discriminate]. }
  assert (E8 : sys_steps (sys_start None) (d_at 1 StFailedConn false RuFail)).
  { eapply YsMore; [exact E7|]. apply YsRun; [reflexivity|]. now apply (RnDialFailed (d_at 1 StNew true (RuDial addr_a 0)) addr_a 0). }
  eapply YsMore; [exact E8|]. apply YsRun; [reflexivity|]. now apply (RnRelease (d_at 1 StFailedConn false RuFail) 0).
Qed.
Lemma eleven n : (n mod 11 = 0 \/ n mod 11 = 1 \/ n mod 11 = 2 \/ n mod 11 = 3 \/ n mod 11 = 4 \/ n mod 11 = 5 \/ n mod 11 = 6 \/ n mod 11 = 7 \/
  n mod 11 = 8 \/ n mod 11 = 9 \/ n mod 11 = 10)%nat.
Proof. assert (n mod 11 < 11)%nat by (apply Nat.mod_upper_bound; discriminate). lia. Qed.
Lemma next_mod n k : (n mod 11 = k -> S n mod 11 = (S k) mod 11)%nat.
Proof. intros <-. rewrite <- Nat.add_1_r, <- (Nat.add_1_r (n mod 11)). now rewrite Nat.add_mod_idemp_l. Qed.
Lemma d_steps n : run_step (d_run n) (d_run (S n)).
Proof.
  unfold d_run.
  destruct (eleven n) as [E|[E|[E|[E|[E|[E|[E|[E|[E|[E|E]]]]]]]]]]; rewrite (next_mod n _ E), E; cbn [nth round Nat.modulo Nat.divmod fst snd Nat.sub].
  - apply (RnToken (d_at 0 StFailedConn false RuSelect)); [reflexivity|]. apply Nat.ltb_lt. reflexivity.
  - apply (RnScan (d_at 1 StFailedConn false RuPick) listed); [reflexivity|exact perm_listed].
  - now apply (RnPass (d_at 1 StFailedConn false (RuScan false listed)) false addr_a 0 []).
  - apply (RnAgain (d_at 1 StFailedConn false (RuScan false [])) listed); [reflexivity|exact perm_listed].
  - now apply (RnHit (d_at 1 StFailedConn false (RuScan true listed)) true addr_a 0 []).
  - apply (RnTest (d_at 1 StFailedConn false (RuTest addr_a)) addr_a); [reflexivity|discriminate|]. apply Z.leb_le. reflexivity.
  - now apply (RnFound (d_at 1 StFailedConn false (RuLookup addr_a)) addr_a 0).
  - apply (RnLock (d_at 1 StFailedConn false (RuLock addr_a 0)) addr_a 0); [reflexivity|]. eexists. split; reflexivity.
  - apply (RnCheck (d_at 1 StFailedConn true (RuCheck addr_a 0)) addr_a 0 StFailedConn); [reflexivity|reflexivity|discriminate|discriminate].
  - now apply (RnDialFailed (d_at 1 StFailedConn true (RuDial addr_a 0)) addr_a 0).
  - now apply (RnRelease (d_at 1 StFailedConn false RuFail) 0).
Qed.
Lemma d_ok : pool_run None d_run /\ run_fair d_run /\ (forall n, y_crash (d_run n) = None) /\ (forall n, y_quits (d_run n) = 1%nat) /\
  (forall n, y_run (d_run n) <> RuStopped) /\ forall n, exists m, (n <= m)%nat /\ y_run (d_run m) = RuDial addr_a 0.
Proof.
  assert (A : forall n, y_crash (d_run n) = None /\ y_quits (d_run n) = 1%nat /\ y_run (d_run n) <> RuStopped).
  { intro n. unfold d_run. destruct (eleven n) as [E|[E|[E|[E|[E|[E|[E|[E|[E|[E|E]]]]]]]]]]; rewrite E; repeat split; discriminate. }
  split; [|split; [|split; [|split; [|split]]]].
  - split; [exact first_round|]. intro n. right. apply YsRun; [now destruct (A n)|apply d_steps].
  - intro n. exists n. split; [lia|]. right. right. apply d_steps.
  - intro n. now destruct (A n).
  - intro n. now destruct (A n) as (_ & H & _).
  - intro n. now destruct (A n) as (_ & _ & H).
  - intro n. exists (n * 11 + 9)%nat. split; [lia|]. unfold d_run. now rewrite Nat.add_comm, Nat.mod_add.
Qed.

(** Stop, seen at once. *)
Definition q_run (n : nat) : sys := match n with O => d_stop | S _ =>
  Sys (y_pool d_stop) 1 RuStopped [] [] [ClLock 0] 0 None end.
Lemma q_ok : pool_run None q_run /\ run_fair q_run /\ select_fair q_run /\ y_quits (q_run 0) <> 0%nat /\ y_run (q_run 0) = RuSelect.
Proof.
  split; [|split; [|split; [|split; [discriminate|reflexivity]]]].
  - split.
    + eapply YsMore; [eapply YsMore; [apply YsNone|]|].
      * apply YsEnv; [reflexivity|]. apply (EnAdd (sys_start None) (Some v4) addr_a). exact I.
      * apply YsEnv; [reflexivity|]. now apply (EnStop d_add).
    + intros [|n]; [|now left]. right. apply YsRun; [reflexivity|]. apply (RnQuit d_stop); [reflexivity|discriminate].
  - intro n. exists (S n). split; [lia|]. right. now left.
  - intros n _. exists (S n). split; [lia|now left].
Qed.
