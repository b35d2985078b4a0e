(** Run comes back to its select, and stops if the select is fair. *)
From Verif Require Import Pool SpecPool PoolProofs DialProofs SpecSelect.

(** How far Run is from its select: a point, and what is left of a scan. *)
Definition far (r : run_pc) : nat * nat :=
  match r with
  | RuSelect | RuStopped => (0, 0) | RuFail => (1, 0) | RuWatch _ _ => (1, 0) | RuGo _ _ => (2, 0) | RuUp _ _ => (3, 0)
  | RuFill _ _ _ => (4, 0) | RuUpdate _ _ _ => (5, 0) | RuWrite _ _ _ _ => (6, 0) | RuRead _ _ _ => (7, 0) | RuVersion _ _ _ => (8, 0)
  | RuDial _ _ => (9, 0) | RuCheck _ _ => (10, 0) | RuLock _ _ => (11, 0) | RuLookup _ => (12, 0) | RuTest _ => (13, 0)
  | RuScan true l => (14, List.length l) | RuScan false l => (15, List.length l) | RuPick => (16, 0)
  end%nat.
Definition nearer (a b : nat * nat) : Prop := (fst a < fst b \/ fst a = fst b /\ snd a < snd b)%nat.
Lemma run_nearer s t : run_step s t -> y_run s <> RuSelect -> nearer (far (y_run t)) (far (y_run s)).
Proof.
  intros St N. destruct St as [s E Q|s E L|s o E P|s sec a i l E W|s sec a i l E W|s o E P|s E|s E|s a E A L|s a E A L|s a E L|s a i E L|s a i E U|s a i st E K B
    |s a i st E K B C|s a i E|s a i d E|s a i d E V|s a i d E V|s a i d E|s a i d v E|s a i d E|s a i d E|s a i E|s a i E|s a i E|s n E L];
    rewrite E in *; try (now elim N); unfold nearer; cbn; try (left; lia).
  - destruct sec; cbn; left; lia.
  - destruct sec; cbn; right; lia.
Qed.

Section Run.
Context (bans : option (list bytes)) (h : nat -> sys).
Hypothesis (R : pool_run bans h).
Lemma run_or_same n : run_step (h n) (h (S n)) \/ y_run (h (S n)) = y_run (h n).
Proof. destruct R as (_ & Rs). destruct (Rs n) as [->|St]; [now right|]. now apply others_scan. Qed.
Lemma quits_stay n m : (n <= m)%nat -> (y_quits (h n) <= y_quits (h m))%nat.
Proof.
  induction 1 as [|m L IH]; [lia|]. destruct R as (_ & Rs). destruct (Rs m) as [->|St]; [exact IH|].
  enough (y_quits (h m) <= y_quits (h (S m)))%nat by lia.
  destruct St as [_ St|_ St|_ St|_ St|_ St]; destruct St; cbn; lia.
Qed.
Lemma stopped_stays n m : (n <= m)%nat -> y_run (h n) = RuStopped -> y_run (h m) = RuStopped.
Proof.
  induction 1 as [|m L IH]; [auto|]. intro E. specialize (IH E). destruct (run_or_same m) as [St| ->]; [|exact IH].
  destruct St; congruence.
Qed.
Hypothesis (F : run_fair h).
(** Run comes back to its select. *)
Lemma comes_back n : exists m, (n <= m)%nat /\ (y_run (h m) = RuSelect \/ y_run (h m) = RuStopped).
Proof.
  assert (Rest : forall r, {r = RuSelect \/ r = RuStopped} + {r <> RuSelect /\ r <> RuStopped})
    by (intros []; try (right; split; discriminate); left; auto).
  assert (Same : forall i m, (i <= m)%nat -> (exists k, (i <= k)%nat /\ (y_run (h k) = RuSelect \/ y_run (h k) = RuStopped)) \/
    y_run (h m) = y_run (h i) \/ (exists k, (i <= k)%nat /\ nearer (far (y_run (h k))) (far (y_run (h i))))).
  { intros i m L. induction L as [|m L IH]; [now right; left|]. destruct IH as [IH|[IH|IH]]; auto.
    destruct (Rest (y_run (h m))) as [Z|(Z & _)]; [left; exists m; auto|].
    destruct (run_or_same m) as [St|E]; [|right; left; congruence]. right. right. exists (S m). split; [lia|]. rewrite <- IH. now apply run_nearer. }
  assert (G : forall a b i, far (y_run (h i)) = (a, b) -> exists m, (i <= m)%nat /\ (y_run (h m) = RuSelect \/ y_run (h m) = RuStopped)).
  { induction a as [a IHa] using (well_founded_induction lt_wf). induction b as [b IHb] using (well_founded_induction lt_wf). intros i E.
    assert (Next : forall k, (i <= k)%nat -> nearer (far (y_run (h k))) (far (y_run (h i))) -> exists m, (i <= m)%nat /\ (y_run (h m) = RuSelect \/ y_run (h m) = RuStopped)).
    { intros k L N. unfold nearer in N. rewrite E in N. destruct (far (y_run (h k))) as (a' & b') eqn:E'. cbn in N.
      assert (K : exists m, (k <= m)%nat /\ (y_run (h m) = RuSelect \/ y_run (h m) = RuStopped)).
      { destruct N as [N|(N & N')]; [exact (IHa a' N b' k E')|]. subst a'. exact (IHb b' N' k E'). }
      destruct K as (m & Lm & K). exists m. split; [lia|exact K]. }
    destruct (F i) as (m & L & D). destruct (Same i m L) as [S|[S|(k & Lk & S)]]; [exact S| |exact (Next k Lk S)].
    destruct D as [D|[D|D]]; [exists m; auto|exists m; auto|].
    destruct (Rest (y_run (h m))) as [Z|(Z & _)]; [exists m; auto|]. apply (Next (Datatypes.S m)); [lia|]. rewrite <- S. now apply run_nearer. }
  destruct (far (y_run (h n))) as (a & b) eqn:E. exact (G a b n E).
Qed.
Lemma quit_seen s t : sees_quit s t -> y_run t = RuStopped.
Proof. intros (Es & H & E). inversion H; subst; try congruence; [reflexivity|]. cbn in E. exfalso. lia. Qed.
Hypothesis (S : select_fair h).
Lemma run_stops n : y_quits (h n) <> 0%nat -> exists m, (n <= m)%nat /\ forall j, (m <= j)%nat -> y_run (h j) = RuStopped.
Proof.
  intro Q. destruct (S n) as (m & L & E).
  - intros m L. destruct (comes_back m) as (k & Lk & K). exists k. split; [exact Lk|]. split; [|exact K].
    assert (L' : (n <= k)%nat) by lia. pose proof (quits_stay n k L'). lia.
  - destruct E as [E|E]; [exists m|exists (Datatypes.S m); apply quit_seen in E]; (split; [lia|]); intros j Lj; exact (stopped_stays _ j Lj E).
Qed.
End Run.
