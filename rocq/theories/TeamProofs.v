(** Proofs for C142: the peers in endless runs of the pool. *)
From Coq Require Import Lia.
From Verif Require Import World SpecPeer SpecFair SpecTeam SpecPool PeerProofs PoolProofs WorldProofs FairProofs.
Local Open Scope nat_scope.

Section Team.
Context (X : Ext) (pb : option nat) (bans : option (list bytes)).

Lemma nth_of (c : nat) (w : world X) p : nth_error (w_peers w) c = Some p -> conn_peer c w = p.
Proof. intro N. now apply nth_error_nth. Qed.
Lemma set_up (w : world X) c : winv X pb bans w -> connection c w -> exists b p j,
  nth_error (map in_wait (y_watch (w_sys w))) c = Some b /\ nth_error (w_peers w) c = Some p /\ nth_error (w_waits w) c = Some j /\ conn_ok X pb b p j.
Proof.
  intros (R & L1 & L2 & I1 & I2) L. unfold connection in L.
  destruct (nth_error (map in_wait (y_watch (w_sys w))) c) as [b|] eqn:N1; [|apply nth_error_None in N1; rewrite map_length in N1; lia].
  destruct (nth_error (w_peers w) c) as [p|] eqn:N2; [|apply nth_error_None in N2; lia].
  destruct (nth_error (w_waits w) c) as [j|] eqn:N3; [|apply nth_error_None in N3; lia].
  exists b, p, j. repeat (split; [reflexivity|]). now apply (I1 c).
Qed.

(** How far a goroutine that cleans up is from its end. *)
Definition to_clean (x : watch) : nat :=
  match wt_pc x with WtWait => 6 | WtStatus => 5 | WtRead => 4 | WtWrite _ => 3 | WtDelete => 2 | WtRelease => 1 | WtEnd => 0 end.
Definition cleans (c : nat) (w v : world X) : Prop :=
  forall x, cleaner c w = Some x -> cleaner c v = Some x \/ exists y, cleaner c v = Some y /\ to_clean y < to_clean x.
Lemma mid_cleans (w v : world X) pre x y post c : y_watch (w_sys w) = pre ++ x :: post -> y_watch (w_sys v) = pre ++ y :: post -> to_clean y < to_clean x -> cleans c w v.
Proof.
  intros E E' L z. unfold cleaner. rewrite E, E'. intro N. destruct (nth_mid pre post x y c z N) as [(_ & -> & N')|N']; [right; now exists y|now left].
Qed.
Lemma same_cleans (w v : world X) c : y_watch (w_sys v) = y_watch (w_sys w) -> cleans c w v.
Proof. intros E z N. left. unfold cleaner. now rewrite E. Qed.

(** What a step does with a connection. *)
Lemma team_step (w v : world X) c : winv X pb bans w -> connection c w -> world_step pb w v ->
  connection c v /\ (conn_peer c v = conn_peer c w \/ pstep (conn_peer c w) (conn_peer c v)) /\ nth_error (w_waits v) c = nth_error (w_waits w) c /\ cleans c w v.
Proof.
  intros Iv L St. destruct (set_up w c Iv L) as (b0 & p0 & j0 & _ & Np0 & Nj0 & _). pose proof Iv as (_ & L1 & L2 & _).
  unfold connection, conn_peer in *.
  destruct St as [s t ps ws Al H Op|s t ps ws a i d Al H Er|s t ps p ws a i Al H Er|s t ps p ws a i Al H Er
    |s ps ws pre a i post p j Al E Np Nj No|s t ps ws Al H Em|s t ps ws Al H|s ps ws pre i post x k p j Al E Nx Px Np Nj|s t ps ws Al H Nr|s t ps ws Al H|s pre p q post ws Al H]; cbn in *.
  - destruct (run_watch X pb s t H Op) as (Ew & _). rewrite Ew. repeat split; auto. now apply same_cleans.
  - assert (Ew : y_watch t = y_watch s) by (inversion H; subst; try congruence; reflexivity). rewrite Er in L2. cbn in L2. rewrite Ew. repeat split; auto; [|now apply same_cleans].
    left. rewrite app_nth1 by lia. reflexivity.
  - assert (Ew : y_watch t = y_watch s) by (inversion H; subst; try congruence; reflexivity). rewrite Er, app_length in L2. cbn in L2. rewrite Ew. repeat split; auto; [|now apply same_cleans].
    left. rewrite !app_nth1 by lia. reflexivity.
  - assert (Ew : y_watch t = y_watch s ++ [Watch a i WtWait]) by (inversion H; subst; try congruence; cbn; congruence). rewrite Er, app_length in L2. cbn in L2.
    rewrite Ew, app_length. cbn. repeat split; [lia|left; rewrite !app_nth1 by lia; reflexivity|now rewrite nth_error_app1 by lia|].
    intros z N. left. unfold cleaner in *. cbn in *. rewrite Ew, nth_error_app1; [exact N|lia].
  - rewrite E in L. rewrite app_length in *. cbn in *. repeat split; auto. eapply mid_cleans; [exact E|reflexivity|]. cbn. lia.
  - assert (El : List.length (y_watch t) = List.length (y_watch s)). { rewrite <- (map_length in_wait (y_watch t)), Em. apply map_length. }
    rewrite El. repeat split; auto.
    destruct H as [s pre a i post E|s pre a i post E U|s pre a i post E|s pre a i v post E|s pre a i post E|s pre a i n post E U];
      (eapply mid_cleans; [exact E|reflexivity|cbn; lia]).
  - destruct (other_watch s t ltac:(auto)) as (Ew & _). rewrite Ew. repeat split; auto. now apply same_cleans.
  - repeat split; auto. now apply same_cleans.
  - destruct (other_watch s t ltac:(auto)) as (Ew & _). rewrite Ew. repeat split; auto. now apply same_cleans.
  - destruct (other_watch s t ltac:(auto)) as (Ew & _). rewrite Ew. repeat split; auto. now apply same_cleans.
  - repeat split; auto; [|now apply same_cleans]. destruct (nth_mid pre post p q c p0 Np0) as [(-> & -> & _)|N'].
    + right. rewrite !app_nth2, Nat.sub_diag by lia. exact H.
    + left. rewrite (nth_error_nth _ _ _ Np0). now apply nth_error_nth.
Qed.

(** *** Endless runs *)
Section Runs.
Context (W : nat -> world X).
Hypothesis Rw : world_run pb bans W.
Lemma team_steps n : world_steps pb (world_start bans) (W n).
Proof. induction n as [|n IH]; [exact (proj1 Rw)|]. destruct (proj2 Rw n) as [->|H]; [exact IH|exact (WoMore X _ _ _ _ IH H)]. Qed.
Lemma team_inv n : winv X pb bans (W n).
Proof. apply winv_all, team_steps. Qed.
Lemma team_next c n : connection c (W n) ->
  connection c (W (S n)) /\ (conn_peer c (W (S n)) = conn_peer c (W n) \/ pstep (conn_peer c (W n)) (conn_peer c (W (S n)))) /\
  nth_error (w_waits (W (S n))) c = nth_error (w_waits (W n)) c /\ cleans c (W n) (W (S n)).
Proof.
  intro L. destruct (proj2 Rw n) as [->|H]; [repeat split; auto; intros z N; now left|]. apply team_step; auto. apply team_inv.
Qed.
Lemma team_stays c n k : connection c (W n) -> connection c (W (k + n)) /\ nth_error (w_waits (W (k + n))) c = nth_error (w_waits (W n)) c.
Proof. intro L. induction k as [|k (IH & E)]; [now split|]. destruct (team_next c (k + n) IH) as (A & _ & B & _). cbn. split; [exact A|congruence]. Qed.
Lemma team_life c n : connection c (W n) -> life pb (conn_peer c (W n)).
Proof. intro L. destruct (set_up (W n) c (team_inv n) L) as (b & p & j & _ & Np & _ & (K & _)). now rewrite (nth_of c _ p Np). Qed.

(** The peer of a connection runs as in C140. *)
Lemma team_run c n : connection c (W n) -> run pb (of_peer c n W).
Proof. intro L. split; [now apply team_life|]. intro k. exact (proj1 (proj2 (team_next c (k + n) (proj1 (team_stays c n k L))))). Qed.

Lemma alive_peer c n : alive (W n) -> connection c (W n) -> p_crash (conn_peer c (W n)) = None.
Proof.
  intros (_ & F) L. destruct (set_up (W n) c (team_inv n) L) as (b & p & j & _ & Np & _ & _). rewrite (nth_of c _ p Np).
  apply nth_error_In in Np. rewrite Forall_forall in F. now apply F.
Qed.

Lemma team_returns c n : connection c (W n) -> (forall k, alive (W k)) -> (forall k, n <= k -> ~ banning (p_reader (conn_peer c (W k)))) ->
  handled (of_peer c n W) -> fair (of_peer c n W) -> ending (conn_peer c (W n)) ->
  exists m, n <= m /\ forall j, m <= j -> writer_ended (p_writer (conn_peer c (W j))) /\ reader_ended (p_reader (conn_peer c (W j))) /\
    p_closed (conn_peer c (W j)) = true /\ wait_returned c (W j).
Proof.
  intros L Al Nb H F E. set (f := of_peer c n W) in *.
  assert (Rf : run pb f) by now apply team_run.
  assert (Cf : forall k, p_crash (f k) = None). { intro k. apply alive_peer; auto. now apply team_stays. }
  assert (Bf : forall k, ~ banning (p_reader (f k))) by (intro k; apply Nb; lia).
  destruct (set_up (W n) c (team_inv n) L) as (b & p & i & _ & Np & Ni & (_ & Wi & _)).
  assert (No : exists o, nth_error (p_others (f 0)) i = Some o).
  { unfold f, of_peer. cbn. rewrite (nth_of c _ p Np). destruct Wi as [K|[K|(K & _)]]; eauto. }
  destruct No as (o & No). destruct (both_end X pb f Rf Cf Bf H F 0 E) as (m1 & _ & K1). destruct (other_ends X pb f Rf Cf Bf H F 0 i o E No) as (m2 & _ & K2).
  exists (m1 + m2 + n). split; [lia|]. intros j Lj. replace j with ((j - n) + n) by lia. destruct (K1 (j - n) ltac:(lia)) as (A & B & C).
  repeat (split; [assumption|]). destruct (K2 (j - n) ltac:(lia)) as (o' & N' & Eo). destruct (team_stays c n (j - n) L) as (L' & Ei).
  exists i. split; [now rewrite Ei|]. fold (f (j - n)).
  destruct (set_up (W (j - n + n)) c (team_inv _) L') as (b' & p' & i' & _ & Np' & Ni' & (_ & Wi' & _)). assert (i' = i) as -> by congruence.
  unfold f, of_peer in *. rewrite (nth_of c _ p' Np') in *. destruct Wi' as [K|[K|(K & _)]]; [| |exact K]; rewrite K in N'; injection N' as <-; destruct Eo as [Eo|[Eo|Eo]]; discriminate Eo.
Qed.

(** And the goroutine that cleans up comes to its end. *)
Lemma team_cleans c n : connection c (W n) -> cleaner_fair c W -> (exists m, n <= m /\ forall j, m <= j -> wait_returned c (W j)) ->
  exists m, n <= m /\ forall j, m <= j -> exists a i, cleaner c (W j) = Some (Watch a i WtEnd).
Proof.
  intros L Fc (m0 & L0 & Ret).
  assert (Lc : forall k, n <= k -> connection c (W k)). { intros k Lk. replace k with ((k - n) + n) by lia. now apply team_stays. }
  assert (Hx : forall k, n <= k -> exists x, cleaner c (W k) = Some x).
  { intros k Lk. unfold cleaner. pose proof (Lc k Lk) as Q. unfold connection in Q. destruct (nth_error _ c) eqn:N; [eauto|]. apply nth_error_None in N. lia. }
  assert (Le : forall d k x, n <= k -> cleaner c (W k) = Some x -> exists y, cleaner c (W (d + k)) = Some y /\ to_clean y <= to_clean x).
  { induction d as [|d IH]; intros k x Lk Nx; [eauto|]. destruct (IH k x Lk Nx) as (y & Ny & Ly).
    destruct (team_next c (d + k) (Lc (d + k) ltac:(lia))) as (_ & _ & _ & Cl). destruct (Cl y Ny) as [Q|(z & Q & Lz)]; cbn; [eauto|]. exists z. split; [exact Q|lia]. }
  assert (Dn : forall r k x, m0 <= k -> cleaner c (W k) = Some x -> to_clean x <= r -> exists m y, k <= m /\ cleaner c (W m) = Some y /\ to_clean y = 0).
  { induction r as [|r IH]; intros k x Lk Nx Lr; [exists k, x; repeat split; auto; lia|].
    destruct (Fc k) as (m & Lm & Q). destruct (Le (m - k) k x ltac:(lia) Nx) as (y & Ny & Ly). replace (m - k + k) with m in Ny by lia.
    destruct Q as [(a & i & Q & Nr)|[(a & i & Q)|Q]].
    - elim Nr. apply Ret. lia.
    - exists m, (Watch a i WtEnd). repeat split; auto.
    - destruct (team_next c m (Lc m ltac:(lia))) as (_ & _ & _ & Cl). destruct (Cl y Ny) as [K|(z & K & Lz)]; [congruence|].
      destruct (IH (S m) z ltac:(lia) K ltac:(lia)) as (m' & y' & Lm' & Q'). exists m', y'. split; [lia|exact Q']. }
  destruct (Hx m0 L0) as (x & Nx). destruct (Dn (to_clean x) m0 x ltac:(lia) Nx ltac:(lia)) as (m & y & Lm & Ny & Zy).
  exists m. split; [lia|]. intros j Lj. destruct (Le (j - m) m y ltac:(lia) Ny) as (z & Nz & Lz). replace (j - m + m) with j in Nz by lia.
  destruct z as [a i pc]. exists a, i. rewrite Nz. destruct pc; cbn in Lz; try lia; reflexivity.
Qed.
Lemma team_cleaned c n : connection c (W n) -> (forall k, alive (W k)) -> (forall k, n <= k -> ~ banning (p_reader (conn_peer c (W k)))) ->
  handled (of_peer c n W) -> fair (of_peer c n W) -> ending (conn_peer c (W n)) -> cleaner_fair c W ->
  exists m, n <= m /\ forall j, m <= j -> exists a i, cleaner c (W j) = Some (Watch a i WtEnd).
Proof.
  intros L Al Nb H F E Fc. apply team_cleans; auto. destruct (team_returns c n L Al Nb H F E) as (m & Lm & K). exists m. split; [exact Lm|]. intros j Lj. now apply K.
Qed.
End Runs.
End Team.
