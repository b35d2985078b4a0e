(** Endless runs of the pool for C143. *)
From Coq Require Import Lia.
From Verif Require Import World SpecPeer SpecFair SpecPool SpecDone SpecTeam SpecSelect SpecShutAll PeerProofs PoolProofs WorldProofs WorldExactProofs WorldEndProofs WorldEndExamples TeamProofs TeamExamples ShutAllProofs.
Local Open Scope nat_scope.

Lemma shut_fair X bans (W : nat -> world X) l v : world_run None bans W -> (forall j, l <= j -> W j = v) -> alive v -> finished v ->
  (forall k, alive (W k)) /\ peers_fair W /\ run_fair (pool_of W) /\ select_fair (pool_of W) /\ (forall k, closer_calls k W) /\ (forall k, closer_fair k W) /\
  forall c n, connection c (W n) -> cleaner_fair c W.
Proof.
  intros B Ek Av Hv. destruct (finish_fair X bans W l v B Ek Av Hv) as (C & (k & K) & D).
  assert (E : forall c j, k <= j -> closer c (W j) = Some ClEnd \/ closer c (W j) = None).
  { intros c j Lj. destruct (K j Lj) as (_ & Fc & _). unfold closer. destruct (nth_error _ c) as [x|] eqn:N; [left|now right].
    unfold all_closed in Fc. rewrite Forall_forall in Fc. now rewrite (Fc x (nth_error_In _ _ N)). }
  split; [exact C|]. split; [intros c n L; destruct (D c n L) as (U & V & Z & _); auto|].
  assert (St : forall n, y_run (pool_of W (k + n)) = RuStopped) by (intro n; destruct (K (k + n) ltac:(lia)) as (Fv & _); exact Fv).
  repeat split.
  - intro n. exists (k + n). split; [lia|]. right. left. apply St.
  - intros n _. exists (k + n). split; [lia|]. left. apply St.
  - intros c n i p _ _. exists (k + n). split; [lia|]. right. destruct (E c (k + n) ltac:(lia)) as [-> | ->]; discriminate.
  - intros c n. exists (k + n). split; [lia|]. right. destruct (E c (k + n) ltac:(lia)); auto.
  - intros c n L. now destruct (D c n L) as (_ & _ & _ & Q).
Qed.
Lemma shut_possible X bans (w : world X) : world_steps None (world_start bans) w -> alive w -> Forall can_finish (w_peers w) ->
  (forall i, to_close (w_sys w) i -> peered (y_pool (w_sys w)) i) ->
  exists W : nat -> world X, W 0 = w /\ world_run None bans W /\ (forall k, alive (W k)) /\ peers_fair W /\
    run_fair (pool_of W) /\ select_fair (pool_of W) /\ (forall k, closer_calls k W) /\ (forall k, closer_fair k W) /\ forall c n, connection c (W n) -> cleaner_fair c W.
Proof.
  intros R Al Cf Tc. destruct (team_finish X bans w R Al Cf Tc) as (W & k & v & A & B & Ek & Av & Fv).
  destruct (shut_fair X bans W k v B Ek Av Fv) as (C & D & E & F & G & H & I). exists W. auto 10.
Qed.

(** One connection, with its handlers at work, and Stop has been called. *)
Lemma shut_case X : exists W : nat -> world X, world_run None None W /\ (forall k, alive (W k)) /\ peers_fair W /\
  run_fair (pool_of W) /\ select_fair (pool_of W) /\ (forall k, closer_calls k W) /\ (forall k, closer_fair k W) /\
  y_quits (w_sys (W 0)) <> 0 /\ y_run (w_sys (W 0)) = RuSelect /\ conn_peer 0 (W 0) = up X None /\ to_close (w_sys (W 0)) 0 /\ record_peer 0 0 (W 0).
Proof.
  destruct (world_one X None None (up X None) (PsNone _ _) eq_refl) as (w & R & Al & Er & Qw & Ep & Tc & P).
  assert (R1 : world_steps None (world_start None) (World (stop (w_sys w)) (w_peers w) (w_waits w))).
  { destruct w as [s ps ws]. cbn in *. eapply WoMore; [exact R|]. apply WoOthers; [exact Al|]. now apply EnStop. }
  assert (T1 : forall i, to_close (stop (w_sys w)) i <-> i = 0) by (intro i; rewrite <- Tc; reflexivity).
  destruct (shut_possible X None _ R1) as (W & E0 & Rw & Aw & Pf & A & B & C & D & _).
  - destruct w as [s ps ws]. exact Al.
  - cbn. rewrite Ep. repeat constructor; [intros (d & E); discriminate E|]. intros m [U|[U|[U|U]]]; try discriminate U. destruct U as [U|[]]; discriminate U.
  - cbn. intros i Hi. apply T1 in Hi as ->. exact P.
  - exists W. rewrite E0. repeat (split; [assumption|]). split; [discriminate|]. split; [exact Er|]. split; [unfold conn_peer; cbn; now rewrite Ep|].
    split; [now apply T1|]. destruct P as (x & c & Nx & Px). exists x. split; [exact Nx|].
    assert (Rp : record_peer 0 c w) by (now exists x). apply record_at in Rp. destruct (OwnProofs.own_reach None _ (proj1 (winv_all X None None w R))) as (_ & _ & _ & O). specialize (O 0 c Rp).
    pose proof (winv_all X None None w R) as (_ & L1 & L2 & _). rewrite Ep, Er in L2. rewrite Er in O. cbn in L2, O. assert (c = 0) by lia. congruence.
Qed.

Lemma before_stop bans z : sys_steps (sys_start bans) z -> y_run z <> RuStopped -> y_close z = [].
Proof.
  intro H. remember (sys_start bans) as z0 eqn:E0. induction H as [z0|z0 z1 z2 H IH St]; intro Nz; [now subst|].
  assert (Nt : y_run z1 <> RuStopped) by (intro K; now destruct (stopped_keeps _ _ St K)). specialize (IH E0 Nt).
  destruct St as [C St|C St|C St|C St|C St].
  - run_cases St; try exact IH. now elim Nz.
  - watch_cases St; exact IH.
  - ban_cases St; exact IH.
  - close_cases St; rewrite IH in E; symmetry in E; apply app_eq_nil in E as (_ & E); discriminate E.
  - env_cases St; exact IH.
Qed.

Lemma shut_pending X : exists (W : nat -> world X) a k, world_run None None W /\ (forall j, alive (W j)) /\ peers_fair W /\
  (forall k, closer_calls k W) /\ (forall k, closer_fair k W) /\ cleaner_fair 0 W /\
  y_run (w_sys (W 0)) = RuSelect /\ In (a, 0) (pl_table (y_pool (w_sys (W 0)))) /\ record_peer 0 0 (W 0) /\
  y_run (w_sys (W 1)) = RuStopped /\ closer k (W 1) = Some (ClLock 0) /\ record_peer 0 0 (W 1) /\ conn_peer 0 (W 1) = up X None.
Proof.
  destruct (world_one X None None (up X None) (PsNone _ _) eq_refl) as (w & R & Al & Erw & Qw & Epw & Tw & Pw).
  pose proof (winv_all X None None w R) as Iw. pose proof (before_stop None _ (proj1 Iw) ltac:(congruence)) as Ec.
  pose proof (OwnProofs.own_reach None _ (proj1 Iw)) as (_ & _ & _ & O). destruct Iw as (_ & L1 & L2 & _). destruct w as [s ps ws]. cbn in *. subst ps. rewrite Erw in L2. cbn in L2.
  set (t := Sys (y_pool s) (y_quits (stop s)) RuStopped (y_watch s) (y_bans s) (y_close s ++ map (fun kv => ClLock (snd kv)) (pl_table (y_pool s))) (y_leaked s) (y_crash s)).
  assert (R0 : world_steps None (world_start None) (World (stop s) [up X None] ws)).
  { apply (WoMore X None _ (World s [up X None] ws)); [exact R|]; apply WoOthers; [exact Al|now apply EnStop]. }
  assert (S1 : world_step None (World (stop s) [up X None] ws) (World t [up X None] ws)).
  { apply WoRun; [exact Al| |cbn; now rewrite Erw]. apply (RnQuit (stop s)); [exact Erw|discriminate]. }
  pose proof (WoMore X None _ _ _ R0 S1) as R1.
  assert (In0 : exists a, In (a, 0) (pl_table (y_pool s))).
  { destruct (proj2 (Tw 0) eq_refl) as [(_ & I)|[I|I]]; [exact I| |]; rewrite Ec in I; destruct I. }
  assert (T1 : forall i, to_close t i -> i = 0).
  { intros i [(K & _)|[I|I]]; [now elim K| |]; cbn in I; rewrite Ec in I; apply in_map_iff in I as ((a & j) & E & I); [injection E as ->|discriminate E].
    apply Tw. left. split; [congruence|]. now exists a. }
  assert (Re : record_peer 0 0 (World s [up X None] ws)).
  { destruct Pw as (x & c & Nx & Px). exists x. split; [exact Nx|]. specialize (O 0 c). rewrite Erw in O. cbn in O. assert (Pa : OwnProofs.peer_at (y_pool s) 0 = Some c) by (unfold OwnProofs.peer_at; now rewrite Nx).
    specialize (O Pa). assert (c = 0) by lia. congruence. }
  destruct (team_finish X None _ R1) as (V & l & v & E0 & Rv & Ek & Av & Fv).
  - exact Al.
  - cbn. repeat constructor; [intros (d & K); discriminate K|]. intros m [U|[U|[U|U]]]; try discriminate U. destruct U as [U|[]]; discriminate U.
  - cbn. intros i Hi. apply T1 in Hi as ->. exact Pw.
  - set (W := fun n => match n with O => World (stop s) [up X None] ws | S n => V n end).
    assert (Rw : world_run None None W). { split; [exact R0|]. intros [|n]; cbn; [right; now rewrite E0|exact (proj2 Rv n)]. }
    destruct (shut_fair X None W (S l) v Rw) as (Aw & Pf & _ & _ & C & D & E); [intros [|j] Lj; [lia|]; cbn; apply Ek; lia|exact Av|exact Fv|].
    destruct In0 as (a & I0). assert (I : In (ClLock 0) (y_close t)) by (cbn; rewrite Ec; apply in_map_iff; now exists (a, 0)).
    apply In_nth_error in I as (k & N). exists W, a, k. repeat (split; [auto; fail|]). split; [apply (E 0 0); unfold connection; cbn; lia|]. cbn [W].
    split; [exact Erw|]. split; [exact I0|]. split; [exact Re|]. rewrite E0. repeat split; [exact N|exact Re].
Qed.
