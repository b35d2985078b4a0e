(** Executions for C135. *)
From Coq Require Import Lia.
From Verif Require Import World SpecPeer SpecPool SpecDone PeerProofs PoolProofs PoolExamples WorldProofs WorldExactProofs WorldEndProofs.
Local Open Scope nat_scope.

(** One connection; its peer at any state that it can get to. *)
Lemma world_one X pb bans (p : pstate X) : psteps (up X pb) p -> p_crash p = None ->
  exists w : world X, world_steps pb (world_start bans) w /\ alive w /\ y_run (w_sys w) = RuSelect /\ y_quits (w_sys w) = 0 /\ w_peers w = [p] /\
    (forall i, to_close (w_sys w) i <-> i = 0) /\ peered (y_pool (w_sys w)) 0.
Proof.
  intros Sp Cp. assert (K : exists s x, sys_steps (sys_start bans) s /\ y_crash s = None /\ y_watch s = [Watch addr_a 0 WtWait] /\ y_run s = RuSelect /\ y_close s = [] /\ y_quits s = 0 /\
    pl_table (y_pool s) = [(addr_a, 0)] /\ pl_infos (y_pool s) = [x] /\ i_peer x = Some 0).
  { eexists. eexists. split.
    - add addr_a. run_dialled [(addr_a, 0%nat)] addr_a 0%nat StNew. run_finish addr_a 0%nat. apply YsNone.
    - repeat split; reflexivity. }
  destruct K as (s & x & R & Cs & Ew & Er & Ec & Q & Et & Ei & Px). destruct (neat_all X pb bans s R) as ([s' ps ws] & Rw & Es & N). cbn in Es. subst s'.
  destruct N as (_ & F & _ & L2 & _ & _ & I3). cbn in F, L2, I3. rewrite Ew, Er in L2. cbn in L2. specialize (I3 Ec 0). rewrite Ew in I3. specialize (I3 eq_refl).
  destruct ps as [|p0 [|? ?]]; try discriminate L2. cbn in I3. injection I3 as ->.
  assert (Al : alive (World s [up X pb] ws)) by (split; [exact Cs|exact F]).
  exists (World s [p] ws). split; [exact (world_app X pb _ _ _ Rw (peer_steps X pb s [] (up X pb) p [] ws Sp Al))|].
  cbn. split; [split; [exact Cs|]; now repeat constructor|]. repeat (split; [assumption || reflexivity|]). split.
  - intro i. unfold to_close. rewrite Ec, Et. cbn. split.
    + intros [(_ & a & [E|[]])|[[]|[]]]. congruence.
    + intros ->. left. split; [congruence|]. exists addr_a. now left.
  - exists x, 0. rewrite Ei. now split.
Qed.
(** The peer while it answers a ping. *)
Definition answering X pb (m : message X) : pstate X := PState X false 0 false 2 WSelect (RSend m) [OWait] pb [] [] 0 None.
Lemma up_answering X pb m : psteps (up X pb) (answering X pb m).
Proof.
  eapply psteps_cons; [apply PsReader; [reflexivity|]; apply RsGo; reflexivity|].
  eapply psteps_cons; [apply PsReader; [reflexivity|]; apply RsMessage; reflexivity|].
  eapply psteps_cons; [apply PsReader; [reflexivity|]; apply (RsAnswer X _ m); reflexivity|]. apply PsNone.
Qed.
Lemma answering_finish X pb m : (exists f, write_message X m = Ok f) -> can_finish (answering X pb m).
Proof.
  intro W. split; [intros (d & E); discriminate E|]. intros m' U. unfold unsent in U. cbn in U.
  destruct U as [U|[U|[U|[U|[]]]]]; try discriminate U. injection U as <-. exact W.
Qed.
(** The peer while it bans itself. *)
Definition self_ban X pb : pstate X := PState X false 0 false 2 WSelect (RBan DCas) [OWait] pb [] [] 0 None.
Lemma up_self_ban X pb : psteps (up X pb) (self_ban X pb).
Proof.
  eapply psteps_cons; [apply PsReader; [reflexivity|]; apply RsGo; reflexivity|].
  eapply psteps_cons; [apply PsReader; [reflexivity|]; apply RsMessage; reflexivity|].
  eapply psteps_cons; [apply PsReader; [reflexivity|]; apply RsBan; reflexivity|]. apply PsNone.
Qed.
Lemma world_self_ban X : exists w : world X, world_steps None (world_start None) w /\ alive w /\
  (forall i, to_close (w_sys w) i -> peered (y_pool (w_sys w)) i) /\ Forall encodable (w_peers w) /\ forall v, world_steps None w v -> ~ finished v.
Proof.
  destruct (world_one X None None (self_ban X None) (up_self_ban X None) eq_refl) as (w & R & Al & _ & _ & Ep & Tc & P). exists w. split; [exact R|]. split; [exact Al|]. split.
  - intros i H. apply Tc in H as ->. exact P.
  - split; [rewrite Ep; constructor; [|constructor]; intros m' U; unfold unsent in U; cbn in U; destruct U as [U|[U|[U|[U|[]]]]]; discriminate U|].
    intros v S O. pose proof (over_no_ban X None w v R S O) as B. rewrite Ep in B. inversion B as [|p l B1 _]; subst. apply B1. now exists DCas.
Qed.
(** An address that was never connected, and Stop. *)
Lemma world_no_peer X pb bans : exists w : world X, world_steps pb (world_start bans) w /\ alive w /\ y_run (w_sys w) = RuStopped /\ w_peers w = [] /\
  forall v, world_steps pb w v -> ~ finished v.
Proof.
  assert (K : exists s x, sys_steps (sys_start bans) s /\ y_crash s = None /\ y_watch s = [] /\ y_run s = RuStopped /\ y_close s = [ClLock 0] /\ pl_infos (y_pool s) = [x] /\ i_peer x = None).
  { eexists. eexists. split.
    - add addr_a. step ltac:(apply YsEnv; [reflexivity|]; apply EnStop; reflexivity). step ltac:(apply YsRun; [reflexivity|]; apply RnQuit; [reflexivity|discriminate]). apply YsNone.
    - repeat split; reflexivity. }
  destruct K as (s & x & R & Cs & Ew & Er & Ec & Ei & Px). destruct (neat_all X pb bans s R) as ([s' ps ws] & Rw & Es & N). cbn in Es. subst s'.
  destruct N as (_ & F & _ & L2 & _). cbn in F, L2. rewrite Ew, Er in L2. cbn in L2. destruct ps; [|discriminate L2].
  exists (World s [] ws). split; [exact Rw|]. split; [split; [exact Cs|exact F]|]. split; [exact Er|]. split; [reflexivity|]. intros v S O.
  destruct (over_peered X pb bans _ v Rw S O Er 0) as (y & c & N & P); [right; left; cbn; rewrite Ec; now left|]. cbn in N. rewrite Ei in N. injection N as <-. congruence.
Qed.
