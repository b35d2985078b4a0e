(** Executions for C107. *)
From Coq Require Import Permutation Lia.
From Verif Require Import Pool SpecPool SpecDial PoolProofs PoolExamples.

Definition both : list (bytes * nat) := [(addr_b, 1%nat); (addr_a, 0%nat)].
(** Two addresses; b was dialled in vain. *)
Lemma run_failed : exists s, sys_steps (sys_start None) s /\ y_run s = RuSelect /\ y_crash s = None /\ pl_slots (y_pool s) = 0%nat /\
  pl_connected (y_pool s) = 0%Z /\ pl_table (y_pool s) = both /\
  status_of (y_pool s) 0 = Some StNew /\ status_of (y_pool s) 1 = Some StFailedConn.
Proof.
  eexists. split.
  - add addr_a. add addr_b. run_dial both addr_b 1%nat StNew.
    r ltac:(apply (RnDialFailed _ addr_b 1%nat); reflexivity). r ltac:(eapply RnRelease; reflexivity). apply YsNone.
  - repeat split; reflexivity.
Qed.

Lemma trace_cons s t l u : sys_step s t -> trace t l u -> trace s (s :: l) u.
Proof.
  intros St T. induction T as [t|t l u v T IH Sv].
  - apply (TraceMore s [s] s t); [apply TraceOne|exact St].
  - apply (TraceMore s (s :: l) u v); [now apply IH|exact Sv].
Qed.
Ltac q tac := eapply trace_cons; [tac|settle].
Ltac qr tac := q ltac:(apply YsRun; [reflexivity|]; tac).
Ltac qw tac := q ltac:(apply YsWatch; [reflexivity|]; tac).
Ltac qb tac := q ltac:(apply YsBan; [reflexivity|]; tac).
(** Both dialled in vain: a failed one is picked. *)
Lemma run_all_failed : exists s0 s l t u, sys_steps (sys_start None) s0 /\ y_run s0 = RuPick /\ sys_step s0 s /\ trace s l t /\
  (forall v, In v l -> scanning v) /\ sys_step t u /\ y_run u = RuTest addr_b /\ nobody_fresh (y_pool t) /\
  (forall v j, In v l -> status_of (y_pool v) j = status_of (y_pool t) j).
Proof.
  eexists. eexists. eexists. eexists. eexists. split.
  { add addr_a. add addr_b. run_dial both addr_b 1%nat StNew.
    r ltac:(apply (RnDialFailed _ addr_b 1%nat); reflexivity). r ltac:(eapply RnRelease; reflexivity).
    run_dial both addr_a 0%nat StNew.
    r ltac:(apply (RnDialFailed _ addr_a 0%nat); reflexivity). r ltac:(eapply RnRelease; reflexivity).
    r ltac:(apply RnToken; [reflexivity|cbv; lia]). apply YsNone. }
  split; [reflexivity|]. split; [apply YsRun; [reflexivity|]; apply (RnScan _ both); reflexivity|]. split.
  { settle. qr ltac:(apply (RnPass _ false addr_b 1%nat [(addr_a, 0%nat)]); reflexivity).
    qr ltac:(apply (RnPass _ false addr_a 0%nat []); reflexivity).
    qr ltac:(apply (RnAgain _ both); reflexivity). apply TraceOne. }
  split.
  { intros v Iv. repeat (destruct Iv as [<-|Iv]; [eexists; eexists; reflexivity|]). destruct Iv. }
  split; [apply YsRun; [reflexivity|]; apply (RnHit _ true addr_b 1%nat [(addr_a, 0%nat)]); reflexivity|]. split; [reflexivity|]. split.
  { intros x j K. cbn in K. destruct K as [E|[E|[]]]; injection E as <- <-; cbv; split; discriminate. }
  intros v j Iv. repeat (destruct Iv as [<-|Iv]; [reflexivity|]). destruct Iv.
Qed.

(** The check before dialling: passed, and failed because of a ban in between. *)
Lemma checks : (exists s, sys_steps (sys_start None) s /\ y_run s = RuCheck addr_a 0 /\ status_of (y_pool s) 0 = Some StNew) /\
  (exists s, sys_steps (sys_start None) s /\ y_run s = RuCheck addr_a 0 /\ status_of (y_pool s) 0 = Some StBanned).
Proof.
  split; eexists; split.
  - add addr_a. run_pick [(addr_a, 0%nat)] addr_a 0%nat. apply YsNone.
  - split; reflexivity.
  - add addr_a. step ltac:(apply YsEnv; [reflexivity|]; apply (EnBan _ addr_a)).
    b ltac:(apply (BaFound _ [] addr_a 0%nat []); [reflexivity|exact I|reflexivity]).
    run_pick [(addr_a, 0%nat)] addr_a 0%nat.
    b ltac:(apply (BaStatus _ [] addr_a 0%nat []); reflexivity). apply YsNone.
  - split; reflexivity.
Qed.

(** ** Starvation *)
(** a is connected and lost again and again; b stays failed. *)
Ltac p tac := eapply PathMore; [tac|intro; discriminate|cbv -[Z.add Z.sub]].
Ltac pr tac := p ltac:(apply YsRun; [reflexivity|]; tac).
Ltac pw tac := p ltac:(apply YsWatch; [reflexivity|]; tac).

Definition resting (W : list watch) (st : status) (c : option nat) (v h td k : N) : sys :=
  Sys (Pool 0 0 [Info st c v h td k false; Info StFailedConn None 0 0 0 0 false] both [] None) 0 RuSelect W [] [] 0 None.
Lemma once W st c v h td k : st = StNew \/ st = StDisconnected ->
  path_without addr_b (resting W st c v h td k) (resting (W ++ [Watch addr_a 0 WtEnd]) StDisconnected (Some (List.length W)) 1 0 30000 7).
Proof.
  intro F. unfold resting.
  pr ltac:(apply RnToken; [reflexivity|cbv; lia]).
  pr ltac:(apply (RnScan _ both); reflexivity).
  pr ltac:(apply (RnPass _ false addr_b 1%nat [(addr_a, 0%nat)]); reflexivity).
  pr ltac:(apply (RnHit _ false addr_a 0%nat []); [reflexivity|destruct F as [->| ->]; reflexivity]).
  pr ltac:(apply (RnTest _ addr_a); [reflexivity|discriminate|cbv; discriminate]).
  pr ltac:(apply (RnFound _ addr_a 0%nat); [reflexivity|reflexivity]).
  pr ltac:(apply (RnLock _ addr_a 0%nat); [reflexivity|free]).
  pr ltac:(apply (RnCheck _ addr_a 0%nat st); [reflexivity|reflexivity|destruct F as [->| ->]; discriminate|destruct F as [->| ->]; discriminate]).
  pr ltac:(apply (RnDialled _ addr_a 0%nat good_peer); reflexivity).
  pr ltac:(apply (RnVersion _ addr_a 0%nat good_peer); [reflexivity|reflexivity]).
  pr ltac:(apply (RnRead _ addr_a 0%nat good_peer); reflexivity).
  pr ltac:(eapply (RnWrite _ addr_a 0%nat good_peer); reflexivity).
  pr ltac:(apply (RnUpdate _ addr_a 0%nat good_peer); reflexivity).
  pr ltac:(apply (RnFill _ addr_a 0%nat good_peer); reflexivity).
  pr ltac:(apply (RnUp _ addr_a 0%nat); reflexivity).
  pr ltac:(apply (RnGo _ addr_a 0%nat); reflexivity). pr ltac:(apply (RnWatch _ addr_a 0%nat); reflexivity).
  pw ltac:(apply (WaReturn _ W addr_a 0%nat []); reflexivity).
  pw ltac:(apply (WaStatus _ W addr_a 0%nat []); [reflexivity|free]).
  pw ltac:(apply (WaRead _ W addr_a 0%nat []); reflexivity).
  pw ltac:(eapply (WaWrite _ W addr_a 0%nat _ []); reflexivity).
  pw ltac:(apply (WaDelete _ W addr_a 0%nat []); reflexivity).
  pw ltac:(eapply (WaRelease _ W addr_a 0%nat _ []); reflexivity).
  apply PathNone.
Qed.
Lemma path_app a s t u : path_without a s t -> path_without a t u -> path_without a s u.
Proof. induction 1; [auto|]. intro. eapply PathMore; eauto. Qed.
Lemma starve : exists s, sys_steps (sys_start None) s /\ In (addr_b, 1%nat) (pl_table (y_pool s)) /\ status_of (y_pool s) 1 = Some StFailedConn /\ y_watch s = [] /\
  forall n, exists t, path_without addr_b s t /\ List.length (y_watch t) = n /\ live t = 0%nat /\ pl_slots (y_pool t) = 0%nat /\ y_run t = RuSelect /\ status_of (y_pool t) 1 = Some StFailedConn.
Proof.
  exists (resting [] StNew None 0 0 0 0). split.
  { unfold resting, both. add addr_a. add addr_b. run_dial both addr_b 1%nat StNew.
    r ltac:(apply (RnDialFailed _ addr_b 1%nat); reflexivity). r ltac:(eapply RnRelease; reflexivity). apply YsNone. }
  split; [now left|]. split; [reflexivity|]. split; [reflexivity|]. intro n.
  assert (K : exists W st c v h td k, (st = StNew \/ st = StDisconnected) /\ path_without addr_b (resting [] StNew None 0 0 0 0) (resting W st c v h td k) /\
    List.length W = n /\ filter waiting W = []).
  { induction n as [|n (W & st & c & v & h & td & k & F & P & L & Q)].
    - exists [], StNew, None, 0, 0, 0, 0. split; [now left|]. split; [apply PathNone|]. split; reflexivity.
    - exists (W ++ [Watch addr_a 0 WtEnd]), StDisconnected, (Some (List.length W)), 1, 0, 30000, 7. split; [now right|].
      split; [exact (path_app _ _ _ _ P (once W st c v h td k F))|]. rewrite app_length, filter_app, Q, L. cbn. split; [lia|reflexivity]. }
  destruct K as (W & st & c & v & h & td & k & F & P & L & Q). exists (resting W st c v h td k). split; [exact P|]. split; [exact L|].
  split; [unfold live; cbn [resting y_watch y_run setting_up]; rewrite Q; reflexivity|]. repeat split.
Qed.

(** ** A failed address picked although there is a fresh one at every moment *)
Definition addr_c : bytes := [x63; x3a; x33].
Definition three : list (bytes * nat) := [(addr_a, 0%nat); (addr_b, 1%nat); (addr_c, 2%nat)].
Ltac shuffle := exact (Permutation_sym (Permutation_rev [(addr_c, 2%nat); (addr_b, 1%nat); (addr_a, 0%nat)])).
Ltac pick3 o := eapply sys_app; [apply run_all; [reflexivity|]; apply (scan_alone _ o o); [reflexivity|shuffle|shuffle]|settle].
Ltac dial3 o a i :=
  r ltac:(apply RnToken; [reflexivity|cbv; lia]);
  pick3 o;
  r ltac:(apply (RnTest _ a); [reflexivity|discriminate|cbv -[Z.le Z.add Z.sub]; lia]);
  r ltac:(apply (RnFound _ a i); [reflexivity|reflexivity]);
  r ltac:(apply (RnLock _ a i); [reflexivity|free]);
  r ltac:(apply (RnCheck _ a i StNew); [reflexivity|reflexivity|discriminate|discriminate]).
Lemma missed bans : exists s0 s l t u, sys_steps (sys_start bans) s0 /\ y_run s0 = RuPick /\ run_step s0 s /\ trace s l t /\
  (forall v, In v l -> scanning v) /\ run_step t u /\ y_run u = RuTest addr_b /\ In (addr_b, 1%nat) (pl_table (y_pool t)) /\
  status_of (y_pool t) 1 = Some StFailedConn /\ y_crash u = None /\ forall v, In v l -> ~ nobody_fresh (y_pool v).
Proof.
  eexists. eexists. eexists. eexists. eexists. split.
  { add addr_a. add addr_b. add addr_c.
    dial3 three addr_a 0%nat.
    r ltac:(apply (RnDialled _ addr_a 0%nat good_peer); reflexivity).
    r ltac:(apply (RnVersion _ addr_a 0%nat good_peer); [reflexivity|reflexivity]).
    r ltac:(apply (RnRead _ addr_a 0%nat good_peer); reflexivity).
    run_finish addr_a 0%nat.
    dial3 three addr_b 1%nat.
    r ltac:(apply (RnDialFailed _ addr_b 1%nat); reflexivity). r ltac:(eapply RnRelease; reflexivity).
    step ltac:(apply YsEnv; [reflexivity|]; apply (EnBan _ addr_c)).
    b ltac:(apply (BaFound _ [] addr_c 2%nat []); [reflexivity|exact I|reflexivity]).
    r ltac:(apply RnToken; [reflexivity|cbv; lia]). apply YsNone. }
  split; [reflexivity|]. split; [apply (RnScan _ three); [reflexivity|shuffle]|]. split.
  { settle. qr ltac:(apply (RnPass _ false addr_a 0%nat [(addr_b, 1%nat); (addr_c, 2%nat)]); reflexivity).
    qr ltac:(apply (RnPass _ false addr_b 1%nat [(addr_c, 2%nat)]); reflexivity).
    qw ltac:(apply (WaReturn _ [] addr_a 0%nat []); reflexivity).
    qw ltac:(apply (WaStatus _ [] addr_a 0%nat []); [reflexivity|free]).
    qb ltac:(apply (BaStatus _ [] addr_c 2%nat []); reflexivity).
    qr ltac:(apply (RnPass _ false addr_c 2%nat []); reflexivity).
    qr ltac:(apply (RnAgain _ three); [reflexivity|shuffle]).
    qr ltac:(apply (RnPass _ true addr_a 0%nat [(addr_b, 1%nat); (addr_c, 2%nat)]); reflexivity).
    apply TraceOne. }
  split.
  { intros v Iv. repeat (destruct Iv as [<-|Iv]; [eexists; eexists; reflexivity|]). destruct Iv. }
  split; [apply (RnHit _ true addr_b 1%nat [(addr_c, 2%nat)]); reflexivity|]. split; [reflexivity|]. split; [cbv; tauto|]. split; [reflexivity|]. split; [reflexivity|].
  assert (Fresh : forall v b j, In (b, j) (pl_table (y_pool v)) -> status_of (y_pool v) j = Some StNew \/ status_of (y_pool v) j = Some StDisconnected ->
    ~ nobody_fresh (y_pool v)).
  { intros v b0 j I [E|E] F; destruct (F b0 j I) as [F1 F2]; contradiction. }
  intros v Iv. repeat (destruct Iv as [<-|Iv];
    [first [apply (Fresh _ addr_c 2%nat); [cbv; tauto|left; reflexivity]|apply (Fresh _ addr_a 0%nat); [cbv; tauto|right; reflexivity]]|]).
  destruct Iv.
Qed.
