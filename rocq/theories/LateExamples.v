(** Executions for C120. *)
From Coq Require Import Permutation Lia.
From Verif Require Import Pool SpecPool SpecDial SpecLate PoolProofs PoolExamples DialExamples.

Lemma order_ends {A} (v : A) l w : in_order (v :: l ++ [w]) v v w.
Proof. exists [], (l ++ [w]), [], (l ++ [w]). split; [reflexivity|]. split; [reflexivity|]. right. apply in_or_app. right. now left. Qed.

Lemma trace_whole s t : sys_steps s t -> exists l, trace s l t.
Proof.
  intro R. induction R as [s|s t u R (l & IH) St]; [exists [s]; apply TraceOne|]. exists (l ++ [u]). exact (TraceMore _ _ _ _ IH St).
Qed.
Lemma trace_ends s l t : trace s l t -> exists l1 l2, l = s :: l1 /\ l = l2 ++ [t].
Proof.
  intro T. induction T as [s|s l t u T (l1 & l2 & E & _) St]; [exists [], []; auto|]. exists (l1 ++ [u]), l. rewrite E. auto.
Qed.
Lemma whole_order s t : sys_steps s t -> exists l, trace s l t /\ in_order l s s t.
Proof.
  intro R. destruct (trace_whole s t R) as (l & T). exists l. split; [exact T|]. destruct (trace_ends s l t T) as (l1 & l2 & E & E2).
  exists [], l1, [], l1. split; [exact E|]. split; [reflexivity|]. rewrite <- E, E2. apply in_or_app. right. now left.
Qed.

(** A connection with total difficulty 30000 ends, and the next one to the address announces 60000: a block of
    50000 is sent to it. *)
Definition ahead_peer : dialled := Dialled 1 7 60000.
Lemma run_other bans : exists s t, sys_steps (sys_start bans) s /\ sys_steps s t /\ y_run s = RuSelect /\ y_run t = RuSelect /\ y_crash t = None /\
  pl_up (y_pool s) = [(addr_a, 0%nat)] /\
  nth_error (pl_infos (y_pool s)) 0 = Some (Info StConnected (Some 0%nat) 1 0 30000 7 false) /\
  nth_error (pl_infos (y_pool t)) 0 = Some (Info StConnected (Some 1%nat) 1 0 60000 7 false).
Proof.
  eexists. eexists. split; [|split].
  - add addr_a. run_dialled [(addr_a, 0%nat)] addr_a 0%nat StNew. run_finish addr_a 0%nat. apply YsNone.
  - w ltac:(apply (WaReturn _ [] addr_a 0%nat []); reflexivity).
    w ltac:(apply (WaStatus _ [] addr_a 0%nat []); [reflexivity|free]).
    run_dial [(addr_a, 0%nat)] addr_a 0%nat StDisconnected.
    r ltac:(apply (RnDialled _ addr_a 0%nat ahead_peer); reflexivity).
    r ltac:(apply (RnVersion _ addr_a 0%nat ahead_peer); [reflexivity|reflexivity]).
    r ltac:(apply (RnRead _ addr_a 0%nat ahead_peer); reflexivity).
    r ltac:(eapply (RnWrite _ addr_a 0%nat ahead_peer); reflexivity).
    r ltac:(apply (RnUpdate _ addr_a 0%nat ahead_peer); reflexivity).
    r ltac:(apply (RnFill _ addr_a 0%nat ahead_peer); reflexivity).
    r ltac:(apply (RnUp _ addr_a 0%nat); reflexivity).
    r ltac:(apply (RnGo _ addr_a 0%nat); reflexivity). r ltac:(apply (RnWatch _ addr_a 0%nat); reflexivity). apply YsNone.
  - repeat split; reflexivity.
Qed.
Lemma other_connection bans : exists s l t x y, sys_steps (sys_start bans) s /\ trace s l t /\ in_order l s s t /\ y_run t = RuSelect /\ y_crash t = None /\
  In (addr_a, 0%nat) (pl_up (y_pool s)) /\
  nth_error (pl_infos (y_pool s)) 0 = Some x /\ i_peer x = Some 0%nat /\ nth_error (pl_infos (y_pool t)) 0 = Some y /\ i_peer y = Some 1%nat /\
  ~ below 0 50000 y /\ relay_late 0 50000 0 (y_pool s) (y_pool s) (y_pool t) = Some 1%nat.
Proof.
  destruct (run_other bans) as (s & t & R & R1 & E & E1 & C & U & N & N1). destruct (whole_order s t R1) as (l & T & O).
  exists s, l, t. eexists. eexists. split; [exact R|]. split; [exact T|]. split; [exact O|]. split; [exact E1|]. split; [exact C|].
  split; [rewrite U; now left|]. split; [exact N|]. split; [reflexivity|]. split; [exact N1|]. split; [reflexivity|]. split; [|].
  - unfold below. cbn [i_height i_td]. lia.
  - unfold relay_late. rewrite N, N1. reflexivity.
Qed.

(** A record that is behind at every moment, first in the difficulty and then in the height. *)
Lemma run_missed bans : exists s t, sys_steps (sys_start bans) s /\ sys_step s t /\ y_crash t = None /\
  pl_up (y_pool s) = [(addr_a, 0%nat)] /\
  nth_error (pl_infos (y_pool s)) 0 = Some (Info StConnected (Some 0%nat) 1 10 50 7 false) /\
  nth_error (pl_infos (y_pool t)) 0 = Some (Info StConnected (Some 0%nat) 1 1 200 7 false).
Proof.
  eexists. eexists. split; [|split].
  - add addr_a. run_dialled [(addr_a, 0%nat)] addr_a 0%nat StNew. run_finish addr_a 0%nat.
    step ltac:(apply YsEnv; [reflexivity|]; apply (EnRecord _ 0%nat 50 10); free). apply YsNone.
  - apply YsEnv; [reflexivity|]. apply (EnRecord _ 0%nat 200 1). free.
  - repeat split; reflexivity.
Qed.
Lemma missed bans : exists s t, sys_steps (sys_start bans) s /\ trace s [s; t] t /\ in_order [s; t] s t t /\ y_crash t = None /\
  In (addr_a, 0%nat) (pl_up (y_pool s)) /\
  (forall v, In v [s; t] -> exists x, nth_error (pl_infos (y_pool v)) 0 = Some x /\ i_peer x = Some 0%nat /\ below 5 100 x) /\
  relay_late 5 100 0 (y_pool s) (y_pool t) (y_pool t) = None.
Proof.
  destruct (run_missed bans) as (s & t & R & St & C & U & N & N1). exists s, t. split; [exact R|].
  split; [exact (TraceMore s [s] s t (TraceOne s) St)|]. split; [exists [], [t], [s], []; split; [reflexivity|]; split; [reflexivity|now left]|]. split; [exact C|].
  split; [rewrite U; now left|]. split.
  - intros v [<-|[<-|[]]]; eexists; (split; [eassumption|]); (split; [reflexivity|]); unfold below; cbn [i_height i_td]; lia.
  - unfold relay_late. rewrite N, N1. reflexivity.
Qed.
(** One that stays behind. *)
Lemma stays bans : exists s, sys_steps (sys_start bans) s /\ trace s [s] s /\ in_order [s] s s s /\
  (forall v, In v [s] -> exists x, nth_error (pl_infos (y_pool v)) 0 = Some x /\ i_peer x = Some 0%nat) /\
  (forall v x, In v [s] -> nth_error (pl_infos (y_pool v)) 0 = Some x -> i_height x < 5) /\
  relay_late 5 100 0 (y_pool s) (y_pool s) (y_pool s) = Some 0%nat.
Proof.
  destruct (run_missed bans) as (s & t & R & St & _ & _ & _ & N1). exists t. split; [exact (YsMore _ _ _ R St)|]. split; [apply TraceOne|].
  split; [exists [], [], [], []; split; [reflexivity|]; split; [reflexivity|now left]|]. split; [|split].
  - intros v [<-|[]]. eexists. split; [exact N1|reflexivity].
  - intros v x [<-|[]] K. rewrite N1 in K. injection K as <-. cbn. lia.
  - unfold relay_late. rewrite N1. reflexivity.
Qed.
