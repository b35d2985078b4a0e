(** Executions for C127. *)
From Verif Require Import Pool SpecPool PoolProofs PoolExamples.
From Verif Require Import Race SpecAccess AccessProofs AccessStepProofs.
Local Open Scope nat_scope.

(** Only what peers tell is restricted. *)
Lemma told_infos p q j f : f = FHeight \/ f = FDifficulty -> changed p q (LField j f) -> pl_infos q = pl_infos p -> False.
Proof. intros F C E. apply (changed_infos _ _ _ E) in C. destruct C as [C|[C|[C|C]]]; discriminate. Qed.
Lemma told_upd p i g j f : f = FHeight \/ f = FDifficulty -> changed p (upd p i g) (LField j f) -> (forall x, i_height (g x) = i_height x /\ i_td (g x) = i_td x) -> False.
Proof.
  intros F C E. apply changed_upd in C. destruct C as (f' & x & Q & Df). injection Q as -> <-. destruct (E x) as (A & B).
  destruct F as [-> | ->]; cbn in Df; congruence.
Qed.
Ltac told F C := exfalso; first [exact (told_infos _ _ _ _ F C eq_refl) | exact (told_upd _ _ _ _ _ F C (fun x => conj eq_refl eq_refl))].
Lemma steps_heard s0 t0 : run_step s0 t0 \/ watch_step s0 t0 \/ ban_step s0 t0 \/ close_step s0 t0 -> heard s0 t0.
Proof.
  intros H j f F C R. destruct H as [St|[St|[St|St]]].
  - run_cases St; cbn in R; try congruence; told F C.
  - watch_cases St; told F C.
  - ban_cases St; told F C.
  - close_cases St; told F C.
Qed.
Lemma heard_unless s t : sys_step s t -> heard s t \/ exists i td h, t = set_pool s (upd (y_pool s) i (with_record td h)).
Proof.
  intros [_ St|_ St|_ St|_ St|_ St]; try (left; apply steps_heard; tauto). destruct St as [s r a Tf|s a|s i td h U|s Q|s Q];
    [left; intros j f F C R|left; intros j f F C R| |left; intros j f F C R|left; intros j f F C R].
  - apply changed_add in C. discriminate.
  - told F C.
  - right. now exists i, td, h.
  - told F C.
  - told F C.
Qed.

Lemma left_out s t : sys_step s t -> ~ heard s t -> exists i td h, t = set_pool s (upd (y_pool s) i (with_record td h)).
Proof. intros St H. destruct (heard_unless s t St) as [K|K]; [contradiction|exact K]. Qed.
Lemma left_out_case : exists s t, sys_steps (sys_start None) s /\ sys_step s t /\ ~ heard s t.
Proof.
  eexists. eexists. split; [|split].
  - add addr_a. apply YsNone.
  - apply YsEnv; [reflexivity|]. apply (EnRecord _ 0%nat 50 10). free.
  - intro H. destruct (H 0 FHeight (or_introl eq_refl)) as (_ & [Q|(a & i & [Q|Q])]).
    + eexists. eexists. split; [reflexivity|]. split; [reflexivity|]. discriminate.
    + reflexivity.
    + now elim Q.
    + discriminate.
    + discriminate.
Qed.

(** Executions as lists. *)
Definition path_to (s t : sys) : Prop := exists path, sys_run s path /\ last path s = t.
Lemma last_cons {A} (l : list A) : forall x y, last (x :: l) y = last l x.
Proof. induction l as [|z l IH]; intros x y; [reflexivity|]. change (last (z :: l) y = last (z :: l) x). now rewrite !IH. Qed.
Lemma path_none s : path_to s s.
Proof. now exists []. Qed.
Lemma path_cons s t u : sys_step s t -> heard s t -> path_to t u -> path_to s u.
Proof. intros St H (path & R & L). exists (t :: path). split; [exact (conj St (conj H R))|]. now rewrite last_cons. Qed.
Lemma path_app s t u : path_to s t -> path_to t u -> path_to s u.
Proof.
  intros (p & R & L) H. revert s R L. induction p as [|x p IH]; intros s R L; [cbn in L; now subst|].
  destruct R as (St & Hd & R). apply (path_cons s x u St Hd). apply IH; [exact R|]. now rewrite last_cons in L.
Qed.
Lemma path_runs s t : y_crash s = None -> run_steps s t -> path_to s t.
Proof.
  intros C R. induction R as [|s t u St R IH]; [apply path_none|]. destruct (run_keeps s t St) as (C' & _).
  apply (path_cons s t u); [exact (YsRun s t C St)|apply steps_heard; now left|]. apply IH. congruence.
Qed.

Lemma path_run s t u : y_crash s = None -> run_step s t -> path_to t u -> path_to s u.
Proof. intros C St. apply path_cons; [exact (YsRun s t C St)|apply steps_heard; tauto]. Qed.
Lemma path_watch s t u : y_crash s = None -> watch_step s t -> path_to t u -> path_to s u.
Proof. intros C St. apply path_cons; [exact (YsWatch s t C St)|apply steps_heard; tauto]. Qed.
Lemma path_ban s t u : y_crash s = None -> ban_step s t -> path_to t u -> path_to s u.
Proof. intros C St. apply path_cons; [exact (YsBan s t C St)|apply steps_heard; tauto]. Qed.
Lemma path_add s r a u : y_crash s = None -> table_free s -> path_to (set_pool s (pool_add r a (y_pool s))) u -> path_to s u.
Proof.
  intros C Tf. apply path_cons; [exact (YsEnv s _ C (EnAdd s r a Tf))|]. intros j f F Cg R. apply changed_add in Cg. discriminate.
Qed.
Lemma path_told s i td h u : y_crash s = None -> unlocked (y_pool s) i -> table_free s -> handling s ->
  path_to (set_pool s (upd (y_pool s) i (with_record td h))) u -> path_to s u.
Proof. intros C U Tf Hn. apply path_cons; [exact (YsEnv s _ C (EnRecord s i td h U))|]. intros j f F Cg R. now split. Qed.

Ltac pick o ::= eapply path_app; [apply path_runs; [reflexivity|]; apply (scan_alone _ o o); reflexivity|cbv -[Z.add Z.sub]].
Ltac add a ::= apply (path_add _ home a); [reflexivity|exact I|]; cbv -[Z.add Z.sub].
Ltac r tac ::= eapply path_run; [reflexivity|tac|]; cbv -[Z.add Z.sub].
Ltac w tac ::= eapply path_watch; [reflexivity|tac|]; cbv -[Z.add Z.sub].
Ltac b tac ::= eapply path_ban; [reflexivity|tac|]; cbv -[Z.add Z.sub].

(** An address is added, dialled and connected, the peer tells its height, and the connection ends. *)
Lemma path_connected bans : exists path, sys_run (sys_start bans) path /\
  pl_connected (y_pool (last path (sys_start bans))) = 0%Z /\ option_map i_height (nth_error (pl_infos (y_pool (last path (sys_start bans)))) 0) = Some 10%N.
Proof.
  enough (H : exists s, path_to (sys_start bans) s /\ pl_connected (y_pool s) = 0%Z /\ option_map i_height (nth_error (pl_infos (y_pool s)) 0) = Some 10%N).
  { destruct H as (s & (path & R & <-) & A & B). now exists path. }
  eexists. split; [|split].
  - add addr_a. run_dialled [(addr_a, 0%nat)] addr_a 0%nat StNew. run_finish addr_a 0%nat.
    apply (path_told _ 0 50 10); [reflexivity|free|exact I|left; discriminate|]; cbv -[Z.add Z.sub].
    w ltac:(apply (WaReturn _ [] addr_a 0%nat []); reflexivity).
    w ltac:(apply (WaStatus _ [] addr_a 0%nat []); [reflexivity|free]).
    w ltac:(apply (WaRead _ [] addr_a 0%nat []); reflexivity).
    w ltac:(eapply (WaWrite _ [] addr_a 0%nat _ []); reflexivity).
    apply path_none.
  - reflexivity.
  - reflexivity.
Qed.
