(** Proofs for C130. *)
From Coq Require Import Lia.
From Verif Require Import World SpecPeer SpecEarly SpecPool SpecWorld PeerProofs EarlyProofs PoolProofs.
Local Open Scope nat_scope.

Section World.
Context (X : Ext) (pb : option nat) (bans : option (list bytes)).
Notation st := (pstate X).

(** *** One peer *)
Lemma life_step (p q : st) : life pb p -> pstep p q -> life pb q.
Proof. intros [e s Re C Rs] St. exact (Lives X pb e q Re C (PsMore X _ _ _ Rs St)). Qed.
Lemma life_inv (p : st) : life pb p -> p_wg p = (in_writer X (p_writer p) + in_reader X (p_reader p))%Z /\
  (forall j, nth_error (p_others p) j = Some OWaited -> p_quits p = 1).
Proof.
  intro L. destruct (lives_as_if X pb p L) as (p' & R & A). pose proof (as_if_others _ _ _ A) as F.
  pose proof (reach_inv X pb p' R) as (I1 & I2 & _ & _ & _ & _ & O). unfold as_if in A. decompose [and] A. split; [congruence|].
  intros j N. destruct (nth_error_split _ _ N) as (pre & post & E & _). rewrite E in F. apply mid_left in F as (pre' & y & post' & E' & Ry & _).
  rewrite E' in O. apply forall_at in O. assert (Q : p_quits p' <> 0).
  { inversion Ry; subst; cbn in O; tauto. }
  destruct (p_flag p'); lia.
Qed.
Definition wait_ok (p : st) (j : nat) : Prop :=
  nth_error (p_others p) j = Some OWait \/ nth_error (p_others p) j = Some OWaitWg \/ (nth_error (p_others p) j = Some OWaited /\ p_wg p = 0%Z).
Lemma wg_down (p q : st) : wstep p q \/ rstep p q -> p_others q = p_others p /\ (p_wg q = p_wg p \/ p_wg q = (p_wg p - 1)%Z).
Proof.
  assert (D0 : forall (s t : st) d d', dstep s d t d' -> p_others t = p_others s /\ p_wg t = p_wg s) by (intros s t d d' D; destruct D; now split).
  assert (W0 : forall s : st, p_others (wg_done s) = p_others s /\ p_wg (wg_done s) = (p_wg s - 1)%Z) by (intro s; unfold wg_done; destruct (_ <? _)%Z; now split).
  intros [St|St]; destruct St; cbn; auto; try (match goal with D : dstep ?s _ _ _ |- _ => destruct (D0 _ _ _ _ D) as (-> & ->); auto end);
    match goal with |- context [wg_done ?s] => destruct (W0 s) as (-> & ->); auto end.
Qed.
Lemma wait_step (p q : st) j : life pb p -> pstep p q -> wait_ok p j ->
  wait_ok q j /\ (nth_error (p_others p) j = Some OWaited -> nth_error (p_others q) j = Some OWaited).
Proof.
  intros L St. pose proof (life_inv q (life_step p q L St)) as (Wq & _).
  assert (Nn : (0 <= p_wg q)%Z) by (rewrite Wq; destruct (p_writer q), (p_reader q); cbn; lia).
  destruct St as [C W|C W|C W|C W].
  1,2: destruct (wg_down p q ltac:(auto)) as (E & G); unfold wait_ok; rewrite E; intros [H|[H|(H & Z)]]; (split; [|auto]); auto; right; right; (split; [exact H|lia]).
  - assert (D0 : forall (s t : st) d d', dstep s d t d' -> p_others t = p_others s /\ p_wg t = p_wg s) by (intros s t d d' D; destruct D; now split).
    assert (G : p_wg q = p_wg p) by (destruct W; cbn; auto; match goal with D : dstep _ _ _ _ |- _ => now destruct (D0 _ _ _ _ D) end).
    assert (K : exists pre o o' post, p_others p = pre ++ o :: post /\ p_others q = pre ++ o' :: post /\
      (o = OWait -> o' = OWaitWg) /\ (o = OWaitWg -> o' = OWaited /\ p_wg p = 0%Z) /\ o <> OWaited).
    { destruct W as [v pre m post E K|v pre m post E K|v pre d post v' d' E D|v pre post E K|v pre post E K]; cbn.
      - exists pre, (OSend m), OSent, post. repeat split; auto; discriminate.
      - exists pre, (OSend m), OSent, post. repeat split; auto; discriminate.
      - exists pre, (ODisc d), (ODisc d'), post. repeat split; auto; discriminate.
      - exists pre, OWait, OWaitWg, post. repeat split; auto; discriminate.
      - exists pre, OWaitWg, OWaited, post. repeat split; auto; discriminate. }
    destruct K as (pre & o & o' & post & E & E' & K1 & K2 & K3). unfold wait_ok. rewrite E, E', G. intro H.
    assert (M : forall z, nth_error (pre ++ o :: post) j = Some z -> (z = o /\ nth_error (pre ++ o' :: post) j = Some o') \/ nth_error (pre ++ o' :: post) j = Some z).
    { intros z N. destruct (nth_mid pre post o o' j z N) as [(_ & -> & N')|N']; auto. }
    destruct H as [H|[H|(H & Z)]]; destruct (M _ H) as [(Eo & N')|N'].
    + rewrite (K1 ltac:(congruence)) in *. split; [auto|congruence].
    + split; [auto|congruence].
    + destruct (K2 ltac:(congruence)) as (-> & Z). split; [auto|congruence].
    + split; [auto|congruence].
    + congruence.
    + split; auto.
  - destruct W as [v o K]. unfold wait_ok. cbn. intro H.
    assert (M : forall z, nth_error (p_others v) j = Some z -> nth_error (p_others v ++ [o]) j = Some z).
    { intros z N. rewrite nth_error_app1; [exact N|]. apply nth_error_Some. congruence. }
    destruct H as [H|[H|(H & Z)]]; apply M in H; auto 6.
Qed.

(** *** The invariant *)
Definition pending (r : run_pc) : nat := match r with RuFill _ _ _ | RuUp _ _ | RuGo _ _ | RuWatch _ _ => 1 | _ => 0 end.
Definition set_up_ok (r : run_pc) (p : st) : Prop :=
  match r with RuFill _ _ _ | RuUp _ _ | RuGo _ _ => psteps (p_new pb) p | RuWatch _ _ => life pb p | _ => True end.
Definition conn_ok (wt : bool) (p : st) (j : nat) : Prop :=
  life pb p /\ wait_ok p j /\ (wt = false -> nth_error (p_others p) j = Some OWaited).
Definition winv (w : world X) : Prop :=
  let s := w_sys w in
  sys_steps (sys_start bans) s /\ List.length (w_waits w) = List.length (y_watch s) /\
  List.length (w_peers w) = List.length (y_watch s) + pending (y_run s) /\
  (forall k b p j, nth_error (map in_wait (y_watch s)) k = Some b -> nth_error (w_peers w) k = Some p -> nth_error (w_waits w) k = Some j -> conn_ok b p j) /\
  (forall p, nth_error (w_peers w) (List.length (y_watch s)) = Some p -> set_up_ok (y_run s) p).

(** Steps of the pool that leave the goroutines that wait, and the new peer, alone. *)
Lemma winv_pool s t ps ws : winv (World s ps ws) -> sys_step s t -> map in_wait (y_watch t) = map in_wait (y_watch s) ->
  pending (y_run t) = pending (y_run s) -> (forall p, set_up_ok (y_run s) p -> set_up_ok (y_run t) p) -> winv (World t ps ws).
Proof.
  intros (R & L1 & L2 & I1 & I2) St Em Ep Su. cbn in *. assert (El : List.length (y_watch t) = List.length (y_watch s)).
  { rewrite <- (map_length in_wait (y_watch t)), Em. apply map_length. }
  unfold winv. cbn. rewrite El, Em, Ep. split; [exact (YsMore _ _ _ R St)|]. repeat (split; [assumption|]). intros p N. apply Su. now apply I2.
Qed.
Lemma run_watch s t : run_step s t -> on_peer (y_run s) = false -> y_watch t = y_watch s /\ pending (y_run t) = pending (y_run s) /\
  (forall p, set_up_ok (y_run s) p -> set_up_ok (y_run t) p).
Proof. intro H. run_cases H; rewrite Er; cbn; intro Kz; try discriminate Kz; repeat split; auto. Qed.
Lemma other_watch s t : Pool.ban_step s t \/ close_step s t \/ env_step s t -> y_watch t = y_watch s /\ y_run t = y_run s.
Proof. intros [H|[H|H]]; [ban_cases H|close_cases H|env_cases H]; now split. Qed.
Lemma nth_end {A} (l : list A) x k y : nth_error (l ++ [x]) k = Some y -> nth_error l k = Some y \/ (k = List.length l /\ y = x).
Proof.
  intro N. destruct (Nat.lt_trichotomy k (List.length l)) as [H|[->|H]].
  - left. now rewrite nth_error_app1 in N.
  - right. rewrite nth_error_app2, Nat.sub_diag in N by lia. cbn in N. injection N as ->. now split.
  - exfalso. assert (K : nth_error (l ++ [x]) k <> None) by congruence. apply nth_error_Some in K. rewrite app_length in K. cbn in K. lia.
Qed.
Lemma winv_step (w v : world X) : winv w -> world_step pb w v -> winv v.
Proof.
  intros Iv St. destruct St as [s t ps ws Al H Op|s t ps ws a i d Al H Er|s t ps p ws a i Al H Er|s t ps p ws a i Al H Er
    |s ps ws pre a i post p j Al E Np Nj No|s t ps ws Al H Em|s t ps ws Al H|s ps ws pre i post x c p j Al E Nx Px Np Nj|s t ps ws Al H Nr|s t ps ws Al H|s pre p q post ws Al H].
  - destruct (run_watch s t H Op) as (Ew & Ep & Su). apply (winv_pool s); auto; [exact (YsRun _ _ (proj1 Al) H)|now rewrite Ew].
  - destruct Iv as (R & L1 & L2 & I1 & I2). cbn in *. rewrite Er in L2. cbn in L2.
    assert (K : y_watch t = y_watch s /\ y_run t = RuFill a i d) by (inversion H; subst; try congruence; cbn; split; congruence).
    destruct K as (Ew & Et). unfold winv. cbn. rewrite Ew, Et. split; [exact (YsMore _ _ _ R (YsRun _ _ (proj1 Al) H))|]. split; [exact L1|].
    split; [rewrite app_length; cbn; lia|]. split.
    + intros k b p j N1 N2 N3. apply nth_end in N2 as [N2|(-> & ->)]; [now apply (I1 k)|]. exfalso.
      assert (Q : nth_error (map in_wait (y_watch s)) (List.length ps) <> None) by congruence. apply nth_error_Some in Q. rewrite map_length in Q. lia.
    + intros p N. apply nth_end in N as [N|(_ & ->)]; [|apply PsNone]. exfalso. assert (Q : nth_error ps (List.length (y_watch s)) <> None) by congruence.
      apply nth_error_Some in Q. lia.
  - destruct Iv as (R & L1 & L2 & I1 & I2). cbn in *. rewrite Er in L2, I2. rewrite app_length in L2. cbn in L2.
    assert (K : y_watch t = y_watch s /\ y_run t = RuWatch a i) by (inversion H; subst; try congruence; cbn; split; congruence).
    destruct K as (Ew & Et). unfold winv. cbn. rewrite Ew, Et. split; [exact (YsMore _ _ _ R (YsRun _ _ (proj1 Al) H))|]. split; [exact L1|].
    split; [rewrite app_length; cbn; lia|]. assert (Cp : p_crash p = None).
    { destruct Al as (_ & F). cbn in F. apply Forall_app in F as (_ & F). now inversion F. }
    split.
    + intros k b q j N1 N2 N3. apply nth_end in N2 as [N2|(-> & ->)].
      * apply (I1 k); auto. rewrite nth_error_app1; [exact N2|]. apply nth_error_Some. congruence.
      * exfalso. assert (Q : nth_error (map in_wait (y_watch s)) (List.length ps) <> None) by congruence. apply nth_error_Some in Q. rewrite map_length in Q. lia.
    + intros q N. apply nth_end in N as [N|(El & ->)]; [exfalso; assert (Q : nth_error ps (List.length (y_watch s)) <> None) by congruence; apply nth_error_Some in Q; lia|].
      assert (Q : psteps (p_new pb) p). { apply (I2 p). rewrite El, nth_error_app2, Nat.sub_diag by lia. reflexivity. }
      exact (Lives X pb p _ Q Cp (PsNone X _)).
  - destruct Iv as (R & L1 & L2 & I1 & I2). cbn in *. rewrite Er in L2, I2. rewrite app_length in L2. cbn in L2, I2.
    assert (K : y_watch t = y_watch s ++ [Watch a i WtWait] /\ y_run t = RuSelect) by (inversion H; subst; try congruence; cbn; split; congruence).
    destruct K as (Ew & Et). unfold winv. cbn. rewrite Ew, Et. split; [exact (YsMore _ _ _ R (YsRun _ _ (proj1 Al) H))|].
    split; [rewrite !app_length; cbn; lia|]. split; [rewrite !app_length; cbn; lia|].
    assert (Cp : p_crash p = None). { destruct Al as (_ & F). cbn in F. apply Forall_app in F as (_ & F). now inversion F. }
    assert (Lp : life pb p). { apply (I2 p). replace (List.length (y_watch s)) with (List.length ps) by lia. rewrite nth_error_app2, Nat.sub_diag by lia. reflexivity. }
    split.
    + intros k b q j N1 N2 N3. rewrite map_app in N1. cbn in N1. apply nth_end in N1 as [N1|(-> & ->)].
      * assert (Lk : k < List.length (y_watch s)) by (rewrite <- (map_length in_wait); apply nth_error_Some; congruence).
        apply nth_end in N2 as [N2|(-> & _)]; [|lia]. apply nth_end in N3 as [N3|(-> & _)]; [|lia].
        apply (I1 k); auto. rewrite nth_error_app1; [exact N2|]. lia.
      * rewrite map_length in *. apply nth_end in N2 as [N2|(_ & ->)]; [exfalso; assert (Q : nth_error ps (List.length (y_watch s)) <> None) by congruence; apply nth_error_Some in Q; lia|].
        apply nth_end in N3 as [N3|(_ & ->)]; [exfalso; assert (Q : nth_error ws (List.length (y_watch s)) <> None) by congruence; apply nth_error_Some in Q; lia|].
        split; [|split; [|discriminate]].
        -- apply (life_step p); [exact Lp|]. apply PsSpawn; [exact Cp|]. apply (OsNew X p OWait). right. now left.
        -- left. cbn. rewrite nth_error_app2, Nat.sub_diag by lia. reflexivity.
    + intros; exact I.
  - pose proof Iv as (R & L1 & L2 & I1 & I2). cbn in *. unfold winv. cbn.
    assert (St : sys_step s (set_watch s (y_pool s) (pre ++ Watch a i WtStatus :: post))) by (apply YsWatch; [exact (proj1 Al)|now apply WaReturn]).
    split; [exact (YsMore _ _ _ R St)|]. assert (El : List.length (pre ++ Watch a i WtStatus :: post) = List.length (y_watch s)) by (rewrite E, !app_length; reflexivity).
    rewrite El. repeat (split; [assumption|]). split; [|exact I2]. intros k b q l N1 N2 N3. rewrite map_app in N1. cbn in N1.
    destruct (nth_mid (map in_wait pre) (map in_wait post) false true k b N1) as [(Ek & -> & N)|N].
    + rewrite map_length in Ek. subst k. assert (q = p) as -> by congruence. assert (l = j) as -> by congruence.
      destruct (I1 (List.length pre) true p j) as (A & B & _); auto; [|now repeat split].
      rewrite E, map_app. cbn. rewrite nth_error_app2, map_length, Nat.sub_diag by (rewrite map_length; lia). reflexivity.
    + apply (I1 k); auto. rewrite E, map_app. exact N.
  - assert (Er : y_run t = y_run s) by (watch_cases H; reflexivity).
    apply (winv_pool s); auto; [exact (YsWatch _ _ (proj1 Al) H)|now rewrite Er|now rewrite Er].
  - destruct (other_watch s t (or_introl H)) as (Ew & Er). apply (winv_pool s); auto; [exact (YsBan _ _ (proj1 Al) H)|now rewrite Ew|now rewrite Er|now rewrite Er].
  - apply (winv_pool s); auto. exact (YsClose _ _ (proj1 Al) (CsClosed s pre i post x c E Nx Px)).
  - destruct (other_watch s t (or_intror (or_introl H))) as (Ew & Er). apply (winv_pool s); auto; [exact (YsClose _ _ (proj1 Al) H)|now rewrite Ew|now rewrite Er|now rewrite Er].
  - destruct (other_watch s t (or_intror (or_intror H))) as (Ew & Er). apply (winv_pool s); auto; [exact (YsEnv _ _ (proj1 Al) H)|now rewrite Ew|now rewrite Er|now rewrite Er].
  - destruct Iv as (R & L1 & L2 & I1 & I2). cbn in *. unfold winv. cbn. split; [exact R|]. split; [exact L1|]. split; [rewrite app_length in *; exact L2|]. split.
    + intros k b r j N1 N2 N3. destruct (nth_mid pre post q p k r N2) as [(Ek & -> & N)|N].
      * destruct (I1 k b p j N1 N N3) as (A & B & C). destruct (wait_step p q j A H B) as (B' & C').
        split; [exact (life_step p q A H)|]. split; [exact B'|]. intro Eb. auto.
      * now apply (I1 k).
    + intros r N. destruct (nth_mid pre post q p _ r N) as [(Ek & -> & N')|N']; [|now apply I2]. specialize (I2 p N').
      destruct (y_run s); cbn in *; auto; try (exact (PsMore X _ _ _ I2 H)). exact (life_step p q I2 H).
Qed.
Lemma winv_all (w : world X) : world_steps pb (world_start bans) w -> winv w.
Proof.
  intro R. remember (world_start bans) as w0 eqn:E. induction R as [w|w v u R IH St].
  - subst. unfold winv. cbn. split; [apply YsNone|]. repeat (split; [reflexivity|]). split.
    + intros k b p j N. now destruct k.
    + intros p N. discriminate N.
  - exact (winv_step v u (IH E) St).
Qed.

(** *** What follows *)
Lemma projects (w : world X) : world_steps pb (world_start bans) w ->
  sys_steps (sys_start bans) (w_sys w) /\ Forall (fun p => psteps (p_new pb) p \/ life pb p) (w_peers w).
Proof.
  intro R. destruct (winv_all w R) as (Rs & L1 & L2 & I1 & I2). split; [exact Rs|]. apply Forall_forall. intros p I.
  apply In_nth_error in I as (k & N). assert (Lk : k < List.length (w_peers w)) by (apply nth_error_Some; congruence).
  destruct (Nat.lt_ge_cases k (List.length (y_watch (w_sys w)))) as [H|H].
  - right. destruct (nth_error (map in_wait (y_watch (w_sys w))) k) as [b|] eqn:Nb; [|apply nth_error_None in Nb; rewrite map_length in Nb; lia].
    destruct (nth_error (w_waits w) k) as [j|] eqn:Nj; [|apply nth_error_None in Nj; lia]. now destruct (I1 k b p j Nb N Nj).
  - assert (k = List.length (y_watch (w_sys w))) as -> by (destruct (y_run (w_sys w)); cbn in L2; lia). specialize (I2 p N).
    destruct (y_run (w_sys w)); cbn in L2; try lia; cbn in I2; auto.
Qed.
Lemma left_handlers (p : st) : p_wg p = (in_writer X (p_writer p) + in_reader X (p_reader p))%Z -> p_wg p = 0%Z -> writer_left (p_writer p) /\ reader_left (p_reader p).
Proof. intros E Z. rewrite E in Z. unfold writer_left, reader_left. destruct (p_writer p), (p_reader p); cbn in Z; try lia; split; eexists; reflexivity. Qed.
Lemma cleaned (w : world X) k x p : world_steps pb (world_start bans) w -> nth_error (y_watch (w_sys w)) k = Some x -> waiting x = false ->
  nth_error (w_peers w) k = Some p -> writer_left (p_writer p) /\ reader_left (p_reader p) /\ p_quits p = 1.
Proof.
  intros R Nx Wx Np. destruct (winv_all w R) as (Rs & L1 & L2 & I1 & I2).
  destruct (nth_error (w_waits w) k) as [j|] eqn:Nj. 2:{ apply nth_error_None in Nj. assert (k < List.length (y_watch (w_sys w))) by (apply nth_error_Some; congruence). lia. }
  destruct (I1 k (in_wait x) p j) as (A & B & C); auto. { now apply map_nth_error. }
  specialize (C Wx). destruct (life_inv p A) as (Wg & Q). assert (Z : p_wg p = 0%Z) by (destruct B as [B|[B|(_ & B)]]; congruence).
  destruct (left_handlers p Wg Z). split; [assumption|]. split; [assumption|]. exact (Q j C).
Qed.
Lemma served_none (p : st) : writer_left (p_writer p) -> reader_left (p_reader p) -> served p = false.
Proof. intros (d & E) (d' & E'). unfold served, handlers. now rewrite E, E'. Qed.
Lemma count_le (A B : Type) (f : A -> bool) (g : B -> bool) : forall l m,
  (forall k x y, nth_error l k = Some x -> nth_error m k = Some y -> f x = false -> g y = false) ->
  List.length (filter g m) <= List.length (filter f l) + (List.length m - List.length l).
Proof.
  induction l as [|x l IH]; intros m H; cbn.
  - clear H. rewrite Nat.sub_0_r. induction m as [|y m IH]; cbn; [lia|]. destruct (g y); cbn; lia.
  - destruct m as [|y m]; cbn; [lia|]. specialize (IH m (fun k x y => H (S k) x y)). pose proof (H 0 x y eq_refl eq_refl) as H0.
    destruct (f x); cbn; [destruct (g y); cbn; lia|]. rewrite (H0 eq_refl). lia.
Qed.
Lemma served_limit (w : world X) : world_steps pb (world_start bans) w -> List.length (filter served (w_peers w)) <= live (w_sys w) /\ live (w_sys w) <= 15.
Proof.
  intro R. destruct (winv_all w R) as (Rs & L1 & L2 & I1 & I2). split; [|exact (proj1 (limit bans _ Rs))].
  pose proof (count_le _ _ waiting served (y_watch (w_sys w)) (w_peers w)) as K. unfold live.
  assert (P : pending (y_run (w_sys w)) <= setting_up (y_run (w_sys w))) by (destruct (y_run (w_sys w)); cbn; lia).
  enough (H : List.length (filter served (w_peers w)) <= List.length (filter waiting (y_watch (w_sys w))) + (List.length (w_peers w) - List.length (y_watch (w_sys w)))) by lia.
  apply K. intros k x p Nx Np Wx. destruct (cleaned w k x p R Nx Wx Np) as (A & B & _). now apply served_none.
Qed.
Lemma handlers_served (ps : list st) : all_handlers ps <= 2 * List.length (filter served ps).
Proof.
  induction ps as [|p ps IH]; unfold all_handlers in *; cbn [fold_right filter]; [cbn; lia|]. unfold served at 1. destruct (handlers p =? 0) eqn:E; cbn.
  - apply Nat.eqb_eq in E. lia.
  - assert (handlers p <= 2) by (unfold handlers; destruct (p_writer p), (p_reader p); cbn; lia). lia.
Qed.
Lemma world_limit (w : world X) : world_steps pb (world_start bans) w ->
  List.length (filter served (w_peers w)) <= 15 /\ all_handlers (w_peers w) <= 30.
Proof. intro R. destruct (served_limit w R). pose proof (handlers_served (w_peers w)). lia. Qed.
End World.
