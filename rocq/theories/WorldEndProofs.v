(** Proofs for C135. *)
From Coq Require Import Lia.
From Verif Require Import World SpecPeer SpecEarly SpecPool SpecDone PeerProofs LiveProofs EarlyProofs PoolProofs SilentProofs OwnProofs
  WorldProofs WorldExactProofs PeerEndProofs LockEndProofs.
Local Open Scope nat_scope.

Section WorldEnd.
Context (X : Ext) (pb : option nat) (bans : option (list bytes)).
Notation st := (pstate X).
Notation reached w := (world_steps pb (world_start bans) w).

(** *** Run goes on *)
Lemma new_finish : @can_finish X (p_new pb).
Proof. split; [intros (d & E); discriminate E|]. intros m [U|[U|[U|U]]]; try discriminate U. destruct U. Qed.
Lemma started_finish (p : st) : can_finish p -> can_finish (started p).
Proof.
  intros (B & S). split; [intros (d & E); discriminate E|]. intros m [U|[U|[U|U]]]; try discriminate U. apply S. unfold unsent. auto.
Qed.
Lemma wait_finish (p : st) : can_finish p -> can_finish (set_others p (p_others p ++ [OWait])).
Proof.
  intros (B & S). split; [exact B|]. intros m U. apply S. unfold unsent in *. cbn in U. destruct U as [U|[U|[U|U]]]; auto.
  apply in_app_iff in U as [U|[U|[]]]; [auto|discriminate].
Qed.
Definition calm (w : world X) : Prop := reached w /\ alive w /\ Forall can_finish (w_peers w).
Lemma lift_run (w : world X) t : calm w -> run_step (w_sys w) t -> exists v, world_step pb w v /\ w_sys v = t /\ calm v.
Proof.
  intros (R & Al & F) St. destruct (winv_all X pb bans w R) as (Rs & L1 & L2 & I1 & I2). destruct w as [s ps ws]. cbn [w_sys w_peers w_waits] in *.
  destruct (run_keeps s t St) as (Ck & _). pose proof Al as (Cs & Cp). cbn in Cs, Cp.
  assert (K : forall v, world_step pb (World s ps ws) v -> w_sys v = t -> Forall (fun p => p_crash p = None) (w_peers v) -> Forall can_finish (w_peers v) ->
    exists v, world_step pb (World s ps ws) v /\ w_sys v = t /\ calm v).
  { intros v Sv Ev Cv Fv. exists v. split; [exact Sv|]. split; [exact Ev|]. split; [exact (WoMore X pb _ _ _ R Sv)|]. split; [|exact Fv]. split; [congruence|exact Cv]. }
  destruct (on_peer (y_run s)) eqn:Op.
  2:{ apply (K (World t ps ws)); [now apply WoRun|reflexivity|exact Cp|exact F]. }
  assert (La : 1 = pending (y_run s) -> exists ps' p, ps = ps' ++ [p]).
  { intro E. rewrite <- E in L2. destruct (nth_error ps (List.length (y_watch s))) as [p|] eqn:N; [|apply nth_error_None in N; lia].
    destruct (last_of ps _ p L2 N) as (m & -> & _). eauto. }
  destruct (y_run s) eqn:Er; try discriminate Op.
  - apply (K (World t (ps ++ [p_new pb]) ws)); [exact (WoStore X pb s t ps ws a i d Al St Er)|reflexivity| |]; cbn; apply Forall_app; (split; [assumption|]); constructor; auto using new_finish.
  - destruct (La eq_refl) as (ps' & p & ->). apply Forall_app in Cp as (C1 & C2). apply Forall_app in F as (F1 & F2). inversion C2; inversion F2; subst.
    apply (K (World t (ps' ++ [started p]) ws)); [exact (WoStart X pb s t ps' p ws a i Al St Er)|reflexivity| |]; cbn; apply Forall_app; (split; [assumption|]); constructor; auto using started_finish.
  - destruct (La eq_refl) as (ps' & p & ->). apply Forall_app in Cp as (C1 & C2). apply Forall_app in F as (F1 & F2). inversion C2; inversion F2; subst.
    apply (K (World t (ps' ++ [set_others p (p_others p ++ [OWait])]) (ws ++ [List.length (p_others p)]))); [exact (WoWait X pb s t ps' p ws a i Al St Er)|reflexivity| |];
      cbn; apply Forall_app; (split; [assumption|]); constructor; auto using wait_finish.
Qed.
Lemma lift_runs s t : run_steps s t -> forall w : world X, w_sys w = s -> calm w -> ready s -> exists v, world_steps pb w v /\ w_sys v = t /\ calm v /\ ready t.
Proof.
  intro R. induction R as [s|s t u St R IH]; intros w E Cw Rd; [exists w; split; [apply WoNone|auto]|].
  subst s. destruct (lift_run w t Cw St) as (v & Sv & Ev & Cv). destruct Cw as (Rw & Al & _).
  assert (Rs : sys_steps (sys_start bans) (w_sys w)) by exact (proj1 (winv_all X pb bans w Rw)).
  destruct (IH v Ev Cv) as (u' & Su & Eu & Cu & Ru).
  - apply (ready_step (w_sys w) t); [exact (YsRun _ _ (proj1 Al) St)| |exact Rd]. intros i H. exact (to_close_run _ _ i (lock_reach bans _ Rs) St H).
  - exists u'. split; [|auto]. exact (world_app X pb _ _ _ (WoMore X pb _ _ _ (WoNone X pb w) Sv) Su).
Qed.
Lemma stops (w : world X) : calm w -> ready (w_sys w) -> exists v, world_steps pb w v /\ y_run (w_sys v) = RuStopped /\ calm v /\ ready (w_sys v).
Proof.
  intros Cw Rd. assert (H : exists v, world_steps pb w v /\ y_quits (w_sys v) <> 0 /\ calm v /\ ready (w_sys v)).
  { destruct (y_quits (w_sys w)) eqn:Q; [|exists w; split; [apply WoNone|]; rewrite Q; split; [discriminate|now split]].
    destruct Cw as (R & Al & F). destruct w as [s ps ws]. cbn in *. assert (St : env_step s (stop s)) by now apply EnStop.
    assert (Sw : world_step pb (World s ps ws) (World (stop s) ps ws)) by now apply WoOthers.
    exists (World (stop s) ps ws). split; [exact (WoMore X pb _ _ _ (WoNone X pb _) Sw)|]. split; [discriminate|]. split.
    - split; [exact (WoMore X pb _ _ _ R Sw)|]. split; [exact Al|exact F].
    - exact Rd. }
  destruct H as (v & Sv & Q & Cv & Rv). pose proof Cv as (R & Al & _).
  destruct (stop_reached bans (w_sys v) (proj1 (winv_all X pb bans v R)) (proj1 Al) Q) as (t & Rt & Et).
  destruct (lift_runs _ t Rt v eq_refl Cv Rv) as (u & Su & Eu & Cu & Ru). exists u. split; [exact (world_app X pb _ _ _ Sv Su)|].
  rewrite Eu. auto.
Qed.

(** *** The peers end *)
Definition gone (p : st) : Prop := p_crash p = None /\ all_ended p /\ p_closed p = true /\ exists j, nth_error (p_others p) j = Some (ODisc DRet).
Lemma all_live (w : world X) : reached w -> y_run (w_sys w) = RuStopped -> Forall (life pb) (w_peers w).
Proof.
  intros R Er. destruct (winv_all X pb bans w R) as (Rs & L1 & L2 & I1 & _). rewrite Er in L2. cbn in L2. apply Forall_forall. intros p I.
  apply In_nth_error in I as (k & N). assert (Lk : k < List.length (w_peers w)) by (apply nth_error_Some; congruence).
  destruct (nth_error (map in_wait (y_watch (w_sys w))) k) as [b|] eqn:Nb; [|apply nth_error_None in Nb; rewrite map_length in Nb; lia].
  destruct (nth_error (w_waits w) k) as [j|] eqn:Nj; [|apply nth_error_None in Nj; lia]. now destruct (I1 k b p j Nb N Nj).
Qed.
Lemma peers_gone s ws : forall post pre, reached (World s (pre ++ post) ws) -> y_run s = RuStopped -> y_crash s = None ->
  Forall gone pre -> Forall (fun p => p_crash p = None /\ can_finish p) post ->
  exists ps, world_steps pb (World s (pre ++ post) ws) (World s ps ws) /\ Forall gone ps.
Proof.
  induction post as [|p post IH]; intros pre R Er C G F.
  - exists pre. rewrite app_nil_r. split; [apply WoNone|exact G].
  - inversion F as [|p0 l (Cp & B & S) Fl]; subst. pose proof (all_live _ R Er) as Lf. cbn in Lf. apply Forall_app in Lf as (_ & Lf). inversion Lf; subst.
    destruct (life_ends X pb p ltac:(assumption) Cp B S) as (q & Sq & Cq & Eq & Clq & Dq).
    assert (Al : alive (World s (pre ++ p :: post) ws)).
    { split; [exact C|]. cbn. apply Forall_app. split; [eapply Forall_impl; [|exact G]; intros x Gx; apply Gx|]. constructor; [exact Cp|].
      eapply Forall_impl; [|exact Fl]. intros x Fx. apply Fx. }
    pose proof (peer_steps X pb s pre p q post ws Sq Al) as Sw.
    destruct (IH (pre ++ [q])) as (ps & Sp & Gp).
    + rewrite <- app_assoc. exact (world_app X pb _ _ _ R Sw).
    + exact Er.
    + exact C.
    + apply Forall_app. split; [exact G|]. constructor; [|constructor]. exact (conj Cq (conj Eq (conj Clq Dq))).
    + exact Fl.
    + exists ps. split; [|exact Gp]. rewrite <- app_assoc in Sp. exact (world_app X pb _ _ _ Sw Sp).
Qed.

(** *** The goroutines of the pool end *)
Definition fin (w : world X) : Prop := reached w /\ y_run (w_sys w) = RuStopped /\ y_crash (w_sys w) = None /\ ready (w_sys w) /\ Forall gone (w_peers w).
Definition cw (c : close_pc) : nat := match c with ClLock _ => 3 | ClClose _ => 2 | ClStatus _ => 1 | ClEnd => 0 end.
Definition tw (x : watch) : nat := match wt_pc x with WtWait => 6 | WtStatus => 5 | WtRead => 4 | WtWrite _ => 3 | WtDelete => 2 | WtRelease => 1 | WtEnd => 0 end.
Fixpoint sum {A} (f : A -> nat) (l : list A) : nat := match l with [] => 0 | x :: l => f x + sum f l end.
Lemma sum_mid {A} (f : A -> nat) pre x post : sum f (pre ++ x :: post) = f x + sum f (pre ++ post).
Proof. induction pre as [|y pre IH]; cbn; [reflexivity|]. rewrite IH. lia. Qed.
Definition rest (w : world X) : nat := sum cw (y_close (w_sys w)) + sum tw (y_watch (w_sys w)).
Definition moves (w : world X) : Prop := exists v, world_step pb w v /\ fin v /\ rest v < rest w.
Lemma gone_alive (w : world X) : fin w -> alive w.
Proof. intros (_ & _ & C & _ & G). split; [exact C|]. eapply Forall_impl; [|exact G]. intros p H. apply H. Qed.
Lemma fin_step s t ps ws : fin (World s ps ws) -> world_step pb (World s ps ws) (World t ps ws) -> sys_step s t -> y_run t = y_run s -> y_crash t = y_crash s ->
  (forall i, to_close t i -> to_close s i) -> fin (World t ps ws).
Proof.
  intros (R & Er & C & Rd & G) Sw St Et Ct H. cbn in *. split; [exact (WoMore X pb _ _ _ R Sw)|]. cbn.
  split; [congruence|]. split; [congruence|]. split; [exact (ready_step s t St H Rd)|exact G].
Qed.
(** Somebody in the middle of a list, or nobody. *)
Lemma some_or_none {A} (f : A -> bool) l : (exists pre x post, l = pre ++ x :: post /\ f x = true) \/ forall x, In x l -> f x = false.
Proof.
  induction l as [|y l IH]; [right; intros x []|]. destruct (f y) eqn:E; [left; now exists [], y, l|].
  destruct IH as [(pre & x & post & -> & Fx)|H]; [left; now exists (y :: pre), x, post|]. right. intros x [->|I]; auto.
Qed.
Lemma unlocked_free s i : lock_end s -> y_run s = RuStopped -> i < List.length (pl_infos (y_pool s)) -> ~ held (y_close s) i -> unlocked (y_pool s) i.
Proof.
  intros L Er Lt Nh. destruct (nth_error (pl_infos (y_pool s)) i) as [x|] eqn:N; [|apply nth_error_None in N; lia]. exists x. split; [exact N|].
  destruct (i_locked x) eqn:E; [|reflexivity]. elim Nh. apply (proj1 (L Er)). unfold locks. rewrite nth_error_map, N. cbn. now rewrite E.
Qed.
Lemma close_moves (w : world X) : fin w -> all_closed (w_sys w) \/ moves w.
Proof.
  intro Fi. pose proof (gone_alive w Fi) as Al. pose proof Fi as (R & Er & C & Rd & G). destruct (winv_all X pb bans w R) as (Rs & L1 & L2 & I1 & _).
  destruct w as [s ps ws]. cbn [w_sys w_peers w_waits] in *. unfold moves, rest. cbn [w_sys].
  destruct (some_or_none (fun c => match c with ClStatus _ => true | _ => false end) (y_close s)) as [(pre & x & post & E & Fx)|No1].
  { destruct x as [i|i|i|]; try discriminate Fx. right. eexists (World _ ps ws).
    assert (St : close_step s (set_close s (upd (y_pool s) i (fun x => with_lock false (with_status StDisconnected x))) (pre ++ ClEnd :: post))) by now apply CsStatus.
    assert (Sw : world_step pb (World s ps ws) (World (set_close s (upd (y_pool s) i (fun x => with_lock false (with_status StDisconnected x))) (pre ++ ClEnd :: post)) ps ws)).
    { apply WoClose; [exact Al|exact St|]. intros (pre' & k & post' & E1 & E2). cbn in E2. rewrite E in E1.
      assert (H : sum cw (pre ++ ClStatus i :: post) = S (sum cw (pre ++ ClEnd :: post))) by (rewrite !sum_mid; reflexivity).
      assert (H1 : nth_error (pre ++ ClStatus i :: post) (List.length pre') = Some (ClClose k)) by (rewrite E1, nth_error_app2, Nat.sub_diag by lia; reflexivity).
      assert (H2 : nth_error (pre ++ ClEnd :: post) (List.length pre') = Some (ClStatus k)) by (rewrite E2, nth_error_app2, Nat.sub_diag by lia; reflexivity).
      destruct (PeerProofs.nth_mid pre post (ClStatus i) ClEnd _ _ H1) as [(_ & K & _)|K]; congruence. }
    split; [exact Sw|]. split.
    - apply (fin_step s _ ps ws Fi Sw); [exact (YsClose _ _ C St)|reflexivity|reflexivity|]. intro k. unfold to_close. cbn [set_close y_run y_pool upd set_infos pl_table y_close]. rewrite E, !in_mid.
      intros [H|[[H|H]|[H|H]]]; try discriminate H; auto.
    - cbn [w_sys set_close y_close y_watch]. rewrite E, !sum_mid. cbn. lia. }
  destruct (some_or_none (fun c => match c with ClClose _ => true | _ => false end) (y_close s)) as [(pre & x & post & E & Fx)|No2].
  { destruct x as [i|i|i|]; try discriminate Fx. right. eexists (World _ ps ws).
    destruct (Rd i) as (x & c & Nx & Px). { right. right. rewrite E. apply in_mid. now left. }
    destruct (own_reach bans s Rs) as (_ & _ & _ & O). specialize (O i c). unfold peer_at in O. rewrite Nx, Er in O. specialize (O Px). cbn in O.
    rewrite Er in L2. cbn in L2. destruct (nth_error ps c) as [p|] eqn:Np; [|apply nth_error_None in Np; lia].
    rewrite Forall_forall in G. destruct (G p (nth_error_In _ _ Np)) as (_ & _ & _ & j & Nj).
    assert (Sw : world_step pb (World s ps ws) (World (set_close s (y_pool s) (pre ++ ClStatus i :: post)) ps ws)) by exact (WoClosed X pb s ps ws pre i post x c p j Al E Nx Px Np Nj).
    split; [exact Sw|]. split.
    - apply (fin_step s _ ps ws Fi Sw); [exact (YsClose _ _ C (CsClosed s pre i post x c E Nx Px))|reflexivity|reflexivity|]. intro k. unfold to_close. cbn [set_close y_run y_pool y_close]. rewrite E, !in_mid.
      intros [H|[[H|H]|[H|H]]]; try discriminate H; auto.
    - cbn [w_sys set_close y_close y_watch]. rewrite E, !sum_mid. cbn. lia. }
  destruct (some_or_none (fun c => match c with ClLock _ => true | _ => false end) (y_close s)) as [(pre & x & post & E & Fx)|No3].
  { destruct x as [i|i|i|]; try discriminate Fx. right. eexists (World _ ps ws). pose proof (lock_end_reach bans s Rs) as Le.
    assert (U : unlocked (y_pool s) i).
    { apply unlocked_free; auto; [apply (proj2 (Le Er)); left; rewrite E; apply in_mid; now left|]. intros [H|H]; [discriminate (No2 _ H)|discriminate (No1 _ H)]. }
    assert (St : close_step s (set_close s (upd (y_pool s) i (with_lock true)) (pre ++ ClClose i :: post))) by now apply CsLock.
    assert (Sw : world_step pb (World s ps ws) (World (set_close s (upd (y_pool s) i (with_lock true)) (pre ++ ClClose i :: post)) ps ws)).
    { apply WoClose; [exact Al|exact St|]. intros (pre' & k & post' & E1 & E2). apply (f_equal (fun l => In (ClClose k) l)) in E1.
      assert (H : In (ClClose k) (y_close s)) by (rewrite E1; apply in_mid; now left). discriminate (No2 _ H). }
    split; [exact Sw|]. split.
    - apply (fin_step s _ ps ws Fi Sw); [exact (YsClose _ _ C St)|reflexivity|reflexivity|]. intro k. unfold to_close. cbn [set_close y_run y_pool upd set_infos pl_table y_close]. rewrite E, !in_mid.
      intros [H|[[H|H]|[H|H]]]; try discriminate H; auto. injection H as ->. auto.
    - cbn [w_sys set_close y_close y_watch]. rewrite E, !sum_mid. cbn. lia. }
  left. apply Forall_forall. intros [i|i|i|] I; [discriminate (No3 _ I)|discriminate (No2 _ I)|discriminate (No1 _ I)|reflexivity].
Qed.
Lemma watch_moves (w : world X) : fin w -> all_closed (w_sys w) -> Forall (fun x => wt_pc x = WtEnd) (y_watch (w_sys w)) \/ moves w.
Proof.
  intros Fi Ac. pose proof (gone_alive w Fi) as Al. pose proof Fi as (R & Er & C & Rd & G). destruct (winv_all X pb bans w R) as (Rs & L1 & L2 & I1 & _).
  destruct w as [s ps ws]. cbn [w_sys w_peers w_waits] in *. unfold moves, rest. cbn [w_sys].
  destruct (some_or_none (fun x => match wt_pc x with WtEnd => false | _ => true end) (y_watch s)) as [(pre & x & post & E & Fx)|No].
  2:{ left. apply Forall_forall. intros x I. specialize (No x I). now destruct (wt_pc x). }
  right. destruct x as [a i pc]. cbn in Fx.
  assert (K : forall p pc', watch_step s (set_watch s p (pre ++ Watch a i pc' :: post)) -> pl_table p = pl_table (y_pool s) ->
    world_step pb (World s ps ws) (World (set_watch s p (pre ++ Watch a i pc' :: post)) ps ws) -> tw (Watch a i pc') < tw (Watch a i pc) ->
    exists v, world_step pb (World s ps ws) v /\ fin v /\ sum cw (y_close (w_sys v)) + sum tw (y_watch (w_sys v)) < sum cw (y_close s) + sum tw (y_watch s)).
  { intros p pc' St Ep Sw Lt. exists (World (set_watch s p (pre ++ Watch a i pc' :: post)) ps ws). split; [exact Sw|]. split.
    - apply (fin_step s _ ps ws Fi Sw); [exact (YsWatch _ _ C St)|reflexivity|reflexivity|]. intro k. unfold to_close. cbn [set_watch y_run y_pool y_close]. rewrite Ep. auto.
    - cbn [w_sys set_watch y_close y_watch]. rewrite E, !sum_mid. lia. }
  assert (KC : forall p pc', watch_step s (set_watch s p (pre ++ Watch a i pc' :: post)) -> pl_table p = pl_table (y_pool s) ->
    pc <> WtWait -> pc' <> WtWait -> tw (Watch a i pc') < tw (Watch a i pc) ->
    exists v, world_step pb (World s ps ws) v /\ fin v /\ sum cw (y_close (w_sys v)) + sum tw (y_watch (w_sys v)) < sum cw (y_close s) + sum tw (y_watch s)).
  { intros p pc' St Ep N1 N2 Lt. apply (K p pc' St Ep); [|exact Lt]. apply WoClean; [exact Al|exact St|]. cbn [set_watch y_watch]. rewrite E, !map_app. cbn.
    f_equal. f_equal. unfold in_wait. cbn. destruct pc, pc'; congruence. }
  destruct pc as [| | |v| | |]; try discriminate Fx.
  - assert (Lk : List.length pre < List.length (y_watch s)) by (rewrite E, app_length; cbn; lia). rewrite Er in L2. cbn in L2.
    destruct (nth_error ps (List.length pre)) as [p|] eqn:Np; [|apply nth_error_None in Np; lia].
    destruct (nth_error ws (List.length pre)) as [j|] eqn:Nj; [|apply nth_error_None in Nj; lia].
    destruct (I1 (List.length pre) true p j) as (Lf & Wo & _); auto.
    { rewrite E, map_app. cbn. rewrite nth_error_app2, map_length, Nat.sub_diag by (rewrite map_length; lia). reflexivity. }
    assert (No : nth_error (p_others p) j = Some OWaited).
    { rewrite Forall_forall in G. destruct (G p (nth_error_In _ _ Np)) as (_ & (_ & _ & Eo) & _). rewrite Forall_forall in Eo.
      destruct Wo as [W|[W|(W & _)]]; [| |exact W]; destruct (Eo _ (nth_error_In _ _ W)) as [H|[H|H]]; discriminate H. }
    apply (K (y_pool s) WtStatus); [now apply WaReturn|reflexivity|exact (WoReturn X pb s ps ws pre a i post p j Al E Np Nj No)|cbn; lia].
  - assert (U : unlocked (y_pool s) i).
    { apply unlocked_free; [exact (lock_end_reach bans s Rs)|exact Er| |].
      - destruct (own_reach bans s Rs) as (_ & O & _). specialize (O (List.length pre) (Watch a i WtStatus)).
        rewrite E, nth_error_app2, Nat.sub_diag in O by lia. specialize (O eq_refl eq_refl). cbn in O. unfold peer_at in O. apply nth_error_Some. intro H. now rewrite H in O.
      - unfold all_closed in Ac. rewrite Forall_forall in Ac. intros [H|H]; discriminate (Ac _ H). }
    apply (KC (upd (y_pool s) i (with_status StDisconnected)) WtRead); [now apply WaStatus|reflexivity|discriminate|discriminate|cbn; lia].
  - apply (KC (y_pool s) (WtWrite (pl_connected (y_pool s)))); [now apply WaRead|reflexivity|discriminate|discriminate|cbn; lia].
  - apply (KC (set_connected (y_pool s) (v - 1)) WtDelete); [now apply WaWrite|reflexivity|discriminate|discriminate|cbn; lia].
  - apply (KC (set_up (y_pool s) (remove a (pl_up (y_pool s)))) WtRelease); [now apply WaDelete|reflexivity|discriminate|discriminate|cbn; lia].
  - destruct (slots_reach bans s Rs) as (Sl & _). rewrite E, act_app, act_cons in Sl. cbn [PoolProofs.holds running wt_pc] in Sl.
    destruct (pl_slots (y_pool s)) as [|n] eqn:En; [cbn in Sl; lia|].
    apply (KC (set_slots (y_pool s) n) WtEnd); [now apply WaRelease|reflexivity|discriminate|discriminate|cbn; lia].
Qed.
Lemma fin_over (w : world X) : fin w -> exists v, world_steps pb w v /\ alive v /\ finished v.
Proof.
  remember (rest w) as n eqn:En. revert w En. induction n as [n IH] using lt_wf_ind. intros w En Fi.
  assert (M : moves w -> exists v, world_steps pb w v /\ alive v /\ finished v).
  { intros (v & Sv & Fv & Lt). destruct (IH (rest v) ltac:(lia) v eq_refl Fv) as (u & Su & K). exists u. split; [|exact K].
    exact (world_app X pb _ _ _ (WoMore X pb _ _ _ (WoNone X pb w) Sv) Su). }
  destruct (close_moves w Fi) as [Ac|Mv]; [|auto]. destruct (watch_moves w Fi Ac) as [Aw|Mv]; [|auto].
  exists w. split; [apply WoNone|]. split; [exact (gone_alive w Fi)|]. destruct Fi as (_ & Er & _ & _ & G). repeat (split; [assumption|]).
  eapply Forall_impl; [|exact G]. intros p (_ & H & K & _). now split.
Qed.
Lemma can_stop (w : world X) : reached w -> alive w -> Forall can_finish (w_peers w) -> (forall i, to_close (w_sys w) i -> peered (y_pool (w_sys w)) i) ->
  exists v, world_steps pb w v /\ alive v /\ finished v.
Proof.
  intros R Al F Rd. destruct (stops w (conj R (conj Al F)) Rd) as (v & Sv & Ev & (Rv & Alv & Fv) & Rdv). destruct v as [s ps ws]. cbn [w_sys w_peers] in *.
  destruct (peers_gone s ws ps [] Rv Ev (proj1 Alv)) as (ps' & Sp & G); [constructor| |].
  { destruct Alv as (_ & Cp). cbn in Cp. rewrite Forall_forall in *. intros p I. split; auto. }
  destruct (fin_over (World s ps' ws)) as (u & Su & K).
  { split; [exact (world_app X pb _ _ _ Rv Sp)|]. split; [exact Ev|]. split; [exact (proj1 Alv)|]. split; [exact Rdv|exact G]. }
  exists u. split; [|exact K]. exact (world_app X pb _ _ _ Sv (world_app X pb _ _ _ Sp Su)).
Qed.
End WorldEnd.

(** *** What is needed *)
Section Needs.
Context (X : Ext) (bans : option (list bytes)).
Notation st := (pstate X).
Notation reached w := (world_steps None (world_start bans) w).
Lemma ban_on (p q : st) : life None p -> banning (p_reader p) -> pstep p q -> banning (p_reader q).
Proof.
  intros L B St. destruct (lives_as_if X None p L) as (p' & R & A). destruct (step_as_if X p p' q A St) as (q' & St' & A').
  assert (B' : banning (p_reader q')).
  { apply (ban_never_returns X p' q' R); [|exact (PsMore X _ _ _ (PsNone X p') St')]. unfold as_if in A. decompose [and] A. destruct B as (d & B). exists d. congruence. }
  unfold as_if in A'. decompose [and] A'. destruct B' as (d & B'). exists d. congruence.
Qed.
Lemma new_reader (e : st) : psteps (p_new None) e -> ~ banning (p_reader e).
Proof. intros R (d & E). destruct (early_steps X None e R) as (e' & _ & (_ & _ & Er & _)). rewrite Er in E. discriminate E. Qed.
Lemma ban_kept (w v : world X) : reached w -> world_step None w v -> forall k p, nth_error (w_peers w) k = Some p -> banning (p_reader p) ->
  exists q, nth_error (w_peers v) k = Some q /\ banning (p_reader q).
Proof.
  intros R St k p N B. destruct (projects X None bans w R) as (_ & Lf). destruct (winv_all X None bans w R) as (_ & _ & L2 & _ & I2).
  assert (Lp : life None p).
  { rewrite Forall_forall in Lf. destruct (Lf p (nth_error_In _ _ N)) as [H|H]; [now elim (new_reader p H)|exact H]. }
  destruct St as [s t ps ws Al H Op|s t ps ws a i d Al H Er|s t ps p0 ws a i Al H Er|s t ps p0 ws a i Al H Er
    |s ps ws pre a i post p0 j Al E Np Nj No|s t ps ws Al H Em|s t ps ws Al H|s ps ws pre i post x c p0 j Al E Nx Px Np Nj|s t ps ws Al H Nr|s t ps ws Al H|s pre p0 q post ws Al H];
    cbn [w_peers w_sys] in *; try (exists p; now split).
  - exists p. split; [|exact B]. rewrite nth_error_app1; [exact N|]. apply nth_error_Some. congruence.
  - apply nth_end in N as [N|(-> & ->)]; [exists p; split; [rewrite nth_error_app1; [exact N|apply nth_error_Some; congruence]|exact B]|].
    exfalso. apply (new_reader p0); [|exact B]. specialize (I2 p0). rewrite Er in I2, L2. cbn in I2, L2. apply I2.
    rewrite app_length in L2. cbn in L2. replace (List.length (y_watch s)) with (List.length ps) by lia. apply nth_last.
  - apply nth_end in N as [N|(-> & ->)]; [exists p; split; [rewrite nth_error_app1; [exact N|apply nth_error_Some; congruence]|exact B]|].
    eexists. split; [apply nth_last|exact B].
  - destruct (PeerProofs.nth_mid pre post p0 q k p N) as [(_ & -> & N')|N']; [|now exists p]. exists q. split; [exact N'|exact (ban_on p0 q Lp B H)].
Qed.
Lemma over_no_ban (w v : world X) : reached w -> world_steps None w v -> finished v -> Forall (fun p => ~ banning (p_reader p)) (w_peers w).
Proof.
  intros R S (_ & _ & _ & O). apply Forall_forall. intros p I B. apply In_nth_error in I as (k & N).
  assert (K : exists q, nth_error (w_peers v) k = Some q /\ banning (p_reader q)).
  { clear O. induction S as [w|w u v S IH St]; [eauto|]. destruct (IH R N) as (q & Nq & Bq).
    exact (ban_kept u v (world_app X None _ _ _ R S) St k q Nq Bq). }
  destruct K as (q & Nq & (d & Bq)). rewrite Forall_forall in O. destruct (O q (nth_error_In _ _ Nq)) as ((_ & Er & _) & _). unfold reader_ended in Er. congruence.
Qed.
End Needs.

(** A goroutine after Stop whose record has no peer does not get past line 307. *)
Definition stuck_close (s : sys) (k i : nat) : Prop := y_run s = RuStopped /\ peer_at (y_pool s) i = None /\
  (nth_error (y_close s) k = Some (ClLock i) \/ nth_error (y_close s) k = Some (ClClose i)).
Lemma stuck_step s t k m : sys_step s t -> stuck_close s k m -> stuck_close t k m.
Proof.
  unfold stuck_close. intros [C St|C St|C St|C St|C St] (Er0 & Pn & H).
  - exfalso. run_cases St; congruence.
  - watch_cases St; fields; repeat split; auto; now rewrite peer_upd.
  - ban_cases St; fields; repeat split; auto; now rewrite peer_upd.
  - close_cases St; fields; rewrite E in H; rewrite ?peer_upd by reflexivity; rewrite ?E; repeat split; auto.
    + destruct H as [H|H]; destruct (PeerProofs.nth_mid pre post (ClLock i) (ClClose i) k _ H) as [(_ & K & N')|N']; auto; [injection K as ->; auto|discriminate K].
    + destruct H as [H|H]; destruct (PeerProofs.nth_mid pre post (ClClose i) (ClStatus i) k _ H) as [(_ & Ek & N')|N']; auto; [discriminate Ek|].
      injection Ek as ->. unfold peer_at in Pn. rewrite N in Pn. congruence.
    + destruct H as [H|H]; destruct (PeerProofs.nth_mid pre post (ClStatus i) ClEnd k _ H) as [(_ & Ek & N')|N']; auto; discriminate Ek.
  - env_cases St; fields; repeat split; auto; [now rewrite peer_add|now rewrite peer_upd].
Qed.
Lemma over_peered (X : Ext) pb bans (w v : world X) : world_steps pb (world_start bans) w -> world_steps pb w v -> finished v -> y_run (w_sys w) = RuStopped ->
  forall i, to_close (w_sys w) i -> peered (y_pool (w_sys w)) i.
Proof.
  intros R S (_ & Ac & _) Er i Ht. apply peered_at. intro Pn.
  assert (K : exists k, stuck_close (w_sys w) k i).
  { destruct Ht as [(N & _)|[H|H]]; [now elim N| |]; apply In_nth_error in H as (k & N); exists k; repeat split; auto. }
  destruct K as (k & K).
  assert (Kv : stuck_close (w_sys v) k i).
  { clear Ac Ht Er Pn. induction S as [w|w u v S IH St]; [exact K|]. specialize (IH R K). destruct St as [s t ps ws Al H Op|s t ps ws a i0 d Al H Er|s t ps p0 ws a i0 Al H Er|s t ps p0 ws a i0 Al H Er
      |s ps ws pre a i0 post p0 j Al E Np Nj No|s t ps ws Al H Em|s t ps ws Al H|s ps ws pre i0 post x c p0 j Al E Nx Px Np Nj|s t ps ws Al H Nr|s t ps ws Al H|s pre p0 q post ws Al H];
      cbn [w_sys] in *; try exact IH;
      match goal with Al : alive (World ?s _ _) |- _ => assert (C : y_crash s = None) by exact (proj1 Al) end.
    all: try (match goal with H : run_step _ _ |- _ => exact (stuck_step _ _ k i (YsRun _ _ C H) IH)
      | H : watch_step _ _ |- _ => exact (stuck_step _ _ k i (YsWatch _ _ C H) IH) | H : Pool.ban_step _ _ |- _ => exact (stuck_step _ _ k i (YsBan _ _ C H) IH)
      | H : close_step _ _ |- _ => exact (stuck_step _ _ k i (YsClose _ _ C H) IH) | H : env_step _ _ |- _ => exact (stuck_step _ _ k i (YsEnv _ _ C H) IH) end).
    apply (stuck_step s _ k i (YsClose _ _ C (CsClosed s pre i0 post x c E Nx Px)) IH). }
  destruct Kv as (_ & _ & H). unfold all_closed in Ac. rewrite Forall_forall in Ac. destruct H as [H|H]; discriminate (Ac _ (nth_error_In _ _ H)).
Qed.

Lemma stopped_exact (X : Ext) bans (w : world X) : world_steps None (world_start bans) w -> alive w -> y_run (w_sys w) = RuStopped -> Forall encodable (w_peers w) ->
  ((exists v, world_steps None w v /\ alive v /\ finished v) <->
   Forall (fun p => ~ banning (p_reader p)) (w_peers w) /\ forall i, to_close (w_sys w) i -> peered (y_pool (w_sys w)) i).
Proof.
  intros R Al Er En. split.
  - intros (v & S & _ & O). split; [exact (over_no_ban X bans w v R S O)|exact (over_peered X None bans w v R S O Er)].
  - intros (B & P). apply (can_stop X None bans w R Al); [|exact P]. rewrite Forall_forall in *. intros p I. split; auto.
Qed.
