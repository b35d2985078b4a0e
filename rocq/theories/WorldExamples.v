(** Executions for C46 and C130. *)
From Coq Require Import Lia.
From Verif Require Import World SpecPeer SpecPool SpecWorld PoolProofs PoolExamples WorldProofs WorldExactProofs.
Local Open Scope nat_scope.

(** "a:" and one more byte. *)
Definition addr_n (b : byte) : bytes := [x61; x3a; b].
Definition fifteen : list byte := [x31; x32; x33; x34; x35; x36; x37; x38; x39; x3a; x3b; x3c; x3d; x3e; x3f].
Ltac connect l b i := add (addr_n b); let o := eval cbv in (rev (combine (map addr_n (firstn (S i) l)) (seq 0 (S i)))) in let a := eval cbv in (addr_n b) in
  run_dialled o a i StNew; run_finish a i.
(** Fifteen connections. *)
Lemma run_fifteen bans : exists s, sys_steps (sys_start bans) s /\ y_run s = RuSelect /\ y_crash s = None /\ y_close s = [] /\ List.length (y_watch s) = 15 /\ forallb waiting (y_watch s) = true.
Proof.
  eexists. split.
  - connect fifteen x31 0. connect fifteen x32 1. connect fifteen x33 2. connect fifteen x34 3. connect fifteen x35 4. 
    connect fifteen x36 5. connect fifteen x37 6. connect fifteen x38 7. connect fifteen x39 8. connect fifteen x3a 9.
    connect fifteen x3b 10. connect fifteen x3c 11. connect fifteen x3d 12. connect fifteen x3e 13. connect fifteen x3f 14. apply YsNone.
  - repeat split; reflexivity.
Qed.
Lemma all_up X pb (ws : list watch) (ps : list (pstate X)) : forallb waiting ws = true -> List.length ps = List.length ws ->
  (forall k, nth_error (map in_wait ws) k = Some true -> nth_error ps k = Some (up X pb)) -> ps = map (fun _ => up X pb) ws.
Proof.
  revert ps. induction ws as [|x ws IH]; intros [|p ps] A L H; try discriminate L; [reflexivity|]. cbn in A. apply andb_prop in A as (A1 & A2). cbn. f_equal.
  - specialize (H 0). cbn in H. change (in_wait x) with (waiting x) in H. rewrite A1 in H. specialize (H eq_refl). congruence.
  - apply IH; [exact A2|cbn in L; lia|]. intros k N. exact (H (S k) N).
Qed.
(** Each of them has both handlers. *)
Lemma world_fifteen X pb bans : exists w : world X, world_steps pb (world_start bans) w /\ List.length (filter served (w_peers w)) = 15 /\ all_handlers (w_peers w) = 30.
Proof.
  destruct (run_fifteen bans) as (s & R & Er & _ & Ec & L & A). destruct (neat_all X pb bans s R) as (w & Rw & Ew & N). exists w. split; [exact Rw|].
  destruct N as (_ & _ & _ & L2 & _ & _ & I3). rewrite Ew, Er in *. cbn in L2. rewrite (all_up X pb (y_watch s) (w_peers w)); [|exact A|lia|exact (I3 Ec)].
  clear - L. destruct (y_watch s) as [|? l]; [discriminate L|]. repeat (destruct l as [|? l]; [discriminate L|]). destruct l; [|discriminate L]. split; reflexivity.
Qed.
(** A connection ends, and the goroutine that waited for that goes on. *)
Lemma world_ended X pb bans : exists (w : world X) p, world_steps pb (world_start bans) w /\ y_watch (w_sys w) = [Watch addr_a 0 WtStatus] /\ w_peers w = [p].
Proof.
  assert (K : exists s, sys_steps (sys_start bans) s /\ y_watch s = [Watch addr_a 0 WtStatus] /\ y_run s = RuSelect).
  { eexists. split.
    - add addr_a. run_dialled [(addr_a, 0%nat)] addr_a 0%nat StNew. run_finish addr_a 0%nat.
      w ltac:(apply (WaReturn _ [] addr_a 0%nat []); reflexivity). apply YsNone.
    - split; reflexivity. }
  destruct K as (s & R & Ew & Er). destruct (neat_all X pb bans s R) as (w & Rw & Es & N). destruct N as (_ & _ & _ & L2 & _). rewrite Es, Ew, Er in L2. cbn in L2.
  destruct (w_peers w) as [|p [|? ?]] eqn:Ep; try discriminate L2. exists w, p. rewrite Es. now repeat split.
Qed.
(** Run connects again to an address while it is banned: Ban closes the peer that was there before. Then Stop is called,
    and nobody closes the new one. *)
Lemma run_left_over : exists s, sys_steps (sys_start (Some [])) s /\ y_run s = RuStopped /\ y_close s = [] /\ y_crash s = None /\ y_bans s = [BnEnd] /\
  y_watch s = [Watch addr_a 0 WtRead; Watch addr_a 0 WtWait].
Proof.
  eexists. split.
  - add addr_a. run_dialled [(addr_a, 0%nat)] addr_a 0%nat StNew. run_finish addr_a 0%nat.
    w ltac:(apply (WaReturn _ [] addr_a 0%nat []); reflexivity).
    w ltac:(apply (WaStatus _ [] addr_a 0%nat []); [reflexivity|free]).
    run_dialled [(addr_a, 0%nat)] addr_a 0%nat StDisconnected.
    step ltac:(apply YsEnv; [reflexivity|]; apply (EnBan _ addr_a)).
    b ltac:(apply (BaFound _ [] addr_a 0%nat []); [reflexivity|exact I|reflexivity]).
    b ltac:(apply (BaStatus _ [] addr_a 0%nat []); reflexivity).
    b ltac:(eapply (BaClosed _ [] addr_a 0%nat []); reflexivity).
    b ltac:(eapply (BaMap _ [] addr_a [] []); reflexivity).
    b ltac:(apply (BaDelete _ [] addr_a []); [reflexivity|exact I]).
    run_finish addr_a 0%nat.
    step ltac:(apply YsEnv; [reflexivity|]; apply EnStop; reflexivity).
    r ltac:(apply RnQuit; [reflexivity|discriminate]). apply YsNone.
  - repeat split; reflexivity.
Qed.
Lemma world_left_over X pb : exists (w : world X) p, world_steps pb (world_start (Some [])) w /\ alive w /\ y_run (w_sys w) = RuStopped /\ all_closed (w_sys w) /\ y_bans (w_sys w) = [BnEnd] /\
  nth_error (w_peers w) 1 = Some p /\ p_flag p = false /\ handlers p = 2.
Proof.
  destruct run_left_over as (s & R & Er & Ec & Cs & Eb & Ew). destruct (neat_all X pb (Some []) s R) as (w & Rw & Es & N). exists w, (up X pb).
  destruct N as (_ & F & _ & _ & _ & _ & I3). rewrite Es in *. split; [exact Rw|]. split; [split; [now rewrite Es|exact F]|]. split; [exact Er|].
  split; [unfold all_closed; rewrite Ec; constructor|]. split; [exact Eb|]. split; [|split; reflexivity]. apply (I3 Ec). rewrite Ew. reflexivity.
Qed.
(** Stop with one connection: it is closed, and everything ends. *)
Definition over X pb : pstate X := PState X true 1 true 0 (WDisc DRet) (RDisc DRet) [OWaited; ODisc DRet] pb [] [] 0 None.
Lemma down_over X pb : psteps (down_to X pb []) (over X pb).
Proof.
  set (v f q c wg wr rd o := PState X f q c wg wr rd o pb [] [] 0 None). unfold over.
  eapply PsMore. 1: eapply PsMore. 1: eapply PsMore. 1: eapply PsMore. 1: eapply PsMore. 1: eapply PsMore. 1: eapply PsMore. 1: eapply PsMore. 1: eapply PsMore. 1: eapply PsMore. 1: eapply PsMore. 1: apply PsNone.
  - apply PsOther; [reflexivity|]. apply (OsDisc X (down_to X pb []) [OWait] DQuit [] (v true 1 false 2%Z WSelect RTest [OWait; ODisc DQuit]) DConn); [reflexivity|now apply (DsQuit X (down_to X pb []))].
  - apply PsOther; [reflexivity|]. apply (OsDisc X (v true 1 false 2%Z WSelect RTest [OWait; ODisc DConn]) [OWait] DConn [] (v true 1 true 2%Z WSelect RTest [OWait; ODisc DConn]) DWait); [reflexivity|apply (DsConn X (v true 1 false 2%Z WSelect RTest [OWait; ODisc DConn]))].
  - apply PsWriter; [reflexivity|]. apply (WsQuit X (v true 1 true 2%Z WSelect RTest [OWait; ODisc DWait])); [reflexivity|discriminate].
  - apply PsWriter; [reflexivity|]. now apply (WsDone X (v true 1 true 2%Z WDone RTest [OWait; ODisc DWait])).
  - apply PsReader; [reflexivity|]. now apply (RsStop X (v true 1 true 1%Z (WDisc DCas) RTest [OWait; ODisc DWait])).
  - apply PsReader; [reflexivity|]. now apply (RsDone X (v true 1 true 1%Z (WDisc DCas) RDone [OWait; ODisc DWait])).
  - apply PsOther; [reflexivity|]. apply (OsDisc X (v true 1 true 0%Z (WDisc DCas) (RDisc DCas) [OWait; ODisc DWait]) [OWait] DWait [] (v true 1 true 0%Z (WDisc DCas) (RDisc DCas) [OWait; ODisc DWait]) DRet); [reflexivity|now apply (DsWait X (v true 1 true 0%Z (WDisc DCas) (RDisc DCas) [OWait; ODisc DWait]))].
  - apply PsOther; [reflexivity|]. apply (OsWait X (v true 1 true 0%Z (WDisc DCas) (RDisc DCas) [OWait; ODisc DRet]) [] [ODisc DRet]); [reflexivity|discriminate].
  - apply PsOther; [reflexivity|]. now apply (OsWaitWg X (v true 1 true 0%Z (WDisc DCas) (RDisc DCas) [OWaitWg; ODisc DRet]) [] [ODisc DRet]).
  - apply PsWriter; [reflexivity|]. apply (WsDisc X (v true 1 true 0%Z (WDisc DCas) (RDisc DCas) [OWaited; ODisc DRet]) DCas (v true 1 true 0%Z (WDisc DCas) (RDisc DCas) [OWaited; ODisc DRet]) DRet); [reflexivity|now apply (DsLose X (v true 1 true 0%Z (WDisc DCas) (RDisc DCas) [OWaited; ODisc DRet]))].
  - apply PsReader; [reflexivity|]. apply (RsDisc X (v true 1 true 0%Z (WDisc DRet) (RDisc DCas) [OWaited; ODisc DRet]) DCas (v true 1 true 0%Z (WDisc DRet) (RDisc DCas) [OWaited; ODisc DRet]) DRet); [reflexivity|now apply (DsLose X (v true 1 true 0%Z (WDisc DRet) (RDisc DCas) [OWaited; ODisc DRet]))].
Qed.
Lemma over_stuck X pb q : ~ internal (over X pb) q.
Proof.
  assert (K : forall x l r, [OWaited; ODisc DRet] = l ++ x :: r -> x = OWaited \/ x = (ODisc DRet : opc X)).
  { intros x l r E. assert (I : In x [OWaited; ODisc DRet]) by (rewrite E; apply in_elt). destruct I as [<-|[<-|[]]]; auto. }
  assert (D : forall (s t : pstate X) d', ~ dstep s DRet t d') by (intros s t d' H; inversion H).
  unfold internal. intros [H|[H|H]].
  - inversion H; subst; try discriminate. match goal with E : p_writer (over _ _) = _ |- _ => injection E as <- end. eapply D; eauto.
  - inversion H; subst; try discriminate. match goal with E : p_reader (over _ _) = _ |- _ => injection E as <- end. eapply D; eauto.
  - inversion H; subst; match goal with E : p_others (over _ _) = _ |- _ => destruct (K _ _ _ E) as [Ex|Ex]; try discriminate Ex end. injection Ex as ->. eapply D; eauto.
Qed.
Lemma world_stopped X pb : exists w : world X, world_steps pb (world_start None) w /\ alive w /\ y_run (w_sys w) = RuStopped /\ y_close (w_sys w) = [ClEnd] /\ w_peers w = [over X pb].
Proof.
  assert (K : exists s x, sys_steps (sys_start None) s /\ y_crash s = None /\ y_watch s = [Watch addr_a 0 WtWait] /\ y_run s = RuSelect /\ y_close s = [] /\ y_quits s <> 0 /\
    pl_table (y_pool s) = [(addr_a, 0)] /\ pl_infos (y_pool s) = [x] /\ i_locked x = false /\ i_peer x = Some 0).
  { eexists. eexists. split.
    - add addr_a. run_dialled [(addr_a, 0%nat)] addr_a 0%nat StNew. run_finish addr_a 0%nat.
      step ltac:(apply YsEnv; [reflexivity|]; apply EnStop; reflexivity). apply YsNone.
    - repeat split; try reflexivity. discriminate. }
  destruct K as (s & x & R & Cs & Ew & Er & Ec & Q & Et & Ei & Lx & Px). destruct (neat_all X pb None s R) as ([s' ps ws] & Rw & Es & N). cbn in Es. subst s'.
  destruct N as (_ & F & _ & L2 & _ & _ & I3). cbn in F, L2, I3. rewrite Ew, Er in L2. cbn in L2. specialize (I3 Ec 0). rewrite Ew in I3. specialize (I3 eq_refl).
  destruct ps as [|p [|? ?]]; try discriminate L2. cbn in I3. injection I3 as ->.
  set (s1 := Sys (y_pool s) (y_quits s) RuStopped (y_watch s) (y_bans s) (y_close s ++ map (fun kv => ClLock (snd kv)) (pl_table (y_pool s))) (y_leaked s) (y_crash s)).
  assert (E1 : y_close s1 = [ClLock 0]) by (cbn; now rewrite Ec, Et).
  set (s2 := set_close s1 (upd (y_pool s1) 0 (with_lock true)) [ClClose 0]).
  set (s3 := set_close s2 (y_pool s2) [ClStatus 0]).
  set (s4 := set_close s3 (upd (y_pool s3) 0 (fun y => with_lock false (with_status StDisconnected y))) [ClEnd]).
  assert (Al : forall t (q : pstate X), y_crash t = None -> p_crash q = None -> alive (World t [q] ws)) by (intros t q A B; split; [exact A|]; now repeat constructor).
  exists (World s4 [over X pb] ws). split; [|split; [apply Al; [exact Cs|reflexivity]|repeat split; reflexivity]].
  eapply world_app; [exact Rw|].
  assert (St1 : run_step s s1) by (apply RnQuit; assumption).
  assert (St2 : close_step s1 s2). { apply (CsLock s1 [] 0 []); [exact E1|]. exists x. split; [cbn; now rewrite Ei|exact Lx]. }
  assert (St4 : close_step s3 s4) by (apply (CsStatus s3 [] 0 []); reflexivity).
  refine (world_app X pb _ (World s1 [up X pb] ws) _ (WoMore X pb _ _ _ (WoNone X pb _) (WoRun X pb s s1 _ ws _ St1 _)) _); [apply Al; [exact Cs|reflexivity]|now rewrite Er|].
  refine (world_app X pb _ (World s2 [up X pb] ws) _ (WoMore X pb _ _ _ (WoNone X pb _) (WoClose X pb s1 s2 _ ws _ St2 _)) _); [apply Al; [exact Cs|reflexivity]| |].
  { intros (pre & i & post & A & B). cbn in B. destruct pre as [|? [|? ?]]; discriminate B. }
  refine (world_app X pb _ (World s2 [over X pb] ws) _ (peer_steps X pb s2 [] _ _ [] ws (psteps_app X _ _ _ (up_down X pb) (down_over X pb)) _) _); [apply Al; [exact Cs|reflexivity]|].
  refine (WoMore X pb _ (World s3 [over X pb] ws) _ (WoMore X pb _ _ _ (WoNone X pb _) (WoClosed X pb s2 _ ws [] 0 [] (with_lock true x) 0 (over X pb) 1 _ _ _ Px _ _)) (WoClose X pb s3 s4 _ ws _ St4 _));
    try reflexivity; try (apply Al; [exact Cs|reflexivity]).
  - cbn. now rewrite Ei.
  - intros (pre & i & post & A & B). cbn in B. destruct pre as [|? [|? ?]]; discriminate B.
Qed.
