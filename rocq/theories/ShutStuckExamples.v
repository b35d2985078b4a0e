(** A fair run for C143 in which the handling of a message does not end. *)
From Coq Require Import Lia.
From Verif Require Import World SpecPeer SpecFair SpecPool SpecDone SpecTeam SpecSelect SpecShutAll PeerProofs PoolProofs PoolExamples WorldProofs WorldExactProofs.
Local Open Scope nat_scope.

(** The read handler handles a message, all others have ended or wait for it. *)
Definition held X pb : pstate X := PState X true 1 true 1 (WDisc DRet) RHandle [OWaitWg; ODisc DWait] pb [] [] 0 None.
Ltac p_reads := eapply psteps_cons; [apply PsReader; [reflexivity|]|].
Ltac p_writes := eapply psteps_cons; [apply PsWriter; [reflexivity|]|].
Ltac p_other := eapply psteps_cons; [apply PsOther; [reflexivity|]|].
Lemma up_held X pb : psteps (up X pb) (held X pb).
Proof.
  p_reads; [apply RsGo; reflexivity|]. p_reads; [apply RsMessage; reflexivity|].
  eapply psteps_cons; [apply PsSpawn; [reflexivity|]; apply (OsNew X _ (ODisc DCas)); now left|].
  p_other; [eapply (OsDisc X _ [OWait] DCas []); [reflexivity|apply DsWin; reflexivity]|].
  p_other; [eapply (OsDisc X _ [OWait] DQuit []); [reflexivity|apply DsQuit; reflexivity]|].
  p_other; [eapply (OsDisc X _ [OWait] DConn []); [reflexivity|apply DsConn]|].
  p_other; [apply (OsWait X _ [] [ODisc DWait]); [reflexivity|discriminate]|].
  p_writes; [apply WsQuit; [reflexivity|discriminate]|]. p_writes; [apply WsDone; reflexivity|].
  p_writes; [eapply WsDisc; [reflexivity|]; apply DsLose; reflexivity|]. apply PsNone.
Qed.
Lemma held_fair X pb (f : nat -> pstate X) : (forall k, f k = held X pb) -> fair f.
Proof.
  intros E g n. exists n. split; [lia|]. left. rewrite E. destruct g as [| |[|[|[|k]]]]; cbn; auto; try discriminate;
    intros [H|[H|[H|(H & K)]]]; discriminate.
Qed.

Lemma shut_held X : exists W : nat -> world X, world_run None None W /\ (forall k, alive (W k)) /\
  (forall c n, connection c (W n) -> (forall k, n <= k -> ~ banning (p_reader (conn_peer c (W k)))) /\ fair (of_peer c n W)) /\
  run_fair (pool_of W) /\ select_fair (pool_of W) /\ (forall k, closer_calls k W) /\ (forall k, closer_fair k W) /\ cleaner_fair 0 W /\
  forall j, y_run (w_sys (W j)) = RuStopped /\ record_peer 0 0 (W j) /\ closer 0 (W j) = Some (ClClose 0) /\ locked (y_pool (w_sys (W j))) 0 /\ conn_peer 0 (W j) = held X None.
Proof.
  assert (K : exists s x, sys_steps (sys_start None) s /\ y_crash s = None /\ y_watch s = [Watch addr_a 0 WtWait] /\ y_run s = RuSelect /\ y_close s = [] /\ y_quits s <> 0 /\
    pl_table (y_pool s) = [(addr_a, 0)] /\ pl_infos (y_pool s) = [x] /\ i_locked x = false /\ i_peer x = Some 0).
  { eexists. eexists. split.
    - add addr_a. run_dialled [(addr_a, 0%nat)] addr_a 0%nat StNew. run_finish addr_a 0%nat.
      step ltac:(apply YsEnv; [reflexivity|]; apply EnStop; reflexivity). apply YsNone.
    - repeat split; try reflexivity. discriminate. }
  destruct K as (s & x & R & Cs & Ew & Er & Ec & Q & Et & Ei & Lx & Px). destruct (neat_all X None None s R) as ([s' ps ws] & Rw & Es & N). cbn in Es. subst s'.
  destruct N as (_ & F & _ & L2 & _ & _ & I3). cbn in F, L2, I3. rewrite Ew, Er in L2. cbn in L2. specialize (I3 Ec 0). rewrite Ew in I3. specialize (I3 eq_refl).
  destruct ps as [|p [|? ?]]; try discriminate L2. cbn in I3. injection I3 as ->.
  set (s1 := Sys (y_pool s) (y_quits s) RuStopped (y_watch s) (y_bans s) (y_close s ++ map (fun kv => ClLock (snd kv)) (pl_table (y_pool s))) (y_leaked s) (y_crash s)).
  assert (E1 : y_close s1 = [ClLock 0]) by (cbn; now rewrite Ec, Et).
  set (s2 := set_close s1 (upd (y_pool s1) 0 (with_lock true)) [ClClose 0]).
  assert (Al : forall t (q : pstate X), y_crash t = None -> p_crash q = None -> alive (World t [q] ws)) by (intros t q A B; split; [exact A|]; now repeat constructor).
  assert (St1 : run_step s s1) by (apply RnQuit; assumption).
  assert (St2 : close_step s1 s2). { apply (CsLock s1 [] 0 []); [exact E1|]. exists x. split; [cbn; now rewrite Ei|exact Lx]. }
  assert (R2 : world_steps None (world_start None) (World s2 [held X None] ws)).
  { eapply world_app; [exact Rw|].
    refine (world_app X None _ (World s1 [up X None] ws) _ (WoMore X None _ _ _ (WoNone X None _) (WoRun X None s s1 _ ws _ St1 _)) _); [apply Al; [exact Cs|reflexivity]|now rewrite Er|].
    refine (world_app X None _ (World s2 [up X None] ws) _ (WoMore X None _ _ _ (WoNone X None _) (WoClose X None s1 s2 _ ws _ St2 _)) _); [apply Al; [exact Cs|reflexivity]| |].
    { intros (pre & i & post & A & B). cbn in B. destruct pre as [|? [|? ?]]; discriminate B. }
    refine (peer_steps X None s2 [] _ _ [] ws (up_held X None) _). apply Al; [exact Cs|reflexivity]. }
  assert (Re : record_peer 0 0 (World s2 [held X None] ws)) by (exists (with_lock true x); split; [cbn; now rewrite Ei|exact Px]).
  assert (Nd : ~ disc_returned 0 (World s2 [held X None] ws)) by (intros ([|[|[|k]]] & K); discriminate K).
  assert (C0 : forall k c, closer k (World s2 [held X None] ws) = Some c -> k = 0 /\ c = ClClose 0) by (intros [|[|k]] c K; try discriminate K; now injection K as <-).
  exists (fun _ => World s2 [held X None] ws).
  split; [split; [exact R2|]; now left|]. split; [intro; apply Al; [exact Cs|reflexivity]|]. split.
  - intros c n L. unfold connection in L. cbn in L. rewrite Ew in L. cbn in L. assert (c = 0) as -> by lia. split; [intros k _ (d & D); discriminate D|]. now apply (held_fair X None).
  - split; [intro n; exists n; split; [lia|]; right; now left|]. split; [intros n _; exists n; split; [lia|]; now left|]. split.
    + intros k n i c K Rc. exists n. split; [lia|]. left. destruct (C0 _ _ K) as (-> & E). injection E as ->.
      assert (c = 0) as ->. { destruct Rc as (y & A & B), Re as (z & A' & B'). congruence. } now exists 1, DWait.
    + split; [intros k n; exists n; split; [lia|]; destruct k as [|k]; [left; now exists 0, 0|right; right; left; now destruct k]|]. split.
      * intro n. exists n. split; [lia|]. left. exists addr_a, 0. split; [unfold cleaner; cbn; now rewrite Ew|]. intros (i & _ & K). destruct i as [|[|[|i]]]; discriminate K.
      * intros _. repeat split; auto. exists (with_lock true x). split; [cbn; now rewrite Ei|reflexivity].
Qed.
