(** Proofs for C130: every execution of the pool is one of the pool with its peers. *)
From Coq Require Import Lia.
From Verif Require Import World SpecPeer SpecEarly SpecPool SpecWorld PeerProofs EarlyProofs PoolProofs WorldProofs OwnProofs.
Local Open Scope nat_scope.

Section Exact.
Context (X : Ext) (pb : option nat) (bans : option (list bytes)).
Notation st := (pstate X).

Lemma world_app (w v u : world X) : world_steps pb w v -> world_steps pb v u -> world_steps pb w u.
Proof. intros A B. induction B as [v|v u t B IH Sx]; [exact A|]. exact (WoMore X pb _ _ _ (IH A) Sx). Qed.
(** A peer that is started, and that one goroutine waits for; the same, when one call of Disconnect has begun and
    others may have returned. *)
Definition up : st := PState X false 0 false 2 WSelect RTest [OWait] pb [] [] 0 None.
Definition down_to r : st := PState X true 0 false 2 WSelect RTest (OWait :: ODisc DQuit :: r) pb [] [] 0 None.
Lemma psteps_app (p q r : st) : psteps p q -> psteps q r -> psteps p r.
Proof. intros A B. induction B as [q|q r u B IH Sx]; [exact A|]. exact (PsMore X _ _ _ (IH A) Sx). Qed.
Lemma up_down : psteps up (down_to []).
Proof.
  set (v f q c wg wr rd o := PState X f q c wg wr rd o pb [] [] 0 None).
  eapply PsMore. 1: eapply PsMore. 1: apply PsNone.
  - apply PsSpawn; [reflexivity|]. apply (OsNew X up (ODisc DCas)). now left.
  - apply PsOther; [reflexivity|]. apply (OsDisc X (v false 0 false 2%Z WSelect RTest [OWait; ODisc DCas]) [OWait] DCas [] (v true 0 false 2%Z WSelect RTest [OWait; ODisc DCas]) DQuit); [reflexivity|now apply (DsWin X (v false 0 false 2%Z WSelect RTest [OWait; ODisc DCas]))].
Qed.
(** Where a disconnect has begun another call returns at once. *)
Lemma close_again (p : st) : p_flag p = true -> p_crash p = None ->
  psteps p (set_others p (p_others p ++ [ODisc DRet])).
Proof.
  intros F C. set (o := p_others p). pose proof (PsSpawn X p _ C (OsNew X p (ODisc DCas) ltac:(now left))) as S1.
  refine (PsMore X _ _ _ (PsMore X _ _ _ (PsNone X p) S1) _). fold o. set (p1 := set_others p (o ++ [ODisc DCas])).
  pose proof (OsDisc X p1 o DCas [] p1 DRet eq_refl (DsLose X p1 F)) as S2. exact (PsOther X p1 _ C S2).
Qed.
Lemma down_ends r : exists q, psteps (down_to r) q /\ nth_error (p_others q) 0 = Some OWaited /\ p_crash q = None /\ p_flag q = true.
Proof.
  set (v f q c wg wr rd o := PState X f q c wg wr rd o pb [] [] 0 None).
  eexists. split.
  - eapply PsMore. 1: eapply PsMore. 1: eapply PsMore. 1: eapply PsMore. 1: eapply PsMore. 1: eapply PsMore. 1: eapply PsMore. 1: apply PsNone.
    + apply PsOther; [reflexivity|]. apply (OsDisc X (down_to r) [OWait] DQuit r (v true 1 false 2%Z WSelect RTest (OWait :: ODisc DQuit :: r)) DConn); [reflexivity|now apply (DsQuit X (down_to r))].
    + apply PsWriter; [reflexivity|]. apply (WsQuit X (v true 1 false 2%Z WSelect RTest (OWait :: ODisc DConn :: r))); [reflexivity|discriminate].
    + apply PsWriter; [reflexivity|]. now apply (WsDone X (v true 1 false 2%Z WDone RTest (OWait :: ODisc DConn :: r))).
    + apply PsReader; [reflexivity|]. now apply (RsStop X (v true 1 false 1%Z (WDisc DCas) RTest (OWait :: ODisc DConn :: r))).
    + apply PsReader; [reflexivity|]. now apply (RsDone X (v true 1 false 1%Z (WDisc DCas) RDone (OWait :: ODisc DConn :: r))).
    + apply PsOther; [reflexivity|]. apply (OsWait X (v true 1 false 0%Z (WDisc DCas) (RDisc DCas) (OWait :: ODisc DConn :: r)) [] (ODisc DConn :: r)); [reflexivity|discriminate].
    + apply PsOther; [reflexivity|]. now apply (OsWaitWg X (v true 1 false 0%Z (WDisc DCas) (RDisc DCas) (OWaitWg :: ODisc DConn :: r)) [] (ODisc DConn :: r)).
  - repeat split; reflexivity.
Qed.
Definition upish (p : st) : Prop := p = up \/ exists r, p = down_to r.
Lemma upish_ends (p : st) : upish p -> exists q, psteps p q /\ nth_error (p_others q) 0 = Some OWaited /\ p_crash q = None /\ p_flag q = true.
Proof.
  intros [-> | (r & ->)]; [|apply down_ends]. destruct (down_ends []) as (q & R & K). exists q. split; [exact (psteps_app _ _ _ up_down R)|exact K].
Qed.
Lemma upish_closes (p : st) : upish p -> exists r, psteps p (down_to (r ++ [ODisc DRet])).
Proof.
  assert (K : forall r, psteps (down_to r) (down_to (r ++ [ODisc DRet]))) by (intro r; exact (close_again (down_to r) eq_refl eq_refl)).
  intros [-> | (r & ->)]; [|exists r; apply K]. exists []. exact (psteps_app _ _ _ up_down (K [])).
Qed.
Lemma peer_steps s pre (p q : st) post ws : psteps p q -> alive (World s (pre ++ p :: post) ws) ->
  world_steps pb (World s (pre ++ p :: post) ws) (World s (pre ++ q :: post) ws).
Proof.
  intros R Al. assert (F : forall r : st, p_crash r = None -> alive (World s (pre ++ r :: post) ws)).
  { intros r C. destruct Al as (A & B). split; [exact A|]. cbn in *. apply Forall_app in B as (B1 & B2). inversion B2; subst. apply Forall_app. split; [assumption|]. now constructor. }
  clear Al. induction R as [p|p q r R IH St]; [apply WoNone|]. refine (WoMore X pb _ _ _ IH _). apply WoPeer; [|exact St]. apply F. now destruct St.
Qed.
Definition conn_neat (b : bool) (p : st) : Prop := p_crash p = None /\ if b then upish p else p_flag p = true.
Definition neat (w : world X) : Prop :=
  let s := w_sys w in
  sys_steps (sys_start bans) s /\
  Forall (fun p => p_crash p = None) (w_peers w) /\ List.length (w_waits w) = List.length (y_watch s) /\
  List.length (w_peers w) = List.length (y_watch s) + pending (y_run s) /\
  (forall k b, nth_error (map in_wait (y_watch s)) k = Some b ->
     exists p, nth_error (w_peers w) k = Some p /\ nth_error (w_waits w) k = Some 0 /\ conn_neat b p) /\
  (match y_run s with
   | RuFill _ _ _ | RuUp _ _ | RuGo _ _ => nth_error (w_peers w) (List.length (y_watch s)) = Some (p_new pb)
   | RuWatch _ _ => nth_error (w_peers w) (List.length (y_watch s)) = Some (started (p_new pb))
   | _ => True end) /\
  (y_close s = [] -> forall k, nth_error (map in_wait (y_watch s)) k = Some true -> nth_error (w_peers w) k = Some up).
Lemma close_nil s t : sys_step s t -> y_close t = [] -> y_close s = [].
Proof.
  intros [C H|C H|C H|C H|C H]; [run_cases H|watch_cases H|ban_cases H|close_cases H|env_cases H]; cbn; auto; intro En; try (apply app_eq_nil in En; now destruct En).
  all: symmetry in En; now apply app_cons_not_nil in En.
Qed.
Lemma neat_pool s t ps ws : neat (World s ps ws) -> sys_step s t -> map in_wait (y_watch t) = map in_wait (y_watch s) -> y_run t = y_run s -> neat (World t ps ws).
Proof.
  intros (R & F & L1 & L2 & I1 & I2 & I3) St Em Er. cbn in *. assert (El : List.length (y_watch t) = List.length (y_watch s)).
  { rewrite <- (map_length in_wait (y_watch t)), Em. apply map_length. }
  unfold neat. cbn. rewrite El, Em, Er. split; [exact (YsMore _ _ _ R St)|]. pose proof (close_nil s t St). repeat (split; [assumption|]). auto.
Qed.
Lemma neat_run s t ps ws : neat (World s ps ws) -> y_crash s = None -> run_step s t -> on_peer (y_run s) = false -> neat (World t ps ws).
Proof.
  intros (R0 & N0) C0 H0 Op. pose proof (YsMore _ _ _ R0 (YsRun _ _ C0 H0)) as R1. pose proof (close_nil s t (YsRun _ _ C0 H0)) as Cnil.
  split; [exact R1|]. clear R0 R1 C0. revert Op Cnil.
  run_cases H0; rewrite Er; cbn; intros Kz Cnil; try discriminate Kz; destruct N0 as (F0 & L1 & L2 & I1 & I2 & I3); cbn in *;
    rewrite Er in L2, I2; cbn in L2, I2; repeat (split; [assumption|]); auto.
Qed.
Lemma last_of {A} (l : list A) k x : List.length l = k + 1 -> nth_error l k = Some x -> exists m, l = m ++ [x] /\ List.length m = k.
Proof.
  intros L N. destruct (nth_error_split _ _ N) as (m & r & -> & Lm). exists m. split; [|exact Lm]. rewrite app_length in L. cbn in L.
  destruct r; [reflexivity|cbn in L; lia].
Qed.
Lemma nth_keep {A} (m : list A) x y k z : nth_error (m ++ [x]) k = Some z -> k < List.length m -> nth_error (m ++ [y]) k = Some z.
Proof. intros N L. rewrite nth_error_app1 in * by exact L. exact N. Qed.
Lemma nth_last {A} (m : list A) x : nth_error (m ++ [x]) (List.length m) = Some x.
Proof. rewrite nth_error_app2, Nat.sub_diag by lia. reflexivity. Qed.
Lemma below (l : list watch) k b : nth_error (map in_wait l) k = Some b -> k < List.length l.
Proof. intro N. rewrite <- (map_length in_wait). apply nth_error_Some. congruence. Qed.
(** One peer goes on. *)
Lemma neat_peer s ps1 (p q : st) ps2 ws : neat (World s (ps1 ++ p :: ps2) ws) -> p_crash q = None -> List.length ps1 < List.length (y_watch s) ->
  (forall b, nth_error (map in_wait (y_watch s)) (List.length ps1) = Some b -> conn_neat b p -> conn_neat b q) -> y_close s <> [] -> neat (World s (ps1 ++ q :: ps2) ws).
Proof.
  intros (R & F & L1 & L2 & I1 & I2 & _) Cq Lt Hq Cs. cbn in *. unfold neat. cbn. split; [exact R|]. split.
  { apply Forall_app in F as (F1 & F2). inversion F2; subst. apply Forall_app. split; [assumption|]. now constructor. }
  split; [exact L1|]. split; [rewrite app_length in *; exact L2|]. split.
  - intros k b N. destruct (I1 k b N) as (r & Nr & Nw & K). destruct (PeerProofs.nth_mid ps1 ps2 p q k r Nr) as [(Ek & -> & N')|N'].
    + exists q. split; [exact N'|]. split; [exact Nw|]. subst k. now apply Hq.
    + now exists r.
  - assert (M : forall z, nth_error (ps1 ++ p :: ps2) (List.length (y_watch s)) = Some z -> nth_error (ps1 ++ q :: ps2) (List.length (y_watch s)) = Some z).
    { intros z Nz. destruct (PeerProofs.nth_mid ps1 ps2 p q _ z Nz) as [(Ek & _)|K']; [lia|exact K']. }
    split; [destruct (y_run s); auto|]. intro Ec. now elim Cs.
Qed.
Lemma neat_alive s ps ws : neat (World s ps ws) -> y_crash s = None -> alive (World s ps ws).
Proof. intros (_ & F & _) C. now split. Qed.
Lemma neat_step s t ps ws : neat (World s ps ws) -> sys_step s t ->
  exists w, world_steps pb (World s ps ws) w /\ w_sys w = t /\ neat w.
Proof.
  intros N0 St0. pose proof N0 as (R & _). cbn in R. pose proof (YsMore _ _ _ R St0) as Rt. pose proof (fun C => neat_alive s ps ws N0 C) as Al.
  pose proof St0 as St. destruct St as [C H|C H|C H|C H|C H]; specialize (Al C).
  - destruct (on_peer (y_run s)) eqn:Op.
    + pose proof N0 as (_ & F & L1 & L2 & I1 & I2 & I3). pose proof (close_nil s _ St0) as Cn. cbn in *. destruct (y_run s) eqn:Er; try discriminate Op; cbn in L2.
      * assert (K : y_watch t = y_watch s /\ exists a i d, y_run t = RuFill a i d) by (inversion H; subst; try congruence; cbn; eauto 6).
        destruct K as (Ew & a' & i' & d' & Et). exists (World t (ps ++ [p_new pb]) ws).
        split; [exact (WoMore X pb _ _ _ (WoNone X pb _) (WoStore X pb s t ps ws _ _ _ Al H Er))|]. split; [reflexivity|].
        unfold neat. cbn. rewrite Ew, Et. split; [exact Rt|]. split; [apply Forall_app; now repeat constructor|]. split; [exact L1|]. split; [rewrite app_length; cbn; lia|]. split.
        -- intros k b N. pose proof (below _ _ _ N). destruct (I1 k b N) as (p & A & B). exists p. split; [|exact B]. rewrite nth_error_app1 by lia. exact A.
        -- split; [replace (List.length (y_watch s)) with (List.length ps) by lia; apply nth_last|]. intros Ec k N. pose proof (below _ _ _ N). rewrite nth_error_app1 by lia. exact (I3 (Cn Ec) k N).
      * assert (K : y_watch t = y_watch s /\ exists a i, y_run t = RuWatch a i) by (inversion H; subst; try congruence; cbn; eauto 6).
        destruct K as (Ew & a' & i' & Et). destruct (last_of ps _ _ L2 I2) as (m & -> & Lm). exists (World t (m ++ [started (p_new pb)]) ws).
        split; [exact (WoMore X pb _ _ _ (WoNone X pb _) (WoStart X pb s t m _ ws _ _ Al H Er))|]. split; [reflexivity|].
        unfold neat. cbn. rewrite Ew, Et. split; [exact Rt|]. split; [apply Forall_app in F as (F & _); apply Forall_app; now repeat constructor|]. split; [exact L1|]. split; [rewrite app_length; cbn; lia|]. split.
        -- intros k b N. pose proof (below _ _ _ N). destruct (I1 k b N) as (p & A & B). exists p. split; [|exact B]. apply (nth_keep m (p_new pb)); [exact A|lia].
        -- split; [rewrite <- Lm; apply nth_last|]. intros Ec k N. pose proof (below _ _ _ N). apply (nth_keep m (p_new pb)); [exact (I3 (Cn Ec) k N)|lia].
      * assert (K : (exists a i, y_watch t = y_watch s ++ [Watch a i WtWait]) /\ y_run t = RuSelect) by (inversion H; subst; try congruence; cbn; eauto 6).
        destruct K as ((a' & i' & Ew) & Et). destruct (last_of ps _ _ L2 I2) as (m & -> & Lm).
        exists (World t (m ++ [up]) (ws ++ [0])).
        split; [exact (WoMore X pb _ _ _ (WoNone X pb _) (WoWait X pb s t m _ ws _ _ Al H Er))|]. split; [reflexivity|].
        unfold neat. cbn. rewrite Ew, Et. split; [exact Rt|]. split; [apply Forall_app in F as (F & _); apply Forall_app; now repeat constructor|].
        split; [rewrite !app_length; cbn; lia|]. split; [rewrite !app_length; cbn; lia|]. split; [|split; [exact I|]].
        2:{ intros Ec k N. rewrite map_app in N. cbn in N. apply nth_end in N as [N|(-> & _)].
            - pose proof (below _ _ _ N). apply (nth_keep m (started (p_new pb))); [exact (I3 (Cn Ec) k N)|lia].
            - rewrite map_length, <- Lm. apply nth_last. }
        intros k b N. rewrite map_app in N. cbn in N. apply nth_end in N as [N|(-> & ->)].
        -- pose proof (below _ _ _ N). destruct (I1 k b N) as (p & A & B & D). exists p. split; [apply (nth_keep m (started (p_new pb))); [exact A|lia]|].
           split; [|exact D]. rewrite nth_error_app1 by lia. exact B.
        -- rewrite map_length. exists up. split; [rewrite <- Lm; apply nth_last|]. split; [rewrite <- L1; apply nth_last|]. split; [reflexivity|]. now left.
    + exists (World t ps ws). split; [exact (WoMore X pb _ _ _ (WoNone X pb _) (WoRun X pb s t ps ws Al H Op))|]. split; [reflexivity|]. exact (neat_run s t ps ws N0 C H Op).
  - assert (K : (exists pre a i post, y_watch s = pre ++ Watch a i WtWait :: post /\ t = set_watch s (y_pool s) (pre ++ Watch a i WtStatus :: post)) \/
      (map in_wait (y_watch t) = map in_wait (y_watch s) /\ y_run t = y_run s)).
    { clear - H. watch_cases H; [left; exists pre, a, i, post; now split|..]; right; cbn; rewrite E, !map_app; now split. }
    destruct K as [(pre & a & i & post & E & ->)|(Em & Er)].
    + pose proof N0 as (_ & F & L1 & L2 & I1 & I2 & I3). pose proof (close_nil s _ St0) as Cn. cbn in *.
      assert (Nk : nth_error (map in_wait (y_watch s)) (List.length pre) = Some true).
      { rewrite E, map_app. cbn. rewrite <- (map_length in_wait pre). rewrite nth_error_app2, Nat.sub_diag by lia. reflexivity. }
      destruct (I1 (List.length pre) true Nk) as (p & A & B & _ & D). destruct (nth_error_split _ _ A) as (ps1 & ps2 & -> & Lp).
      destruct (upish_ends p D) as (q & Rq & Nq & Cq & Fq). exists (World (set_watch s (y_pool s) (pre ++ Watch a i WtStatus :: post)) (ps1 ++ q :: ps2) ws).
      assert (F' : Forall (fun p => p_crash p = None) (ps1 ++ q :: ps2)).
      { apply Forall_app in F as (F1 & F2). inversion F2; subst. apply Forall_app. split; [assumption|]. now constructor. }
      split; [|split; [reflexivity|]].
      * refine (WoMore X pb _ _ _ (peer_steps s ps1 p q ps2 ws Rq Al) _).
        apply (WoReturn X pb s (ps1 ++ q :: ps2) ws pre a i post q 0 (conj C F') E); [|exact B|exact Nq].
        rewrite <- Lp, nth_error_app2, Nat.sub_diag by lia. reflexivity.
      * assert (Lw : List.length (y_watch s) = List.length (pre ++ Watch a i WtStatus :: post)) by (rewrite E, !app_length; reflexivity).
        unfold neat. cbn. rewrite <- Lw. split; [exact Rt|]. split; [exact F'|]. split; [exact L1|]. split; [rewrite app_length in *; exact L2|]. split.
        -- intros k b N. rewrite map_app in N. cbn in N.
           destruct (PeerProofs.nth_mid (map in_wait pre) (map in_wait post) false true k b N) as [(Ek & -> & _)|K].
           ++ rewrite map_length in Ek. subst k. exists q. split; [rewrite <- Lp, nth_error_app2, Nat.sub_diag by lia; reflexivity|]. split; [exact B|]. now split.
           ++ assert (Ek : k <> List.length pre \/ b = false).
              { destruct b; [left|now right]. intros ->. rewrite <- (map_length in_wait pre), nth_error_app2, Nat.sub_diag in N by lia. discriminate N. }
              destruct (Nat.eq_dec k (List.length pre)) as [->|Nk'].
              ** destruct Ek as [Ek | ->]; [now elim Ek|]. exists q. split; [rewrite <- Lp, nth_error_app2, Nat.sub_diag by lia; reflexivity|]. split; [exact B|]. now split.
              ** destruct (I1 k b) as (r & A' & B'); [rewrite E, map_app; exact K|]. exists r. split; [|exact B'].
                 destruct (PeerProofs.nth_mid ps1 ps2 p q k r A') as [(Ek' & _)|K']; [lia|exact K'].
        -- assert (Lt : List.length (y_watch s) <> List.length ps1). { rewrite E, app_length, Lp. cbn. lia. }
           assert (M : forall z, nth_error (ps1 ++ p :: ps2) (List.length (y_watch s)) = Some z -> nth_error (ps1 ++ q :: ps2) (List.length (y_watch s)) = Some z).
           { intros z Nz. destruct (PeerProofs.nth_mid ps1 ps2 p q _ z Nz) as [(Ek & _)|K']; [lia|exact K']. }
           split; [destruct (y_run s); auto|]. intros Ec k N. rewrite map_app in N. cbn in N.
           destruct (PeerProofs.nth_mid (map in_wait pre) (map in_wait post) false true k true N) as [(_ & K & _)|K]; [discriminate K|].
           pose proof (I3 (Cn Ec) k ltac:(rewrite E, map_app; exact K)) as A'.
           destruct (PeerProofs.nth_mid ps1 ps2 p q k up A') as [(Ek & _)|K']; [|exact K']. exfalso.
           rewrite Lp, <- (map_length in_wait) in Ek. subst k. rewrite nth_error_app2, Nat.sub_diag in N by lia. discriminate N.
    + exists (World t ps ws). split; [exact (WoMore X pb _ _ _ (WoNone X pb _) (WoClean X pb s t ps ws Al H Em))|]. split; [reflexivity|]. exact (neat_pool s t ps ws N0 St0 Em Er).
  - destruct (other_watch s t (or_introl H)) as (Ew & Er). exists (World t ps ws).
    split; [exact (WoMore X pb _ _ _ (WoNone X pb _) (WoBan X pb s t ps ws Al H))|]. split; [reflexivity|]. apply (neat_pool s t ps ws N0 St0); [now rewrite Ew|exact Er].
  - destruct (other_watch s t (or_intror (or_introl H))) as (Ew & Er).
    assert (K : ~ close_returns s t \/ exists pre i post x c, y_close s = pre ++ ClClose i :: post /\ nth_error (pl_infos (y_pool s)) i = Some x /\ i_peer x = Some c /\
      t = set_close s (y_pool s) (pre ++ ClStatus i :: post)).
    { clear - H. assert (M : forall (pre post pre' post' : list close_pc) x y i, pre ++ x :: post = pre' ++ ClClose i :: post' -> pre ++ y :: post = pre' ++ ClStatus i :: post' -> x = y \/ x = ClClose i).
      { induction pre as [|z pre IH]; intros post [|z' pre'] post' x y i; cbn; intros E1 E2.
        - injection E1 as -> _. now right.
        - injection E1 as -> _. injection E2 as -> _. now left.
        - injection E1 as -> _. discriminate E2.
        - injection E1 as _ E1. injection E2 as _ E2. exact (IH _ _ _ _ _ _ E1 E2). }
      close_cases H.
      - left. intros (pre' & i' & post' & E1 & E2). cbn in E2. rewrite E in E1. destruct (M _ _ _ _ _ _ _ E1 E2); discriminate.
      - left. intros (pre' & i' & post' & E1 & E2). cbn in E2. rewrite E1 in E2. apply app_inv_head in E2. discriminate E2.
      - right. exists pre, i, post, x, c. now repeat split.
      - left. intros (pre' & i' & post' & E1 & E2). cbn in E2. rewrite E in E1. destruct (M _ _ _ _ _ _ _ E1 E2); discriminate. }
    destruct K as [Nr|(pre & i & post & x & c & E & Nx & Px & ->)].
    + exists (World t ps ws). split; [exact (WoMore X pb _ _ _ (WoNone X pb _) (WoClose X pb s t ps ws Al H Nr))|]. split; [reflexivity|]. apply (neat_pool s t ps ws N0 St0); [now rewrite Ew|exact Er].
    + destruct (own_reach bans s R) as (Hd & _ & _ & Oc).
      assert (Rs : y_run s = RuStopped).
      { destruct (y_run s) eqn:Er'; try reflexivity; exfalso; destruct (Hd ltac:(congruence)) as (A & _); rewrite E in A; symmetry in A; now apply app_cons_not_nil in A. }
      assert (Lc : c < List.length (y_watch s)). { specialize (Oc i c). unfold peer_at in Oc. rewrite Nx, Rs in Oc. cbn in Oc. specialize (Oc Px). lia. }
      pose proof N0 as (_ & F & L1 & L2 & I1 & I2 & _). cbn in F, L1, L2, I1, I2.
      destruct (nth_error (map in_wait (y_watch s)) c) as [b|] eqn:Nb; [|apply nth_error_None in Nb; rewrite map_length in Nb; lia].
      destruct (I1 c b Nb) as (p & A & B & D). destruct (nth_error_split _ _ A) as (ps1 & ps2 & -> & Lp).
      assert (Q : exists q j, psteps p q /\ nth_error (p_others q) j = Some (ODisc DRet) /\ p_crash q = None /\ conn_neat b q).
      { destruct D as (Cp & D). destruct b.
        - destruct (upish_closes p D) as (r & Rq). exists (down_to (r ++ [ODisc DRet])), (S (S (List.length r))). split; [exact Rq|]. cbn. split; [rewrite nth_error_app2, Nat.sub_diag by lia; reflexivity|].
          split; [reflexivity|]. split; [reflexivity|]. right. now eexists.
        - exists (set_others p (p_others p ++ [ODisc DRet])), (List.length (p_others p)). split; [exact (close_again p D Cp)|]. cbn. split; [rewrite nth_error_app2, Nat.sub_diag by lia; reflexivity|].
          split; [exact Cp|]. now split. }
      destruct Q as (q & j & Rq & Nj & Cq & Kq).
      assert (Nq : neat (World s (ps1 ++ q :: ps2) ws)).
      { apply (neat_peer s ps1 p q ps2 ws N0 Cq); [lia| |]. - intros b' Nb' _. rewrite Lp in Nb'. congruence. - intro Ec. rewrite Ec in E. now apply app_cons_not_nil in E. }
      exists (World (set_close s (y_pool s) (pre ++ ClStatus i :: post)) (ps1 ++ q :: ps2) ws).
      split; [|split; [reflexivity|apply (neat_pool s _ _ ws Nq St0); reflexivity]].
      refine (WoMore X pb _ _ _ (peer_steps s ps1 p q ps2 ws Rq Al) _).
      apply (WoClosed X pb s (ps1 ++ q :: ps2) ws pre i post x c q j (neat_alive _ _ _ Nq C) E Nx Px); [|exact Nj].
      rewrite <- Lp, nth_error_app2, Nat.sub_diag by lia. reflexivity.
  - destruct (other_watch s t (or_intror (or_intror H))) as (Ew & Er). exists (World t ps ws).
    split; [exact (WoMore X pb _ _ _ (WoNone X pb _) (WoOthers X pb s t ps ws Al H))|]. split; [reflexivity|]. apply (neat_pool s t ps ws N0 St0); [now rewrite Ew|exact Er].
Qed.
Lemma neat_all s : sys_steps (sys_start bans) s -> exists w : world X, world_steps pb (world_start bans) w /\ w_sys w = s /\ neat w.
Proof.
  intro R. remember (sys_start bans) as s0 eqn:E. induction R as [s|s t u R IH St].
  - subst. exists (world_start bans). split; [apply WoNone|]. split; [reflexivity|]. unfold neat. cbn. split; [apply YsNone|]. repeat (split; [now auto|]). split; [|split; [exact I|]].
    + intros k b N. now destruct k.
    + intros _ k N. now destruct k.
  - destruct (IH E) as ([s' ps ws] & Rw & Ew & Nw). cbn in Ew. subst s'. destruct (neat_step t u ps ws Nw St) as (w & Rv & Ev & Nv).
    exists w. split; [exact (world_app _ _ _ Rw Rv)|]. now split.
Qed.
Lemma exact_world s : sys_steps (sys_start bans) s <-> exists w : world X, world_steps pb (world_start bans) w /\ w_sys w = s.
Proof.
  split.
  - intro R. destruct (neat_all s R) as (w & Rw & E & _). now exists w.
  - intros (w & Rw & <-). exact (proj1 (projects X pb bans w Rw)).
Qed.
End Exact.
