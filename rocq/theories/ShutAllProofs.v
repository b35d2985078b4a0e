(** Proofs for C143: the goroutines after Stop end. *)
From Coq Require Import Lia.
From Verif Require Import World SpecPeer SpecFair SpecTeam SpecPool SpecSelect SpecShutAll PeerProofs PoolProofs OwnProofs WorldProofs FairProofs SelectProofs TeamProofs.
Local Open Scope nat_scope.

(** How far such a goroutine is from its end. *)
Definition to_end (x : close_pc) : nat := match x with ClLock _ => 3 | ClClose _ => 2 | ClStatus _ => 1 | ClEnd => 0 end.
Definition closes (k : nat) (s t : sys) : Prop :=
  forall x, nth_error (y_close s) k = Some x -> nth_error (y_close t) k = Some x \/ exists y, nth_error (y_close t) k = Some y /\ to_end y < to_end x.
Lemma mid_closes s t pre x y post k : y_close s = pre ++ x :: post -> y_close t = pre ++ y :: post -> to_end y < to_end x -> closes k s t.
Proof. intros E E' L z. rewrite E, E'. intro N. destruct (nth_mid pre post x y k z N) as [(_ & -> & N')|N']; [right; now exists y|now left]. Qed.
Lemma step_closes k s t : sys_step s t -> closes k s t.
Proof.
  intros [C St|C St|C St|C St|C St].
  - run_cases St; try (intros z Nz; left; exact Nz). intros z Nz. left. cbn. rewrite nth_error_app1; [exact Nz|]. apply nth_error_Some. congruence.
  - watch_cases St; intros z Nz; left; exact Nz.
  - ban_cases St; intros z Nz; left; exact Nz.
  - close_cases St; first [intros z Nz; left; exact Nz|eapply mid_closes; [exact E|reflexivity|cbn; lia]].
  - env_cases St; intros z Nz; left; exact Nz.
Qed.
Lemma stopped_keeps s t : sys_step s t -> y_run s = RuStopped ->
  y_run t = RuStopped /\ (forall i, peer_at (y_pool t) i = peer_at (y_pool s) i) /\ List.length (y_close t) = List.length (y_close s).
Proof.
  intros [C St|C St|C St|C St|C St] Er0.
  - exfalso. run_cases St; congruence.
  - watch_cases St; fields; repeat split; auto; intro j; now rewrite ?peer_upd.
  - ban_cases St; fields; repeat split; auto; intro j; now rewrite ?peer_upd.
  - close_cases St; fields; rewrite ?E, ?app_length; repeat split; auto; intro j; now rewrite ?peer_upd.
  - env_cases St; fields; repeat split; auto; intro j; now rewrite ?peer_add, ?peer_upd.
Qed.

Section Shut.
Context (X : Ext) (pb : option nat) (bans : option (list bytes)).
Lemma world_sys (w v : world X) : world_step pb w v -> w_sys v = w_sys w \/ sys_step (w_sys w) (w_sys v).
Proof.
  intro St. destruct St as [s t ps ws Al H Op|s t ps ws a i d Al H Er|s t ps p ws a i Al H Er|s t ps p ws a i Al H Er
    |s ps ws pre a i post p j Al E Np Nj No|s t ps ws Al H Em|s t ps ws Al H|s ps ws pre i post x k p j Al E Nx Px Np Nj|s t ps ws Al H Nr|s t ps ws Al H|s pre p q post ws Al H];
    cbn; pose proof (proj1 Al) as C; cbn in C; auto; right.
  1-4: now apply YsRun.
  - apply YsWatch; [exact C|]. now apply WaReturn.
  - now apply YsWatch.
  - now apply YsBan.
  - apply YsClose; [exact C|]. now apply (CsClosed s pre i post x k).
  - now apply YsClose.
  - now apply YsEnv.
Qed.

(** Before Close has returned. *)
Definition pend (k i : nat) (s : sys) : Prop := nth_error (y_close s) k = Some (ClLock i) \/ nth_error (y_close s) k = Some (ClClose i).
Lemma pend_grow k i s t : (exists l, y_close t = y_close s ++ l) -> pend k i s -> pend k i t.
Proof. intros (l & E) [N|N]; [left|right]; rewrite E, nth_error_app1; auto; apply nth_error_Some; congruence. Qed.
Lemma pend_keep k i s t : y_close t = y_close s -> pend k i s -> pend k i t.
Proof. intros E H. unfold pend. now rewrite E. Qed.
Lemma run_pend rk ri s t : run_step s t -> pend rk ri s -> pend rk ri t.
Proof. intros St. run_cases St; first [now apply pend_keep|apply pend_grow; cbn; eexists; reflexivity]. Qed.
Lemma pend_step rk ri rc (w v : world X) : world_step pb w v -> pend rk ri (w_sys w) -> record_peer ri rc w -> pend rk ri (w_sys v) \/ disc_returned rc v.
Proof.
  intros St Pe Re. destruct St as [s t ps ws Al H Op|s t ps ws a i d Al H Er|s t ps p ws a i Al H Er|s t ps p ws a i Al H Er
    |s ps ws pre a i post p j Al E Np Nj No|s t ps ws Al H Em|s t ps ws Al H|s ps ws pre i post x c p j Al E Nx Px Np Nj|s t ps ws Al H Nr|s t ps ws Al H|s pre p q post ws Al H];
    cbn in *; auto.
  1-4: left; now apply (run_pend rk ri s).
  - left. watch_cases H; now apply (pend_keep rk ri s).
  - left. ban_cases H; now apply (pend_keep rk ri s).
  - destruct Pe as [Pe|Pe]; unfold pend; cbn; rewrite E in Pe; destruct (PeerProofs.nth_mid pre post _ (ClStatus i) rk _ Pe) as [(_ & Z & N)|N]; auto; [discriminate Z|].
    injection Z as ->. right. destruct Re as (y & Ny & Py). cbn in Ny. assert (c = rc) as -> by congruence. exists j. pose proof (nth_of X rc (World s ps ws) p Np) as Ec. unfold conn_peer in *. cbn in *. now rewrite Ec.
  - left. close_cases H.
    + destruct Pe as [Pe|Pe]; rewrite E in Pe; destruct (PeerProofs.nth_mid pre post _ (ClClose i) rk _ Pe) as [(_ & Z & N)|N]; unfold pend; cbn; auto; try discriminate Z. injection Z as ->. auto.
    + now apply (pend_keep rk ri s).
    + elim Nr. red. eauto 10.
    + destruct Pe as [Pe|Pe]; rewrite E in Pe; destruct (PeerProofs.nth_mid pre post _ ClEnd rk _ Pe) as [(_ & Z & N)|N]; unfold pend; cbn; auto; discriminate Z.
  - left. env_cases H; now apply (pend_keep rk ri s).
Qed.

Section Runs.
Context (W : nat -> world X).
Hypothesis Rw : world_run pb bans W.
Lemma pool_runs : pool_run bans (pool_of W).
Proof.
  split.
  - unfold pool_of. exact (proj1 (winv_all X pb bans _ (proj1 Rw))).
  - intro n. unfold pool_of. destruct (proj2 Rw n) as [->|H]; [now left|]. destruct (world_sys _ _ H) as [->|K]; auto.
Qed.
Lemma stop_ends n k : y_run (w_sys (W n)) = RuStopped ->
  y_run (w_sys (W (k + n))) = RuStopped /\ (forall i, peer_at (y_pool (w_sys (W (k + n)))) i = peer_at (y_pool (w_sys (W n))) i) /\
  List.length (y_close (w_sys (W (k + n)))) = List.length (y_close (w_sys (W n))).
Proof.
  intro Er. induction k as [|k (A & B & C)]; [auto|]. cbn. destruct (proj2 Rw (k + n)) as [->|H]; [auto|].
  destruct (world_sys _ _ H) as [->|K]; [auto|]. destruct (stopped_keeps _ _ K A) as (A' & B' & C'). split; [exact A'|]. split; [intro i; now rewrite B', B|congruence].
Qed.
Lemma closer_goes k n d x : closer k (W n) = Some x -> closer k (W (d + n)) = Some x \/ exists y, closer k (W (d + n)) = Some y /\ to_end y < to_end x.
Proof.
  intro N. induction d as [|d IH]; [now left|]. assert (St : closes k (w_sys (W (d + n))) (w_sys (W (S d + n)))).
  { cbn. destruct (proj2 Rw (d + n)) as [->|H]; [intros z Nz; now left|]. destruct (world_sys _ _ H) as [->|K]; [intros z Nz; now left|now apply step_closes]. }
  unfold closer in *. destruct IH as [IH|(y & IH & L)]; destruct (St _ IH) as [Q|(z & Q & Lz)]; eauto. right. exists z. split; [exact Q|lia].
Qed.
Lemma record_at i c (w : world X) : record_peer i c w <-> peer_at (y_pool (w_sys w)) i = Some c.
Proof. unfold record_peer, peer_at. destruct (nth_error _ i) as [x|]; split; [intros (y & E & K); congruence|eauto|intros (y & E & _); discriminate|discriminate]. Qed.
Lemma record_conn n i c : y_run (w_sys (W n)) = RuStopped -> record_peer i c (W n) -> connection c (W n).
Proof.
  intros Er H. apply record_at in H. destruct (own_reach bans _ (proj1 (team_inv X pb bans W Rw n))) as (_ & _ & _ & O). specialize (O i c H). rewrite Er in O. cbn in O. unfold connection. lia.
Qed.
Hypothesis Al : forall k, alive (W k).
Hypothesis Pf : peers_fair W.

Lemma called_returns n c : connection c (W n) -> disc_called c (W n) -> exists m, n <= m /\ forall j, m <= j -> disc_returned c (W j).
Proof.
  intros L (g & d & N). destruct (Pf c n L) as (Nb & H & F). set (f := of_peer c n W) in *.
  assert (Rf : run pb f) by (now apply (team_run X pb bans)).
  assert (Cf : forall k, p_crash (f k) = None). { intro k. apply (alive_peer X pb bans W Rw); auto. now apply (team_stays X pb bans W Rw). }
  assert (Bf : forall k, ~ banning (p_reader (f k))) by (intro k; apply Nb; lia).
  assert (E : ending (f 0)) by (unfold f, of_peer; cbn; do 5 right; eauto).
  destruct (wg_free X pb f Rf Cf Bf H F 0 E) as (m1 & _ & Z).
  destruct (disc_stays X pb f Rf (GOther g) 0 d ltac:(unfold f, of_peer; cbn; now rewrite N) m1 ltac:(lia)) as (e & Ee).
  destruct (disc_ends X pb f Rf Cf Bf F (GOther g) m1 e ltac:(intros j Lj; now apply Z) Ee) as (m2 & L2 & K).
  exists (m2 + n). split; [lia|]. intros j Lj. exists g. specialize (K (j - n) ltac:(lia)). unfold f, of_peer in K. replace (j - n + n) with j in K by lia.
  cbn in K. destruct (nth_error (p_others (conn_peer c (W j))) g) as [[| |q| | |]|]; try discriminate K. now injection K as ->.
Qed.

Lemma closer_ends k n : y_run (w_sys (W n)) = RuStopped -> closer_calls k W -> closer_fair k W -> closer k (W n) <> None ->
  exists m, n <= m /\ forall j, m <= j -> closer k (W j) = Some ClEnd.
Proof.
  intros Er Cc Fc Nn.
  assert (Dn : forall r a x, n <= a -> closer k (W a) = Some x -> to_end x <= r -> exists m, a <= m /\ closer k (W m) = Some ClEnd).
  { induction r as [|r IH]; intros a x La Nx Lr; [exists a; split; [lia|]; destruct x; cbn in Lr; try lia; exact Nx|].
    assert (Mv : forall m, a <= m -> closer k (W m) <> Some x -> exists m', a <= m' /\ closer k (W m') = Some ClEnd).
    { intros m Lm Ne. destruct (closer_goes k a (m - a) x Nx) as [Q|(y & Q & Ly)]; replace (m - a + a) with m in Q by lia; [now elim Ne|].
      destruct (IH m y ltac:(lia) Q ltac:(lia)) as (m' & Lm' & K). exists m'. split; [lia|exact K]. }
    assert (Fx : forall b, a <= b -> (exists m i c, b <= m /\ x = ClClose i /\ closer k (W m) = Some x /\ record_peer i c (W m) /\ ~ disc_returned c (W m)) \/ exists m', a <= m' /\ closer k (W m') = Some ClEnd).
    { intros b Lb. destruct (Fc b) as (m & Lm & [(i & c & Q & P & Nr)|[Q|[Q|Q]]]).
      - destruct (closer_goes k a (m - a) x Nx) as [Q'|(y & Q' & Ly)]; replace (m - a + a) with m in Q' by lia.
        + left. exists m, i, c. assert (Ex : x = ClClose i) by congruence. auto 6.
        + right. apply (Mv m); [lia|]. intro K. assert (y = x) as -> by congruence. lia.
      - right. exists m. split; [lia|exact Q].
      - destruct (closer_goes k a (m - a) x Nx) as [Q'|(y & Q' & _)]; replace (m - a + a) with m in Q' by lia; congruence.
      - right. destruct (closer_goes k a (m - a) x Nx) as [Q'|(y & Q' & Ly)]; replace (m - a + a) with m in Q' by lia.
        + apply (Mv (S m)); [lia|congruence].
        + apply (Mv m); [lia|]. intro K. assert (y = x) as -> by congruence. lia. }
    destruct (Fx a (le_n a)) as [(m & i & c & Lm & -> & Q & P & _)|K]; [|exact K].
    destruct (Cc m i c Q P) as (m' & Lm' & [D|D]); [|apply (Mv m'); [lia|exact D]].
    destruct (stop_ends n (m - n) Er) as (Em & Ep & _). replace (m - n + n) with m in Em, Ep by lia.
    assert (Lc : connection c (W m')). { replace m' with ((m' - m) + m) by lia. apply (team_stays X pb bans W Rw). exact (record_conn m i c Em P). }
    destruct (called_returns m' c Lc D) as (m2 & L2 & Ret).
    destruct (Fx m2 ltac:(lia)) as [(m3 & i' & c' & L3 & Ei & _ & P' & Nr)|K]; [|exact K]. injection Ei as <-. elim Nr.
    assert (c' = c) as ->; [|now apply Ret]. apply record_at in P, P'. destruct (stop_ends n (m3 - n) Er) as (_ & Ep3 & _). replace (m3 - n + n) with m3 in Ep3 by lia.
    rewrite Ep in P. rewrite Ep3 in P'. congruence. }
  destruct (closer k (W n)) as [x|] eqn:Nx; [|now elim Nn]. destruct (Dn (to_end x) n x (le_n n) Nx (le_n _)) as (m & Lm & K).
  exists m. split; [exact Lm|]. intros j Lj. destruct (closer_goes k m (j - m) ClEnd K) as [Q|(y & _ & Ly)]; [|cbn in Ly; lia]. now replace (j - m + m) with j in Q by lia.
Qed.

Lemma closers_end n : y_run (w_sys (W n)) = RuStopped -> (forall k, closer_calls k W) -> (forall k, closer_fair k W) ->
  exists m, n <= m /\ forall j, m <= j -> y_run (w_sys (W j)) = RuStopped /\ all_closed (w_sys (W j)).
Proof.
  intros Er Cc Fc. set (L := List.length (y_close (w_sys (W n)))).
  assert (G : forall l, l <= L -> exists m, n <= m /\ forall j k, m <= j -> k < l -> closer k (W j) = Some ClEnd).
  { induction l as [|l IH]; intro Ll; [exists n; split; [lia|]; intros; lia|]. destruct (IH ltac:(lia)) as (m & Lm & K).
    destruct (closer_ends l n Er (Cc l) (Fc l)) as (m' & Lm' & K'); [unfold closer; apply nth_error_Some; unfold L in Ll; lia|].
    exists (m + m'). split; [lia|]. intros j k Lj Lk. destruct (Nat.eq_dec k l) as [->|Ne]; [apply K'; lia|apply K; lia]. }
  destruct (G L (le_n L)) as (m & Lm & K). exists m. split; [exact Lm|]. intros j Lj. destruct (stop_ends n (j - n) Er) as (Ej & _ & Lj'). replace (j - n + n) with j in Ej, Lj' by lia.
  split; [exact Ej|]. apply Forall_forall. intros x I. apply In_nth_error in I as (k & N). assert (Lk : k < L) by (unfold L; rewrite <- Lj'; apply nth_error_Some; congruence).
  specialize (K j k Lj Lk). unfold closer in K. congruence.
Qed.
Lemma pend_run n k i c : y_run (w_sys (W n)) = RuStopped -> pend k i (w_sys (W n)) -> record_peer i c (W n) ->
  forall d, pend k i (w_sys (W (d + n))) \/ exists m, n <= m /\ disc_returned c (W m).
Proof.
  intros Er Pe Re. induction d as [|d [IH|IH]]; [now left| |now right]. cbn. destruct (proj2 Rw (d + n)) as [->|H]; [now left|].
  destruct (stop_ends n d Er) as (_ & Ep & _). destruct (pend_step k i c _ _ H IH) as [K|K]; [|now left|right; exists (S (d + n)); split; [lia|exact K]].
  apply record_at. rewrite Ep. now apply record_at.
Qed.
Lemma closed_conns n k i c : y_run (w_sys (W n)) = RuStopped -> closer_calls k W -> closer_fair k W -> closer k (W n) = Some (ClLock i) -> record_peer i c (W n) -> cleaner_fair c W ->
  exists m, n <= m /\ forall j, m <= j -> writer_ended (p_writer (conn_peer c (W j))) /\ reader_ended (p_reader (conn_peer c (W j))) /\ p_closed (conn_peer c (W j)) = true /\
    exists a r, cleaner c (W j) = Some (Watch a r WtEnd).
Proof.
  intros Er Cc Fc N Re Cf. destruct (closer_ends k n Er Cc Fc ltac:(congruence)) as (m & Lm & K).
  destruct (pend_run n k i c Er (or_introl N) Re (m - n)) as [P|(m1 & L1 & (g & D))].
  - replace (m - n + n) with m in P by lia. specialize (K m (le_n m)). unfold closer in K. destruct P; congruence.
  - assert (Lc : connection c (W m1)). { replace m1 with ((m1 - n) + n) by lia. apply (team_stays X pb bans W Rw). exact (record_conn n i c Er Re). }
    destruct (Pf c m1 Lc) as (Nb & H & F). assert (E : ending (conn_peer c (W m1))) by (do 5 right; eauto).
    destruct (team_returns X pb bans W Rw c m1 Lc Al Nb H F E) as (m2 & L2 & K2). destruct (team_cleaned X pb bans W Rw c m1 Lc Al Nb H F E Cf) as (m3 & L3 & K3).
    exists (m2 + m3). split; [lia|]. intros j Lj. destruct (K2 j ltac:(lia)) as (A & B & C & _). repeat (split; [assumption|]). apply K3. lia.
Qed.
Lemma listed_closer nn ad rr : y_run (w_sys (W nn)) <> RuStopped -> y_run (w_sys (W (Datatypes.S nn))) = RuStopped -> In (ad, rr) (pl_table (y_pool (w_sys (W nn)))) ->
  (exists k, closer k (W (Datatypes.S nn)) = Some (ClLock rr)) /\ y_pool (w_sys (W (Datatypes.S nn))) = y_pool (w_sys (W nn)).
Proof.
  intros N0 E1 I0. destruct (proj2 Rw nn) as [E0|H]; [congruence|]. destruct (world_sys _ _ H) as [E0|K]; [congruence|]. unfold closer.
  set (s0 := w_sys (W nn)) in *. set (t0 := w_sys (W (Datatypes.S nn))) in *. clearbody s0 t0. destruct K as [C St|C St|C St|C St|C St].
  - run_cases St; try discriminate E1; try (cbn in E1; congruence). split; [|reflexivity].
    assert (I : In (ClLock rr) (y_close s ++ map (fun kv => ClLock (snd kv)) (pl_table (y_pool s)))) by (apply in_or_app; right; apply in_map_iff; now exists (ad, rr)).
    apply In_nth_error in I as (k & Nk). now exists k.
  - exfalso. watch_cases St; cbn in E1; congruence.
  - exfalso. ban_cases St; cbn in E1; congruence.
  - exfalso. close_cases St; cbn in E1; congruence.
  - exfalso. env_cases St; cbn in E1; congruence.
Qed.
Lemma listed_conns n a i c : y_run (w_sys (W n)) <> RuStopped -> y_run (w_sys (W (Datatypes.S n))) = RuStopped -> (forall k, closer_calls k W) -> (forall k, closer_fair k W) ->
  In (a, i) (pl_table (y_pool (w_sys (W n)))) -> record_peer i c (W n) -> cleaner_fair c W ->
  exists m, n <= m /\ forall j, m <= j -> writer_ended (p_writer (conn_peer c (W j))) /\ reader_ended (p_reader (conn_peer c (W j))) /\ p_closed (conn_peer c (W j)) = true /\
    exists a r, cleaner c (W j) = Some (Watch a r WtEnd).
Proof.
  intros N0 E1 Cc Fc I Re Cf. destruct (listed_closer n a i N0 E1 I) as ((k & Nk) & Ep).
  assert (Re1 : record_peer i c (W (Datatypes.S n))) by (unfold record_peer in *; now rewrite Ep).
  destruct (closed_conns (Datatypes.S n) k i c E1 (Cc k) (Fc k) Nk Re1 Cf) as (m & Lm & K). exists m. split; [lia|exact K].
Qed.
Lemma stop_closes n : run_fair (pool_of W) -> select_fair (pool_of W) -> (forall k, closer_calls k W) -> (forall k, closer_fair k W) -> y_quits (w_sys (W n)) <> 0 ->
  exists m, n <= m /\ forall j, m <= j -> y_run (w_sys (W j)) = RuStopped /\ all_closed (w_sys (W j)).
Proof.
  intros Rf Sf Cc Fc Q. destruct (run_stops bans (pool_of W) pool_runs Rf Sf n Q) as (m & Lm & K). destruct (closers_end m (K m (le_n m)) Cc Fc) as (m' & Lm' & K').
  exists m'. split; [lia|exact K'].
Qed.
End Runs.
End Shut.
