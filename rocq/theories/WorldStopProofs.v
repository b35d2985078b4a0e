(** Proofs for C131. *)
From Coq Require Import Lia.
From Verif Require Import World SpecPeer SpecEarly SpecPool SpecWorld PeerProofs EarlyProofs PoolProofs WorldProofs OwnProofs.
Local Open Scope nat_scope.

Section Stop.
Context (X : Ext) (pb : option nat).
Notation st := (pstate X).

Lemma flag_stays (p q : st) : pstep p q -> p_flag p = true -> p_flag q = true.
Proof.
  intros St F. assert (D0 : forall (s t : st) d d', dstep s d t d' -> p_flag s = true -> p_flag t = true) by (intros s t d d' D; destruct D; auto).
  assert (W0 : forall s : st, p_flag (wg_done s) = p_flag s) by (intro s; unfold wg_done; now destruct (_ <? _)%Z).
  destruct St as [_ H|_ H|_ H|_ H]; destruct H; cbn; auto; try (rewrite W0; exact F); eapply D0; eauto.
Qed.
Lemma returned_flag (p : st) j : life pb p -> nth_error (p_others p) j = Some (ODisc DRet) -> p_flag p = true.
Proof.
  intros L N. destruct (lives_as_if X pb p L) as (p' & R & A). pose proof (as_if_others _ _ _ A) as F.
  pose proof (reach_inv X pb p' R) as (_ & I2 & _ & _ & _ & _ & O). unfold as_if in A. decompose [and] A.
  destruct (nth_error_split _ _ N) as (pre & post & E & _). rewrite E in F. apply mid_left in F as (pre' & y & post' & E' & Ry & _).
  rewrite E' in O. apply forall_at in O. assert (Q : p_flag p' = true); [|congruence].
  inversion Ry; subst; cbn in O; [exact O|]. destruct (p_flag p'); [reflexivity|lia].
Qed.
Lemma quits_flag (p : st) : life pb p -> p_quits p = 1 -> p_flag p = true.
Proof.
  intros L N. destruct (lives_as_if X pb p L) as (p' & R & A). pose proof (reach_inv X pb p' R) as (_ & I2 & _). unfold as_if in A. decompose [and] A.
  destruct (p_flag p') eqn:F; [congruence|lia].
Qed.
Lemma forall_nth {A} (P : A -> Prop) l k x : Forall P l -> nth_error l k = Some x -> P x.
Proof. intros F N. rewrite Forall_forall in F. apply F. exact (nth_error_In _ _ N). Qed.

(** *** After Stop *)
Definition told (w : world X) : Prop := y_run (w_sys w) = RuStopped -> forall k x, nth_error (y_watch (w_sys w)) k = Some x -> waiting x = true ->
  In (ClLock (wt_info x)) (y_close (w_sys w)) \/ In (ClClose (wt_info x)) (y_close (w_sys w)) \/
  exists p, nth_error (w_peers w) k = Some p /\ p_flag p = true.
(** Steps that keep the goroutines. *)
Lemma told_keep s t ps ws : (y_run t = RuStopped -> y_run s = RuStopped) ->
  (forall k x, nth_error (y_watch t) k = Some x -> waiting x = true -> nth_error (y_watch s) k = Some x) ->
  (forall i, In (ClLock i) (y_close s) \/ In (ClClose i) (y_close s) -> In (ClLock i) (y_close t) \/ In (ClClose i) (y_close t)) ->
  told (World s ps ws) -> told (World t ps ws).
Proof.
  unfold told. cbn. intros Er Ew Ec T S k x N W. destruct (T (Er S) k x (Ew k x N W) W) as [H|[H|H]]; [..|auto]; destruct (Ec (wt_info x)) as [H'|H']; auto.
Qed.
Lemma waits_mid pre (x y : watch) post k z : waiting y = false -> nth_error (pre ++ y :: post) k = Some z -> waiting z = true -> nth_error (pre ++ x :: post) k = Some z.
Proof. intros Wy N Wz. destruct (PeerProofs.nth_mid pre post y x k z N) as [(_ & -> & _)|H]; [congruence|exact H]. Qed.
Lemma told_step (w v : world X) : world_steps pb (world_start None) w -> told w -> world_step pb w v -> told v.
Proof.
  intros Rw T St. pose proof (projects X pb None w Rw) as (Rs & _). pose proof (listed_reach _ Rs) as (Ls & _). pose proof (own_reach None _ Rs) as (Hd & Ow & _).
  destruct (winv_all X pb None w Rw) as (_ & L1 & L2 & I1 & _).
  destruct St as [s t ps ws Al H Op|s t ps ws a i d Al H Er|s t ps p ws a i Al H Er|s t ps p ws a i Al H Er
    |s ps ws pre a i post p j Al E Np Nj No|s t ps ws Al H Em|s t ps ws Al H|s ps ws pre i post x c p j Al E Nx Px Np Nj|s t ps ws Al H Nr|s t ps ws Al H|s pre p q post ws Al H]; cbn in *.
  - intros S k x N W. cbn in *. assert (K : y_run t = RuStopped -> forall i, In i (map snd (pl_table (y_pool s))) -> In (ClLock i) (y_close t)).
    { clear - H. run_cases H; cbn; intro Kz; try discriminate Kz. intros i I. apply in_or_app. right. apply in_map_iff in I as (e & <- & I). apply in_map_iff. now exists e. }
    destruct (run_watch X pb s t H Op) as (Ew & _). left. apply (K S). rewrite Ew in N. pose proof (Ls x (nth_error_In _ _ N)) as Lx. unfold peer_info in Lx. apply lookup_in in Lx.
    apply in_map_iff. now exists (wt_addr x, wt_info x).
  - intro S. cbn in S. inversion H; subst; try congruence; discriminate S.
  - intro S. cbn in S. inversion H; subst; try congruence; discriminate S.
  - intro S. cbn in S. inversion H; subst; try congruence; discriminate S.
  - revert T. apply told_keep; cbn; auto. intros k x N W. rewrite E. revert N W. now apply waits_mid.
  - revert T. apply told_keep; clear - H Em.
    + watch_cases H; cbn; auto.
    + revert Em. watch_cases H; cbn; rewrite E; intros Em k z; now apply waits_mid.
    + watch_cases H; cbn; auto.
  - revert T. apply told_keep; clear - H; ban_cases H; cbn; auto.
  - intros S k y N W. unfold told in T. cbn in *. destruct (T S k y N W) as [T1|[T1|T1]]; [left|..].
    + rewrite E in T1. apply mid_in in T1 as [T1|T1]; [discriminate T1|]. apply mid_in. now right.
    + rewrite E in T1. apply mid_in in T1 as [T1|T1]; [|right; left; apply mid_in; now right]. injection T1 as T1. right. right.
      assert (Ey : early y = true) by (unfold waiting, early in *; now destruct (wt_pc y)).
      pose proof (Ow k y N Ey) as O1. unfold peer_at in O1. rewrite T1, Nx, Px in O1. injection O1 as ->. exists p. split; [exact Np|].
      destruct (nth_error ws k) as [l|] eqn:Nl. 2:{ apply nth_error_None in Nl. assert (k < List.length (y_watch s)) by (apply nth_error_Some; congruence). lia. }
      destruct (I1 k (in_wait y) p l (map_nth_error in_wait k _ N) Np Nl) as (Lf & _). exact (returned_flag p j Lf Nj).
    + auto.
  - assert (K : y_run t = y_run s /\ y_watch t = y_watch s /\ forall i, In (ClLock i) (y_close s) \/ In (ClClose i) (y_close s) -> In (ClLock i) (y_close t) \/ In (ClClose i) (y_close t)).
    { clear - H Nr. close_cases H; cbn; (split; [reflexivity|]); (split; [reflexivity|]); intros k [I|I]; auto; rewrite E in I; apply mid_in in I as [I|I]; try discriminate I;
        try (left; apply mid_in; now right); try (right; apply mid_in; now right).
      - injection I as ->. right. apply mid_in. now left.
      - injection I as ->. elim Nr. exists pre, i, post. now split. }
    destruct K as (K1 & K2 & K3). revert T. apply told_keep; [congruence| |exact K3]. intros k x N W. now rewrite K2 in N.
  - revert T. apply told_keep; clear - H; env_cases H; cbn; auto.
  - intros S k x N W. unfold told in T. cbn in *. destruct (T S k x N W) as [T1|[T1|(r & Nr & Fr)]]; auto. right. right.
    destruct (PeerProofs.nth_mid pre post p q k r Nr) as [(_ & -> & N')|N']; [|now exists r]. exists q. split; [exact N'|exact (flag_stays p q H Fr)].
Qed.
Lemma told_all (w : world X) : world_steps pb (world_start None) w -> told w.
Proof.
  intro R. remember (world_start None) as w0 eqn:E. induction R as [w|w v u R IH St].
  - subst. intro S. discriminate S.
  - subst. exact (told_step v u R (IH eq_refl) St).
Qed.
Lemma all_told (w : world X) : world_steps pb (world_start None) w -> y_run (w_sys w) = RuStopped -> all_closed (w_sys w) ->
  Forall (fun p => life pb p /\ p_flag p = true) (w_peers w).
Proof.
  intros R S A. pose proof (told_all w R S) as T. destruct (winv_all X pb None w R) as (_ & L1 & L2 & I1 & _). rewrite S in L2. cbn in L2.
  apply Forall_forall. intros p I. apply In_nth_error in I as (k & N). assert (Lk : k < List.length (w_peers w)) by (apply nth_error_Some; congruence).
  destruct (nth_error (y_watch (w_sys w)) k) as [x|] eqn:Nx; [|apply nth_error_None in Nx; lia].
  destruct (nth_error (w_waits w) k) as [j|] eqn:Nj; [|apply nth_error_None in Nj; lia].
  destruct (I1 k (in_wait x) p j (map_nth_error in_wait k _ Nx) N Nj) as (Lf & _). split; [exact Lf|]. destruct (waiting x) eqn:Wx.
  - unfold all_closed in A. rewrite Forall_forall in A. destruct (T k x Nx Wx) as [H|[H|(q & Nq & Fq)]]; [discriminate (A _ H)|discriminate (A _ H)|congruence].
  - apply quits_flag; [exact Lf|]. now destruct (cleaned X pb None w k x p R Nx Wx N) as (_ & _ & Q).
Qed.
Lemma all_over (w : world X) : world_steps pb (world_start None) w -> y_run (w_sys w) = RuStopped -> all_closed (w_sys w) -> alive w ->
  Forall (fun p => forall q, ~ internal p q) (w_peers w) -> Forall (fun p => p_reader p = RBan DWait \/ (all_ended p /\ p_quits p = 1 /\ p_closed p = true)) (w_peers w).
Proof.
  intros R S A (_ & C) Q. pose proof (all_told w R S A) as F. rewrite Forall_forall in *. intros p I. destruct (F p I) as (L & _).
  exact (lives_stuck X pb p L (C p I) (Q p I)).
Qed.
End Stop.
