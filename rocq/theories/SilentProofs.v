(** Lemmas about the pool while NewPeer does not return. *)
From Verif Require Import Pool SpecPool PoolProofs PoolExamples.

(** ** Who holds the lock of a record, before Stop *)
Definition lock_of (r : run_pc) : option nat :=
  match r with
  | RuCheck _ i | RuDial _ i | RuVersion _ i _ | RuRead _ i _ | RuWrite _ i _ _ | RuUpdate _ i _ | RuFill _ i _ | RuUp _ i | RuGo _ i | RuWatch _ i => Some i
  | _ => None
  end.
Definition target (r : run_pc) : option nat := match r with RuLock _ i => Some i | _ => lock_of r end.
Definition locks (p : pool) : list bool := map i_locked (pl_infos p).
Definition lock_inv s : Prop := y_run s <> RuStopped ->
  y_close s = [] /\ (forall i, target (y_run s) = Some i -> (i < List.length (locks (y_pool s)))%nat) /\
  (forall i b, nth_error (locks (y_pool s)) i = Some b -> (b = true <-> lock_of (y_run s) = Some i)).
Lemma locks_len p : List.length (locks p) = List.length (pl_infos p).
Proof. apply map_length. Qed.
Lemma locks_upd p i f j : nth_error (locks (upd p i f)) j =
  if (i =? j)%nat then match nth_error (pl_infos p) j with Some x => Some (i_locked (f x)) | None => None end else nth_error (locks p) j.
Proof.
  unfold locks, upd. cbn [pl_infos set_infos]. rewrite !nth_error_map, update_nth. destruct (i =? j)%nat; [|reflexivity].
  now destruct (nth_error (pl_infos p) j).
Qed.
Lemma list_ext {A} : forall l l' : list A, (forall i, nth_error l i = nth_error l' i) -> l = l'.
Proof.
  induction l as [|x l IH]; intros [|y l'] H; [reflexivity|discriminate (H 0%nat)|discriminate (H 0%nat)|].
  pose proof (H 0%nat) as E. injection E as ->. f_equal. apply IH. intro i. exact (H (S i)).
Qed.
Lemma locks_same p i f : (forall x, i_locked (f x) = i_locked x) -> locks (upd p i f) = locks p.
Proof.
  intro H. apply list_ext. intro j. rewrite locks_upd. destruct (i =? j)%nat; [|reflexivity].
  unfold locks. rewrite nth_error_map. destruct (nth_error (pl_infos p) j); [cbn; now rewrite H|reflexivity].
Qed.
Lemma locks_add r a p : locks (pool_add r a p) = locks p \/ locks (pool_add r a p) = locks p ++ [false].
Proof.
  destruct (add_cases r a p) as [->|(_ & _ & _ & ->)]; [auto|]. right. unfold locks. cbn [pl_infos set_table set_infos]. now rewrite map_app.
Qed.

Lemma lock_same s t : y_close t = y_close s -> y_run t = y_run s -> locks (y_pool t) = locks (y_pool s) -> lock_inv s -> lock_inv t.
Proof. unfold lock_inv. intros -> -> ->. auto. Qed.
Lemma lock_run s p r : lock_inv s -> y_run s <> RuStopped -> locks p = locks (y_pool s) -> lock_of r = lock_of (y_run s) ->
  (forall i, target r = Some i -> (i < List.length (locks p))%nat) -> lock_inv (go s p r).
Proof.
  intros Hi N E L T _. destruct (Hi N) as (A & B & D). fields. split; [exact A|]. split; [exact T|]. rewrite E, L. exact D.
Qed.
(** Run takes or gives back the lock of record [i]. *)
Lemma lock_flip s i f b r : lock_inv s -> y_run s <> RuStopped -> (forall x, i_locked (f x) = b) ->
  (forall j, j <> i -> lock_of (y_run s) <> Some j) ->
  lock_of r = (if b then Some i else None) -> (target r = Some i \/ target r = None) -> (i < List.length (locks (y_pool s)))%nat ->
  lock_inv (go s (upd (y_pool s) i f) r).
Proof.
  intros Hi N F O L T I _. destruct (Hi N) as (A & B & D). fields. split; [exact A|].
  change (Pool (pl_connected (y_pool s)) (pl_slots (y_pool s)) (update i f (pl_infos (y_pool s))) (pl_table (y_pool s)) (pl_up (y_pool s)) (pl_bans (y_pool s)))
    with (upd (y_pool s) i f).
  split.
  - intros j E. rewrite locks_len, upd_len, <- locks_len. destruct T as [T|T]; rewrite T in E; [injection E as <-; exact I|discriminate].
  - intros j c E. rewrite locks_upd in E. rewrite L. destruct (Nat.eqb_spec i j) as [<-|Nj].
    + destruct (nth_error (pl_infos (y_pool s)) i) as [x|]; [|discriminate]. injection E as <-. rewrite F. destruct b; split; auto; discriminate.
    + pose proof (D j c E) as Dj. pose proof (O j (not_eq_sym Nj)) as Oj. split.
      * intro H. elim Oj. tauto.
      * destruct b; [|discriminate]. intro H. injection H as H. contradiction.
Qed.

Lemma lock_step s t : lock_inv s -> sys_table s -> sys_step s t -> lock_inv t.
Proof.
  intros Hi Tb [C St|C St|C St|C St|C St].
  - assert (Kl : forall a i, y_run s = RuLock a i \/ y_run s = RuCheck a i \/ y_run s = RuDial a i -> (i < List.length (locks (y_pool s)))%nat).
    { intros a i H. assert (N : y_run s <> RuStopped) by (destruct H as [H|[H|H]]; congruence).
      destruct (Hi N) as (_ & B & _). apply B. destruct H as [H|[H|H]]; rewrite H; reflexivity. }
    assert (Kl2 : forall i, lock_of (y_run s) = Some i -> (i < List.length (locks (y_pool s)))%nat).
    { intros i H. assert (N : y_run s <> RuStopped) by (intro E; rewrite E in H; discriminate).
      destruct (Hi N) as (_ & B & _). apply B. destruct (y_run s); try discriminate H; exact H. }
    run_cases St.
    + intro N. now elim N.
    + apply lock_run; auto; try congruence; try discriminate; now rewrite Er.
    + apply lock_run; auto; try congruence; try discriminate; now rewrite Er.
    + apply lock_run; auto; try congruence; try discriminate; now rewrite Er.
    + apply lock_run; auto; try congruence; try discriminate; now rewrite Er.
    + apply lock_run; auto; try congruence; try discriminate; now rewrite Er.
    + apply lock_run; auto; try congruence; try discriminate; now rewrite Er.
    + change (lock_inv (go s (y_pool s) RuSelect)). apply lock_run; auto; try congruence; try discriminate; now rewrite Er.
    + apply lock_run; auto; try congruence; try discriminate; now rewrite Er.
    + apply lock_run; auto; try congruence; try discriminate; now rewrite Er.
    + apply lock_run; auto; try congruence; try discriminate; now rewrite Er.
    + apply lock_run; auto; try congruence; [now rewrite Er|]. intros j E. injection E as <-. rewrite locks_len.
      destruct Tb as (_ & _ & V). apply (V a). now apply lookup_in.
    + apply (lock_flip s i _ true); auto; try congruence; try (rewrite Er; discriminate). apply (Kl a). auto.
    + change (lock_inv (go s (upd (y_pool s) i (with_lock false)) RuSelect)).
      apply (lock_flip s i _ false); auto; try congruence; [|apply (Kl a); auto]. rewrite Er. cbn. congruence.
    + apply lock_run; auto; try congruence; [now rewrite Er|]. intros j E. injection E as <-. apply (Kl a). auto.
    + apply (lock_flip s i _ false); auto; try congruence; [|apply (Kl a); auto]. rewrite Er. cbn. congruence.
    + apply lock_run; auto; try congruence; [now rewrite Er|]. intros j E. injection E as <-. apply (Kl a). auto.
    + apply (lock_flip s i _ false); auto; try congruence; [|apply Kl2; now rewrite Er]. rewrite Er. cbn. congruence.
    + apply lock_run; auto; try congruence; [now rewrite Er|]. intros j E. injection E as <-. apply Kl2. now rewrite Er.
    + apply lock_run; auto; try congruence; [now rewrite Er|]. intros j E. injection E as <-. apply Kl2. now rewrite Er.
    + apply lock_run; auto; try congruence; [now rewrite Er|]. intros j E. injection E as <-. apply Kl2. now rewrite Er.
    + apply lock_run; auto; try congruence; [now apply locks_same|now rewrite Er|]. intros j E. injection E as <-.
      rewrite locks_same by reflexivity. apply Kl2. now rewrite Er.
    + apply lock_run; auto; try congruence; [now apply locks_same|now rewrite Er|]. intros j E. injection E as <-.
      rewrite locks_same by reflexivity. apply Kl2. now rewrite Er.
    + apply lock_run; auto; try congruence; [now rewrite Er|]. intros j E. injection E as <-. apply Kl2. now rewrite Er.
    + apply lock_run; auto; try congruence; [now rewrite Er|]. intros j E. injection E as <-. apply Kl2. now rewrite Er.
    + apply (lock_same (go s (upd (y_pool s) i (with_lock false)) RuSelect)); try reflexivity.
      apply (lock_flip s i _ false); auto; try congruence; [|apply Kl2; now rewrite Er]. rewrite Er. cbn. congruence.
    + apply lock_run; auto; try congruence; try discriminate; now rewrite Er.
  - watch_cases St; (apply (lock_same s); [reflexivity|reflexivity| |exact Hi]); fields; try reflexivity. now apply locks_same.
  - ban_cases St; (apply (lock_same s); [reflexivity|reflexivity| |exact Hi]); fields; try reflexivity. now apply locks_same.
  - close_cases St; intro Nr; fields; destruct (Hi Nr) as (A & _); rewrite E in A; symmetry in A; now apply app_cons_not_nil in A.
  - env_cases St; try ((apply (lock_same s); [reflexivity|reflexivity| |exact Hi]); fields; try reflexivity; now apply locks_same).
    intro N. fields. destruct (Hi N) as (A & B & D). split; [exact A|].
    destruct (locks_add r a (y_pool s)) as [E|E]; rewrite E; [auto|]. split.
    + intros j H. rewrite app_length. pose proof (B j H). lia.
    + intros j c H. destruct (Nat.lt_ge_cases j (List.length (locks (y_pool s)))) as [Lt|Ge].
      * rewrite nth_error_app1 in H by exact Lt. exact (D j c H).
      * rewrite nth_error_app2 in H by exact Ge. assert (c = false).
        { destruct (j - _)%nat as [|k]; cbn in H; [congruence|]. destruct k; discriminate. }
        subst c. split; [discriminate|]. intro Lk. assert (target (y_run s) = Some j) by (destruct (y_run s); try discriminate Lk; exact Lk).
        pose proof (B j H0). lia.
Qed.
Lemma lock_reach bans s : sys_steps (sys_start bans) s -> lock_inv s.
Proof.
  intro R. cut (lock_inv s /\ sys_table s); [tauto|]. revert s R. apply sys_ind'.
  - split; [|apply (table_reach bans (sys_start bans) (YsNone _))]. intros _. split; [reflexivity|]. split; [discriminate|]. intros [|i] b H; discriminate.
  - intros t u (A & B) St. split; [exact (lock_step t u A B St)|exact (table_step t u B St)].
Qed.

(** ** While NewPeer, or the first write to a new peer, does not return *)
Lemma others_sys s t : others_step s t -> sys_step s t.
Proof. intros [C H|C H|C H|C H]; [now apply YsWatch|now apply YsBan|now apply YsClose|now apply YsEnv]. Qed.
Lemma others_all s t : others_steps s t -> sys_steps s t.
Proof. intro R. induction R as [|s t u R IH St]; [apply YsNone|]. exact (YsMore _ _ _ IH (others_sys t u St)). Qed.
Lemma others_one s t : others_step s t -> y_run t = y_run s /\ List.length (y_watch t) = List.length (y_watch s) /\ (live t <= live s)%nat /\
  (forall kv, In kv (pl_up (y_pool t)) -> In kv (pl_up (y_pool s))).
Proof.
  unfold live. intros [C St|C St|C St|C St].
  - watch_cases St; fields; rewrite E, !app_length, !wait_app; cbn [filter waiting wt_pc List.length]; repeat split; auto; try lia.
    intros kv H. apply remove_in in H. tauto.
  - ban_cases St; fields; auto.
  - close_cases St; fields; auto.
  - env_cases St; fields; rewrite ?up_add; auto.
Qed.
Lemma others_many s t : others_steps s t -> y_run t = y_run s /\ List.length (y_watch t) = List.length (y_watch s) /\ (live t <= live s)%nat /\
  (forall kv, In kv (pl_up (y_pool t)) -> In kv (pl_up (y_pool s))).
Proof.
  intro R. induction R as [s|s t u R (A & B & C & D) St]; [auto|]. destruct (others_one t u St) as (A' & B' & C' & D').
  rewrite A', B'. repeat split; auto; lia.
Qed.
Lemma silent bans s t i : sys_steps (sys_start bans) s -> at_network (y_run s) = Some i -> others_steps s t ->
  y_run t = y_run s /\ locked (y_pool t) i /\ y_close t = [] /\ (live t <= live s)%nat /\
  (forall kv, In kv (pl_up (y_pool t)) -> In kv (pl_up (y_pool s))).
Proof.
  intros R E O. destruct (others_many s t O) as (A & _ & C & D). pose proof (lock_reach bans t (sys_app _ _ _ R (others_all s t O))) as Hi.
  assert (Nt : y_run t <> RuStopped) by (rewrite A; intro K; rewrite K in E; discriminate E).
  destruct (Hi Nt) as (F & G & H). split; [exact A|].
  assert (Lk : lock_of (y_run t) = Some i) by (rewrite A; destruct (y_run s); try discriminate E; exact E).
  assert (Tg : target (y_run t) = Some i) by (rewrite A; destruct (y_run s); try discriminate E; exact E).
  split; [|auto]. specialize (G i Tg). rewrite locks_len in G. apply nth_error_Some in G.
  destruct (nth_error (pl_infos (y_pool t)) i) as [x|] eqn:Nx; [|congruence]. exists x. split; [exact Nx|].
  apply (H i); [|exact Lk]. unfold locks. rewrite nth_error_map, Nx. reflexivity.
Qed.

(** ** When it returns *)
Lemma pool_progress bans s : sys_steps (sys_start bans) s -> at_rest s \/ exists t, run_step s t.
Proof.
  intro R. pose proof (slots_reach bans s R) as (Sl & Sb). pose proof (lock_reach bans s R) as Hi. unfold at_rest.
  destruct (y_run s) as [| |sec l|a|a|a i|a i|a i|a i d|a i d|a i d v|a i d|a i d|a i|a i|a i| |] eqn:E; [| | | | | | | | | | | | | | | | |auto]; try (
    assert (Hn : y_run s <> RuStopped) by congruence; destruct (Hi Hn) as (A & B & D); rewrite E in B, D; cbn [holds] in Sl).
  - destruct (y_quits s) as [|q] eqn:Q.
    + destruct (Nat.eq_dec (pl_slots (y_pool s)) 15) as [F|F]; [auto|]. right. eexists. apply RnToken; [exact E|]. unfold max_online. lia.
    + right. eexists. apply RnQuit; [exact E|]. congruence.
  - right. eexists. now apply (RnScan s (pl_table (y_pool s))).
  - right. destruct l as [|(a, i) l].
    + destruct sec; eexists; [now apply RnNone|]. now apply (RnAgain s (pl_table (y_pool s))).
    + destruct (wanted_at sec (y_pool s) i) eqn:G; eexists; [eapply RnHit; eassumption|eapply RnPass; eassumption].
  - right. destruct a as [|c a]; [eexists; now apply RnNobody|].
    destruct (Z.lt_ge_cases (Z.of_nat max_online) (pl_connected (y_pool s))) as [L|L].
    + eexists. apply (RnTooMany s (c :: a)); [exact E|discriminate|exact L].
    + eexists. apply (RnTest s (c :: a)); [exact E|discriminate|lia].
  - right. destruct (lookup a (pl_table (y_pool s))) as [i|] eqn:K; eexists; [eapply RnFound; eassumption|eapply RnMissing; eassumption].
  - right. eexists. apply (RnLock s a i); [exact E|]. specialize (B i eq_refl). rewrite locks_len in B. apply nth_error_Some in B.
    destruct (nth_error (pl_infos (y_pool s)) i) as [x|] eqn:Nx; [|congruence]. exists x. split; [exact Nx|].
    destruct (i_locked x) eqn:Lx; [|reflexivity]. specialize (D i true). unfold locks in D. rewrite nth_error_map, Nx in D. cbn in D. rewrite Lx in D.
    destruct (D eq_refl) as (D1 & _). discriminate (D1 eq_refl).
  - right. specialize (B i eq_refl). rewrite locks_len in B. apply nth_error_Some in B. unfold status_of.
    destruct (nth_error (pl_infos (y_pool s)) i) as [x|] eqn:Nx; [|congruence].
    assert (K : status_of (y_pool s) i = Some (i_status x)) by (unfold status_of; now rewrite Nx).
    destruct (i_status x) eqn:Sx;
      [eexists; eapply (RnCheck s a i); [exact E|exact K|discriminate|discriminate]
      |eexists; eapply (RnRefused s a i); [exact E|exact K|auto]
      |eexists; eapply (RnRefused s a i); [exact E|exact K|auto]
      |eexists; eapply (RnCheck s a i); [exact E|exact K|discriminate|discriminate]
      |eexists; eapply (RnCheck s a i); [exact E|exact K|discriminate|discriminate]].
  - right. eexists. now apply (RnDialFailed s a i).
  - right. destruct (N.eq_dec (dl_version d) protocol_version) as [V|V]; eexists; [eapply RnVersion; eassumption|eapply RnOther; eassumption].
  - right. eexists. eapply RnRead. exact E.
  - right. eexists. eapply RnWrite. exact E.
  - right. eexists. eapply RnUpdate. exact E.
  - right. eexists. eapply RnFill. exact E.
  - right. eexists. eapply RnUp. exact E.
  - right. eexists. eapply RnGo. exact E.
  - right. eexists. eapply RnWatch. exact E.
  - right. destruct (pl_slots (y_pool s)) as [|n] eqn:K; [lia|]. eexists. eapply RnRelease; eassumption.
Qed.

(** How far Run is from its select. *)
Definition distance (s : sys) : nat :=
  let n := List.length (pl_table (y_pool s)) in
  match y_run s with
  | RuSelect => 1 | RuStopped => 0 | RuPick => 18 + 2 * n
  | RuScan false l => 17 + n + List.length l | RuScan true l => 16 + List.length l | RuTest _ => 15 | RuLookup _ => 14 | RuLock _ _ => 13 | RuCheck _ _ => 12 | RuDial _ _ => 11
  | RuVersion _ _ _ => 10 | RuRead _ _ _ => 9 | RuWrite _ _ _ _ => 8 | RuUpdate _ _ _ => 7 | RuFill _ _ _ => 6 | RuUp _ _ => 5 | RuGo _ _ => 4 | RuWatch _ _ => 3 | RuFail => 2
  end.
Lemma closer s t : y_run s <> RuSelect -> run_step s t -> (distance t < distance s)%nat.
Proof.
  intros N St. unfold distance. cbv zeta. run_cases St; try contradiction; rewrite Er; fields; try lia.
  - apply Permutation_length in P1. lia.
  - destruct sec; lia.
  - destruct sec; cbn [List.length]; lia.
  - apply Permutation_length in P1. lia.
Qed.
Lemma stop_reached bans s : sys_steps (sys_start bans) s -> y_crash s = None -> y_quits s <> 0%nat ->
  exists t, run_steps s t /\ y_run t = RuStopped.
Proof.
  remember (distance s) as n eqn:En. revert s En. induction n as [n IH] using lt_wf_ind. intros s En R C Q.
  destruct (y_run s) eqn:E; try (
    destruct (pool_progress bans s R) as [[H|(H & _)]|(t & St)]; [congruence|congruence|];
    pose proof (closer s t ltac:(congruence) St) as Lt; destruct (run_keeps s t St) as (C' & Q'); 
    destruct (IH (distance t) ltac:(subst n; exact Lt) t eq_refl (YsMore _ _ _ R (YsRun s t C St)) ltac:(congruence) ltac:(congruence)) as (u & Ru & Eu);
    exists u; split; [exact (RsMore s t u St Ru)|exact Eu]).
  - eexists. split; [eapply RsMore; [apply RnQuit; assumption|apply RsNone]|reflexivity].
  - exists s. split; [apply RsNone|exact E].
Qed.

(** ** Executions *)
Lemma others_cons s t u : others_step s t -> others_steps t u -> others_steps s u.
Proof. intros St R. induction R as [t|t u v R IH Sx]; [exact (OsMore s s t (OsNone s) St)|exact (OsMore s u v (IH St) Sx)]. Qed.
Ltac o tac := eapply others_cons; [tac|cbv -[Z.add Z.sub]].

(** One peer connected; then the second address is dialled and does not answer. Stop is called, and
    the first peer leaves. *)
Lemma silent_case : exists s t, sys_steps (sys_start None) s /\ y_run s = RuDial addr_b 1 /\ live s = 1%nat /\
  others_steps s t /\ y_crash t = None /\ y_quits t = 1%nat /\ live t = 0%nat /\ pl_up (y_pool t) = [] /\
  map fst (pl_table (y_pool t)) = [addr_b; addr_a].
Proof.
  eexists. eexists. split.
  - add addr_a. run_dialled [(addr_a, 0%nat)] addr_a 0%nat StNew. run_finish addr_a 0%nat. add addr_b.
    run_dial [(addr_b, 1%nat); (addr_a, 0%nat)] addr_b 1%nat StNew. apply YsNone.
  - split; [reflexivity|]. split; [reflexivity|]. split.
    + o ltac:(apply OsEnv; [reflexivity|]; apply EnStop; reflexivity).
      o ltac:(apply OsWatch; [reflexivity|]; apply (WaReturn _ [] addr_a 0%nat []); reflexivity).
      o ltac:(apply OsWatch; [reflexivity|]; apply (WaStatus _ [] addr_a 0%nat []); [reflexivity|free]).
      o ltac:(apply OsWatch; [reflexivity|]; apply (WaRead _ [] addr_a 0%nat []); reflexivity).
      o ltac:(apply OsWatch; [reflexivity|]; eapply (WaWrite _ [] addr_a 0%nat _ []); reflexivity).
      o ltac:(apply OsWatch; [reflexivity|]; apply (WaDelete _ [] addr_a 0%nat []); reflexivity).
      apply OsNone.
    + repeat split; reflexivity.
Qed.

(** The same with a second peer that takes the connection and does not read. *)
Lemma unread_case : exists s t, sys_steps (sys_start None) s /\ y_run s = RuGo addr_b 1 /\ live s = 2%nat /\
  others_steps s t /\ y_crash t = None /\ y_quits t = 1%nat /\ live t = 1%nat /\ map fst (pl_up (y_pool t)) = [addr_b] /\
  map fst (pl_table (y_pool t)) = [addr_b; addr_a].
Proof.
  eexists. eexists. split.
  - add addr_a. run_dialled [(addr_a, 0%nat)] addr_a 0%nat StNew. run_finish addr_a 0%nat. add addr_b.
    run_dialled [(addr_b, 1%nat); (addr_a, 0%nat)] addr_b 1%nat StNew. run_started addr_b 1%nat. apply YsNone.
  - split; [reflexivity|]. split; [reflexivity|]. split.
    + o ltac:(apply OsEnv; [reflexivity|]; apply EnStop; reflexivity).
      o ltac:(apply OsWatch; [reflexivity|]; apply (WaReturn _ [] addr_a 0%nat []); reflexivity).
      o ltac:(apply OsWatch; [reflexivity|]; apply (WaStatus _ [] addr_a 0%nat []); [reflexivity|free]).
      o ltac:(apply OsWatch; [reflexivity|]; apply (WaRead _ [] addr_a 0%nat []); reflexivity).
      o ltac:(apply OsWatch; [reflexivity|]; eapply (WaWrite _ [] addr_a 0%nat _ []); reflexivity).
      o ltac:(apply OsWatch; [reflexivity|]; apply (WaDelete _ [] addr_a 0%nat []); reflexivity).
      apply OsNone.
    + repeat split; reflexivity.
Qed.
