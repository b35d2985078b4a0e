(** Proofs for C107: whom Run dials. *)
From Coq Require Import Permutation Lia.
From Verif Require Import Pool SpecPool SpecDial PoolProofs SilentProofs RecordProofs.

Lemma wanted_false sec p i : wanted_at sec p i = false ->
  if sec then status_of p i <> Some StFailedConn else status_of p i <> Some StNew /\ status_of p i <> Some StDisconnected.
Proof.
  unfold wanted_at, status_of. destruct (nth_error (pl_infos p) i) as [x|]; [|destruct sec; [|split]; discriminate].
  destruct sec, (i_status x); cbn; try discriminate; intros _; try split; discriminate.
Qed.
Lemma wanted_true sec p i : wanted_at sec p i = true ->
  if sec then status_of p i = Some StFailedConn else exists st, status_of p i = Some st /\ (st = StNew \/ st = StDisconnected).
Proof.
  unfold wanted_at, status_of. destruct (nth_error (pl_infos p) i) as [x|]; [|discriminate].
  destruct sec, (i_status x); cbn; try discriminate; intros _; eauto.
Qed.
Lemma stale_more l l' i : once_stale l i -> once_stale (l ++ l') i.
Proof. intros (v & I & H). exists v. split; [apply in_or_app; now left|exact H]. Qed.
Lemma sound_more l l' i : once_sound l i -> once_sound (l ++ l') i.
Proof. intros (v & I & H). exists v. split; [apply in_or_app; now left|exact H]. Qed.
Lemma trace_last s l t : trace s l t -> exists l', l = l' ++ [t].
Proof. intros [|s0 l0 t0 u0 T St]; [now exists []|now exists l0]. Qed.

Lemma trace_first s l t : trace s l t -> In s l.
Proof. induction 1; [now left|apply in_or_app; now left]. Qed.
Lemma trace_steps s l t : trace s l t -> sys_steps s t.
Proof. induction 1; [apply YsNone|eapply YsMore; eassumption]. Qed.
(** While Run is in notConnected nobody changes the table. *)
Lemma scan_table s t : sys_step s t -> scanning s -> pl_table (y_pool t) = pl_table (y_pool s).
Proof.
  intros St (sec0 & l0 & Es). destruct St as [C St|C St|C St|C St|C St];
    [run_cases St|watch_cases St|ban_cases St|close_cases St|env_cases St]; fields; try reflexivity;
    exfalso; unfold table_free in *; rewrite Es in *; assumption.
Qed.
(** What the scan knows: [seen] was passed in this loop. *)
Definition scan_inv (l : list sys) (t : sys) : Prop :=
  exists sec todo seen, y_run t = RuScan sec todo /\ Permutation (seen ++ todo) (pl_table (y_pool t)) /\
    (forall v, In v l -> pl_table (y_pool v) = pl_table (y_pool t)) /\
    if sec then exists l1 l2, l = l1 ++ l2 /\ (forall b j, In (b, j) (pl_table (y_pool t)) -> once_stale l1 j) /\
                  (forall b j, In (b, j) seen -> once_sound l2 j) /\ In t l2
    else (forall b j, In (b, j) seen -> once_stale l j).
Lemma others_scan s t : sys_step s t -> run_step s t \/ y_run t = y_run s.
Proof.
  intros [C St|C St|C St|C St|C St]; [now left|..]; right;
    [watch_cases St|ban_cases St|close_cases St|env_cases St]; reflexivity.
Qed.
Lemma scan_first s t : sys_step s t -> y_run s = RuPick -> scanning t -> scan_inv [t] t.
Proof.
  intros St E (sec & l & Et). destruct (others_scan s t St) as [St'|Es]; [|congruence].
  inversion St'; subst; try congruence. exists false, o, []. split; [reflexivity|]. split; [exact H0|].
  split; [intros v [<-|[]]; reflexivity|]. intros b j [].
Qed.
Lemma scan_step l0 s t : In s l0 -> scan_inv l0 s -> sys_step s t -> scanning t -> scan_inv (l0 ++ [t]) t.
Proof.
  intros Il (sec0 & todo & seen & E & P & T & H) St (sec' & todo' & E').
  assert (Tt : pl_table (y_pool t) = pl_table (y_pool s)) by (apply scan_table; [exact St|now exists sec0, todo]).
  assert (T' : forall v, In v (l0 ++ [t]) -> pl_table (y_pool v) = pl_table (y_pool t)).
  { intros v Iv. apply in_app_or in Iv as [Iv|[<-|[]]]; [|reflexivity]. rewrite Tt. now apply T. }
  destruct (others_scan s t St) as [St'|Es].
  - inversion St'; subst; try congruence; cbn [go leak y_run] in E'; try discriminate E'.
    + (* an entry passed *)
      rewrite E in H0. injection H0 as <- ->. exists sec0, l, (seen ++ [(a, i)]). split; [reflexivity|]. split; [|split; [exact T'|]].
      * rewrite Tt, <- app_assoc. exact P.
      * apply wanted_false in H1. destruct sec0.
        -- destruct H as (l1 & l2 & El & H2 & H3 & H4). exists l1, (l2 ++ [go s (y_pool s) (RuScan true l)]).
           split; [rewrite El; apply eq_sym, app_assoc|]. rewrite Tt. split; [exact H2|]. split.
           ++ intros b j I. apply in_app_or in I as [I|[I|[]]]; [apply sound_more; eauto|]. injection I as <- <-.
              apply sound_more. now exists s.
           ++ apply in_or_app. right. now left.
        -- intros b j I. apply in_app_or in I as [I|[I|[]]]; [apply stale_more; eauto|]. injection I as <- <-.
           apply stale_more. now exists s.
    + (* the second loop *)
      rewrite E in H0. injection H0 as -> ->. exists true, o, []. split; [reflexivity|]. split; [exact H1|]. split; [exact T'|].
      exists l0, [go s (y_pool s) (RuScan true o)]. split; [reflexivity|]. split; [|split; [intros b j []|now left]].
      intros b j I. apply (H b j). rewrite app_nil_r in P. apply (Permutation_in _ (Permutation_sym P)). rewrite <- Tt. exact I.
  - exists sec0, todo, seen. split; [congruence|]. split; [now rewrite Tt|]. split; [exact T'|]. destruct sec0.
    + destruct H as (l1 & l2 & El & H2 & H3 & H4). exists l1, (l2 ++ [t]). split; [rewrite El; apply eq_sym, app_assoc|].
      rewrite Tt. split; [exact H2|]. split; [intros; apply sound_more; eauto|apply in_or_app; right; now left].
    + intros b j I. apply stale_more. eauto.
Qed.
Lemma scan_trace s l t : trace s l t -> scan_inv [s] s -> (forall v, In v l -> scanning v) -> scan_inv l t.
Proof.
  induction 1 as [s|s l t u T IH St]; intros H0 F; [exact H0|]. destruct (trace_last _ _ _ T) as (l' & El).
  apply (scan_step l t u); [rewrite El; apply in_or_app; right; now left| |exact St|apply F; apply in_or_app; right; now left].
  apply IH; [exact H0|]. intros v I. apply F. apply in_or_app. now left.
Qed.

Lemma picked bans s0 s l t u a : sys_steps (sys_start bans) s0 -> y_run s0 = RuPick -> sys_step s0 s -> trace s l t ->
  (forall v, In v l -> scanning v) -> sys_step t u -> y_run u = RuTest a ->
  y_pool u = y_pool t /\ (forall v, In v l -> pl_table (y_pool v) = pl_table (y_pool t)) /\
   ((exists i st, In (a, i) (pl_table (y_pool t)) /\ status_of (y_pool t) i = Some st /\ (st = StNew \/ st = StDisconnected)) \/
    (exists i, In (a, i) (pl_table (y_pool t)) /\ status_of (y_pool t) i = Some StFailedConn /\
       forall b j, In (b, j) (pl_table (y_pool t)) -> once_stale l j) \/
    (a = [] /\ exists l1 l2, l = l1 ++ l2 /\ forall b j, In (b, j) (pl_table (y_pool t)) -> once_stale l1 j /\ once_sound l2 j)).
Proof.
  intros _ E0 St0 T F St' Eu. assert (Fs : scanning s) by (apply F; exact (trace_first s l t T)).
  destruct (scan_trace s l t T (scan_first s0 s St0 E0 Fs) F) as (sec & todo & seen & E & P & Tb & H).
  destruct (others_scan t u St') as [St|Es]; [|congruence].
  inversion St; subst; try congruence; cbn [go leak y_run] in Eu; try discriminate Eu; rewrite E in H0.
  - injection Eu as ->. injection H0 as -> ->. split; [reflexivity|]. split; [exact Tb|].
    assert (I : In (a, i) (pl_table (y_pool t))) by (apply (Permutation_in _ P); apply in_or_app; right; now left).
    apply wanted_true in H1. destruct sec0.
    + right; left. exists i. split; [exact I|]. split; [exact H1|]. destruct H as (l1 & l2 & -> & H2 & _). intros b j Ib. apply stale_more. eauto.
    + left. destruct H1 as (st & H1 & H2). exists i, st. auto.
  - injection Eu as <-. injection H0 as -> ->. split; [reflexivity|]. split; [exact Tb|]. right; right. split; [reflexivity|].
    destruct H as (l1 & l2 & -> & H2 & H3 & _). exists l1, l2. split; [reflexivity|]. intros b j I. split; [eauto|]. apply (H3 b j).
    rewrite app_nil_r in P. exact (Permutation_in _ (Permutation_sym P) I).
Qed.

Lemma pick_fresh p a i st : In (a, i) (pl_table p) -> status_of p i = Some st -> st = StNew \/ st = StDisconnected ->
  exists o, Permutation o (pl_table p) /\ not_connected o o p = a.
Proof.
  intros I E F. apply in_split in I as (l1 & l2 & El). exists ((a, i) :: l1 ++ l2). rewrite El. split; [apply Permutation_middle|].
  unfold not_connected, first_with. cbn [find snd fst]. unfold status_of in E. destruct (nth_error (pl_infos p) i) as [x|]; [|discriminate].
  injection E as E. rewrite E. now destruct F as [->| ->].
Qed.
Lemma pick_failed p a i : NoDup (map fst (pl_table p)) -> nobody_fresh p -> In (a, i) (pl_table p) -> status_of p i = Some StFailedConn ->
  exists o, Permutation o (pl_table p) /\ not_connected o o p = a.
Proof.
  intros N F I E. apply in_split in I as (l1 & l2 & El). exists ((a, i) :: l1 ++ l2). rewrite El. split; [apply Permutation_middle|].
  unfold not_connected.
  destruct (first_with _ (pl_infos p) _) as [b|] eqn:F1.
  - exfalso. apply first_with_some in F1 as (j & x & Ij & Nx & G).
    assert (K : In (b, j) (pl_table p)) by (rewrite El; apply (Permutation_in _ (Permutation_middle l1 l2 (a, i))); exact Ij).
    destruct (F b j K) as [K1 K2]. unfold status_of in K1, K2. rewrite Nx in K1, K2. destruct (i_status x); try discriminate; congruence.
  - unfold first_with. cbn [find snd fst]. unfold status_of in E. destruct (nth_error (pl_infos p) i) as [x|]; [|discriminate].
    injection E as E. now rewrite E.
Qed.

Lemma dials bans s a i : sys_steps (sys_start bans) s -> y_run s = RuSelect -> (pl_slots (y_pool s) < 15)%nat ->
  (pl_connected (y_pool s) <= 15)%Z -> In (a, i) (pl_table (y_pool s)) -> a <> [] ->
  status_of (y_pool s) i = Some StNew \/ status_of (y_pool s) i = Some StDisconnected \/
    (status_of (y_pool s) i = Some StFailedConn /\ nobody_fresh (y_pool s)) ->
  exists t, run_steps s t /\ y_run t = RuDial a i.
Proof.
  intros R E Sl C I Na St. destruct (table_reach bans s R) as (N & _ & V).
  set (p := set_slots (y_pool s) (S (pl_slots (y_pool s)))).
  assert (Po : exists o, Permutation o (pl_table p) /\ not_connected o o p = a).
  { destruct St as [St|[St|[St F]]].
    - now apply (pick_fresh p a i StNew I St); auto.
    - now apply (pick_fresh p a i StDisconnected I St); auto.
    - now apply (pick_failed p a i N F I St). }
  destruct Po as (o & Po & Eo).
  assert (U : unlocked (y_pool s) i).
  { pose proof (lock_reach bans s R) as Hi. destruct (Hi ltac:(congruence)) as (_ & _ & D). rewrite E in D.
    pose proof (V a i I) as Li. apply nth_error_Some in Li. destruct (nth_error (pl_infos (y_pool s)) i) as [x|] eqn:Nx; [|congruence].
    exists x. split; [exact Nx|]. destruct (i_locked x) eqn:Lx; [|reflexivity]. specialize (D i true). unfold locks in D. rewrite nth_error_map, Nx in D.
    cbn in D. rewrite Lx in D. destruct (D eq_refl) as (D1 & _). discriminate (D1 eq_refl). }
  eexists. split.
  - eapply RsMore; [apply RnToken; [exact E|exact Sl]|].
    eapply run_app; [apply (scan_alone _ o o); [reflexivity|exact Po|exact Po]|].
    eapply RsMore; [eapply RnTest; [reflexivity| |]|].
    { cbn. fold p. now rewrite Eo. } { exact C. }
    eapply RsMore; [eapply RnFound; [reflexivity|]|].
    { cbn. fold p. rewrite Eo. exact (in_lookup a _ i N I). }
    eapply RsMore; [eapply RnLock; [reflexivity|exact U]|].
    eapply RsMore; [|apply RsNone].
    destruct U as (x & Nx & Lx).
    eapply (RnCheck _ _ _ (i_status x)); [reflexivity| | |];
      unfold status_of in *; rewrite Nx in St; cbn;
      [|destruct St as [St|[St|[St _]]]; congruence..].
    rewrite update_nth, Nat.eqb_refl, Nx. reflexivity.
  - cbn. fold p. now rewrite Eo.
Qed.

(** If the records do not change meanwhile, what notConnected returns is what it should. *)
Lemma picked_undisturbed bans s0 s l t u a : sys_steps (sys_start bans) s0 -> y_run s0 = RuPick -> sys_step s0 s -> trace s l t ->
  (forall v, In v l -> scanning v) -> sys_step t u -> y_run u = RuTest a ->
  (forall v j, In v l -> status_of (y_pool v) j = status_of (y_pool t) j) ->
  (exists i st, In (a, i) (pl_table (y_pool t)) /\ status_of (y_pool t) i = Some st /\ (st = StNew \/ st = StDisconnected)) \/
  (nobody_fresh (y_pool t) /\ exists i, In (a, i) (pl_table (y_pool t)) /\ status_of (y_pool t) i = Some StFailedConn) \/
  (a = [] /\ nobody_to_connect (y_pool t)).
Proof.
  intros R E0 St0 T F St Eu Sm.
  assert (V : valid_table (y_pool t)).
  { apply (table_reach bans t). eapply sys_app; [exact (YsMore _ _ _ R St0)|exact (trace_steps _ _ _ T)]. }
  destruct (picked bans s0 s l t u a R E0 St0 T F St Eu) as (_ & _ & [H|[(i & I & E & H)|(Ea & l1 & l2 & El & H)]]); [now left|right; left|right; right].
  - split; [|now exists i]. intros b j Ib. destruct (H b j Ib) as (v & Iv & H1). now rewrite (Sm v j Iv) in H1.
  - split; [exact Ea|]. intros b j Ib. destruct (H b j Ib) as ((v & Iv & H1 & H2) & (w & Iw & H3)).
    rewrite (Sm v j) in H1, H2 by (rewrite El; apply in_or_app; now left).
    rewrite (Sm w j) in H3 by (rewrite El; apply in_or_app; now right).
    specialize (V b j Ib). apply nth_error_Some in V. unfold status_of in *. destruct (nth_error (pl_infos (y_pool t)) j) as [x|]; [|congruence].
    destruct (i_status x); auto; congruence.
Qed.

(** ** Who makes a record connected, and new *)
Lemma status_upd p j f i : status_of (upd p j f) i =
  if (j =? i)%nat then match nth_error (pl_infos p) i with Some x => Some (i_status (f x)) | None => None end else status_of p i.
Proof. unfold status_of, upd. cbn [pl_infos set_infos]. rewrite update_nth. destruct (j =? i)%nat; [destruct (nth_error _ i); reflexivity|reflexivity]. Qed.
Lemma step_status s t k sk : sys_step s t -> status_of (y_pool t) k = Some sk ->
  status_of (y_pool s) k = Some sk \/
  (sk = StNew /\ k = List.length (pl_infos (y_pool s))) \/ (sk = StConnected /\ exists a d, y_run s = RuUpdate a k d /\ run_step s t) \/
  (sk <> StNew /\ sk <> StConnected).
Proof.
  intros St0. pose proof St0 as St. destruct St0 as [C0 S0|C0 S0|C0 S0|C0 S0|C0 S0]; [pose proof S0 as Srun; run_cases S0|watch_cases S0|ban_cases S0|close_cases S0|env_cases S0]; fields; auto;
  try (rewrite status_upd; match goal with |- context [(?j =? ?m)%nat] => destruct (Nat.eqb_spec j m) as [->|]; [|auto] end;
    unfold status_of; destruct (nth_error _ _) as [x|]; [|discriminate]; intro Ex; injection Ex as <-; cbn; auto;
    right; right; right; split; discriminate).
  - rewrite status_upd. destruct (Nat.eqb_spec i k) as [->|]; [|auto]. destruct (nth_error _ _) as [x|]; [|discriminate].
    intro Ex. injection Ex as <-. right; right; left. split; [reflexivity|]. now exists a, d.
  - destruct (add_cases r a (y_pool s)) as [->|(_ & _ & _ & ->)]; [auto|]. unfold status_of. cbn [pl_infos set_table set_infos].
    destruct (Nat.lt_ge_cases k (List.length (pl_infos (y_pool s)))) as [Lk|Lk]; [rewrite nth_error_app1 by exact Lk; auto|].
    rewrite nth_error_app2 by exact Lk. destruct (k - List.length (pl_infos (y_pool s)))%nat as [|[|m]] eqn:Ek; cbn; try discriminate.
    intro Ex. injection Ex as <-. right; left. split; [reflexivity|lia].
Qed.

(** The record Run is about to dial or is dialling is not connected. *)
Definition not_up_inv (s : sys) : Prop :=
  match y_run s with
  | RuScan _ l => incl l (pl_table (y_pool s))
  | RuTest a => a <> [] -> forall i, In (a, i) (pl_table (y_pool s)) -> status_of (y_pool s) i <> Some StConnected
  | RuLookup a => forall i, In (a, i) (pl_table (y_pool s)) -> status_of (y_pool s) i <> Some StConnected
  | RuLock _ i | RuCheck _ i | RuDial _ i | RuVersion _ i _ | RuRead _ i _ | RuWrite _ i _ _ | RuUpdate _ i _ =>
      status_of (y_pool s) i <> Some StConnected
  | _ => True
  end.
Lemma not_up_run s t : NoDup (map fst (pl_table (y_pool s))) -> run_step s t -> not_up_inv s -> not_up_inv t.
Proof.
  intros Nd St. unfold not_up_inv.
  assert (Lk : forall k j f, (forall x, i_status (f x) = i_status x) -> status_of (upd (y_pool s) j f) k = status_of (y_pool s) k).
  { intros k j f Hf. rewrite status_upd. destruct (Nat.eqb_spec j k); [|reflexivity]. unfold status_of. destruct (nth_error _ _); [now rewrite Hf|reflexivity]. }
  assert (One : forall x j k, In (x, j) (pl_table (y_pool s)) -> In (x, k) (pl_table (y_pool s)) -> j = k).
  { intros x j k I J. apply (in_lookup _ _ _ Nd) in I, J. congruence. }
  run_cases St; rewrite Er; fields; auto.
  - intros _ kv. apply (Permutation_in _ P1).
  - intros In0 Ne j I. assert (I0 : In (a, i) (pl_table (y_pool s))) by (apply In0; now left). rewrite (One a j i I I0).
    apply wanted_true in G. destruct sec; [congruence|]. destruct G as (st & G & [->| ->]); congruence.
  - intros In0 kv I. apply In0. now right.
  - intros _ kv. apply (Permutation_in _ P1).
  - intro H. apply H. now apply lookup_in.
  - now rewrite Lk.
Qed.
Lemma not_up_step s t : NoDup (map fst (pl_table (y_pool s))) -> valid_table (y_pool s) -> sys_step s t -> not_up_inv s -> not_up_inv t.
Proof.
  intros Nd Vt St Hs. destruct (others_scan s t St) as [Sr|Er]; [now apply (not_up_run s)|].
  assert (Nc : forall k, status_of (y_pool t) k = Some StConnected -> status_of (y_pool s) k = Some StConnected).
  { intros k E. destruct (step_status s t k _ St E) as [E'|[(E' & _)|[(_ & x & d & E1 & E2)|(_ & E')]]]; try congruence.
    exfalso. clear - E1 E2 Er. rewrite E1 in Er. inversion E2; subst; cbn in Er; congruence. }
  assert (Ni : forall x i, In (x, i) (pl_table (y_pool t)) -> status_of (y_pool t) i = Some StConnected -> In (x, i) (pl_table (y_pool s))).
  { intros x i I E. destruct (step_table s t St x i I) as [I'| ->]; [exact I'|]. apply Nc in E. unfold status_of in E.
    rewrite (proj2 (nth_error_None _ _) (le_n _)) in E. discriminate E. }
  unfold not_up_inv in *. rewrite Er. destruct (y_run s) eqn:E0; auto.
  - rewrite (scan_table s t St); [exact Hs|]. eexists. eexists. exact E0.
  - intros Ne i I C. apply (Hs Ne i); auto.
  - intros i I C. apply (Hs i); auto.
Qed.
Lemma not_up bans s : sys_steps (sys_start bans) s -> not_up_inv s.
Proof.
  intro R. assert (H : sys_steps (sys_start bans) s /\ not_up_inv s); [|apply H]. revert R. apply (sys_ind' (fun s => sys_steps (sys_start bans) s /\ not_up_inv s)).
  - split; [apply YsNone|exact I].
  - intros u v (Ru & Hu) St. split; [exact (YsMore _ _ _ Ru St)|]. destruct (table_reach bans u Ru) as (N1 & _ & V1). now apply (not_up_step u).
Qed.

Lemma dialling_not_up bans s a i : sys_steps (sys_start bans) s ->
  y_run s = RuCheck a i \/ y_run s = RuDial a i \/ (exists d, y_run s = RuVersion a i d) \/ (exists d, y_run s = RuUpdate a i d) ->
  status_of (y_pool s) i <> Some StConnected.
Proof.
  intros R E. pose proof (not_up bans s R) as H. unfold not_up_inv in H.
  destruct E as [E|[E|[(d & E)|(d & E)]]]; rewrite E in H; exact H.
Qed.
