(** A peer can always be brought to its end: from every reachable state some steps of the goroutines
    that exist lead to one where all have ended. A measure decreases along chosen steps. *)
From Verif Require Import Peer SpecMessages SpecPeer PeerProofs Shutdown ShutdownProofs.

Section Live.
Context (X : Ext).
Implicit Types (s t u : pstate X).

Definition dw (d : dpc) : nat := match d with DCas => 4 | DQuit => 3 | DConn => 2 | DWait => 1 | DRet => 0 end.
Definition ww (w : wpc X) : nat := match w with WSelect => 6 | WCheck _ => 8 | WWrite _ => 7 | WDone => 5 | WDisc d => dw d end.
Definition rw (r : rpc X) : nat :=
  match r with RTest => 7 | RRead => 6 | RHandle => 8 | RSend _ => 12 | RBan _ => 0 | RDone => 5 | RDisc d => dw d end.
Definition ow (o : opc X) : nat := match o with OSend _ => 4 | OSent => 0 | ODisc d => dw d | OWait => 2 | OWaitWg => 1 | OWaited => 0 end.
Definition ows (l : list (opc X)) : nat := fold_right (fun o n => (ow o + n)%nat) 0%nat l.
Definition left_over s : nat := (ww (p_writer s) + rw (p_reader s) + ows (p_others s))%nat.
Lemma ows_app a b : ows (a ++ b) = (ows a + ows b)%nat.
Proof. induction a as [|o a IH]; cbn; [reflexivity|]. unfold ows in *. lia. Qed.
Lemma ows_cons o b : ows (o :: b) = (ow o + ows b)%nat.
Proof. reflexivity. Qed.

Definition calm_peer s : Prop := inv X s /\ p_crash s = None /\ ~ banning (p_reader s) /\ encodable s.
Definition progress_to s t : Prop := internal s t /\ calm_peer t /\ (left_over t < left_over s)%nat.

Lemma dstep_down s d t d' : dstep s d t d' -> p_crash s = None -> p_crash t = None -> (dw d' < dw d)%nat.
Proof. intros []; cbn; intros; try lia. discriminate. Qed.

(** What a step of Disconnect leaves alone. *)
Lemma dstep_same s d t d' : dstep s d t d' -> p_writer t = p_writer s /\ p_reader t = p_reader s /\ p_others t = p_others s.
Proof. now intros []. Qed.

Ltac sent S := intros m' P; apply S; unfold unsent in *; cbn in *;
  repeat match goal with E : p_writer _ = _ |- _ => rewrite E in * | E : p_reader _ = _ |- _ => rewrite E in * end;
  intuition (try discriminate).

(** The write handler can go on, or waits. *)
Lemma writer_live s : calm_peer s ->
  (exists t, progress_to s t) \/ (p_writer s = WSelect /\ p_quits s = 0%nat) \/ (p_writer s = WDisc DWait /\ p_wg s <> 0%Z) \/ p_writer s = WDisc DRet.
Proof.
  intros (Hi & C & B & S).
  assert (K : forall t, wstep s t -> p_crash t = None -> p_reader t = p_reader s -> p_others t = p_others s ->
    (ww (p_writer t) < ww (p_writer s))%nat -> encodable t -> exists t, progress_to s t).
  { intros t St Ct Er Eo L St'. exists t. split; [left; exact St|]. split.
    - split; [exact (winv X s t Hi C St)|]. split; [exact Ct|]. split; [now rewrite Er|exact St'].
    - unfold left_over. rewrite Er, Eo. lia. }
  assert (KD : forall d t d', p_writer s = WDisc d -> dstep s d t d' -> exists t, progress_to s t).
  { intros d t d' E D. pose proof Hi as (_ & Bq & _ & _ & W & _). unfold holders in Bq. rewrite E in Bq, W. cbn [w_quits w_ok] in Bq, W.
    destruct (dstep_inv X s d t d' (r_quits X (p_reader s) + o_quits X (p_others s))%nat D W) as (_ & C' & _); [lia|exact C|].
    pose proof (dstep_down s d t d' D C C') as L. destruct (dstep_same s d t d' D) as (T2 & T3 & T4).
    apply (K (set_writer t (WDisc d'))); cbn [set_writer p_crash p_reader p_others p_writer]; auto.
    - exact (WsDisc X s d t d' E D).
    - rewrite E. exact L.
    - intros m' P. apply S. unfold unsent in *. cbn [set_writer p_writer p_reader p_others] in P. rewrite T3, T4 in P.
      destruct P as [P|[P|[P|P]]]; try discriminate P; auto. }
  destruct (p_writer s) as [|m|m| |d] eqn:E.
  - destruct (p_quits s) as [|n] eqn:Q; [right; left; auto|]. left.
    apply (K (set_writer s WDone)); cbn [set_writer p_crash p_reader p_others p_writer ww]; auto.
    + apply WsQuit; [exact E|lia].
    + intros m' P. apply S. unfold unsent in *. cbn [set_writer p_writer p_reader p_others] in P.
      destruct P as [P|[P|[P|P]]]; try discriminate P; auto.
  - left. destruct (p_flag s) eqn:F.
    + apply (K (set_writer s WDone)); cbn [set_writer p_crash p_reader p_others p_writer ww]; auto; try lia.
      * now apply (WsDead X s m).
      * intros m' P. apply S. unfold unsent in *. cbn [set_writer p_writer p_reader p_others] in P.
        destruct P as [P|[P|[P|P]]]; try discriminate P; auto.
    + apply (K (set_writer s (WWrite m))); cbn [set_writer p_crash p_reader p_others p_writer ww]; auto; try lia.
      * now apply (WsLive X s m).
      * intros m' P. apply S. unfold unsent in *. cbn [set_writer p_writer p_reader p_others] in P.
        destruct P as [P|[P|[P|P]]]; try discriminate P; auto. injection P as <-. auto.
  - left. destruct (S m) as ((f & n) & W); [unfold unsent; auto|].
    eapply (K (set_writer (PState X _ _ _ _ _ _ _ _ _ (p_wire s ++ []) _ _) WDone)).
    + apply (WsFailed X s m f n [] f E W eq_refl).
    + exact C.
    + reflexivity.
    + reflexivity.
    + cbn. lia.
    + intros m' P. apply S. unfold unsent in *. cbn [set_writer p_writer p_reader p_others] in P.
      destruct P as [P|[P|[P|P]]]; try discriminate P; auto.
  - left. pose proof Hi as (A & _).
    destruct (wg_done_fields X s) as (F1 & F2 & F3 & F4 & F5 & F6 & F7 & F8 & F9 & F10 & F11 & F12).
    assert (G : (1 <= p_wg s)%Z) by (rewrite A, E; destruct (p_reader s); cbn; lia).
    apply (K (set_writer (wg_done s) (WDisc DCas))); cbn [set_writer p_crash p_reader p_others p_writer ww dw]; auto; try lia.
    + now apply WsDone.
    + now rewrite F12.
    + intros m' P. apply S. unfold unsent in *. cbn [set_writer p_writer p_reader p_others] in P. rewrite F6, F7 in P.
      destruct P as [P|[P|[P|P]]]; try discriminate P; auto.
  - destruct d; [ | | | |auto].
    + left. destruct (d_enabled X s DCas Hi) as (t & d' & D); [discriminate|discriminate|]. exact (KD DCas t d' eq_refl D).
    + left. destruct (d_enabled X s DQuit Hi) as (t & d' & D); [discriminate|discriminate|]. exact (KD DQuit t d' eq_refl D).
    + left. destruct (d_enabled X s DConn Hi) as (t & d' & D); [discriminate|discriminate|]. exact (KD DConn t d' eq_refl D).
    + destruct (Z.eq_dec (p_wg s) 0) as [Z|Z]; [left|auto].
      destruct (d_enabled X s DWait Hi) as (t & d' & D); [discriminate|auto|]. exact (KD DWait t d' eq_refl D).
Qed.

(** The read handler can go on, or waits. *)
Lemma reader_live s : calm_peer s ->
  (exists t, progress_to s t) \/ (exists m, p_reader s = RSend m /\ p_quits s = 0%nat /\ p_writer s <> WSelect) \/
  (p_reader s = RDisc DWait /\ p_wg s <> 0%Z) \/ p_reader s = RDisc DRet.
Proof.
  intros (Hi & C & B & S).
  assert (K : forall t, rstep s t -> p_crash t = None -> ~ banning (p_reader t) -> p_writer t = p_writer s -> p_others t = p_others s ->
    (rw (p_reader t) < rw (p_reader s))%nat -> encodable t -> exists t, progress_to s t).
  { intros t St Ct Nb Ew Eo L St'. exists t. split; [right; left; exact St|]. split.
    - split; [exact (rinv X s t Hi C St)|]. auto.
    - unfold left_over. rewrite Ew, Eo. lia. }
  assert (P1 : forall r, (forall m, r <> RSend m) -> encodable (set_reader s r)).
  { intros r N m' P. apply S. unfold unsent in *. cbn [set_reader p_writer p_reader p_others] in P.
    destruct P as [P|[P|[P|P]]]; auto. now apply N in P. }
  assert (KD : forall d t d', p_reader s = RDisc d -> dstep s d t d' -> exists t, progress_to s t).
  { intros d t d' E D. pose proof Hi as (_ & Bq & _ & _ & _ & R & _). unfold holders in Bq. rewrite E in Bq, R. cbn [r_quits r_ok] in Bq, R.
    destruct (dstep_inv X s d t d' (w_quits X (p_writer s) + o_quits X (p_others s))%nat D R) as (_ & C' & _); [lia|exact C|].
    pose proof (dstep_down s d t d' D C C') as L. destruct (dstep_same s d t d' D) as (T2 & T3 & T4).
    apply (K (set_reader t (RDisc d'))); cbn [set_reader p_crash p_reader p_others p_writer]; auto.
    - exact (RsDisc X s d t d' E D).
    - intros (e & F). discriminate F.
    - rewrite E. exact L.
    - intros m' P. apply S. unfold unsent in *. cbn [set_reader p_writer p_reader p_others] in P. rewrite T2, T4 in P.
      destruct P as [P|[P|[P|P]]]; try discriminate P; auto. }
  destruct (p_reader s) as [| | |m|d| |d] eqn:E.
  - left. destruct (p_flag s) eqn:F.
    + apply (K (set_reader s RDone)); cbn [set_reader p_crash p_reader p_others p_writer rw]; auto; try lia.
      * now apply RsStop.
      * intros (e & G). discriminate G.
      * apply P1. discriminate.
    + apply (K (set_reader s RRead)); cbn [set_reader p_crash p_reader p_others p_writer rw]; auto; try lia.
      * now apply RsGo.
      * intros (e & G). discriminate G.
      * apply P1. discriminate.
  - left. apply (K (set_reader s RDone)); cbn [set_reader p_crash p_reader p_others p_writer rw]; auto; try lia.
    + now apply RsFailed.
    + intros (e & G). discriminate G.
    + apply P1. discriminate.
  - left. apply (K (set_reader s RTest)); cbn [set_reader p_crash p_reader p_others p_writer rw]; auto; try lia.
    + now apply RsNext.
    + intros (e & G). discriminate G.
    + apply P1. discriminate.
  - destruct (p_quits s) as [|n] eqn:Q.
    + destruct (p_writer s) as [|m'|m'| |d'] eqn:Ew; [left|right; left; exists m; repeat split; discriminate..].
      exists (set_reader (take s m) RHandle). pose proof (RsSent X s m E Ew) as St.
      split; [right; left; exact St|]. split.
      * split; [exact (rinv X s _ Hi C St)|]. split; [exact C|]. split; [intros (e & G); discriminate G|].
        intros m' P. apply S. unfold unsent in *. cbn [set_reader take p_writer p_reader p_others] in P.
        destruct P as [P|[P|[P|P]]]; try discriminate P; auto. injection P as <-. auto.
      * unfold left_over. cbn [set_reader take p_writer p_reader p_others ww rw]. rewrite E, Ew. cbn [ww rw]. lia.
    + left. apply (K (set_reader s RHandle)); cbn [set_reader p_crash p_reader p_others p_writer rw]; auto; try lia.
      * apply (RsQuit X s m E). lia.
      * intros (e & G). discriminate G.
      * apply P1. discriminate.
  - exfalso. apply B. now exists d.
  - left. pose proof Hi as (A & _).
    destruct (wg_done_fields X s) as (F1 & F2 & F3 & F4 & F5 & F6 & F7 & F8 & F9 & F10 & F11 & F12).
    assert (G : (1 <= p_wg s)%Z) by (rewrite A, E; destruct (p_writer s); cbn; lia).
    apply (K (set_reader (wg_done s) (RDisc DCas))); cbn [set_reader p_crash p_reader p_others p_writer rw dw]; auto; try lia.
    + now apply RsDone.
    + now rewrite F12.
    + intros (e & G'). discriminate G'.
    + intros m' P. apply S. unfold unsent in *. cbn [set_reader p_writer p_reader p_others] in P. rewrite F5, F7 in P.
      destruct P as [P|[P|[P|P]]]; try discriminate P; auto.
  - destruct d; [ | | | |auto].
    + left. destruct (d_enabled X s DCas Hi) as (t & d' & D); [discriminate|discriminate|]. exact (KD DCas t d' eq_refl D).
    + left. destruct (d_enabled X s DQuit Hi) as (t & d' & D); [discriminate|discriminate|]. exact (KD DQuit t d' eq_refl D).
    + left. destruct (d_enabled X s DConn Hi) as (t & d' & D); [discriminate|discriminate|]. exact (KD DConn t d' eq_refl D).
    + destruct (Z.eq_dec (p_wg s) 0) as [Z|Z]; [left|auto].
      destruct (d_enabled X s DWait Hi) as (t & d' & D); [discriminate|auto|]. exact (KD DWait t d' eq_refl D).
Qed.

(** What the others may wait for. *)
Definition waits_for s (o : opc X) : Prop :=
  match o with
  | OSend _ => p_quits s = 0%nat /\ p_writer s <> WSelect
  | ODisc d => d = DRet \/ (d = DWait /\ p_wg s <> 0%Z)
  | OWait => p_quits s = 0%nat
  | OWaitWg => p_wg s <> 0%Z
  | _ => True
  end.
Lemma others_live s : calm_peer s -> (exists t, progress_to s t) \/ Forall (waits_for s) (p_others s).
Proof.
  intros (Hi & C & B & S).
  assert (K : forall pre o o' post, p_others s = pre ++ o :: post -> (ow o' < ow o)%nat -> (forall m, o' <> OSend m) ->
    ostep s (set_others s (pre ++ o' :: post)) -> exists t, progress_to s t).
  { intros pre o o' post E L N St. exists (set_others s (pre ++ o' :: post)). split; [right; right; exact St|]. split.
    - split; [exact (oinv X s _ Hi C St)|]. split; [exact C|]. split; [exact B|].
      intros m P. apply S. unfold unsent in *. cbn [set_others p_writer p_reader p_others] in P. rewrite E.
      destruct P as [P|[P|[P|P]]]; auto. right. right. right. apply in_app_iff in P as [P|[P|P]]; [apply in_app_iff; now left|now apply N in P|].
      apply in_app_iff. right. now right.
    - unfold left_over. cbn [set_others p_writer p_reader p_others]. rewrite E, !ows_app, !ows_cons. lia. }
  assert (KD : forall pre d post t d', p_others s = pre ++ ODisc d :: post -> dstep s d t d' -> exists t, progress_to s t).
  { intros pre d post t d' E D. pose proof Hi as (_ & Bq & _ & _ & _ & _ & O). unfold holders in Bq.
    rewrite E, o_quits_app, o_quits_cons in Bq. cbn [o_quit] in Bq. rewrite E in O.
    pose proof (forall_at X _ _ _ _ O) as Do. cbn [o_ok] in Do.
    destruct (dstep_inv X s d t d' (w_quits X (p_writer s) + r_quits X (p_reader s) + o_quits X pre + o_quits X post)%nat D Do) as (_ & C' & _); [lia|exact C|].
    pose proof (dstep_down s d t d' D C C') as L. destruct (dstep_same s d t d' D) as (T2 & T3 & T4).
    pose proof (OsDisc X s pre d post t d' E D) as St. eexists. split; [right; right; exact St|]. split.
    - split; [exact (oinv X s _ Hi C St)|]. split; [exact C'|]. split; [cbn [set_others p_reader]; now rewrite T3|].
      intros m P. apply S. unfold unsent in *. cbn [set_others p_writer p_reader p_others] in P. rewrite T2, T3 in P. rewrite E.
      destruct P as [P|[P|[P|P]]]; auto. right. right. right. apply in_app_iff in P as [P|[P|P]]; [apply in_app_iff; now left|discriminate P|].
      apply in_app_iff. right. now right.
    - unfold left_over. cbn [set_others p_writer p_reader p_others]. rewrite E, T2, T3, !ows_app, !ows_cons. cbn [ow]. lia. }
  assert (G : forall l pre, p_others s = pre ++ l -> (exists t, progress_to s t) \/ Forall (waits_for s) l).
  { induction l as [|o l IH]; intros pre E; [right; constructor|].
    destruct (IH (pre ++ [o])) as [IH'|IH']; [rewrite <- app_assoc; exact E|now left|].
    assert (Q : (exists t, progress_to s t) \/ waits_for s o); [|destruct Q as [Q|Q]; [now left|right; now constructor]].
    destruct o as [m| |d| | |]; cbn [waits_for]; auto.
    - destruct (p_quits s) as [|n] eqn:Q.
      + destruct (p_writer s) as [|m'|m'| |d'] eqn:Ew; [left|right; split; [reflexivity|discriminate]..].
        pose proof (OsSend X s pre m l E Ew) as St. eexists. split; [right; right; exact St|]. split.
        * split; [exact (oinv X s _ Hi C St)|]. split; [exact C|]. split; [exact B|].
          intros m' P. apply S. unfold unsent in *. cbn [set_others take p_writer p_reader p_others] in P. rewrite E.
          destruct P as [P|[P|[P|P]]]; try discriminate P; auto.
          -- injection P as <-. right. right. right. apply in_app_iff. right. now left.
          -- right. right. right. apply in_app_iff in P as [P|[P|P]]; [apply in_app_iff; now left|discriminate P|].
             apply in_app_iff. right. now right.
        * unfold left_over. cbn [set_others take p_writer p_reader p_others ww]. rewrite E, Ew, !ows_app, !ows_cons. cbn [ow ww]. lia.
      + left. apply (K pre (OSend m) OSent l E); [cbn; lia|discriminate|]. apply (OsQuit X s pre m l E). lia.
    - destruct d; [left|left|left| |right; now left].
      + destruct (d_enabled X s DCas Hi) as (t & d' & D); [discriminate|discriminate|]. exact (KD pre DCas l t d' E D).
      + destruct (d_enabled X s DQuit Hi) as (t & d' & D); [discriminate|discriminate|]. exact (KD pre DQuit l t d' E D).
      + destruct (d_enabled X s DConn Hi) as (t & d' & D); [discriminate|discriminate|]. exact (KD pre DConn l t d' E D).
      + destruct (Z.eq_dec (p_wg s) 0) as [Z|Z]; [left|right; auto].
        destruct (d_enabled X s DWait Hi) as (t & d' & D); [discriminate|auto|]. exact (KD pre DWait l t d' E D).
    - destruct (p_quits s) as [|n] eqn:Q; [now right|left].
      apply (K pre OWait OWaitWg l E); [cbn; lia|discriminate|]. apply (OsWait X s pre l E). lia.
    - destruct (Z.eq_dec (p_wg s) 0) as [Z|Z]; [left|now right].
      apply (K pre OWaitWg OWaited l E); [cbn; lia|discriminate|]. exact (OsWaitWg X s pre l E Z). }
  exact (G (p_others s) [] eq_refl).
Qed.

Lemma no_quits s l : Forall (waits_for s) l -> o_quits X l = 0%nat.
Proof.
  intro F. induction F as [|o l W F IH]; [reflexivity|]. rewrite o_quits_cons, IH.
  destruct o as [| |d| | |]; cbn in *; auto. destruct W as [->|(-> & _)]; reflexivity.
Qed.
Lemma live_step s : calm_peer s -> all_ended s \/ exists t, progress_to s t.
Proof.
  intro Fi. destruct (writer_live s Fi) as [G|Wc]; [now right|]. destruct (reader_live s Fi) as [G|Rc]; [now right|].
  destruct (others_live s Fi) as [G|Oc]; [now right|]. left.
  destruct Fi as ((A & Bq & _ & _ & W & R & O) & C & B & S). unfold holders in Bq. rewrite (no_quits s _ Oc) in Bq.
  destruct Rc as [(m & Er & Q & Nw)|[(Er & Z)|Er]]; rewrite Er in *; cbn [r_quits r_ok d_ok in_reader] in *.
  - exfalso. destruct Wc as [(Ew & _)|[(Ew & _)|Ew]]; rewrite Ew in *; cbn [w_quits w_ok d_ok quitting] in *; [contradiction|contradiction|].
    rewrite W in Bq. lia.
  - exfalso. destruct Wc as [(Ew & Q)|[(Ew & _)|Ew]]; rewrite Ew in *; cbn [in_writer] in *; [contradiction|lia|lia].
  - rewrite R in Bq. cbn [quitting] in Bq.
    assert (Ew : p_writer s = WDisc DRet).
    { destruct Wc as [(Ew & Q)|[(Ew & Z)|Ew]]; [exfalso; rewrite Ew in Bq; cbn in Bq; lia|exfalso; rewrite A, Ew in Z; now apply Z|exact Ew]. }
    rewrite Ew in *. cbn in A, Bq. split; [exact Ew|]. split; [exact Er|]. eapply Forall_impl; [|exact Oc].
    intros o. unfold other_ended. destruct o as [m| |d| | |]; cbn; auto; try lia.
    intros [->|(-> & Z)]; [auto|lia].
Qed.
(** Steps of goroutines that exist. *)
Inductive runs : pstate X -> pstate X -> Prop :=
| RunsNone s : runs s s
| RunsMore s t u : p_crash s = None -> internal s t -> runs t u -> runs s u.
Lemma finishes s : calm_peer s -> exists t, runs s t /\ all_ended t /\ p_crash t = None.
Proof.
  assert (G : forall n s, (left_over s < n)%nat -> calm_peer s -> exists t, runs s t /\ all_ended t /\ p_crash t = None).
  { induction n as [|n IH]; intros s' L F; [lia|]. destruct (live_step s' F) as [E|(t & I & F' & L')].
    - exists s'. split; [apply RunsNone|]. split; [exact E|]. now destruct F as (_ & C & _).
    - destruct (IH t) as (u & U & E & C); [lia|exact F'|]. exists u. split; [|auto]. apply (RunsMore s' t u); [now destruct F as (_ & C' & _)|exact I|exact U]. }
  intro F. exact (G (S (left_over s)) s (Nat.lt_succ_diag_r _) F).
Qed.
Lemma runs_psteps s t : runs s t -> forall r, psteps r s -> psteps r t.
Proof.
  intros R. induction R as [s|s t u C [St|[St|St]] R IH]; intros r P; auto; apply IH; (eapply PsMore; [exact P|]).
  - now apply PsWriter.
  - now apply PsReader.
  - now apply PsOther.
Qed.

(** Once quit is closed, so is the connection, or somebody is about to close it. *)
Definition d_conn (d : dpc) : bool := match d with DConn => true | _ => false end.
Definition w_conn (w : wpc X) : bool := match w with WDisc d => d_conn d | _ => false end.
Definition r_conn (r : rpc X) : bool := match r with RDisc d | RBan d => d_conn d | _ => false end.
Definition o_conn (o : opc X) : bool := match o with ODisc d => d_conn d | _ => false end.
Definition closing_conn s : Prop :=
  p_quits s = 0%nat \/ p_closed s = true \/ w_conn (p_writer s) = true \/ r_conn (p_reader s) = true \/ existsb o_conn (p_others s) = true.
Lemma dstep_closing s d t d' : dstep s d t d' ->
  (p_quits t = p_quits s /\ (d_conn d = true -> p_closed t = true) /\ (p_closed s = true -> p_closed t = true)) \/ d_conn d' = true.
Proof. intros []; cbn; auto; left; repeat split; auto; discriminate. Qed.
Lemma existsb_mid pre o post : existsb o_conn (pre ++ o :: post) = existsb o_conn pre || (o_conn o || existsb o_conn post).
Proof. now rewrite existsb_app. Qed.
Lemma closing_step s t : pstep s t -> closing_conn s -> closing_conn t.
Proof.
  intros St H. unfold closing_conn in *.
  destruct St as [_ St|_ St|_ St|_ St].
  - destruct St as [s E Q|s m E F|s m E F|s m f n E K W|s m f n part rest E W P|s m E W|s E|s d t d' E D];
      try (rewrite E in H; cbn [w_conn] in H; cbn; intuition (try discriminate); fail).
    + destruct (wg_done_fields X s) as (F1 & F2 & F3 & F4 & F5 & F6 & F7 & _). rewrite E in H. cbn [set_writer p_quits p_closed p_writer p_reader p_others w_conn d_conn] in *.
      rewrite F2, F3, F6, F7. intuition discriminate.
    + destruct (dstep_same s d t d' D) as (T2 & T3 & T4). rewrite E in H. cbn [set_writer p_quits p_closed p_writer p_reader p_others w_conn d_conn] in *.
      destruct (dstep_closing s d t d' D) as [(Q & A & B)|A]; [|auto]. rewrite Q, T3, T4. intuition.
  - destruct St as [s E F|s E F|s E|s E|s E|s m E|s m E W|s m E Q|s E|s d t d' E D|s n E B|s E B|s E|s d t d' E D];
      try (rewrite E in H; cbn [r_conn] in H; cbn; intuition (try discriminate); fail).
    + rewrite E in H. rewrite W in H. cbn in *. intuition discriminate.
    + destruct (dstep_same s d t d' D) as (T2 & T3 & T4). rewrite E in H. cbn [set_reader p_quits p_closed p_writer p_reader p_others r_conn d_conn] in *.
      destruct (dstep_closing s d t d' D) as [(Q & A & B)|A]; [|auto 8]. rewrite Q, T2, T4. intuition.
    + destruct (wg_done_fields X s) as (F1 & F2 & F3 & F4 & F5 & F6 & F7 & _). rewrite E in H. cbn [set_reader p_quits p_closed p_writer p_reader p_others r_conn d_conn] in *.
      rewrite F2, F3, F5, F7. intuition discriminate.
    + destruct (dstep_same s d t d' D) as (T2 & T3 & T4). rewrite E in H. cbn [set_reader p_quits p_closed p_writer p_reader p_others r_conn d_conn] in *.
      destruct (dstep_closing s d t d' D) as [(Q & A & B)|A]; [|auto 8]. rewrite Q, T2, T4. intuition.
  - destruct St as [s pre m post E K|s pre m post E Q|s pre d post t d' E D|s pre post E Q|s pre post E Q];
      rewrite E in H; rewrite existsb_mid in H; cbn [o_conn] in H; cbn [set_others take p_quits p_closed p_writer p_reader p_others]; rewrite existsb_mid; cbn [o_conn].
    + rewrite K in H. cbn [w_conn] in *. exact H.
    + exact H.
    + destruct (dstep_same s d t d' D) as (T2 & T3 & T4).
      destruct (dstep_closing s d t d' D) as [(Q & A & B)|A].
      * rewrite Q, T2, T3. rewrite !orb_true_iff in *. intuition.
      * rewrite !orb_true_iff. auto 8.
    + exact H.
    + exact H.
  - destruct St as [s o K]. cbn [set_others p_quits p_closed p_writer p_reader p_others]. rewrite existsb_app.
    destruct (existsb o_conn (p_others s)); cbn; intuition.
Qed.
Lemma closing_reach bans s : psteps (p_start X bans) s -> closing_conn s.
Proof.
  intro R. remember (p_start X bans) as s0 eqn:E. induction R as [|s t u R IH St]; [subst; now left|].
  exact (closing_step t u St (IH E)).
Qed.

Lemma internal_count s t : internal s t -> List.length (p_others t) = List.length (p_others s).
Proof.
  intros [St|[St|St]].
  - now rewrite (wstep_others X s t St).
  - destruct St as [s E F|s E F|s E|s E|s E|s m E|s m E W|s m E Q|s E|s d t d' E D|s n E B|s E B|s E|s d t d' E D]; try reflexivity.
    + destruct (dstep_same s d t d' D) as (_ & _ & T4). cbn. now rewrite T4.
    + cbn. now rewrite wg_done_others.
    + destruct (dstep_same s d t d' D) as (_ & _ & T4). cbn. now rewrite T4.
  - destruct St as [s pre m post E K|s pre m post E Q|s pre d post t d' E D|s pre post E Q|s pre post E Q]; cbn; rewrite E, !app_length; reflexivity.
Qed.
Lemma runs_count s t : runs s t -> List.length (p_others t) = List.length (p_others s).
Proof. intro R. induction R as [|s t u C St R IH]; [reflexivity|]. rewrite IH. now apply internal_count. Qed.
Lemma ended_closed bans t : psteps (p_start X bans) t -> all_ended t -> p_quits t = 1%nat /\ p_closed t = true /\ p_wg t = 0%Z.
Proof.
  intros P (Ew & Er & Eo). unfold writer_ended, reader_ended in *. destruct (reach_inv X bans t P) as (A & B & _ & _ & W & _ & _).
  assert (H0 : o_quits X (p_others t) = 0%nat).
  { induction Eo as [|o l [->|[->| ->]] Eo IH]; auto. }
  unfold holders in B. rewrite Ew in W. cbn in W. rewrite Ew, Er, H0, W in B. cbn in B.
  split; [lia|]. split; [|rewrite A, Ew, Er; reflexivity].
  destruct (closing_reach bans t P) as [Q|[Q|[Q|[Q|Q]]]]; [lia|exact Q|rewrite Ew in Q; discriminate|rewrite Er in Q; discriminate|].
  exfalso. clear -Eo Q. induction Eo as [|o l [->|[->| ->]] Eo IH]; cbn in Q; auto; discriminate.
Qed.

Lemma can_end bans s : psteps (p_start X bans) s -> p_crash s = None -> ~ banning (p_reader s) -> encodable s ->
  exists t, psteps s t /\ p_crash t = None /\ all_ended t /\ p_closed t = true /\ List.length (p_others t) = List.length (p_others s).
Proof.
  intros P C B S. destruct (finishes s) as (t & R & E & Ct); [split; [exact (reach_inv X bans s P)|auto]|].
  exists t. pose proof (runs_psteps s t R _ P) as Pt. destruct (ended_closed bans t Pt E) as (_ & Cl & _).
  split; [exact (runs_psteps s t R s (PsNone X s))|]. split; [exact Ct|]. split; [exact E|]. split; [exact Cl|exact (runs_count s t R)].
Qed.

(** ** With the lock of the record *)
Implicit Types (a b : lstate X).
(** The read handler has the lock only while inside ProcessMessage; the closing goroutine is one that
    runs Close. *)
Definition linv a : Prop :=
  (l_lock a = LReader -> l_wants a = true) /\ (l_wants a = true -> p_reader (l_peer a) = RHandle) /\
  (forall k, l_lock a = LCloser k -> exists d, nth_error (p_others (l_peer a)) k = Some (ODisc d)).
Lemma ostep_disc (p p' : pstate X) k d : ostep p p' -> nth_error (p_others p) k = Some (ODisc d) ->
  exists d', nth_error (p_others p') k = Some (ODisc d').
Proof.
  intros H N. destruct H as [p pre m post E _|p pre m post E _|p pre e post q e' E D|p pre post E _|p pre post E Z]; cbn [set_others take p_others].
  - destruct (nth_mid _ _ _ OSent _ _ _ E N) as [(_ & F)|G]; [discriminate F|eauto].
  - destruct (nth_mid _ _ _ OSent _ _ _ E N) as [(_ & F)|G]; [discriminate F|eauto].
  - destruct (nth_mid _ _ _ (ODisc e') _ _ _ E N) as [(-> & F)|G]; [|eauto].
    exists e'. rewrite nth_error_app2, Nat.sub_diag by lia. reflexivity.
  - destruct (nth_mid _ _ _ OWaitWg _ _ _ E N) as [(_ & F)|G]; [discriminate F|eauto].
  - destruct (nth_mid _ _ _ OWaited _ _ _ E N) as [(_ & F)|G]; [discriminate F|eauto].
Qed.
Lemma rstep_others (p p' : pstate X) : rstep p p' -> p_others p' = p_others p.
Proof.
  intro St. destruct St as [s E F|s E F|s E|s E|s E|s m E|s m E W|s m E Q|s E|s d t d' E D|s n E B|s E B|s E|s d t d' E D]; try reflexivity.
  - destruct (dstep_same s d t d' D) as (_ & _ & T4). exact T4.
  - cbn. now rewrite wg_done_others.
  - destruct (dstep_same s d t d' D) as (_ & _ & T4). exact T4.
Qed.
Lemma linv_step a b : linv a -> lstep a b -> linv b.
Proof.
  intros (I1 & I2 & I3) St. unfold linv.
  destruct St as [p l w p' C S|p l p' C S|p l w p' C S|p l w p' C S|p l C E|p C|p C|p w C|p k' w C E]; cbn [l_lock l_wants l_peer] in *.
  - destruct (wstep_other X p p' S) as (Er & _). rewrite Er, (wstep_others X p p' S). auto.
  - rewrite (rstep_others p p' S). split; [exact I1|]. split; [discriminate|exact I3].
  - destruct (ostep_other X p p' S) as (Er & _). rewrite Er. split; [exact I1|]. split; [exact I2|].
    intros k L. destruct (I3 k L) as (d & N). now apply (ostep_disc p p' k d).
  - destruct (spawn_other X p p' S) as (Er & _). rewrite Er. split; [exact I1|]. split; [exact I2|].
    intros k L. destruct (I3 k L) as (d & N). exists d. destruct S as [p o _]. cbn [set_others p_others].
    rewrite nth_error_app1; [exact N|]. apply nth_error_Some. congruence.
  - split; [reflexivity|]. split; [intros _; exact E|exact I3].
  - split; [reflexivity|]. split; [exact I2|discriminate].
  - split; [discriminate|]. split; discriminate.
  - split; [discriminate|]. split; [exact I2|]. intros k L. injection L as <-. exists DCas. cbn [set_others p_others].
    rewrite nth_error_app2, Nat.sub_diag by lia. reflexivity.
  - split; [discriminate|]. split; [exact I2|discriminate].
Qed.
Lemma linv_reach bans a : lsteps (l_start X bans) a -> linv a.
Proof.
  intro R. remember (l_start X bans) as a0 eqn:E. induction R as [|a b c R IH St].
  - subst. split; [discriminate|]. split; discriminate.
  - exact (linv_step b c (IH E) St).
Qed.

Lemma l_trans a b c : lsteps a b -> lsteps b c -> lsteps a c.
Proof. intros H K. induction K as [|b c d K IH St]; [exact H|]. exact (LsMore a c d (IH H) St). Qed.
Lemma runs_lift s t l : runs s t -> lsteps (LState s l false) (LState t l false).
Proof.
  intro R. induction R as [s|s t u C St R IH]; [apply LsNone|]. eapply l_cons; [|exact IH].
  destruct St as [St|[St|St]]; [now apply LsWriter|now apply LsReader|now apply LsOther].
Qed.
Lemma lock_comes_back bans a : lsteps (l_start X bans) a -> p_crash (l_peer a) = None -> ~ banning (p_reader (l_peer a)) -> encodable (l_peer a) ->
  (l_wants a = true -> forall k, l_lock a <> LCloser k) ->
  exists b, lsteps a b /\ p_crash (l_peer b) = None /\ all_ended (l_peer b) /\ p_closed (l_peer b) = true /\ l_lock b = LFree /\ l_wants b = false.
Proof.
  intros R C B S N. pose proof (linv_reach bans a R) as (I1 & I2 & I3).
  assert (P : psteps (p_start X bans) (l_peer a)) by (apply (l_psteps X _ _ _ R); apply PsNone).
  assert (G : exists l, (l = LFree \/ exists k, l = LCloser k /\ exists d, nth_error (p_others (l_peer a)) k = Some (ODisc d)) /\
    lsteps a (LState (l_peer a) l false)).
  { destruct a as [p l w]. cbn [l_peer l_lock l_wants] in *. destruct l as [| |k].
    - exists LFree. split; [now left|]. destruct w; [|apply LsNone].
      eapply l_cons; [apply (LsLock X p C)|]. eapply l_cons; [apply (LsUnlock X p C)|apply LsNone].
    - exists LFree. split; [now left|]. rewrite (I1 eq_refl). eapply l_cons; [apply (LsUnlock X p C)|apply LsNone].
    - destruct w; [now elim (N eq_refl k)|]. exists (LCloser k). split; [|apply LsNone]. right. exists k. split; [reflexivity|exact (I3 k eq_refl)]. }
  destruct G as (l & Hl & La). destruct (finishes (l_peer a)) as (t & Rt & E & Ct); [split; [exact (reach_inv X bans _ P)|auto]|].
  pose proof (runs_psteps _ t Rt _ P) as Pt. destruct (ended_closed bans t Pt E) as (_ & Cl & _).
  exists (LState t LFree false). cbn [l_peer l_lock l_wants]. split; [|auto 6].
  eapply l_trans; [exact La|]. eapply l_trans; [exact (runs_lift _ _ l Rt)|].
  destruct Hl as [->|(k & -> & d & Nk)]; [apply LsNone|].
  eapply l_cons; [|apply LsNone]. apply LsClosed; [exact Ct|].
  assert (D : forall s u, runs s u -> forall d, nth_error (p_others s) k = Some (ODisc d) -> exists d', nth_error (p_others u) k = Some (ODisc d')).
  { intros s u Q. induction Q as [s|s s' u Cs St Q IH]; intros e Ne; [eauto|].
    destruct St as [St|[St|St]].
    - apply (IH e). now rewrite (wstep_others X s s' St).
    - apply (IH e). now rewrite (rstep_others s s' St).
    - destruct (ostep_disc s s' k e St Ne) as (e' & Ne'). exact (IH e' Ne'). }
  destruct (D _ _ Rt d Nk) as (d' & Nd). rewrite Nd. destruct E as (_ & _ & Eo). rewrite Forall_forall in Eo.
  destruct (Eo (ODisc d')) as [F|[F|F]]; [now apply nth_error_In in Nd|discriminate F|now injection F as ->|discriminate F].
Qed.
End Live.

Lemma p_cons {X} (s t u : pstate X) : pstep s t -> psteps t u -> psteps s u.
Proof. intros St R. induction R as [t|t u v R IH Sx]; [exact (PsMore X s s t (PsNone X s) St)|exact (PsMore X s u v (IH St) Sx)]. Qed.
(** A busy peer: the write handler is writing a ping, the read handler wants to answer with a pong, and
    somebody waits for the end. *)
Lemma run_busy (X : Ext) bans f g : write_message X (MPing (PingMsg 5 7)) = Ok f -> write_message X (MPong (PingMsg 5 7)) = Ok g ->
  exists s, psteps (p_start X bans) s /\ p_crash s = None /\ ~ banning (p_reader s) /\ encodable s /\
    p_writer s = WWrite (MPing (PingMsg 5 7)) /\ p_reader s = RSend (MPong (PingMsg 5 7)) /\ p_others s = [OSent; OWait].
Proof.
  intros F G. eexists. split; [|split; [|split; [|split; [|split; [|split]]]]].
  - eapply p_cons. { apply PsReader; [reflexivity|]. apply RsGo; reflexivity. }
    eapply p_cons. { apply PsReader; [reflexivity|]. apply RsMessage; reflexivity. }
    eapply p_cons. { apply PsReader; [reflexivity|]. apply (RsAnswer X _ (MPong (PingMsg 5 7))); reflexivity. }
    eapply p_cons. { apply PsSpawn; [reflexivity|]. apply (OsNew X _ (OSend (MPing (PingMsg 5 7)))). eauto. }
    eapply p_cons. { apply PsOther; [reflexivity|]. apply (OsSend X _ [] (MPing (PingMsg 5 7)) []); reflexivity. }
    eapply p_cons. { apply PsWriter; [reflexivity|]. apply (WsLive X _ (MPing (PingMsg 5 7))); reflexivity. }
    eapply p_cons. { apply PsSpawn; [reflexivity|]. apply (OsNew X _ OWait). auto. }
    apply PsNone.
  - reflexivity.
  - intros (d & E). discriminate E.
  - intros m P. unfold unsent in P. cbn in P. destruct P as [P|[P|[P|[P|[P|[]]]]]]; try discriminate P; injection P as <-; eauto.
  - reflexivity.
  - reflexivity.
  - reflexivity.
Qed.
Lemma run_wanting (X : Ext) bans : exists a, lsteps (l_start X bans) a /\ p_crash (l_peer a) = None /\ ~ banning (p_reader (l_peer a)) /\
  encodable (l_peer a) /\ l_wants a = true /\ l_lock a = LFree.
Proof.
  eexists. split; [|split; [|split; [|split; [|split]]]].
  - eapply l_cons. { apply LsReader; [reflexivity|]. apply RsGo; reflexivity. } cbv beta iota delta [set_reader].
    eapply l_cons. { apply LsReader; [reflexivity|]. apply RsMessage; reflexivity. }
    eapply l_cons. { apply LsWant; reflexivity. }
    apply LsNone.
  - reflexivity.
  - intros (d & E). discriminate E.
  - intros m P. unfold unsent in P. cbn in P. destruct P as [P|[P|[P|[]]]]; discriminate P.
  - reflexivity.
  - reflexivity.
Qed.
