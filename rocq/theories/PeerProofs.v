(** Lemmas about the peer's goroutines. *)
From Verif Require Import Peer SpecMessages SpecPeer.

Section WithExt.
Context (X : Ext).
Implicit Types (s t u : pstate X).

(** ** Reachable states *)
Definition in_writer (w : wpc X) : Z := match w with WDisc _ => 0 | _ => 1 end.
Definition in_reader (r : rpc X) : Z := match r with RDisc _ => 0 | _ => 1 end.
Definition quitting (d : dpc) : nat := match d with DQuit => 1 | _ => 0 end.
Definition w_quits (w : wpc X) : nat := match w with WDisc d => quitting d | _ => 0 end.
Definition r_quits (r : rpc X) : nat := match r with RDisc d | RBan d => quitting d | _ => 0 end.
Definition o_quit (o : opc X) : nat := match o with ODisc d => quitting d | _ => 0 end.
Definition o_quits (l : list (opc X)) : nat := fold_right (fun o n => (o_quit o + n)%nat) 0%nat l.
Definition holders s : nat := (w_quits (p_writer s) + r_quits (p_reader s) + o_quits (p_others s))%nat.

Lemma o_quits_app a b : o_quits (a ++ b) = (o_quits a + o_quits b)%nat.
Proof. induction a as [|o a IH]; cbn; [reflexivity|]. unfold o_quits in *. lia. Qed.
Lemma o_quits_cons o b : o_quits (o :: b) = (o_quit o + o_quits b)%nat.
Proof. reflexivity. Qed.

(** What being at a point of Disconnect implies. *)
Definition d_ok s (d : dpc) : Prop :=
  match d with DConn | DWait => p_quits s <> O | DRet => p_flag s = true | _ => True end.
Definition w_ok s (w : wpc X) : Prop := match w with WDisc d => d_ok s d | _ => True end.
Definition r_ok s (r : rpc X) : Prop := match r with RDisc d | RBan d => d_ok s d | _ => True end.
Definition o_ok s (o : opc X) : Prop :=
  match o with
  | ODisc d => d_ok s d
  | OWaitWg => p_quits s <> O
  | OWaited => p_quits s <> O /\ p_wg s = 0%Z
  | _ => True
  end.

Definition inv s : Prop :=
  p_wg s = (in_writer (p_writer s) + in_reader (p_reader s))%Z /\
  (p_quits s + holders s)%nat = (if p_flag s then 1 else 0)%nat /\
  p_crash s <> Some CloseTwice /\ p_crash s <> Some NegativeWg /\
  w_ok s (p_writer s) /\ r_ok s (p_reader s) /\ Forall (o_ok s) (p_others s).

Lemma inv_start bans : inv (p_start X bans).
Proof. repeat split; try discriminate. constructor. Qed.

(** Disconnect only grows these. *)
Definition grows s t : Prop :=
  (p_flag s = true -> p_flag t = true) /\ (p_quits s <= p_quits t)%nat /\ (p_wg s = 0%Z -> p_wg t = 0%Z).
Lemma d_ok_grows s t d : grows s t -> d_ok s d -> d_ok t d.
Proof. intros (F & Q & _). destruct d; cbn; auto; lia. Qed.
Lemma w_ok_grows s t w : grows s t -> w_ok s w -> w_ok t w.
Proof. intro G. destruct w; cbn; auto. now apply d_ok_grows. Qed.
Lemma r_ok_grows s t r : grows s t -> r_ok s r -> r_ok t r.
Proof. intro G. destruct r; cbn; auto; now apply d_ok_grows. Qed.
Lemma o_ok_grows s t o : grows s t -> o_ok s o -> o_ok t o.
Proof.
  intro G. destruct o; cbn; auto.
  - now apply d_ok_grows.
  - destruct G as (_ & Q & _). lia.
  - destruct G as (_ & Q & W). intros (A & B). split; [lia|auto].
Qed.
Lemma o_all_grows s t l : grows s t -> Forall (o_ok s) l -> Forall (o_ok t) l.
Proof. intros G. apply Forall_impl. intro o. now apply o_ok_grows. Qed.

(** One step of Disconnect by a thread at [d], all others unchanged. [h] counts the other threads
    about to close quit. *)
Lemma dstep_inv s d t d' h : dstep s d t d' -> d_ok s d ->
  (p_quits s + (quitting d + h))%nat = (if p_flag s then 1 else 0)%nat ->
  p_crash s = None ->
  (p_quits t + (quitting d' + h))%nat = (if p_flag t then 1 else 0)%nat /\ p_crash t = None /\ grows s t /\ d_ok t d' /\
  p_wg t = p_wg s /\ p_writer t = p_writer s /\ p_reader t = p_reader s /\ p_others t = p_others s /\
  p_bans t = p_bans s /\ p_taken t = p_taken s /\ p_wire t = p_wire s /\ p_sent t = p_sent s.
Proof.
  intros St D H C. destruct St as [s F|s F|s Q|s Q|s|s W]; cbn [quitting] in *; unfold grows, d_ok in *;
    cbn [set_flag add_quit set_closed p_flag p_quits p_closed p_wg p_writer p_reader p_others p_bans p_taken p_wire p_sent p_crash].
  - rewrite F in *. repeat split; auto; lia.
  - rewrite F in *. repeat split; auto; lia.
  - repeat split; auto; try lia; destruct (p_flag s); lia.
  - destruct (p_flag s); lia.
  - repeat split; auto; lia.
  - repeat split; auto. destruct (p_flag s); [reflexivity|lia].
Qed.

Ltac fields := cbn [set_flag add_quit set_closed set_writer set_reader set_others set_bans take wrote crash
  p_flag p_quits p_closed p_wg p_writer p_reader p_others p_bans p_taken p_wire p_sent p_crash] in *.

(** A state that differs from [s] in nothing [inv] talks about but one thread. *)
Lemma wg_done_fields s : let t := wg_done s in
  p_flag t = p_flag s /\ p_quits t = p_quits s /\ p_closed t = p_closed s /\ p_wg t = (p_wg s - 1)%Z /\
  p_writer t = p_writer s /\ p_reader t = p_reader s /\ p_others t = p_others s /\ p_bans t = p_bans s /\
  p_taken t = p_taken s /\ p_wire t = p_wire s /\ p_sent t = p_sent s /\
  ((1 <= p_wg s)%Z -> p_crash t = p_crash s).
Proof.
  unfold wg_done. cbv zeta. destruct (p_wg s - 1 <? 0)%Z eqn:E; cbn; repeat split; auto.
  apply Z.ltb_lt in E. lia.
Qed.

Lemma forall_mid (P : opc X -> Prop) pre o o' post : Forall P (pre ++ o :: post) -> P o' -> Forall P (pre ++ o' :: post).
Proof.
  intros F H. apply Forall_app in F. destruct F as (A & B). inversion B; subst. apply Forall_app. split; [exact A|now constructor].
Qed.
Lemma forall_at (P : opc X -> Prop) pre o post : Forall P (pre ++ o :: post) -> P o.
Proof. intros F. apply Forall_app in F. destruct F as (_ & B). now inversion B. Qed.

Lemma grows_refl s : grows s s.
Proof. repeat split; auto. Qed.

(** Rebuilding the invariant. *)
Lemma inv_make s t : inv s -> grows s t ->
  p_wg t = (in_writer (p_writer t) + in_reader (p_reader t))%Z ->
  (p_quits t + holders t)%nat = (if p_flag t then 1 else 0)%nat ->
  p_crash t <> Some CloseTwice -> p_crash t <> Some NegativeWg ->
  (p_writer t = p_writer s \/ w_ok t (p_writer t)) ->
  (p_reader t = p_reader s \/ r_ok t (p_reader t)) ->
  (p_others t = p_others s \/ Forall (o_ok t) (p_others t)) -> inv t.
Proof.
  intros (_ & _ & _ & _ & W & R & O) G A B C D E F H. unfold inv. repeat split; auto.
  - destruct E as [->|E]; [now apply (w_ok_grows s)|exact E].
  - destruct F as [->|F]; [now apply (r_ok_grows s)|exact F].
  - destruct H as [->|H]; [now apply (o_all_grows s)|exact H].
Qed.

Ltac same := solve [left; reflexivity | right; exact I | auto].
Ltac quick s Hi := let I := fresh in
  pose proof Hi as I; destruct I as (? & ? & ? & ? & ? & ? & ?);
  apply (inv_make s _ Hi); unfold holders in *; fields;
  [ repeat split; fields; auto
  | repeat match goal with E : p_writer s = _ |- _ => rewrite E in *; clear E | E : p_reader s = _ |- _ => rewrite E in *; clear E end; cbn in *; lia
  | repeat match goal with E : p_writer s = _ |- _ => rewrite E in *; clear E | E : p_reader s = _ |- _ => rewrite E in *; clear E end; cbn in *; lia
  | try congruence | try congruence | | | ].

Lemma winv s t : inv s -> p_crash s = None -> wstep s t -> inv t.
Proof.
  intros Hi C St. destruct St as [s E Q|s m E F|s m E F|s m f n E K W|s m f n part rest E W P|s m E W|s E|s d t d' E D].
  - quick s Hi; [right; exact I|left; reflexivity|left; reflexivity].
  - quick s Hi; [right; exact I|left; reflexivity|left; reflexivity].
  - quick s Hi; [right; exact I|left; reflexivity|left; reflexivity].
  - quick s Hi; [right; exact I|left; reflexivity|left; reflexivity].
  - quick s Hi; [right; exact I|left; reflexivity|left; reflexivity].
  - quick s Hi; left; reflexivity.
  - pose proof Hi as (A & B & C1 & C2 & _).
    destruct (wg_done_fields s) as (F1 & F2 & F3 & F4 & F5 & F6 & F7 & F8 & F9 & F10 & F11 & F12).
    assert (G : (1 <= p_wg s)%Z) by (rewrite A, E; destruct (p_reader s); cbn; lia).
    specialize (F12 G).
    apply (inv_make s _ Hi); unfold holders in *; cbn [set_writer p_flag p_quits p_wg p_writer p_reader p_others p_crash];
      rewrite ?F1, ?F2, ?F4, ?F6, ?F7, ?F12, ?C.
    + unfold grows. cbn [set_writer p_flag p_quits p_wg]. rewrite F1, F2, F4. repeat split; auto; lia.
    + rewrite A, E. cbn [in_writer in_reader]. lia.
    + rewrite E in B. cbn in *. exact B.
    + discriminate.
    + discriminate.
    + right. exact I.
    + left; reflexivity.
    + left; reflexivity.
  - pose proof Hi as (A & B & C1 & C2 & W & R & O). unfold holders in B. rewrite E in B, W. cbn [w_quits w_ok] in B, W.
    destruct (dstep_inv s d t d' (r_quits (p_reader s) + o_quits (p_others s))%nat D W) as (B' & C' & G & D' & T1 & T2 & T3 & T4 & _); [lia|exact C|].
    assert (G2 : grows s (set_writer t (WDisc d'))) by exact G.
    apply (inv_make s _ Hi G2); unfold holders; cbn [set_writer p_flag p_quits p_wg p_writer p_reader p_others p_crash w_ok in_writer w_quits].
    + rewrite T1, T3, A, E. reflexivity.
    + rewrite T3, T4. lia.
    + rewrite C'. discriminate.
    + rewrite C'. discriminate.
    + right. exact D'.
    + left. exact T3.
    + left. exact T4.
Qed.

Lemma rinv s t : inv s -> p_crash s = None -> rstep s t -> inv t.
Proof.
  intros Hi C St. destruct St as [s E F|s E F|s E|s E|s E|s m E|s m E W|s m E Q|s E|s d t d' E D|s n E B|s E B|s E|s d t d' E D].
  - quick s Hi; [left; reflexivity|right; exact I|left; reflexivity].
  - quick s Hi; [left; reflexivity|right; exact I|left; reflexivity].
  - quick s Hi; [left; reflexivity|right; exact I|left; reflexivity].
  - quick s Hi; [left; reflexivity|right; exact I|left; reflexivity].
  - quick s Hi; [left; reflexivity|right; exact I|left; reflexivity].
  - quick s Hi; [left; reflexivity|right; exact I|left; reflexivity].
  - quick s Hi; [right; exact I|right; exact I|left; reflexivity].
  - quick s Hi; [left; reflexivity|right; exact I|left; reflexivity].
  - quick s Hi; [left; reflexivity|right; exact I|left; reflexivity].
  - pose proof Hi as (A & B & C1 & C2 & W & R & O). unfold holders in B. rewrite E in B, R. cbn [r_quits r_ok] in B, R.
    destruct (dstep_inv s d t d' (w_quits (p_writer s) + o_quits (p_others s))%nat D R) as (B' & C' & G & D' & T1 & T2 & T3 & T4 & _); [lia|exact C|].
    assert (G2 : grows s (set_reader t (RBan d'))) by exact G.
    apply (inv_make s _ Hi G2); unfold holders; cbn [set_reader p_flag p_quits p_wg p_writer p_reader p_others p_crash r_ok in_reader r_quits].
    + rewrite T1, T2, A, E. reflexivity.
    + rewrite T2, T4. lia.
    + rewrite C'. discriminate.
    + rewrite C'. discriminate.
    + left. exact T2.
    + right. exact D'.
    + left. exact T4.
  - quick s Hi; [left; reflexivity|right; exact I|left; reflexivity].
  - quick s Hi; left; reflexivity.
  - pose proof Hi as (A & B & C1 & C2 & _).
    destruct (wg_done_fields s) as (F1 & F2 & F3 & F4 & F5 & F6 & F7 & F8 & F9 & F10 & F11 & F12).
    assert (G : (1 <= p_wg s)%Z) by (rewrite A, E; destruct (p_writer s); cbn; lia).
    specialize (F12 G).
    apply (inv_make s _ Hi); unfold holders in *; cbn [set_reader p_flag p_quits p_wg p_writer p_reader p_others p_crash];
      rewrite ?F1, ?F2, ?F4, ?F5, ?F6, ?F7, ?F12, ?C.
    + unfold grows. cbn [set_reader p_flag p_quits p_wg]. rewrite F1, F2, F4. repeat split; auto; lia.
    + rewrite A, E. cbn [in_writer in_reader]. lia.
    + rewrite E in B. cbn in *. exact B.
    + discriminate.
    + discriminate.
    + left; reflexivity.
    + right. exact I.
    + left; reflexivity.
  - pose proof Hi as (A & B & C1 & C2 & W & R & O). unfold holders in B. rewrite E in B, R. cbn [r_quits r_ok] in B, R.
    destruct (dstep_inv s d t d' (w_quits (p_writer s) + o_quits (p_others s))%nat D R) as (B' & C' & G & D' & T1 & T2 & T3 & T4 & _); [lia|exact C|].
    assert (G2 : grows s (set_reader t (RDisc d'))) by exact G.
    apply (inv_make s _ Hi G2); unfold holders; cbn [set_reader p_flag p_quits p_wg p_writer p_reader p_others p_crash r_ok in_reader r_quits].
    + rewrite T1, T2, A, E. reflexivity.
    + rewrite T2, T4. lia.
    + rewrite C'. discriminate.
    + rewrite C'. discriminate.
    + left. exact T2.
    + right. exact D'.
    + left. exact T4.
Qed.

Lemma oinv s t : inv s -> p_crash s = None -> ostep s t -> inv t.
Proof.
  intros Hi C St. pose proof Hi as (A & B & C1 & C2 & W & R & O). unfold holders in B.
  destruct St as [s pre m post E K|s pre m post E Q|s pre d post t d' E D|s pre post E Q|s pre post E Q];
    rewrite E, o_quits_app, o_quits_cons in B; rewrite E in O; cbn [o_quit] in B.
  - apply (inv_make s _ Hi); unfold holders; fields; rewrite ?o_quits_app, ?o_quits_cons; cbn [o_quit]; try congruence.
    + repeat split; auto.
    + rewrite A, K. reflexivity.
    + rewrite K in B. cbn in *. lia.
    + right. exact I.
    + left. reflexivity.
    + right. apply (forall_mid _ pre (OSend m)); [|exact I]. exact (o_all_grows s _ _ (grows_refl s) O).
  - apply (inv_make s _ Hi); unfold holders; fields; rewrite ?o_quits_app, ?o_quits_cons; cbn [o_quit]; try congruence.
    + repeat split; auto.
    + left; reflexivity.
    + left. reflexivity.
    + right. apply (forall_mid _ pre (OSend m)); [|exact I]. exact (o_all_grows s _ _ (grows_refl s) O).
  - pose proof (forall_at _ _ _ _ O) as Do. cbn [o_ok] in Do.
    destruct (dstep_inv s d t d' (w_quits (p_writer s) + r_quits (p_reader s) + o_quits pre + o_quits post)%nat D Do)
      as (B' & C' & G & D' & T1 & T2 & T3 & T4 & _); [lia|exact C|].
    assert (G2 : grows s (set_others t (pre ++ ODisc d' :: post))) by exact G.
    apply (inv_make s _ Hi G2); unfold holders; cbn [set_others p_flag p_quits p_wg p_writer p_reader p_others p_crash];
      rewrite ?o_quits_app, ?o_quits_cons; cbn [o_quit].
    + rewrite T1, T2, T3. exact A.
    + rewrite T2, T3. lia.
    + rewrite C'. discriminate.
    + rewrite C'. discriminate.
    + left. exact T2.
    + left. exact T3.
    + right. apply (forall_mid _ pre (ODisc d)); [|exact D']. exact (o_all_grows s _ _ G O).
  - apply (inv_make s _ Hi); unfold holders; fields; rewrite ?o_quits_app, ?o_quits_cons; cbn [o_quit]; try congruence.
    + repeat split; auto.
    + left; reflexivity.
    + left. reflexivity.
    + right. apply (forall_mid _ pre OWait); [|exact Q]. exact (o_all_grows s _ _ (grows_refl s) O).
  - pose proof (forall_at _ _ _ _ O) as Do. cbn [o_ok] in Do.
    apply (inv_make s _ Hi); unfold holders; fields; rewrite ?o_quits_app, ?o_quits_cons; cbn [o_quit]; try congruence.
    + repeat split; auto.
    + left; reflexivity.
    + left. reflexivity.
    + right. apply (forall_mid _ pre OWaitWg); [|split; [exact Do|exact Q]]. exact (o_all_grows s _ _ (grows_refl s) O).
Qed.

Lemma spawn_inv s t : inv s -> p_crash s = None -> ospawn X s t -> inv t.
Proof.
  intros Hi C St. pose proof Hi as (A & B & C1 & C2 & W & R & O). unfold holders in B. destruct St as [s o K].
  assert (Z : o_quit o = 0%nat /\ o_ok s o) by (destruct K as [->|[->|(m & ->)]]; split; cbn; auto).
  destruct Z as (Z & Ok).
  apply (inv_make s _ Hi); unfold holders; fields; rewrite ?o_quits_app, ?o_quits_cons, ?Z; cbn [o_quits fold_right]; try congruence.
  - repeat split; auto.
  - lia.
  - left; reflexivity.
  - left; reflexivity.
  - right. apply Forall_app. split; [exact (o_all_grows s _ _ (grows_refl s) O)|].
    constructor; [|constructor]. exact (o_ok_grows s _ _ (grows_refl s) Ok).
Qed.

Lemma step_inv s t : inv s -> pstep s t -> inv t.
Proof.
  intros Hi [C St|C St|C St|C St].
  - exact (winv s t Hi C St).
  - exact (rinv s t Hi C St).
  - exact (oinv s t Hi C St).
  - exact (spawn_inv s t Hi C St).
Qed.
Lemma reach_inv bans s : psteps (p_start X bans) s -> inv s.
Proof.
  intro R. remember (p_start X bans) as s0 eqn:E. induction R as [|s t u R IH St]; [subst; apply inv_start|].
  exact (step_inv t u (IH E) St).
Qed.

(** ** C43 *)
Lemma once bans s : psteps (p_start X bans) s ->
  p_crash s <> Some CloseTwice /\ p_crash s <> Some NegativeWg /\ (p_quits s <= 1)%nat /\ (0 <= p_wg s <= 2)%Z.
Proof.
  intro R. destruct (reach_inv bans s R) as (A & B & C1 & C2 & _). split; [exact C1|]. split; [exact C2|].
  split; [destruct (p_flag s); lia|]. rewrite A. destruct (p_writer s), (p_reader s); cbn; lia.
Qed.

Lemma wg_zero s : inv s -> p_wg s = 0%Z -> writer_left (p_writer s) /\ reader_left (p_reader s).
Proof.
  intros (A & _) Z. rewrite A in Z. unfold writer_left, reader_left.
  destruct (p_writer s), (p_reader s); cbn in Z; try lia; split; eexists; reflexivity.
Qed.

Lemma waited bans s : psteps (p_start X bans) s -> In OWaited (p_others s) ->
  p_quits s = 1%nat /\ writer_left (p_writer s) /\ reader_left (p_reader s).
Proof.
  intros R I. pose proof (reach_inv bans s R) as (A & B & _ & _ & _ & _ & O).
  rewrite Forall_forall in O. destruct (O _ I) as (Q & W). split; [destruct (p_flag s); lia|].
  exact (wg_zero s (reach_inv bans s R) W).
Qed.

(** No deadlock but the ban. *)
Lemma d_enabled s d : inv s -> d <> DRet -> (d = DWait -> p_wg s = 0%Z) -> exists t d', dstep s d t d'.
Proof.
  intros Hi N W. destruct d.
  - destruct (p_flag s) eqn:F; eexists; eexists; [now apply DsLose|now apply DsWin].
  - destruct (p_quits s) eqn:Q; eexists; eexists; [now apply DsQuit|apply DsQuitAgain; lia].
  - eexists; eexists; apply DsConn.
  - eexists; eexists; apply DsWait; auto.
  - now elim N.
Qed.
Lemma write_cases (m : message X) : (exists f, write_message X m = Ok f) \/ forall f, write_message X m <> Ok f.
Proof. destruct (write_message X m); [left; eexists; reflexivity|right; discriminate..]. Qed.

Lemma holder_moves s : inv s -> holders s <> 0%nat -> exists t, internal s t.
Proof.
  intros Hi H. unfold holders in H.
  destruct (w_quits (p_writer s)) eqn:W.
  - destruct (r_quits (p_reader s)) eqn:R.
    + assert (O : exists pre post, p_others s = pre ++ ODisc DQuit :: post).
      { assert (K : o_quits (p_others s) <> 0%nat) by lia. clear -K.
        assert (G : forall l, o_quits l <> 0%nat -> exists pre post, l = pre ++ ODisc DQuit :: post).
        { induction l as [|o l IH]; intro N; [now elim N|]. destruct (o_quit o) eqn:E.
          - rewrite o_quits_cons, E in N. destruct (IH N) as (pre & post & ->). now exists (o :: pre), post.
          - destruct o; try discriminate E. destruct d; try discriminate E. now exists [], l. }
        now apply G. }
      destruct O as (pre & post & E). destruct (d_enabled s DQuit Hi) as (t & d' & D); [discriminate|discriminate|].
      eexists. right. right. exact (OsDisc X s pre DQuit post t d' E D).
    + destruct (p_reader s) eqn:E; try discriminate R; destruct d; try discriminate R;
        (destruct (d_enabled s DQuit Hi) as (t & d' & D); [discriminate|discriminate|]);
        eexists; right; left; [exact (RsBanning X s DQuit t d' E D)|exact (RsDisc X s DQuit t d' E D)].
  - destruct (p_writer s) eqn:E; try discriminate W. destruct d; try discriminate W.
    destruct (d_enabled s DQuit Hi) as (t & d' & D); [discriminate|discriminate|].
    eexists. left. exact (WsDisc X s DQuit t d' E D).
Qed.

Lemma stuck_states s : inv s -> (forall t, ~ internal s t) ->
  p_reader s = RBan DWait \/ (p_flag s = false /\ exists m, p_reader s = RSend m) \/ all_ended s.
Proof.
  intros Hi St. pose proof Hi as (A & B & C1 & C2 & W & R & O).
  assert (H0 : holders s = 0%nat).
  { destruct (holders s) eqn:E; [reflexivity|]. destruct (holder_moves s Hi) as (t & T); [congruence|]. now apply St in T. }
  assert (FQ : p_flag s = true -> p_quits s <> 0%nat) by (intro F; rewrite F in B; lia).
  assert (Wc : (p_writer s = WSelect /\ p_quits s = 0%nat) \/ (p_writer s = WDisc DWait /\ p_wg s <> 0%Z) \/ p_writer s = WDisc DRet).
  { destruct (p_writer s) as [|m|m| |d] eqn:E.
    - left. split; [reflexivity|]. destruct (p_quits s) eqn:Q; [reflexivity|]. exfalso.
      apply (St (set_writer s WDone)). left. apply WsQuit; [exact E|lia].
    - exfalso. destruct (p_flag s) eqn:F; [apply (St (set_writer s WDone))|apply (St (set_writer s (WWrite m)))]; left;
        [now apply (WsDead X s m)|now apply (WsLive X s m)].
    - exfalso. destruct (write_cases m) as [((f & n) & E2)|E2].
      + eapply St. left. apply (WsFailed X s m f n [] f E E2 eq_refl).
      + eapply St. left. now apply (WsBad X s m).
    - exfalso. eapply St. left. now apply WsDone.
    - right. destruct d; [ | | | |right; reflexivity];
      try (exfalso; match type of E with p_writer s = WDisc ?d => destruct (d_enabled s d Hi) as (t & d' & D); [discriminate|discriminate|];
        eapply St; left; exact (WsDisc X s d t d' E D) end).
      left. split; [reflexivity|]. intro Z. destruct (d_enabled s DWait Hi) as (t & d' & D); [discriminate|auto|].
      eapply St. left. exact (WsDisc X s DWait t d' E D). }
  assert (Rc : (exists m, p_reader s = RSend m /\ p_quits s = 0%nat /\ p_writer s <> WSelect) \/ p_reader s = RBan DWait \/
               (p_reader s = RDisc DWait /\ p_wg s <> 0%Z) \/ p_reader s = RDisc DRet).
  { destruct (p_reader s) as [| | |m|d| |d] eqn:E.
    - exfalso. destruct (p_flag s) eqn:F; eapply St; right; left; [now apply RsStop|now apply RsGo].
    - exfalso. eapply St. right. left. now apply RsFailed.
    - exfalso. eapply St. right. left. now apply RsNext.
    - left. exists m. split; [reflexivity|]. split.
      + destruct (p_quits s) eqn:Q; [reflexivity|]. exfalso. eapply St. right. left. apply (RsQuit X s m E). lia.
      + intro Ew. eapply St. right. left. exact (RsSent X s m E Ew).
    - right. left. destruct d; [ | | |reflexivity| ];
      try (exfalso; match type of E with p_reader s = RBan ?d => destruct (d_enabled s d Hi) as (t & d' & D); [discriminate|discriminate|];
        eapply St; right; left; exact (RsBanning X s d t d' E D) end).
      exfalso. destruct (p_bans s) as [n|] eqn:Bn; eapply St; right; left; [exact (RsBanned X s n E Bn)|exact (RsNilMap X s E Bn)].
    - exfalso. eapply St. right. left. now apply RsDone.
    - right. right. destruct d; [ | | | |right; reflexivity];
      try (exfalso; match type of E with p_reader s = RDisc ?d => destruct (d_enabled s d Hi) as (t & d' & D); [discriminate|discriminate|];
        eapply St; right; left; exact (RsDisc X s d t d' E D) end).
      left. split; [reflexivity|]. intro Z. destruct (d_enabled s DWait Hi) as (t & d' & D); [discriminate|auto|].
      eapply St. right. left. exact (RsDisc X s DWait t d' E D). }
  destruct Rc as [(m & Er & Q & Nw)|[Er|[(Er & Z)|Er]]].
  - right. left. split; [|now exists m]. destruct (p_flag s) eqn:F; [|reflexivity]. now elim (FQ eq_refl).
  - left. exact Er.
  - exfalso. rewrite Er in R. cbn in R. rewrite A, Er in Z. destruct Wc as [(Ew & Q)|[(Ew & Z2)|Ew]].
    + contradiction.
    + rewrite A, Ew, Er in Z2. now apply Z2.
    + rewrite Ew in Z. now apply Z.
  - rewrite Er in R. cbn in R. specialize (FQ R). right. right.
    assert (Ew : p_writer s = WDisc DRet).
    { destruct Wc as [(Ew & Q)|[(Ew & Z2)|Ew]]; [contradiction| |exact Ew]. exfalso. rewrite A, Ew, Er in Z2. now apply Z2. }
    assert (Z : p_wg s = 0%Z) by (rewrite A, Ew, Er; reflexivity).
    unfold all_ended, writer_ended, reader_ended. split; [exact Ew|]. split; [exact Er|].
    apply Forall_forall. intros o I. apply in_split in I. destruct I as (pre & post & E). unfold other_ended.
    destruct o as [m| |d| | | ]; auto.
    + exfalso. eapply St. right. right. exact (OsQuit X s pre m post E FQ).
    + destruct d; auto; exfalso;
        match type of E with p_others s = _ ++ ODisc ?d :: _ => destruct (d_enabled s d Hi) as (t & d' & D); [discriminate|auto|];
          eapply St; right; right; exact (OsDisc X s pre d post t d' E D) end.
    + exfalso. eapply St. right. right. exact (OsWait X s pre post E FQ).
    + exfalso. eapply St. right. right. exact (OsWaitWg X s pre post E Z).
Qed.

Lemma send_flag s m : inv s -> p_reader s = RSend m -> (forall t, ~ internal s t) -> False.
Proof.
  intros Hi Er St. pose proof Hi as (A & B & C1 & C2 & W & R & O).
  assert (H0 : holders s = 0%nat).
  { destruct (holders s) eqn:E; [reflexivity|]. destruct (holder_moves s Hi) as (t & T); [congruence|]. now apply St in T. }
  assert (Q : p_quits s = 0%nat).
  { destruct (p_quits s) eqn:Q; [reflexivity|]. exfalso. eapply St. right. left. apply (RsQuit X s m Er). lia. }
  assert (F : p_flag s = false) by (destruct (p_flag s); [lia|reflexivity]).
  destruct (p_writer s) as [|m'|m'| |d] eqn:E.
  - eapply St. right. left. exact (RsSent X s m Er E).
  - eapply St. left. exact (WsLive X s m' E F).
  - destruct (write_cases m') as [((f & n) & E2)|E2].
    + eapply St. left. apply (WsFailed X s m' f n [] f E E2 eq_refl).
    + eapply St. left. exact (WsBad X s m' E E2).
  - eapply St. left. exact (WsDone X s E).
  - cbn in W. destruct d; cbn in W; try congruence.
    + destruct (d_enabled s DCas Hi) as (t & d' & D); [discriminate|discriminate|]. eapply St. left. exact (WsDisc X s DCas t d' E D).
    + destruct (d_enabled s DQuit Hi) as (t & d' & D); [discriminate|discriminate|]. eapply St. left. exact (WsDisc X s DQuit t d' E D).
Qed.

Lemma no_deadlock bans s : psteps (p_start X bans) s -> (forall t, ~ internal s t) ->
  p_reader s = RBan DWait \/ all_ended s.
Proof.
  intros R St. pose proof (reach_inv bans s R) as Hi. destruct (stuck_states s Hi St) as [A|[(_ & m & E)|A]]; auto.
  exfalso. exact (send_flag s m Hi E St).
Qed.

(** A send returns once quit is closed. *)
Lemma send_returns s pre m post : p_others s = pre ++ OSend m :: post -> p_quits s <> 0%nat -> p_crash s = None ->
  pstep s (set_others s (pre ++ OSent :: post)).
Proof. intros E Q C. apply PsOther; [exact C|]. exact (OsQuit X s pre m post E Q). Qed.

(** ** C44 *)
Lemma dstep_bans s d t d' : dstep s d t d' -> p_bans t = p_bans s /\ p_reader t = p_reader s.
Proof. now intros []. Qed.
Lemma wg_done_bans s : p_bans (wg_done s) = p_bans s /\ p_reader (wg_done s) = p_reader s.
Proof. destruct (wg_done_fields s) as (_ & _ & _ & _ & _ & R & _ & Bn & _). auto. Qed.

Lemma wstep_other s t : wstep s t -> p_reader t = p_reader s /\ p_bans t = p_bans s.
Proof.
  intros [s' E Q|s' m E F|s' m E F|s' m f n E K W|s' m f n part rest E W P|s' m E W|s' E|s' d t' d' E D]; auto.
  - cbn. destruct (wg_done_bans s'). auto.
  - cbn. destruct (dstep_bans _ _ _ _ D). auto.
Qed.
Lemma ostep_other s t : ostep s t -> p_reader t = p_reader s /\ p_bans t = p_bans s.
Proof.
  intros [s' pre m post E K|s' pre m post E Q|s' pre d post t' d' E D|s' pre post E Q|s' pre post E Q]; auto.
  cbn. destruct (dstep_bans _ _ _ _ D). auto.
Qed.
Lemma spawn_other s t : ospawn X s t -> p_reader t = p_reader s /\ p_bans t = p_bans s.
Proof. intros [s' o K]. auto. Qed.

Lemma ban_step s t d : inv s -> p_reader s = RBan d -> pstep s t ->
  (holding d = true -> exists d', p_reader t = RBan d' /\ holding d' = true /\ p_bans t = p_bans s /\ p_crash t <> Some NilMap) /\
  (p_bans s = None -> exists d', p_reader t = RBan d' /\ p_bans t = None).
Proof.
  intros Hi E St.
  assert (Z : p_wg s <> 0%Z).
  { destruct Hi as (A & _). rewrite A, E. destruct (p_writer s); cbn; lia. }
  assert (Hc : forall t, pstep s t -> p_reader t = p_reader s -> p_bans t = p_bans s ->
     p_crash t <> Some NilMap -> (holding d = true -> exists d', p_reader t = RBan d' /\ holding d' = true /\ p_bans t = p_bans s /\ p_crash t <> Some NilMap) /\
     (p_bans s = None -> exists d', p_reader t = RBan d' /\ p_bans t = None)).
  { intros t' _ E1 E2 E3. split; intro H; exists d; rewrite E1, E2; auto. }
  destruct St as [C W|C Rs|C O|C O].
  - destruct (wstep_other s t W) as (E1 & E2). apply (Hc t (PsWriter X s t C W) E1 E2).
    destruct W as [s' Q1 Q|s' m Q1 F|s' m Q1 F|s' m f n Q1 K W|s' m f n part rest Q1 W P|s' m Q1 W|s' Q1|s' d0 t' d' Q1 D];
      cbn; try congruence.
    + unfold wg_done. destruct (p_wg s' - 1 <? 0)%Z; cbn; congruence.
    + destruct D; cbn; congruence.
  - inversion Rs; subst; try congruence.
    + rewrite E in H. injection H as <-. destruct H0; cbn [holding set_reader p_reader p_bans p_crash set_flag add_quit set_closed crash]; split;
        intro Hh; try discriminate Hh; try (eexists; repeat split; auto; congruence).
    + rewrite E in H. injection H as ->. split; [discriminate|]. congruence.
    + rewrite E in H. injection H as ->. split; [discriminate|]. intros _. exists DRet. auto.
  - destruct (ostep_other s t O) as (E1 & E2). apply (Hc t (PsOther X s t C O) E1 E2).
    destruct O as [s' pre m post Q1 K|s' pre m post Q1 Q|s' pre d0 post t' d' Q1 D|s' pre post Q1 Q|s' pre post Q1 Q]; cbn; try congruence.
    destruct D; cbn; congruence.
  - destruct (spawn_other s t O) as (E1 & E2). apply (Hc t (PsSpawn X s t C O) E1 E2).
    destruct O as [s' o K]. cbn. congruence.
Qed.

Lemma ban_forever bans s t d : psteps (p_start X bans) s -> p_reader s = RBan d -> holding d = true -> psteps s t ->
  (exists d', p_reader t = RBan d' /\ holding d' = true) /\ p_bans t = p_bans s /\ ~ In OWaited (p_others t).
Proof.
  intros R E H St. pose proof (reach_inv bans s R) as Hi.
  assert (G : inv t /\ (exists d', p_reader t = RBan d' /\ holding d' = true) /\ p_bans t = p_bans s).
  { clear R. induction St as [s|s t u St IH Sx].
    - split; [exact Hi|]. split; [|reflexivity]. now exists d.
    - destruct (IH E Hi) as (It & (d' & E' & H') & Bn). split; [exact (step_inv t u It Sx)|].
      destruct (ban_step t u d' It E' Sx) as (K & _). destruct (K H') as (d2 & A1 & A2 & A3 & _).
      split; [now exists d2|]. now rewrite A3, Bn. }
  destruct G as (It & Ex & Bn). split; [exact Ex|]. split; [exact Bn|].
  intro I. destruct It as (A & _ & _ & _ & _ & _ & O). rewrite Forall_forall in O. destruct (O _ I) as (_ & Z).
  destruct Ex as (d' & Er & _). rewrite A, Er in Z. destruct (p_writer t); cbn in Z; lia.
Qed.

Lemma bans_none s t : p_bans s = None -> pstep s t -> p_bans t = None.
Proof.
  intros Bn [C W|C Rs|C O|C O].
  - destruct (wstep_other s t W) as (_ & ->). exact Bn.
  - destruct Rs as [s E F|s E F|s E|s E|s E|s m E|s m E W|s m E Q|s E|s d t d' E D|s n E B|s E B|s E|s d t d' E D]; try exact Bn.
    + cbn. destruct (dstep_bans _ _ _ _ D) as (-> & _). exact Bn.
    + congruence.
    + cbn. destruct (wg_done_bans s) as (-> & _). exact Bn.
    + cbn. destruct (dstep_bans _ _ _ _ D) as (-> & _). exact Bn.
  - destruct (ostep_other s t O) as (_ & ->). exact Bn.
  - destruct (spawn_other s t O) as (_ & ->). exact Bn.
Qed.
Lemma never_banned s : psteps (p_start X None) s -> p_bans s = None.
Proof.
  intro R. remember (p_start X None) as s0 eqn:E. induction R as [|s t u R IH St]; [now subst|].
  exact (bans_none t u (IH E) St).
Qed.
Lemma ban_never_returns s t : psteps (p_start X None) s -> banning (p_reader s) -> psteps s t -> banning (p_reader t).
Proof.
  intros R (d & E) St. pose proof (reach_inv None s R) as Hi. pose proof (never_banned s R) as Bn.
  assert (G : inv t /\ p_bans t = None /\ banning (p_reader t)).
  { clear R. induction St as [s|s t u St IH Sx].
    - split; [exact Hi|]. split; [exact Bn|]. now exists d.
    - destruct (IH E Hi Bn) as (It & Bt & (d' & E')). destruct (ban_step t u d' It E' Sx) as (_ & K).
      destruct (K Bt) as (d2 & A1 & A2). split; [exact (step_inv t u It Sx)|]. split; [exact A2|]. now exists d2. }
  apply G.
Qed.
Lemma ban_lost s t : p_bans s = None -> p_reader s = RBan DRet -> rstep s t -> p_crash t = Some NilMap.
Proof.
  intros Bn E Rs. inversion Rs; subst; try congruence.
  - rewrite E in H. injection H as <-. inversion H0.
  - reflexivity.
Qed.

(** ** C45 *)
Definition pending (w : wpc X) : list (message X) := match w with WCheck m | WWrite m => [m] | _ => [] end.
Definition running (w : wpc X) : Prop := match w with WDone | WDisc _ => False | _ => True end.
Definition winvar s : Prop :=
  exists written fs lost tail, p_taken s = written ++ pending (p_writer s) ++ lost /\ frames_of written fs /\
    p_wire s = concat fs ++ tail /\ p_sent s = lenN (concat fs) mod 2 ^ 64 /\
    (List.length lost <= 1)%nat /\ (running (p_writer s) -> lost = [] /\ tail = []) /\
    (tail <> [] -> exists m f n more, lost = [m] /\ write_message X m = Ok (f, n) /\ f = tail ++ more).

Lemma winvar_same s t : p_taken t = p_taken s -> p_writer t = p_writer s -> p_wire t = p_wire s -> p_sent t = p_sent s ->
  winvar s -> winvar t.
Proof. unfold winvar. now intros -> -> -> ->. Qed.
Lemma winvar_stop s t : p_taken t = p_taken s -> running (p_writer s) -> ~ running (p_writer t) -> pending (p_writer t) = [] ->
  p_wire t = p_wire s -> p_sent t = p_sent s -> winvar s -> winvar t.
Proof.
  intros T Rn Nr Pn W Se (wr & fs & lost & tail & A & B & C & D & E & F & G).
  destruct (F Rn) as (-> & ->). exists wr, fs, (pending (p_writer s)), []. rewrite T, Pn, W, Se, A, !app_nil_r, C.
  split; [reflexivity|]. split; [exact B|]. split; [now rewrite app_nil_r|]. split; [exact D|].
  split; [destruct (p_writer s); cbn; lia|]. split; [intro; contradiction|]. congruence.
Qed.
Lemma take_winvar s m : p_writer s = WSelect -> winvar s ->
  forall t, p_taken t = p_taken s ++ [m] -> p_writer t = WCheck m -> p_wire t = p_wire s -> p_sent t = p_sent s -> winvar t.
Proof.
  intros E (wr & fs & lost & tail & A & B & C & D & _ & F & _) t T W Wi Se. rewrite E in *.
  destruct (F I) as (-> & ->). exists wr, fs, [], []. rewrite T, W, Wi, Se, A, C. cbn [pending app]. rewrite ?app_nil_r.
  split; [reflexivity|]. split; [exact B|]. split; [reflexivity|]. split; [exact D|].
  split; [cbn; lia|]. split; [auto|congruence].
Qed.
Lemma dstep_wire s d t d' : dstep s d t d' -> p_taken t = p_taken s /\ p_wire t = p_wire s /\ p_sent t = p_sent s /\ p_writer t = p_writer s.
Proof. now intros []. Qed.
Lemma write_len m f n : write_message X m = Ok (f, n) -> n = lenN f mod 2 ^ 64.
Proof.
  unfold write_message. destruct (msg_bytes X m) as [b|e| |]; cbn [rbind]; try discriminate. intro E. injection E as <- <-.
  rewrite w64_mod. apply (f_equal (fun k => k mod 2 ^ 64)). unfold lenN. cbn [List.length].
  change msg_header_len with 11. lia.
Qed.

Lemma step_winvar s t : winvar s -> pstep s t -> winvar t.
Proof.
  intros Hw [C W|C Rs|C O|C O].
  - destruct W as [s E Q|s m E F|s m E F|s m f n E K W|s m f n part rest E W P|s m E W|s E|s d t d' E D].
    + apply (winvar_stop s); auto; rewrite E; exact I.
    + apply (winvar_stop s); auto; rewrite E; exact I.
    + destruct Hw as (wr & fs & lost & tail & A & B & C' & D & L & F' & G). rewrite E in *.
      exists wr, fs, lost, tail. repeat split; auto; now destruct (F' I).
    + destruct Hw as (wr & fs & lost & tail & A & B & C' & D & _ & F' & _). rewrite E in *. destruct (F' I) as (-> & ->).
      rewrite app_nil_r in *.
      exists (wr ++ [m]), (fs ++ [f]), [], []. cbn [set_writer wrote p_taken p_writer p_wire p_sent pending].
      split; [rewrite A; cbn [pending]; now rewrite app_nil_r|].
      split; [apply Forall2_app; [exact B|constructor; [now exists n|constructor]]|].
      rewrite concat_app. cbn [concat]. rewrite !app_nil_r. split; [now rewrite C'|].
      split. { rewrite w64_mod, D, (write_len m f n W). rewrite <- N.add_mod by discriminate.
               unfold lenN. rewrite app_length. f_equal. lia. }
      split; [cbn; lia|]. split; [auto|congruence].
    + destruct Hw as (wr & fs & lost & tail & A & B & C' & D & _ & F' & _). rewrite E in *. destruct (F' I) as (-> & ->).
      rewrite app_nil_r in *.
      exists wr, fs, [m], part. cbn [set_writer p_taken p_writer p_wire p_sent pending running].
      split; [exact A|]. split; [exact B|]. split; [now rewrite C'|]. split; [exact D|]. split; [cbn; lia|].
      split; [intros []|]. intros _. now exists m, f, n, rest.
    + exact (winvar_same s (crash s Encoding) eq_refl eq_refl eq_refl eq_refl Hw).
    + destruct (wg_done_fields s) as (_ & _ & _ & _ & _ & _ & _ & _ & T & Wi & Se & _).
      destruct Hw as (wr & fs & lost & tail & A & B & C' & D & L & F' & G). rewrite E in *.
      exists wr, fs, lost, tail. cbn [set_writer p_taken p_writer p_wire p_sent pending running]. rewrite T, Wi, Se.
      repeat split; auto; contradiction.
    + destruct (dstep_wire _ _ _ _ D) as (T & Wi & Se & _).
      destruct Hw as (wr & fs & lost & tail & A & B & C' & D' & L & F' & G). rewrite E in *.
      exists wr, fs, lost, tail. cbn [set_writer p_taken p_writer p_wire p_sent pending running]. rewrite T, Wi, Se.
      repeat split; auto; contradiction.
  - destruct Rs as [s E F|s E F|s E|s E|s E|s m E|s m E W|s m E Q|s E|s d t d' E D|s n E B|s E B|s E|s d t d' E D];
      try (apply (winvar_same s); [reflexivity|reflexivity|reflexivity|reflexivity|exact Hw]).
    + exact (take_winvar s m W Hw (set_reader (take s m) RHandle) eq_refl eq_refl eq_refl eq_refl).
    + destruct (dstep_wire _ _ _ _ D) as (T & Wi & Se & Wr). exact (winvar_same s (set_reader t (RBan d')) T Wr Wi Se Hw).
    + destruct (wg_done_fields s) as (_ & _ & _ & _ & Wr & _ & _ & _ & T & Wi & Se & _).
      exact (winvar_same s (set_reader (wg_done s) (RDisc DCas)) T Wr Wi Se Hw).
    + destruct (dstep_wire _ _ _ _ D) as (T & Wi & Se & Wr). exact (winvar_same s (set_reader t (RDisc d')) T Wr Wi Se Hw).
  - destruct O as [s pre m post E K|s pre m post E Q|s pre d post t d' E D|s pre post E Q|s pre post E Q];
      try (apply (winvar_same s); [reflexivity|reflexivity|reflexivity|reflexivity|exact Hw]).
    + exact (take_winvar s m K Hw (set_others (take s m) (pre ++ OSent :: post)) eq_refl eq_refl eq_refl eq_refl).
    + destruct (dstep_wire _ _ _ _ D) as (T & Wi & Se & Wr). exact (winvar_same s (set_others t (pre ++ ODisc d' :: post)) T Wr Wi Se Hw).
  - destruct O as [s o K]. apply (winvar_same s); [reflexivity|reflexivity|reflexivity|reflexivity|exact Hw].
Qed.

Lemma wire_frames bans s : psteps (p_start X bans) s ->
  exists written fs later tail, p_taken s = written ++ later /\ (List.length later <= 1)%nat /\ frames_of written fs /\
    p_wire s = concat fs ++ tail /\ p_sent s = lenN (concat fs) mod 2 ^ 64 /\
    (tail <> [] -> (p_writer s = WDone \/ writer_left (p_writer s)) /\
       exists m f n more, later = [m] /\ write_message X m = Ok (f, n) /\ f = tail ++ more).
Proof.
  intro R.
  assert (Hw : winvar s).
  { remember (p_start X bans) as s0 eqn:E. induction R as [|s t u R IH St]; [|exact (step_winvar t u (IH E) St)].
    subst. exists [], [], [], []. cbn. repeat split; auto; try constructor; congruence. }
  destruct Hw as (wr & fs & lost & tail & A & B & C & D & L & F & G).
  exists wr, fs, (pending (p_writer s) ++ lost), tail. split; [exact A|].
  destruct (p_writer s) eqn:E; cbn [pending running app] in *;
    try (destruct (F I) as (-> & ->); split; [cbn; lia|]; split; [exact B|]; split; [exact C|]; split; [exact D|]; congruence).
  - split; [exact L|]. split; [exact B|]. split; [exact C|]. split; [exact D|]. intro N. split; [auto|]. exact (G N).
  - split; [exact L|]. split; [exact B|]. split; [exact C|]. split; [exact D|]. intro N. split; [right; now exists d|]. exact (G N).
Qed.
(** ** Executions *)
Lemma psteps_cons s t u : pstep s t -> psteps t u -> psteps s u.
Proof. intros St R. induction R as [t|t u v R IH Sx]; [exact (PsMore X s s t (PsNone X s) St)|exact (PsMore X s u v (IH St) Sx)]. Qed.

(** Somebody connects, sends a message, closes; the handlers and a waiting goroutine end. The first
    state is the one in which the close has won the compare-and-swap. *)
Lemma run_both bans m f n : write_message X m = Ok (f, n) ->
  exists s t, psteps (p_start X bans) s /\ p_others s = [OWait; OSent; ODisc DQuit] /\ psteps s t /\
    p_others t = [OWaited; OSent; ODisc DRet] /\ all_ended t /\ p_taken t = [m] /\ p_wire t = f /\ p_sent t = w64 n /\
    p_crash t = None.
Proof.
  intro W. eexists. eexists. split; [|split; [|split]].
  - eapply psteps_cons. { apply PsSpawn; [reflexivity|]. apply (OsNew X _ OWait). auto. } cbn.
    eapply psteps_cons. { apply PsSpawn; [reflexivity|]. apply (OsNew X _ (OSend m)). eauto. } cbn.
    eapply psteps_cons. { apply PsSpawn; [reflexivity|]. apply (OsNew X _ (ODisc DCas)). auto. } cbn.
    eapply psteps_cons. { apply PsReader; [reflexivity|]. apply RsGo; reflexivity. } cbn.
    eapply psteps_cons. { apply PsOther; [reflexivity|]. apply (OsSend X _ [OWait] m [ODisc DCas]); reflexivity. } cbn.
    eapply psteps_cons. { apply PsWriter; [reflexivity|]. apply (WsLive X _ m); reflexivity. } cbn.
    eapply psteps_cons. { apply PsWriter; [reflexivity|]. apply (WsWritten X _ m f n); [reflexivity|reflexivity|exact W]. } cbn -[w64].
    eapply psteps_cons. { apply PsOther; [reflexivity|]. apply (OsDisc X _ [OWait; OSent] DCas []); [reflexivity|]. apply DsWin. reflexivity. } cbn -[w64].
    apply PsNone.
  - reflexivity.
  - eapply psteps_cons. { apply PsOther; [reflexivity|]. apply (OsDisc X _ [OWait; OSent] DQuit []); [reflexivity|]. apply DsQuit. reflexivity. } cbn -[w64].
    eapply psteps_cons. { apply PsOther; [reflexivity|]. apply (OsDisc X _ [OWait; OSent] DConn []); [reflexivity|]. apply DsConn. } cbn -[w64].
    eapply psteps_cons. { apply PsWriter; [reflexivity|]. apply WsQuit; [reflexivity|discriminate]. } cbn -[w64].
    eapply psteps_cons. { apply PsReader; [reflexivity|]. apply RsFailed; reflexivity. } cbn -[w64].
    eapply psteps_cons. { apply PsWriter; [reflexivity|]. apply WsDone; reflexivity. } cbn -[w64].
    eapply psteps_cons. { apply PsReader; [reflexivity|]. apply RsDone; reflexivity. } cbn -[w64].
    eapply psteps_cons. { apply PsWriter; [reflexivity|]. apply (WsDisc X _ DCas); [reflexivity|]. apply DsLose. reflexivity. } cbn -[w64].
    eapply psteps_cons. { apply PsReader; [reflexivity|]. apply (RsDisc X _ DCas); [reflexivity|]. apply DsLose. reflexivity. } cbn -[w64].
    eapply psteps_cons. { apply PsOther; [reflexivity|]. apply (OsDisc X _ [OWait; OSent] DWait []); [reflexivity|]. apply DsWait. reflexivity. } cbn -[w64].
    eapply psteps_cons. { apply PsOther; [reflexivity|]. apply (OsWait X _ [] [OSent; ODisc DRet]); [reflexivity|discriminate]. } cbn -[w64].
    eapply psteps_cons. { apply PsOther; [reflexivity|]. apply (OsWaitWg X _ [] [OSent; ODisc DRet]); reflexivity. } cbn -[w64].
    apply PsNone.
  - cbn -[w64]. split; [reflexivity|]. split; [|repeat split; auto].
    split; [reflexivity|]. split; [reflexivity|]. unfold other_ended. constructor; [auto|]. constructor; [auto|]. constructor; auto.
Qed.
Lemma psteps_app s t u : psteps s t -> psteps t u -> psteps s u.
Proof. intros A B. induction B as [t|t u v B IH Sx]; [exact A|]. exact (PsMore X s u v (IH A) Sx). Qed.
Lemma run_normal bans m f n : write_message X m = Ok (f, n) ->
  exists s, psteps (p_start X bans) s /\ all_ended s /\ p_taken s = [m] /\ p_wire s = f /\ p_sent s = w64 n /\
    In OWaited (p_others s) /\ p_crash s = None.
Proof.
  intro W. destruct (run_both bans m f n W) as (s & t & A & _ & B & O & E & T & Wi & Se & C). exists t.
  split; [exact (psteps_app _ _ _ A B)|]. split; [exact E|]. split; [exact T|]. split; [exact Wi|]. split; [exact Se|].
  split; [rewrite O; left; reflexivity|exact C].
Qed.
Lemma run_winner bans m f n : write_message X m = Ok (f, n) ->
  exists s t, psteps (p_start X bans) s /\ nth_error (p_others s) 2 = Some (ODisc DQuit) /\ psteps s t /\
    nth_error (p_others t) 2 = Some (ODisc DRet).
Proof.
  intro W. destruct (run_both bans m f n W) as (s & t & A & O1 & B & O & _). exists s, t. rewrite O1, O. auto.
Qed.

(** The read handler bans its peer and wins the compare-and-swap. *)
Lemma run_ban_hangs bans : exists s, psteps (p_start X bans) s /\ p_reader s = RBan DWait /\ p_crash s = None /\ p_closed s = true.
Proof.
  eexists. split.
  - eapply psteps_cons. { apply PsReader; [reflexivity|]. apply RsGo; reflexivity. } cbn.
    eapply psteps_cons. { apply PsReader; [reflexivity|]. apply RsMessage; reflexivity. } cbn.
    eapply psteps_cons. { apply PsReader; [reflexivity|]. apply RsBan; reflexivity. } cbn.
    eapply psteps_cons. { apply PsReader; [reflexivity|]. apply (RsBanning X _ DCas); [reflexivity|]. apply DsWin. reflexivity. } cbn.
    eapply psteps_cons. { apply PsReader; [reflexivity|]. apply (RsBanning X _ DQuit); [reflexivity|]. apply DsQuit. reflexivity. } cbn.
    eapply psteps_cons. { apply PsReader; [reflexivity|]. apply (RsBanning X _ DConn); [reflexivity|]. apply DsConn. } cbn.
    apply PsNone.
  - repeat split; reflexivity.
Qed.

(** It bans its peer while somebody else is disconnecting. *)
Lemma run_ban_lost bans : exists s, psteps (p_start X bans) s /\ p_reader s = RBan DRet /\ p_crash s = None /\ p_bans s = bans /\
  In (ODisc DQuit) (p_others s) /\ p_closed s = false.
Proof.
  eexists. split.
  - eapply psteps_cons. { apply PsReader; [reflexivity|]. apply RsGo; reflexivity. } cbn.
    eapply psteps_cons. { apply PsReader; [reflexivity|]. apply RsMessage; reflexivity. } cbn.
    eapply psteps_cons. { apply PsSpawn; [reflexivity|]. apply (OsNew X _ (ODisc DCas)). auto. } cbn.
    eapply psteps_cons. { apply PsOther; [reflexivity|]. apply (OsDisc X _ [] DCas []); [reflexivity|]. apply DsWin. reflexivity. } cbn.
    eapply psteps_cons. { apply PsReader; [reflexivity|]. apply RsBan; reflexivity. } cbn.
    eapply psteps_cons. { apply PsReader; [reflexivity|]. apply (RsBanning X _ DCas); [reflexivity|]. apply DsLose. reflexivity. } cbn.
    apply PsNone.
  - cbn. repeat split; auto.
Qed.

(** Two goroutines close: the second returns at once, with everything still running. *)
Lemma run_close_early bans : exists s, psteps (p_start X bans) s /\ p_others s = [ODisc DQuit; ODisc DRet] /\ p_crash s = None /\
  p_closed s = false /\ p_quits s = 0%nat /\ p_writer s = WSelect /\ p_reader s = RTest.
Proof.
  eexists. split.
  - eapply psteps_cons. { apply PsSpawn; [reflexivity|]. apply (OsNew X _ (ODisc DCas)). auto. } cbn.
    eapply psteps_cons. { apply PsSpawn; [reflexivity|]. apply (OsNew X _ (ODisc DCas)). auto. } cbn.
    eapply psteps_cons. { apply PsOther; [reflexivity|]. apply (OsDisc X _ [] DCas [ODisc DCas]); [reflexivity|]. apply DsWin. reflexivity. } cbn.
    eapply psteps_cons. { apply PsOther; [reflexivity|]. apply (OsDisc X _ [ODisc DQuit] DCas []); [reflexivity|]. apply DsLose. reflexivity. } cbn.
    apply PsNone.
  - cbn. repeat split; auto.
Qed.
Lemma close_early bans : exists s, psteps (p_start X bans) s /\ In (ODisc DRet) (p_others s) /\ p_crash s = None /\
  p_closed s = false /\ p_quits s = 0%nat /\ ~ writer_left (p_writer s) /\ ~ reader_left (p_reader s).
Proof.
  destruct (run_close_early bans) as (s & R & O & C & K & Q & W & Rd). exists s. rewrite O, W, Rd.
  repeat split; auto; [cbn; auto|intros (d & E); discriminate..].
Qed.

(** The caller that wins waits. *)
Definition won s (o : opc X) : Prop :=
  o = ODisc DQuit \/ o = ODisc DConn \/ (o = ODisc DWait /\ p_closed s = true) \/
  (o = ODisc DRet /\ p_closed s = true /\ p_wg s = 0%Z).
Lemma dstep_grows2 s d t d' : dstep s d t d' -> (p_closed s = true -> p_closed t = true) /\ p_wg t = p_wg s /\ p_others t = p_others s.
Proof. now intros []. Qed.
Lemma won_keep s t o : (p_closed s = true -> p_closed t = true) -> (p_wg s = 0%Z -> p_wg t = 0%Z) -> won s o -> won t o.
Proof. unfold won. tauto. Qed.
Lemma wg_done_zero s : inv s -> p_writer s = WDone \/ p_reader s = RDone -> p_wg s = 0%Z -> False.
Proof. intros (A & _) H Z. rewrite A in Z. destruct H as [E|E]; rewrite E in Z; [destruct (p_reader s)|destruct (p_writer s)]; cbn in Z; lia. Qed.
Lemma nth_mid {A} (pre post : list A) x y i z :
  nth_error (pre ++ x :: post) i = Some z ->
  (i = List.length pre /\ z = x /\ nth_error (pre ++ y :: post) i = Some y) \/ nth_error (pre ++ y :: post) i = Some z.
Proof.
  revert i. induction pre as [|a pre IH]; intros [|i] H; cbn in *.
  - left. injection H as <-. auto.
  - auto.
  - auto.
  - destruct (IH i H) as [(E1 & E2 & E3)|E]; [left; auto|right; auto].
Qed.
Lemma won_step s t i : inv s -> (exists o, nth_error (p_others s) i = Some o /\ won s o) -> pstep s t ->
  exists o, nth_error (p_others t) i = Some o /\ won t o.
Proof.
  intros Hi (o & N & Wn) St.
  assert (K : p_others t = p_others s -> (p_closed s = true -> p_closed t = true) -> (p_wg s = 0%Z -> p_wg t = 0%Z) ->
              exists o, nth_error (p_others t) i = Some o /\ won t o).
  { intros E Cl Wg. exists o. rewrite E. split; [exact N|]. exact (won_keep s t o Cl Wg Wn). }
  assert (M : forall pre x y post, p_others s = pre ++ x :: post -> p_others t = pre ++ y :: post ->
     (p_closed s = true -> p_closed t = true) -> (p_wg s = 0%Z -> p_wg t = 0%Z) -> (won s x -> won t y) ->
              exists o, nth_error (p_others t) i = Some o /\ won t o).
  { intros pre x y post E E2 Cl Wg Xy. rewrite E in N. rewrite E2. destruct (nth_mid pre post x y i o N) as [(_ & -> & Hn)|Hn].
    - exists y. auto.
    - exists o. split; [exact Hn|]. exact (won_keep s t o Cl Wg Wn). }
  destruct St as [C W|C Rs|C O|C O].
  - destruct W as [s E Q|s m E F|s m E F|s m f n E Kc W|s m f n part rest E W P|s m E W|s E|s d t d' E D]; try (apply K; cbn; auto; fail).
    + destruct (wg_done_fields s) as (_ & _ & Cl & _ & _ & _ & Ot & _). apply K; cbn; [exact Ot|now rewrite Cl|].
      intro Z. elim (wg_done_zero s Hi); auto.
    + destruct (dstep_grows2 _ _ _ _ D) as (Cl & Wg & Ot). apply K; cbn; auto; congruence.
  - destruct Rs as [s E F|s E F|s E|s E|s E|s m E|s m E W|s m E Q|s E|s d t d' E D|s n E B|s E B|s E|s d t d' E D]; try (apply K; cbn; auto; fail).
    + destruct (dstep_grows2 _ _ _ _ D) as (Cl & Wg & Ot). apply K; cbn; auto; congruence.
    + destruct (wg_done_fields s) as (_ & _ & Cl & _ & _ & _ & Ot & _). apply K; cbn; [exact Ot|now rewrite Cl|].
      intro Z. elim (wg_done_zero s Hi); auto.
    + destruct (dstep_grows2 _ _ _ _ D) as (Cl & Wg & Ot). apply K; cbn; auto; congruence.
  - destruct O as [s pre m post E Kc|s pre m post E Q|s pre d post t d' E D|s pre post E Q|s pre post E Q].
    + apply (M pre (OSend m) OSent post E eq_refl); auto. unfold won. intros [H|[H|[(H & _)|(H & _)]]]; discriminate.
    + apply (M pre (OSend m) OSent post E eq_refl); auto. unfold won. intros [H|[H|[(H & _)|(H & _)]]]; discriminate.
    + destruct (dstep_grows2 _ _ _ _ D) as (Cl & Wg & Ot). apply (M pre (ODisc d) (ODisc d') post E eq_refl); [exact Cl|cbn; congruence|].
      clear -D. destruct D; unfold won; cbn; intros [H0|[H0|[(H0 & H1)|(H0 & H1)]]]; try discriminate; auto 6.
    + apply (M pre OWait OWaitWg post E eq_refl); auto. unfold won. intros [H|[H|[(H & _)|(H & _)]]]; discriminate.
    + apply (M pre OWaitWg OWaited post E eq_refl); auto. unfold won. intros [H|[H|[(H & _)|(H & _)]]]; discriminate.
  - destruct O as [s o' _]. cbn [set_others p_others]. exists o. split; [|exact Wn].
    rewrite nth_error_app1; [exact N|]. apply nth_error_Some. congruence.
Qed.
Lemma winner_waits bans s t i : psteps (p_start X bans) s -> nth_error (p_others s) i = Some (ODisc DQuit) ->
  psteps s t -> nth_error (p_others t) i = Some (ODisc DRet) ->
  p_closed t = true /\ writer_left (p_writer t) /\ reader_left (p_reader t).
Proof.
  intros R N St D. pose proof (reach_inv bans s R) as Hi. clear R.
  assert (G : inv t /\ exists o, nth_error (p_others t) i = Some o /\ won t o).
  { clear D. induction St as [s|s t u St IH Sx].
    - split; [exact Hi|]. eexists. split; [exact N|]. left. reflexivity.
    - destruct (IH N Hi) as (It & Ex). split; [exact (step_inv t u It Sx)|exact (won_step t u i It Ex Sx)]. }
  destruct G as (It & o & No & Wn). rewrite D in No. injection No as <-.
  destruct Wn as [H|[H|[(H & _)|(_ & Cl & Z)]]]; try discriminate H. split; [exact Cl|]. exact (wg_zero t It Z).
Qed.
End WithExt.
