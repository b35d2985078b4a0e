(** Proofs for C129. *)
From Coq Require Import Lia.
From Verif Require Import Start SpecPeer SpecEarly PeerProofs LiveProofs.

Section Early.
Context (X : Ext).
Notation st := (pstate X).

(** *** Steps do not depend on what has returned *)
Lemma as_if_set (s : st) o : Forall2 but_returned (p_others s) o -> as_if s (set_others s o).
Proof. intro F. unfold as_if. cbn. repeat split. exact F. Qed.
Lemma as_if_is (s t : st) : as_if s t -> t = set_others s (p_others t).
Proof. destruct s, t. unfold as_if. cbn. intros (-> & -> & -> & -> & -> & -> & -> & -> & -> & -> & -> & _). reflexivity. Qed.
Lemma as_if_others (s t : st) : as_if s t -> Forall2 but_returned (p_others s) (p_others t).
Proof. unfold as_if. tauto. Qed.
Lemma d_frame (s t : st) d d' o : dstep s d t d' -> dstep (set_others s o) d (set_others t o) d' /\ p_others t = p_others s.
Proof.
  intros [v F|v F|v F|v F|v|v F]; (split; [|reflexivity]).
  - now apply (DsLose X (set_others v o)).
  - now apply (DsWin X (set_others v o)).
  - now apply (DsQuit X (set_others v o)).
  - now apply (DsQuitAgain X (set_others v o)).
  - now apply (DsConn X (set_others v o)).
  - now apply (DsWait X (set_others v o)).
Qed.
Lemma wg_done_set (s : st) o : wg_done (set_others s o) = set_others (wg_done s) o.
Proof. unfold wg_done. cbn. destruct (_ <? _)%Z; reflexivity. Qed.
Lemma w_frame (s t : st) o : wstep s t -> wstep (set_others s o) (set_others t o) /\ p_others t = p_others s.
Proof.
  intros [v E Q|v m E F|v m E F|v m f n E K W|v m f n part rest E W P|v m E W|v E|v d t' d' E D].
  - split; [now apply (WsQuit X (set_others v o))|reflexivity].
  - split; [now apply (WsDead X (set_others v o) m)|reflexivity].
  - split; [now apply (WsLive X (set_others v o) m)|reflexivity].
  - split; [now apply (WsWritten X (set_others v o) m f n)|reflexivity].
  - split; [now apply (WsFailed X (set_others v o) m f n part rest)|reflexivity].
  - split; [now apply (WsBad X (set_others v o) m)|reflexivity].
  - split; [|unfold wg_done; destruct (_ <? _)%Z; reflexivity].
    replace (set_others (set_writer (wg_done v) (WDisc DCas)) o) with (set_writer (wg_done (set_others v o)) (WDisc DCas)) by (rewrite wg_done_set; reflexivity).
    now apply (WsDone X (set_others v o)).
  - destruct (d_frame v t' d d' o D) as (D' & O). split; [|exact O]. exact (WsDisc X (set_others v o) d (set_others t' o) d' E D').
Qed.
Lemma r_frame (s t : st) o : rstep s t -> rstep (set_others s o) (set_others t o) /\ p_others t = p_others s.
Proof.
  intros [v E F|v E F|v E|v E|v E|v m E|v m E W|v m E Q|v E|v d t' d' E D|v n E B|v E B|v E|v d t' d' E D].
  - split; [now apply (RsStop X (set_others v o))|reflexivity].
  - split; [now apply (RsGo X (set_others v o))|reflexivity].
  - split; [now apply (RsMessage X (set_others v o))|reflexivity].
  - split; [now apply (RsFailed X (set_others v o))|reflexivity].
  - split; [now apply (RsNext X (set_others v o))|reflexivity].
  - split; [now apply (RsAnswer X (set_others v o) m)|reflexivity].
  - split; [now apply (RsSent X (set_others v o) m)|reflexivity].
  - split; [now apply (RsQuit X (set_others v o) m)|reflexivity].
  - split; [now apply (RsBan X (set_others v o))|reflexivity].
  - destruct (d_frame v t' d d' o D) as (D' & O). split; [|exact O]. exact (RsBanning X (set_others v o) d (set_others t' o) d' E D').
  - split; [now apply (RsBanned X (set_others v o) n)|reflexivity].
  - split; [now apply (RsNilMap X (set_others v o))|reflexivity].
  - split; [|unfold wg_done; destruct (_ <? _)%Z; reflexivity].
    replace (set_others (set_reader (wg_done v) (RDisc DCas)) o) with (set_reader (wg_done (set_others v o)) (RDisc DCas)) by (rewrite wg_done_set; reflexivity).
    now apply (RsDone X (set_others v o)).
  - destruct (d_frame v t' d d' o D) as (D' & O). split; [|exact O]. exact (RsDisc X (set_others v o) d (set_others t' o) d' E D').
Qed.
Lemma mid_left {A B} (R : A -> B -> Prop) pre x post l : Forall2 R (pre ++ x :: post) l ->
  exists pre' y post', l = pre' ++ y :: post' /\ R x y /\ (forall x' y', R x' y' -> Forall2 R (pre ++ x' :: post) (pre' ++ y' :: post')).
Proof.
  intro F. apply Forall2_app_inv_l in F as (pre' & l2 & F1 & F2 & ->). inversion F2 as [|x0 y ls post' Rx F3]; subst.
  exists pre', y, post'. split; [reflexivity|]. split; [exact Rx|]. intros x' y' H. apply Forall2_app; [exact F1|now constructor].
Qed.
Lemma o_frame (s t : st) o : ostep s t -> Forall2 but_returned (p_others s) o ->
  exists o', ostep (set_others s o) (set_others t o') /\ Forall2 but_returned (p_others t) o'.
Proof.
  intros [v pre m post E W|v pre m post E Q|v pre d post t' d' E D|v pre post E Q|v pre post E Q] F; rewrite E in F;
    apply mid_left in F as (pre' & y & post' & -> & Ry & K).
  - assert (y = OSend m) as -> by now inversion Ry. exists (pre' ++ OSent :: post'). split; [|apply K; constructor].
    now apply (OsSend X (set_others v (pre' ++ OSend m :: post')) pre' m post').
  - assert (y = OSend m) as -> by now inversion Ry. exists (pre' ++ OSent :: post'). split; [|apply K; constructor].
    now apply (OsQuit X (set_others v (pre' ++ OSend m :: post')) pre' m post').
  - assert (y = ODisc d) as ->. { inversion Ry; subst; [reflexivity|inversion D]. }
    exists (pre' ++ ODisc d' :: post'). split; [|apply K; constructor].
    destruct (d_frame v t' d d' (pre' ++ ODisc d :: post') D) as (D' & O).
    exact (OsDisc X (set_others v (pre' ++ ODisc d :: post')) pre' d post' (set_others t' (pre' ++ ODisc d :: post')) d' eq_refl D').
  - assert (y = OWait) as -> by now inversion Ry. exists (pre' ++ OWaitWg :: post'). split; [|apply K; constructor].
    now apply (OsWait X (set_others v (pre' ++ OWait :: post')) pre' post').
  - assert (y = OWaitWg) as -> by now inversion Ry. exists (pre' ++ OWaited :: post'). split; [|apply K; constructor].
    now apply (OsWaitWg X (set_others v (pre' ++ OWaitWg :: post')) pre' post').
Qed.
Lemma step_as_if (s s' t : st) : as_if s s' -> pstep s t -> exists t', pstep s' t' /\ as_if t t'.
Proof.
  intros A St. pose proof (as_if_is s s' A) as E. pose proof (as_if_others s s' A) as F.
  set (o := p_others s') in *. rewrite E. clear E A. clearbody o. destruct St as [C W|C W|C W|C W].
  - destruct (w_frame s t o W) as (W' & O). exists (set_others t o). split; [now apply PsWriter|]. apply as_if_set. now rewrite O.
  - destruct (r_frame s t o W) as (W' & O). exists (set_others t o). split; [now apply PsReader|]. apply as_if_set. now rewrite O.
  - destruct (o_frame s t o W F) as (o' & W' & F'). exists (set_others t o'). split; [now apply PsOther|]. now apply as_if_set.
  - destruct W as [v x K]. exists (set_others v (o ++ [x])). split.
    + apply PsSpawn; [exact C|]. exact (OsNew X (set_others v o) x K).
    + unfold as_if. cbn. repeat split. apply Forall2_app; [exact F|]. constructor; constructor.
Qed.
Lemma steps_as_if (s t : st) : psteps s t -> forall s', as_if s s' -> exists t', psteps s' t' /\ as_if t t'.
Proof.
  intro R. induction R as [s|s t u R IH St]; intros s' A; [exists s'; split; [apply PsNone|exact A]|].
  destruct (IH s' A) as (t' & R' & A'). destruct (step_as_if t t' u A' St) as (u' & St' & A2). exists u'. split; [exact (PsMore X _ _ _ R' St')|exact A2].
Qed.

(** *** Before Start *)
Lemma one_other (s t : st) : p_crash s = None -> ostep s t -> psteps s t.
Proof. intros C St. apply (psteps_cons X s t t); [now apply PsOther|apply PsNone]. Qed.
Lemma one_spawn (s t : st) : p_crash s = None -> ospawn X s t -> psteps s t.
Proof. intros C St. apply (psteps_cons X s t t); [now apply PsSpawn|apply PsNone]. Qed.
Definition early (bans : option nat) (e e' : st) : Prop :=
  p_wg e = 0%Z /\ p_writer e = WDisc DRet /\ p_reader e = RDisc DRet /\
  p_taken e = [] /\ p_wire e = [] /\ p_sent e = 0 /\ p_bans e = bans /\ as_if (started e) e'.
Lemma early_step bans (e f e' : st) : early bans e e' -> pstep e f -> exists f', psteps e' f' /\ early bans f f'.
Proof.
  intros (Wg & W & R & T & Wi & Se & B & A) St.
  assert (D0 : forall (s t : st) d d', dstep s d t d' -> d <> DRet) by (intros s t d d' D; inversion D; discriminate).
  destruct St as [C Q|C Q|C Q|C Q].
  - exfalso. inversion Q; subst; try congruence. match goal with K : p_writer _ = WDisc ?d, D : dstep _ ?d _ _ |- _ => apply (D0 _ _ _ _ D); congruence end.
  - exfalso. inversion Q; subst; try congruence. match goal with K : p_reader _ = RDisc ?d, D : dstep _ ?d _ _ |- _ => apply (D0 _ _ _ _ D); congruence end.
  - pose proof (as_if_others _ _ A) as F. pose proof (as_if_is _ _ A) as E'. cbn [started p_others] in F.
    set (o := p_others e') in *. clearbody o. subst e'.
    destruct Q as [v pre m post E K|v pre m post E K|v pre d post v' d' E D|v pre post E K|v pre post E K].
    + congruence.
    + rewrite E in F. apply mid_left in F as (pre' & y & post' & -> & Ry & K'). assert (y = OSend m) as -> by now inversion Ry.
      exists (set_others (started v) (pre' ++ OSent :: post')). split.
      * pose proof (fun c => one_other _ _ c (OsQuit X (set_others (started v) (pre' ++ OSend m :: post')) pre' m post' eq_refl K)) as Q1. exact (Q1 C).
      * unfold early. cbn. repeat (split; [assumption|]). apply (as_if_set (started (set_others v (pre ++ OSent :: post)))). apply K'. constructor.
    + rewrite E in F. apply mid_left in F as (pre' & y & post' & -> & Ry & K'). assert (y = ODisc d) as -> by (inversion Ry; subst; [reflexivity|inversion D]).
      destruct D as [v Fl|v Fl|v Qs|v Qs|v|v Z].
      * exists (set_others (started v) (pre' ++ ODisc DRet :: post')). split.
        { pose proof (fun c => one_other _ _ c (OsDisc X (set_others (started v) (pre' ++ ODisc DCas :: post')) pre' DCas post' (set_others (started v) (pre' ++ ODisc DCas :: post')) DRet eq_refl (DsLose X (set_others (started v) (pre' ++ ODisc DCas :: post')) Fl))) as Q1. exact (Q1 C). }
        unfold early. cbn. repeat (split; [assumption|]). apply (as_if_set (started (set_others v (pre ++ ODisc DRet :: post)))). apply K'. constructor.
      * exists (set_others (started (set_flag v)) (pre' ++ ODisc DQuit :: post')). split.
        { pose proof (fun c => one_other _ _ c (OsDisc X (set_others (started v) (pre' ++ ODisc DCas :: post')) pre' DCas post' (set_flag (set_others (started v) (pre' ++ ODisc DCas :: post'))) DQuit eq_refl (DsWin X (set_others (started v) (pre' ++ ODisc DCas :: post')) Fl))) as Q1. exact (Q1 C). }
        unfold early. cbn. repeat (split; [assumption|]). apply (as_if_set (started (set_others (set_flag v) (pre ++ ODisc DQuit :: post)))). apply K'. constructor.
      * exists (set_others (started (add_quit v)) (pre' ++ ODisc DConn :: post')). split.
        { pose proof (fun c => one_other _ _ c (OsDisc X (set_others (started v) (pre' ++ ODisc DQuit :: post')) pre' DQuit post' (add_quit (set_others (started v) (pre' ++ ODisc DQuit :: post'))) DConn eq_refl (DsQuit X (set_others (started v) (pre' ++ ODisc DQuit :: post')) Qs))) as Q1. exact (Q1 C). }
        unfold early. cbn. repeat (split; [assumption|]). apply (as_if_set (started (set_others (add_quit v) (pre ++ ODisc DConn :: post)))). apply K'. constructor.
      * exists (set_others (started (crash v CloseTwice)) (pre' ++ ODisc DQuit :: post')). split.
        { pose proof (fun c => one_other _ _ c (OsDisc X (set_others (started v) (pre' ++ ODisc DQuit :: post')) pre' DQuit post' (crash (set_others (started v) (pre' ++ ODisc DQuit :: post')) CloseTwice) DQuit eq_refl (DsQuitAgain X (set_others (started v) (pre' ++ ODisc DQuit :: post')) Qs))) as Q1. exact (Q1 C). }
        unfold early. cbn. repeat (split; [assumption|]). apply (as_if_set (started (set_others (crash v CloseTwice) (pre ++ ODisc DQuit :: post)))). apply K'. constructor.
      * exists (set_others (started (set_closed v)) (pre' ++ ODisc DWait :: post')). split.
        { pose proof (fun c => one_other _ _ c (OsDisc X (set_others (started v) (pre' ++ ODisc DConn :: post')) pre' DConn post' (set_closed (set_others (started v) (pre' ++ ODisc DConn :: post'))) DWait eq_refl (DsConn X (set_others (started v) (pre' ++ ODisc DConn :: post')) ))) as Q1. exact (Q1 C). }
        unfold early. cbn. repeat (split; [assumption|]). apply (as_if_set (started (set_others (set_closed v) (pre ++ ODisc DWait :: post)))). apply K'. constructor.
      * exists (set_others (started v) (pre' ++ ODisc DWait :: post')). split; [apply PsNone|].
        unfold early. cbn. repeat (split; [assumption|]). apply (as_if_set (started (set_others v (pre ++ ODisc DRet :: post)))). apply K'. constructor.
    + rewrite E in F. apply mid_left in F as (pre' & y & post' & -> & Ry & K'). assert (y = OWait) as -> by now inversion Ry.
      exists (set_others (started v) (pre' ++ OWaitWg :: post')). split.
      * pose proof (fun c => one_other _ _ c (OsWait X (set_others (started v) (pre' ++ OWait :: post')) pre' post' eq_refl K)) as Q1. exact (Q1 C).
      * unfold early. cbn. repeat (split; [assumption|]). apply (as_if_set (started (set_others v (pre ++ OWaitWg :: post)))). apply K'. constructor.
    + rewrite E in F. apply mid_left in F as (pre' & y & post' & -> & Ry & K'). assert (y = OWaitWg) as -> by now inversion Ry.
      exists (set_others (started v) (pre' ++ OWaitWg :: post')). split; [apply PsNone|].
      unfold early. cbn. repeat (split; [assumption|]). apply (as_if_set (started (set_others v (pre ++ OWaited :: post)))). apply K'. constructor.
  - pose proof (as_if_others _ _ A) as F. pose proof (as_if_is _ _ A) as E'. cbn [started p_others] in F.
    set (o := p_others e') in *. clearbody o. subst e'. destruct Q as [v x K]. exists (set_others (started v) (o ++ [x])). split.
    + pose proof (fun c => one_spawn _ _ c (OsNew X (set_others (started v) o) x K)) as Q1. exact (Q1 C).
    + unfold early. cbn. repeat (split; [assumption|]). apply (as_if_set (started (set_others v (p_others v ++ [x])))). apply Forall2_app; [exact F|]. constructor; constructor.
Qed.
Lemma early_steps bans (e : st) : psteps (p_new bans) e -> exists e', psteps (p_start X bans) e' /\ early bans e e'.
Proof.
  intro R. remember (p_new bans) as s0 eqn:E. induction R as [|s t u R IH St].
  - exists (p_start X bans). subst. split; [apply PsNone|]. unfold early, as_if. cbn. repeat split. constructor.
  - destruct (IH E) as (t' & R' & A). destruct (early_step bans t u t' A St) as (u' & R2 & A2). exists u'. split; [exact (psteps_app X _ _ _ R' R2)|exact A2].
Qed.
Lemma lives_as_if bans (s : st) : life bans s -> exists s', psteps (p_start X bans) s' /\ as_if s s'.
Proof.
  intros [e t Re C Rt]. destruct (early_steps bans e Re) as (e' & Re' & A). destruct A as (_ & _ & _ & _ & _ & _ & _ & A).
  destruct (steps_as_if _ _ Rt e' A) as (t' & Rt' & A'). exists t'. split; [exact (psteps_app X _ _ _ Re' Rt')|exact A'].
Qed.
(** No crash happens before Start. *)
Lemma new_safe bans (e : st) : psteps (p_new bans) e -> p_crash e = None.
Proof.
  intro R. destruct (early_steps bans e R) as (e' & R' & A). destruct A as (_ & _ & _ & _ & _ & _ & _ & A).
  assert (K : p_crash e = None \/ p_crash e = Some CloseTwice).
  { clear R' A. remember (p_new bans) as s0 eqn:E. induction R as [|s t u R IH St]; [subst; now left|]. specialize (IH E).
    assert (W : p_writer t = WDisc DRet /\ p_reader t = RDisc DRet) by (subst s; destruct (early_steps bans t R) as (t' & _ & (_ & W & Rd & _)); now split).
    destruct W as (W & Rd).
    assert (D0 : forall (s t : st) d d', dstep s d t d' -> d <> DRet) by (intros s1 t1 d d' D; inversion D; discriminate).
    destruct St as [C Q|C Q|C Q|C Q].
    - exfalso. inversion Q; subst; try congruence. match goal with K : p_writer _ = WDisc ?d, D : dstep _ ?d _ _ |- _ => apply (D0 _ _ _ _ D); congruence end.
    - exfalso. inversion Q; subst; try congruence. match goal with K : p_reader _ = RDisc ?d, D : dstep _ ?d _ _ |- _ => apply (D0 _ _ _ _ D); congruence end.
    - destruct Q as [v pre m post Ep K|v pre m post Ep K|v pre d post v' d' Ep D|v pre post Ep K|v pre post Ep K]; auto.
      destruct D; auto.
    - destruct Q. now left. }
  destruct K as [K|K]; [exact K|]. destruct (once X bans e' R') as (O & _).
  assert (p_crash e = p_crash e') by (unfold as_if in A; cbn in A; tauto). congruence.
Qed.

(** *** Stuck states *)
Lemma back_sym (l l' : list (opc X)) : Forall2 but_returned l l' -> Forall2 (fun a b => but_returned b a) l' l.
Proof. induction 1; constructor; auto. Qed.
(** While a handler runs nothing but what the other state can do is possible. *)
Lemma step_back (s s' t' : st) : as_if s s' -> p_wg s <> 0%Z -> internal s' t' -> exists t, internal s t.
Proof.
  intros A Nz St. pose proof (as_if_is s s' A) as E. pose proof (as_if_others s s' A) as F.
  assert (Es : s = set_others s' (p_others s)) by (rewrite E; destruct s; reflexivity).
  assert (Wz : p_wg s' <> 0%Z) by (unfold as_if in A; decompose [and] A; congruence).
  set (o := p_others s) in *. clearbody o. rewrite Es. clear E A Nz Es. destruct St as [St|[St|St]].
  - destruct (w_frame s' t' o St) as (K & _). eexists. left. exact K.
  - destruct (r_frame s' t' o St) as (K & _). eexists. right. left. exact K.
  - destruct St as [v pre m post Ep K|v pre m post Ep K|v pre d post v' d' Ep D|v pre post Ep K|v pre post Ep K];
      rewrite Ep in F; apply back_sym in F; apply mid_left in F as (pre' & y & post' & -> & Ry & _).
    + assert (y = OSend m) as -> by now inversion Ry. eexists. right. right. exact (OsSend X (set_others v (pre' ++ OSend m :: post')) pre' m post' eq_refl K).
    + assert (y = OSend m) as -> by now inversion Ry. eexists. right. right. exact (OsQuit X (set_others v (pre' ++ OSend m :: post')) pre' m post' eq_refl K).
    + assert (y = ODisc d) as ->. { inversion Ry; subst; [reflexivity|]. inversion D; subst. congruence. }
      destruct (d_frame v v' d d' (pre' ++ ODisc d :: post') D) as (D' & _).
      eexists. right. right. exact (OsDisc X (set_others v (pre' ++ ODisc d :: post')) pre' d post' _ d' eq_refl D').
    + assert (y = OWait) as -> by now inversion Ry. eexists. right. right. exact (OsWait X (set_others v (pre' ++ OWait :: post')) pre' post' eq_refl K).
    + congruence.
Qed.
(** Once both have left, the other state can catch up. *)
Lemma catch_up pre post (s : st) : p_crash s = None -> p_wg s = 0%Z -> forall o, Forall2 but_returned o post -> p_others s = pre ++ post ->
  psteps s (set_others s (pre ++ o)).
Proof.
  revert pre s. induction post as [|y post IH]; intros pre s C Z o F E; inversion F as [|x y' l l' Rx Fl]; subst.
  - rewrite <- E. destruct s. apply PsNone.
  - assert (K : psteps s (set_others s ((pre ++ [x]) ++ post))).
    { rewrite <- app_assoc. cbn. inversion Rx; subst.
      - rewrite <- E. destruct s. apply PsNone.
      - apply (psteps_cons X _ (set_others s (pre ++ ODisc DRet :: post))); [|apply PsNone]. apply PsOther; [exact C|].
        apply (OsDisc X s pre DWait post s DRet E). now apply DsWait.
      - apply (psteps_cons X _ (set_others s (pre ++ OWaited :: post))); [|apply PsNone]. apply PsOther; [exact C|].
        now apply (OsWaitWg X s pre post E). }
    apply (psteps_app X _ _ _ K). pose proof (IH (pre ++ [x]) (set_others s ((pre ++ [x]) ++ post)) C Z l Fl eq_refl) as Q.
    replace (pre ++ x :: l) with ((pre ++ [x]) ++ l) by (rewrite <- app_assoc; reflexivity). exact Q.
Qed.
Lemma lives_stuck bans (s : st) : life bans s -> p_crash s = None -> (forall t, ~ internal s t) ->
  p_reader s = RBan DWait \/ (all_ended s /\ p_quits s = 1%nat /\ p_closed s = true).
Proof.
  intros L C St. destruct (lives_as_if bans s L) as (s' & R & A).
  destruct (Z.eq_dec (p_wg s) 0) as [Z|Z].
  - assert (Rs : psteps (p_start X bans) s).
    { apply (psteps_app X _ _ _ R). pose proof (as_if_is s s' A) as E. pose proof (as_if_others s s' A) as F.
      assert (C' : p_crash s' = None) by (rewrite E; exact C). assert (Z' : p_wg s' = 0%Z) by (rewrite E; exact Z).
      pose proof (catch_up [] (p_others s') s' C' Z' (p_others s) F eq_refl) as K. cbn in K.
      replace (set_others s' (p_others s)) with s in K; [exact K|]. rewrite E. destruct s; reflexivity. }
    destruct (no_deadlock X bans s Rs St) as [Q|Q]; [now left|right]. split; [exact Q|]. destruct (ended_closed X bans s Rs Q) as (Q1 & Q2 & _). now split.
  - destruct (no_deadlock X bans s' R) as [Q|Q].
    + intros t' K. destruct (step_back s s' t' A Z K) as (t & K'). exact (St t K').
    + left. unfold as_if in A. decompose [and] A. congruence.
    + exfalso. destruct (ended_closed X bans s' R Q) as (_ & _ & Z'). unfold as_if in A. decompose [and] A. congruence.
Qed.

(** *** A peer that was disconnected before it was started *)
Definition quiet (s : st) : Prop := p_flag s = true /\ unused s.
Lemma quiet_step (s t : st) : quiet s -> pstep s t -> quiet t.
Proof.
  intros (Fl & Wi & Se & Rd & Wr) St.
  assert (Dq : forall (s t : st) d d', dstep s d t d' -> p_flag s = true -> p_flag t = true /\ p_wire t = p_wire s /\ p_sent t = p_sent s /\ p_reader t = p_reader s /\ p_writer t = p_writer s)
    by (intros s1 t1 d d' D F1; destruct D; cbn; auto).
  assert (Wq : forall s : st, p_flag (wg_done s) = p_flag s /\ p_wire (wg_done s) = p_wire s /\ p_sent (wg_done s) = p_sent s /\ p_reader (wg_done s) = p_reader s /\ p_writer (wg_done s) = p_writer s)
    by (intro s1; unfold wg_done; destruct (_ <? _)%Z; cbn; auto).
  unfold quiet, unused, reader_left, writer_left in *. destruct St as [C Q|C Q|C Q|C Q].
  - destruct Q as [v E Q|v m E F|v m E F|v m f n E K W|v m f n part rest E W P|v m E W|v E|v d t' d' E D]; cbn; auto 10.
    + congruence.
    + exfalso. destruct Wr as [Wr|[(m0 & Wr)|[Wr|(d0 & Wr)]]]; congruence.
    + exfalso. destruct Wr as [Wr|[(m0 & Wr)|[Wr|(d0 & Wr)]]]; congruence.
    + destruct (Wq v) as (A1 & A2 & A3 & A4 & A5). rewrite A1, A2, A3, A4. repeat (split; [assumption|]). right. right. right. now eexists.
    + destruct (Dq _ _ _ _ D Fl) as (A1 & A2 & A3 & A4 & A5). rewrite A1, A2, A3, A4. repeat (split; [assumption || reflexivity|]). right. right. right. now eexists.
  - destruct Q as [v E F|v E F|v E|v E|v E|v m E|v m E W|v m E Q|v E|v d t' d' E D|v n E B|v E B|v E|v d t' d' E D];
      try (exfalso; destruct Rd as [Rd|[Rd|(d0 & Rd)]]; congruence).
    + cbn. auto 10.
    + cbn. destruct (Wq v) as (A1 & A2 & A3 & A4 & A5). rewrite A1, A2, A3, A5. repeat (split; [assumption|]). split; [|exact Wr]. right. right. now eexists.
    + cbn. destruct (Dq _ _ _ _ D Fl) as (A1 & A2 & A3 & A4 & A5). rewrite A1, A2, A3, A5. repeat (split; [assumption || reflexivity|]). split; [|exact Wr]. right. right. now eexists.
  - destruct Q as [v pre m post E K|v pre m post E K|v pre d post v' d' E D|v pre post E K|v pre post E K]; cbn; auto 10.
    + repeat (split; [assumption|]). right. left. now eexists.
    + destruct (Dq _ _ _ _ D Fl) as (A1 & A2 & A3 & A4 & A5). rewrite A1, A2, A3, A4, A5. auto 10.
  - destruct Q. cbn. auto 10.
Qed.
Lemma early_unused bans (e s : st) : psteps (p_new bans) e -> p_flag e = true -> psteps (started e) s -> unused s.
Proof.
  intros Re F Rs. destruct (early_steps bans e Re) as (e' & _ & (_ & _ & _ & _ & Wi & Se & _)).
  assert (Q : quiet (started e)). { split; [exact F|]. split; [exact Wi|]. split; [exact Se|]. split; left; reflexivity. }
  clear Re F Wi Se e'. remember (started e) as s0 eqn:E. clear E. induction Rs as [s0|s0 t u R IH St]; [apply Q|].
  assert (Qt : quiet t). { clear IH St. induction R as [s0|s0 t v R IH St]; [exact Q|]. exact (quiet_step t v (IH Q) St). }
  apply (quiet_step t u Qt St).
Qed.

(** *** An execution: closed before it is started *)
Lemma run_early bans : exists e, psteps (p_new (X := X) bans) e /\ p_others e = [ODisc DRet] /\ p_flag e = true /\ p_closed e = true /\ p_quits e = 1%nat /\ p_crash e = None /\
  exists s, psteps (started e) s /\ all_ended s /\ p_crash s = None.
Proof.
  assert (H : exists e, psteps (p_new (X := X) bans) e /\ e = PState X true 1 true 0 (WDisc DRet) (RDisc DRet) [ODisc DRet] bans [] [] 0 None).
  { eexists. split; [|reflexivity]. unfold p_new.
    eapply psteps_cons. { apply PsSpawn; [reflexivity|]. apply (OsNew _ _ (ODisc DCas)). now left. }
    eapply psteps_cons. { apply PsOther; [reflexivity|]. eapply (OsDisc _ _ [] DCas []); [reflexivity|]. apply DsWin. reflexivity. }
    eapply psteps_cons. { apply PsOther; [reflexivity|]. eapply (OsDisc _ _ [] DQuit []); [reflexivity|]. apply DsQuit. reflexivity. }
    eapply psteps_cons. { apply PsOther; [reflexivity|]. eapply (OsDisc _ _ [] DConn []); [reflexivity|]. apply DsConn. }
    eapply psteps_cons. { apply PsOther; [reflexivity|]. eapply (OsDisc _ _ [] DWait []); [reflexivity|]. apply DsWait. reflexivity. }
    apply PsNone. }
  destruct H as (e & R & ->). eexists. split; [exact R|]. cbn. repeat (split; [reflexivity|]).
  assert (H : exists s, psteps (started (PState X true 1 true 0 (WDisc DRet) (RDisc DRet) [ODisc DRet] bans [] [] 0 None)) s /\
    s = PState X true 1 true 0 (WDisc DRet) (RDisc DRet) [ODisc DRet] bans [] [] 0 None).
  { eexists. split; [|reflexivity]. unfold started. cbn.
    eapply psteps_cons. { apply PsWriter; [reflexivity|]. apply WsQuit; [reflexivity|discriminate]. }
    eapply psteps_cons. { apply PsWriter; [reflexivity|]. apply WsDone; reflexivity. }
    eapply psteps_cons. { apply PsWriter; [reflexivity|]. eapply WsDisc; [reflexivity|]. apply DsLose. reflexivity. }
    eapply psteps_cons. { apply PsReader; [reflexivity|]. apply RsStop; reflexivity. }
    eapply psteps_cons. { apply PsReader; [reflexivity|]. apply RsDone; reflexivity. }
    eapply psteps_cons. { apply PsReader; [reflexivity|]. eapply RsDisc; [reflexivity|]. apply DsLose. reflexivity. }
    apply PsNone. }
  destruct H as (s & Rs & ->). eexists. split; [exact Rs|]. split; [|reflexivity]. repeat split. constructor; [|constructor]. right. now left.
Qed.
(** A Disconnect that won has returned, and the handlers are there. *)
Lemma early_return bans : exists s : st, life bans s /\ p_others s = [ODisc DRet] /\ p_quits s = 1%nat /\ p_closed s = true /\ p_crash s = None /\
  ~ writer_left (p_writer s) /\ ~ reader_left (p_reader s).
Proof.
  destruct (run_early bans) as (e & R & O & F & Cl & Q & C & _). exists (started e). split; [exact (Lives X bans e _ R C (PsNone X _))|].
  cbn. repeat (split; [assumption|]). split; intros (d & K); discriminate K.
Qed.
End Early.
