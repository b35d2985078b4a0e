(** Lemmas for C135: a peer that lives can be closed and brought to its end. *)
From Coq Require Import Lia.
From Verif Require Import Start SpecPeer SpecEarly PeerProofs ShutdownProofs LiveProofs EarlyProofs.
Local Open Scope nat_scope.

Section PeerEnd.
Context (X : Ext).
Notation st := (pstate X).

Lemma fwd_sym (l l' : list (opc X)) : Forall2 (fun a b => but_returned b a) l' l -> Forall2 but_returned l l'.
Proof. induction 1; constructor; auto. Qed.
Lemma back_internal (s s' t' : st) : as_if s s' -> internal s' t' -> exists t, as_if t t' /\ (t = s \/ internal s t).
Proof.
  intros A St. pose proof (as_if_is X s s' A) as E. pose proof (as_if_others X s s' A) as F.
  assert (Es : s = set_others s' (p_others s)) by (rewrite E; destruct s; reflexivity).
  set (o := p_others s) in *. clearbody o. rewrite Es. clear E A Es.
  assert (As : forall (t : st) l, Forall2 but_returned l (p_others t) -> as_if (set_others t l) t).
  { intros t l H. unfold as_if. cbn. repeat split. exact H. }
  destruct St as [St|[St|St]].
  - destruct (w_frame X s' t' o St) as (K & O). exists (set_others t' o). split; [apply As; now rewrite O|right; left; exact K].
  - destruct (r_frame X s' t' o St) as (K & O). exists (set_others t' o). split; [apply As; now rewrite O|right; right; left; exact K].
  - destruct St as [v pre m post Ep K|v pre m post Ep K|v pre d post v' d' Ep D|v pre post Ep K|v pre post Ep K];
      rewrite Ep in F; apply back_sym in F; apply mid_left in F as (pre' & y & post' & -> & Ry & M);
      assert (N : forall a b, but_returned a b -> Forall2 but_returned (pre' ++ a :: post') (pre ++ b :: post))
        by (intros a b H; specialize (M b a H); exact (fwd_sym _ _ M)).
    + assert (y = OSend m) as -> by now inversion Ry. exists (set_others (take v m) (pre' ++ OSent :: post')). split.
      * exact (As (set_others (take v m) (pre ++ OSent :: post)) _ (N _ _ (BrSame _))).
      * right. right. right. exact (OsSend X (set_others v (pre' ++ OSend m :: post')) pre' m post' eq_refl K).
    + assert (y = OSend m) as -> by now inversion Ry. exists (set_others v (pre' ++ OSent :: post')). split.
      * exact (As (set_others v (pre ++ OSent :: post)) _ (N _ _ (BrSame _))).
      * right. right. right. exact (OsQuit X (set_others v (pre' ++ OSend m :: post')) pre' m post' eq_refl K).
    + assert (H : y = ODisc d \/ (y = ODisc DRet /\ d = DWait)) by (inversion Ry; subst; auto).
      destruct H as [->|(-> & ->)].
      * destruct (d_frame X v v' d d' (pre' ++ ODisc d :: post') D) as (D' & O). exists (set_others v' (pre' ++ ODisc d' :: post')). split.
        -- exact (As (set_others v' (pre ++ ODisc d' :: post)) _ (N _ _ (BrSame _))).
        -- right. right. right. exact (OsDisc X (set_others v (pre' ++ ODisc d :: post')) pre' d post' _ d' eq_refl D').
      * exists (set_others v (pre' ++ ODisc DRet :: post')). split; [|now left]. inversion D; subst.
        exact (As (set_others v' (pre ++ ODisc DRet :: post)) _ (N _ _ (BrSame _))).
    + assert (y = OWait) as -> by now inversion Ry. exists (set_others v (pre' ++ OWaitWg :: post')). split.
      * exact (As (set_others v (pre ++ OWaitWg :: post)) _ (N _ _ (BrSame _))).
      * right. right. right. exact (OsWait X (set_others v (pre' ++ OWait :: post')) pre' post' eq_refl K).
    + assert (H : y = OWaitWg \/ y = OWaited) by (inversion Ry; subst; auto). destruct H as [->| ->].
      * exists (set_others v (pre' ++ OWaited :: post')). split.
        -- exact (As (set_others v (pre ++ OWaited :: post)) _ (N _ _ (BrSame _))).
        -- right. right. right. exact (OsWaitWg X (set_others v (pre' ++ OWaitWg :: post')) pre' post' eq_refl K).
      * exists (set_others v (pre' ++ OWaited :: post')). split; [|now left].
        exact (As (set_others v (pre ++ OWaited :: post)) _ (N _ _ (BrSame _))).
Qed.
Lemma back_runs (s' t' : st) : runs X s' t' -> forall s, as_if s s' -> exists t, as_if t t' /\ runs X s t.
Proof.
  intro R. induction R as [s'|s' t' u' C St R IH]; intros s A; [exists s; split; [exact A|apply RunsNone]|].
  destruct (back_internal s s' t' A St) as (t & At & K). destruct (IH t At) as (u & Au & Ru). exists u. split; [exact Au|].
  destruct K as [->|K]; [exact Ru|]. refine (RunsMore X s t u _ K Ru). unfold as_if in A. decompose [and] A. congruence.
Qed.
Lemma ended_back (s s' : st) : as_if s s' -> all_ended s' -> all_ended s.
Proof.
  intros A (Ew & Er & Eo). pose proof (as_if_others X s s' A) as F. unfold as_if in A. decompose [and] A. clear A.
  split; [unfold writer_ended in *; congruence|]. split; [unfold reader_ended in *; congruence|].
  revert Eo. induction F as [|x y l l' Rx F IH]; intro Eo; [constructor|]. inversion Eo as [|y0 l0 Ey El]; subst. constructor; [|now apply IH].
  inversion Rx; subst; [exact Ey|right; now left|right; now right].
Qed.
Lemma encodable_back (s s' : st) : as_if s s' -> encodable s -> encodable s'.
Proof.
  intros A E m U. apply E. pose proof (as_if_others X s s' A) as F. unfold as_if in A. decompose [and] A. clear A. unfold unsent in *.
  destruct U as [U|[U|[U|U]]]; [left; congruence|right; left; congruence|right; right; left; congruence|right; right; right].
  clear -F U. induction F as [|x y l l' Rx F IH]; [destruct U|]. destruct U as [->|U]; [left; now inversion Rx|right; now apply IH].
Qed.
(** A goroutine that runs Close stays one. *)
Lemma runs_disc (s t : st) : runs X s t -> forall j d, nth_error (p_others s) j = Some (ODisc d) -> exists d', nth_error (p_others t) j = Some (ODisc d').
Proof.
  intro R. induction R as [s|s t u C St R IH]; intros j d N; [eauto|]. destruct St as [St|[St|St]].
  - apply (IH j d). now rewrite (wstep_others X s t St).
  - apply (IH j d). now rewrite (rstep_others X s t St).
  - destruct (ostep_disc X s t j d St N) as (d' & N'). exact (IH j d' N').
Qed.
Lemma life_ends pb (p : st) : life pb p -> p_crash p = None -> ~ banning (p_reader p) -> encodable p ->
  exists q, psteps p q /\ p_crash q = None /\ all_ended q /\ p_closed q = true /\ exists j, nth_error (p_others q) j = Some (ODisc DRet).
Proof.
  intros L C B S. set (p1 := set_others p (p_others p ++ [ODisc DCas])).
  assert (St : pstep p p1). { apply PsSpawn; [exact C|]. apply (OsNew X p (ODisc DCas)). now left. }
  assert (L1 : life pb p1). { destruct L as [e s Re Ce Rs]. exact (Lives X pb e p1 Re Ce (PsMore X _ _ _ Rs St)). }
  assert (S1 : encodable p1).
  { intros m U. apply S. unfold unsent in *. cbn in U. destruct U as [U|[U|[U|U]]]; auto. apply in_app_iff in U as [U|[U|[]]]; [auto|discriminate]. }
  destruct (lives_as_if X pb p1 L1) as (p1' & R1 & A1).
  assert (F1 : calm_peer X p1').
  { split; [exact (reach_inv X pb p1' R1)|]. assert (A2 := A1). unfold as_if in A2. decompose [and] A2. split; [cbn in *; congruence|].
    split; [|exact (encodable_back _ _ A1 S1)]. intros (d & E). apply B. exists d. cbn in *. congruence. }
  destruct (finishes X p1' F1) as (t' & Rt & Et & Ct). destruct (back_runs p1' t' Rt p1 A1) as (q & Aq & Rq).
  assert (Rs : psteps (p_start X pb) t') by exact (runs_psteps X p1' t' Rt _ R1).
  destruct (ended_closed X pb t' Rs Et) as (_ & Cl & _). pose proof (ended_back q t' Aq Et) as Eq. exists q.
  assert (H : p_crash q = None /\ p_closed q = true) by (unfold as_if in Aq; decompose [and] Aq; split; congruence). destruct H as (Cq & Clq).
  split; [exact (psteps_cons X _ _ _ St (runs_psteps X p1 q Rq p1 (PsNone X p1)))|]. split; [exact Cq|]. split; [exact Eq|]. split; [exact Clq|].
  destruct Eq as (_ & _ & Eo). rewrite Forall_forall in Eo. exists (List.length (p_others p)).
  destruct (runs_disc p1 q Rq (List.length (p_others p)) DCas) as (d & N). { cbn. rewrite nth_error_app2, Nat.sub_diag by lia. reflexivity. }
  destruct (Eo _ (nth_error_In _ _ N)) as [H|[H|H]]; try discriminate H. now rewrite N, H.
Qed.
End PeerEnd.
