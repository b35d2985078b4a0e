(** Lemmas about stopping one connection. *)
From Verif Require Import Shutdown SpecPeer PeerProofs.

Section Stop.
Context (X : Ext).
Implicit Types s t u : lstate X.

(** The peer's part of an execution is one of Peer.v. *)
Lemma l_psteps a s t : lsteps s t -> psteps a (l_peer s) -> psteps a (l_peer t).
Proof.
  intros R H. induction R as [s|s t u R IH St]; [exact H|]. specialize (IH H). destruct St; cbn [l_peer] in *; try exact IH.
  - eapply PsMore; [exact IH|now apply PsWriter].
  - eapply PsMore; [exact IH|now apply PsReader].
  - eapply PsMore; [exact IH|now apply PsOther].
  - eapply PsMore; [exact IH|now apply PsSpawn].
  - eapply PsMore; [exact IH|]. apply PsSpawn; [assumption|]. apply OsNew. now left.
Qed.

Definition caught k s : Prop :=
  l_lock s = LCloser k /\ l_wants s = true /\ p_reader (l_peer s) = RHandle /\
  exists d, holding d = true /\ nth_error (p_others (l_peer s)) k = Some (ODisc d).

Lemma wg_done_others (p : pstate X) : p_others (wg_done p) = p_others p.
Proof. unfold wg_done. now destruct (_ <? _)%Z. Qed.
Lemma wstep_others (p p' : pstate X) : wstep p p' -> p_others p' = p_others p.
Proof.
  intro H. destruct H; cbn [set_writer wrote take crash p_others]; try reflexivity.
  - now rewrite wg_done_others.
  - destruct (dstep_grows2 _ _ _ _ _ H0) as (_ & _ & E). exact E.
Qed.
Lemma nth_mid {A} (l : list A) pre x y post k z : l = pre ++ x :: post -> nth_error l k = Some z ->
  (k = List.length pre /\ z = x) \/ nth_error (pre ++ y :: post) k = Some z.
Proof.
  intros -> N. destruct (Nat.lt_trichotomy k (List.length pre)) as [L|[L|L]].
  - right. rewrite nth_error_app1 in * by lia. exact N.
  - left. subst k. rewrite nth_error_app2, Nat.sub_diag in N by lia. injection N as <-. auto.
  - right. rewrite nth_error_app2 in * by lia. destruct (k - List.length pre)%nat as [|j] eqn:E; [lia|]. exact N.
Qed.
Lemma ostep_holding (p p' : pstate X) k d : ostep p p' -> p_wg p <> 0%Z -> nth_error (p_others p) k = Some (ODisc d) -> holding d = true ->
  exists d', holding d' = true /\ nth_error (p_others p') k = Some (ODisc d').
Proof.
  intros H W N Hd. destruct H as [p pre m post E _|p pre m post E _|p pre e post q e' E D|p pre post E _|p pre post E Z]; cbn [set_others take p_others].
  - destruct (nth_mid _ _ _ OSent _ _ _ E N) as [(_ & F)|G]; [discriminate F|eauto].
  - destruct (nth_mid _ _ _ OSent _ _ _ E N) as [(_ & F)|G]; [discriminate F|eauto].
  - destruct (nth_mid _ _ _ (ODisc e') _ _ _ E N) as [(-> & F)|G]; [|eauto]. injection F as ->.
    assert (K : holding e' = true) by (destruct D; try discriminate Hd; try reflexivity; contradiction).
    exists e'. split; [exact K|]. rewrite nth_error_app2, Nat.sub_diag by lia. reflexivity.
  - destruct (nth_mid _ _ _ OWaitWg _ _ _ E N) as [(_ & F)|G]; [discriminate F|eauto].
  - contradiction.
Qed.
Lemma caught_step k s t : caught k s -> inv X (l_peer s) -> lstep s t -> caught k t.
Proof.
  intros (L & W & R & d & Hd & N) Hi St.
  assert (Wg : p_wg (l_peer s) <> 0%Z).
  { intro Z. destruct (wg_zero X _ Hi Z) as (_ & (e & E)). congruence. }
  destruct St as [p l w p' C S|p l p' C S|p l w p' C S|p l w p' C S|p l C E|p C|p C|p w C|p k' w C E]; cbn [l_lock l_wants l_peer] in *; subst;
    try discriminate; unfold caught; cbn [l_lock l_wants l_peer].
  - destruct (wstep_other X p p' S) as (Er & _). rewrite Er, (wstep_others p p' S). do 3 (split; [auto|]). eauto.
  - destruct (ostep_other X p p' S) as (Er & _). rewrite Er. do 3 (split; [auto|]). now apply (ostep_holding p p' k d).
  - destruct (spawn_other X p p' S) as (Er & _). rewrite Er. do 3 (split; [auto|]). exists d. split; [exact Hd|].
    destruct S as [p o _]. cbn [set_others p_others]. rewrite nth_error_app1; [exact N|]. apply nth_error_Some. congruence.
  - injection L as ->. rewrite N in E. injection E as ->. discriminate Hd.
Qed.
Lemma caught_forever bans k s t : lsteps (l_start X bans) s -> caught k s -> lsteps s t -> caught k t.
Proof.
  intros R0 H R. induction R as [s|s t u R IH St]; [exact H|]. specialize (IH R0 H). apply (caught_step k t u IH); [|exact St].
  apply (reach_inv X bans). apply (l_psteps _ s t R). apply (l_psteps _ _ _ R0). apply PsNone.
Qed.
Lemma caught_waits bans k s t : lsteps (l_start X bans) s -> caught k s -> lsteps s t ->
  p_reader (l_peer t) = RHandle /\ ~ In OWaited (p_others (l_peer t)) /\ nth_error (p_others (l_peer t)) k <> Some (ODisc DRet).
Proof.
  intros R0 H R. destruct (caught_forever bans k s t R0 H R) as (_ & _ & Rd & d & Hd & N). split; [exact Rd|]. split.
  - intro I. assert (P : psteps (p_start X bans) (l_peer t)) by (apply (l_psteps _ s t R); apply (l_psteps _ _ _ R0); apply PsNone).
    destruct (waited X bans _ P I) as (_ & _ & (e & E)). congruence.
  - rewrite N. intro E. injection E as ->. discriminate Hd.
Qed.

Lemma l_cons s t u : lstep s t -> lsteps t u -> lsteps s u.
Proof. intros St R. induction R as [t|t u v R IH Sx]; [exact (LsMore s s t (LsNone s) St)|exact (LsMore s u v (IH St) Sx)]. Qed.
Lemma run_caught bans : exists s, lsteps (l_start X bans) s /\ caught 0 s /\ p_crash (l_peer s) = None /\
  nth_error (p_others (l_peer s)) 0 = Some (ODisc DWait).
Proof.
  eexists. split; [|split; [|split]].
  - eapply l_cons. { apply LsReader; [reflexivity|]. apply RsGo; reflexivity. } cbv beta iota delta [set_reader].
    eapply l_cons. { apply LsReader; [reflexivity|]. apply RsMessage; reflexivity. }
    eapply l_cons. { apply LsWant; reflexivity. }
    eapply l_cons. { apply LsClose. reflexivity. }
    eapply l_cons. { apply LsOther; [reflexivity|]. eapply (OsDisc _ _ [] DCas []); [reflexivity|]. apply DsWin. reflexivity. }
    eapply l_cons. { apply LsOther; [reflexivity|]. eapply (OsDisc _ _ [] DQuit []); [reflexivity|]. apply DsQuit. reflexivity. }
    eapply l_cons. { apply LsOther; [reflexivity|]. eapply (OsDisc _ _ [] DConn []); [reflexivity|]. apply DsConn. }
    apply LsNone.
  - split; [reflexivity|]. split; [reflexivity|]. split; [reflexivity|]. exists DWait. split; reflexivity.
  - reflexivity.
  - reflexivity.
Qed.
End Stop.
