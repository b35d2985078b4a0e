(** Fair endless runs: one that ends, and one that a ban keeps from ending. *)
From Verif Require Import Start SpecPeer SpecFair FairProofs.

Section Examples.
Context (X : Ext).

(** Somebody calls Disconnect. *)
Definition e_called : pstate X := set_others (p_start X None) [ODisc DCas].
Definition e_flag := set_others (set_flag e_called) [ODisc DQuit].
Definition e_quit := set_others (add_quit e_flag) [ODisc DConn].
Definition e_closed := set_others (set_closed e_quit) [ODisc DWait].
Definition e_wdone := set_writer e_closed WDone.
Definition e_wdisc := set_writer (wg_done e_wdone) (WDisc DCas).
Definition e_wend := set_writer e_wdisc (WDisc DRet).
Definition e_rdone := set_reader e_wend RDone.
Definition e_rdisc := set_reader (wg_done e_rdone) (RDisc DCas).
Definition e_rend := set_reader e_rdisc (RDisc DRet).
Definition e_end := set_others e_rend [ODisc DRet].
Definition e_run (n : nat) : pstate X :=
  nth n [p_start X None; e_called; e_flag; e_quit; e_closed; e_wdone; e_wdisc; e_wend; e_rdone; e_rdisc; e_rend] e_end.

Lemma e_late n : e_run (11 + n) = e_end.
Proof. unfold e_run. now destruct n. Qed.
Lemma e_ok : run None e_run /\ (forall n, p_crash (e_run n) = None) /\ (forall n, ~ banning (p_reader (e_run n))) /\ handled e_run /\ fair e_run /\
  ending (e_run 1) /\ nth_error (p_others (e_run 1)) 0 = Some (ODisc DCas).
Proof.
  assert (D : forall n, (exists m, n = (11 + m)%nat) \/ (n < 11)%nat).
  { intro n. destruct (Nat.lt_ge_cases n 11); [now right|]. left. exists (n - 11)%nat. lia. }
  assert (T : forall P : pstate X -> Prop, P e_end -> (forall n, (n < 11)%nat -> P (e_run n)) -> forall n, P (e_run n)).
  { intros P E K n. destruct (D n) as [(m & ->)|L]; [now rewrite e_late|auto]. }
  assert (V : forall n, (n < 11)%nat -> n = 0%nat \/ n = 1%nat \/ n = 2%nat \/ n = 3%nat \/ n = 4%nat \/ n = 5%nat \/ n = 6%nat \/ n = 7%nat \/ n = 8%nat \/ n = 9%nat \/ n = 10%nat)
    by (intros; lia).
  assert (Nh : forall n, ~ handling (e_run n)).
  { apply (T (fun s => ~ handling s)); [intros [E|(m & E)]; discriminate|]. intros n L. destruct (V n L) as [->|[->|[->|[->|[->|[->|[->|[->|[->|[->| ->]]]]]]]]]]; intros [E|(m & E)]; discriminate. }
  repeat split.
  - apply life_start. apply PsNone.
  - intro n. destruct (D n) as [(m & ->)|L]; [left; now rewrite e_late, <- Nat.add_succ_r, e_late|]. right.
    destruct (V n L) as [->|[->|[->|[->|[->|[->|[->|[->|[->|[->| ->]]]]]]]]]]; cbn [e_run nth].
    + apply PsSpawn; [reflexivity|]. apply (OsNew X (p_start X None) (ODisc DCas)). now left.
    + apply PsOther; [reflexivity|]. apply (OsDisc X e_called [] DCas [] (set_flag e_called) DQuit); [reflexivity|]. now apply DsWin.
    + apply PsOther; [reflexivity|]. apply (OsDisc X e_flag [] DQuit [] (add_quit e_flag) DConn); [reflexivity|]. now apply DsQuit.
    + apply PsOther; [reflexivity|]. apply (OsDisc X e_quit [] DConn [] (set_closed e_quit) DWait); [reflexivity|]. apply DsConn.
    + apply PsWriter; [reflexivity|]. apply (WsQuit X e_closed); [reflexivity|discriminate].
    + apply PsWriter; [reflexivity|]. now apply (WsDone X e_wdone).
    + apply PsWriter; [reflexivity|]. apply (WsDisc X e_wdisc DCas e_wdisc DRet); [reflexivity|]. now apply DsLose.
    + apply PsReader; [reflexivity|]. now apply (RsStop X e_wend).
    + apply PsReader; [reflexivity|]. now apply (RsDone X e_rdone).
    + apply PsReader; [reflexivity|]. apply (RsDisc X e_rdisc DCas e_rdisc DRet); [reflexivity|]. now apply DsLose.
    + apply PsOther; [reflexivity|]. apply (OsDisc X e_rend [] DWait [] e_rend DRet); [reflexivity|]. now apply DsWait.
  - apply (T (fun s => p_crash s = None)); [reflexivity|]. intros n L. destruct (V n L) as [->|[->|[->|[->|[->|[->|[->|[->|[->|[->| ->]]]]]]]]]]; reflexivity.
  - apply (T (fun s => ~ banning (p_reader s))); [intros (d & E); discriminate|].
    intros n L. destruct (V n L) as [->|[->|[->|[->|[->|[->|[->|[->|[->|[->| ->]]]]]]]]]]; intros (d & E); discriminate.
  - intros n _ Hn. elim (Nh n Hn).
  - intros g n. exists (11 + n)%nat. split; [lia|]. left. rewrite e_late. unfold must, can_go. destruct g as [| |[|[|k]]]; cbn; intuition discriminate.
  - right. right. right. right. right. exists 0%nat, DCas. reflexivity.
Qed.

(** The read handler bans its own peer. *)
Definition b_read : pstate X := set_reader (p_start X None) RRead.
Definition b_handle := set_reader b_read RHandle.
Definition b_ban := set_reader b_handle (RBan DCas).
Definition b_flag := set_reader (set_flag b_ban) (RBan DQuit).
Definition b_quit := set_reader (add_quit b_flag) (RBan DConn).
Definition b_closed := set_reader (set_closed b_quit) (RBan DWait).
Definition b_wdone := set_writer b_closed WDone.
Definition b_wdisc := set_writer (wg_done b_wdone) (WDisc DCas).
Definition b_end := set_writer b_wdisc (WDisc DRet).
Definition b_run (n : nat) : pstate X :=
  nth n [p_start X None; b_read; b_handle; b_ban; b_flag; b_quit; b_closed; b_wdone; b_wdisc] b_end.
Lemma b_late n : b_run (9 + n) = b_end.
Proof. unfold b_run. now destruct n. Qed.
Lemma b_ok : run None b_run /\ (forall n, p_crash (b_run n) = None) /\ handled b_run /\ fair b_run /\
  p_flag (b_run 4) = true /\ forall n, ~ reader_ended (p_reader (b_run n)).
Proof.
  assert (D : forall n, (exists m, n = (9 + m)%nat) \/ (n < 9)%nat).
  { intro n. destruct (Nat.lt_ge_cases n 9); [now right|]. left. exists (n - 9)%nat. lia. }
  assert (T : forall P : pstate X -> Prop, P b_end -> (forall n, (n < 9)%nat -> P (b_run n)) -> forall n, P (b_run n)).
  { intros P E K n. destruct (D n) as [(m & ->)|L]; [now rewrite b_late|auto]. }
  assert (V : forall n, (n < 9)%nat -> n = 0%nat \/ n = 1%nat \/ n = 2%nat \/ n = 3%nat \/ n = 4%nat \/ n = 5%nat \/ n = 6%nat \/ n = 7%nat \/ n = 8%nat)
    by (intros; lia).
  repeat split.
  - apply life_start. apply PsNone.
  - intro n. destruct (D n) as [(m & ->)|L]; [left; now rewrite b_late, <- Nat.add_succ_r, b_late|]. right.
    destruct (V n L) as [->|[->|[->|[->|[->|[->|[->|[->| ->]]]]]]]]; cbn [b_run nth].
    + apply PsReader; [reflexivity|]. now apply (RsGo X (p_start X None)).
    + apply PsReader; [reflexivity|]. now apply (RsMessage X b_read).
    + apply PsReader; [reflexivity|]. now apply (RsBan X b_handle).
    + apply PsReader; [reflexivity|]. apply (RsBanning X b_ban DCas (set_flag b_ban) DQuit); [reflexivity|]. now apply DsWin.
    + apply PsReader; [reflexivity|]. apply (RsBanning X b_flag DQuit (add_quit b_flag) DConn); [reflexivity|]. now apply DsQuit.
    + apply PsReader; [reflexivity|]. apply (RsBanning X b_quit DConn (set_closed b_quit) DWait); [reflexivity|]. apply DsConn.
    + apply PsWriter; [reflexivity|]. apply (WsQuit X b_closed); [reflexivity|discriminate].
    + apply PsWriter; [reflexivity|]. now apply (WsDone X b_wdone).
    + apply PsWriter; [reflexivity|]. apply (WsDisc X b_wdisc DCas b_wdisc DRet); [reflexivity|]. now apply DsLose.
  - apply (T (fun s => p_crash s = None)); [reflexivity|]. intros n L. destruct (V n L) as [->|[->|[->|[->|[->|[->|[->|[->| ->]]]]]]]]; reflexivity.
  - intros n _ _. exists (9 + n)%nat. split; [lia|]. rewrite b_late. intros [E|(m & E)]; discriminate.
  - intros g n. exists (9 + n)%nat. split; [lia|]. left. rewrite b_late. unfold must, can_go. destruct g as [| |[|k]]; cbn; intuition discriminate.
  - apply (T (fun s => ~ reader_ended (p_reader s))); [discriminate|].
    intros n L. destruct (V n L) as [->|[->|[->|[->|[->|[->|[->|[->| ->]]]]]]]]; discriminate.
Qed.

End Examples.
