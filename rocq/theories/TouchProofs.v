(** Lemmas for C138. *)
From Verif Require Import Race SpecTouch.

Definition ok (r : role) (a : act) : Prop :=
  match a with
  | Wr x => writes r x
  | Rd x => reads r x \/ merged r x
  | _ => True
  end.
Lemma forall_concat {A} (P : A -> Prop) (l : list (list A)) : Forall (Forall P) l -> Forall P (concat l).
Proof. induction 1; cbn; [constructor|]. now apply Forall_app. Qed.
Lemma forall_repeat {A} (P : A -> Prop) x n : P x -> Forall P (repeat x n).
Proof. intro H. induction n; cbn; auto. Qed.
Lemma forall_map {A B} (P : B -> Prop) (f : A -> B) l : (forall a, P (f a)) -> Forall P (map f l).
Proof. intro H. induction l; cbn; auto. Qed.
Ltac touch := repeat (first [apply Forall_app; split|apply Forall_cons|apply Forall_nil]); cbn; auto.

(** A role that may do what [add_acts] does, and so on. *)
Lemma ok_add r l : writes r LTable -> reads r LTable -> add_acts l -> Forall (ok r) l.
Proof. intros W R H. destruct H; touch. Qed.
Lemma ok_look r : reads r LTable -> Forall (ok r) look.
Proof. intro R. unfold look. touch. Qed.
Lemma ok_ban r l : reads r LTable -> writes r LTable -> writes r LBans -> (forall i, writes r (LField i FStatus) /\ reads r (LField i FPeer)) ->
  ban_acts l -> Forall (ok r) l.
Proof. intros R W B F H. destruct H as [|i c]; [now apply ok_look|]. destruct (F i). unfold look, peer_op. touch. Qed.
Lemma ok_scan r l : reads r LTable -> (forall i, reads r (LField i FStatus) /\ (reads r (LField i FCaps) \/ merged r (LField i FCaps))) ->
  scan_acts l -> Forall (ok r) l.
Proof.
  intros R F [es H]. touch. apply forall_concat.
  eapply Forall_impl; [|exact H]. intros e E. destruct E as [i|i|i]; destruct (F i); touch.
Qed.
Lemma ok_propagate r l : reads r LUp -> propagate_acts l -> Forall (ok r) l.
Proof. intros R [is]. touch. now apply forall_map. Qed.
Lemma ok_connect l : connect_acts l -> Forall (ok Main) l.
Proof. intros []; unfold connected_acts, look, peer_op; touch. Qed.
Lemma ok_round l : round_acts l -> Forall (ok Main) l.
Proof.
  assert (Sc : forall s, scan_acts s -> Forall (ok Main) s).
  { intros s H. apply ok_scan; [exact I| |exact H]. intro i. split; [exact I|]. right. split; eauto. }
  intros [s k H K|s k H K]; touch; auto using ok_connect.
Qed.
Lemma ok_process c i l : process_acts c i l -> Forall (ok (Reader c)) l.
Proof.
  assert (Bn : forall b, ban_acts b -> Forall (ok (Reader c)) b).
  { intros b H. apply ok_ban; try exact H; try exact I. intro j. split; exact I. }
  intros [ | |s H|ls H| | |b H|b u r Hb Hu Hr]; unfold peer_op; try (now touch).
  - apply Forall_app. split; [|touch]. apply ok_scan; try exact H; try exact I. intro j. split; [exact I|left; exact I].
  - apply forall_concat. eapply Forall_impl; [|exact H]. intros e E. now apply ok_add.
  - repeat (apply Forall_app; split); try (now touch).
    + destruct Hb as [->|Hb]; [constructor|now apply Bn].
    + destruct Hu as [<-|[<-|[<-|[]]]]; touch.
    + destruct Hr as [->|Hr]; [constructor|now apply ok_propagate].
Qed.
Lemma ok_call l : call_acts l -> Forall (ok User) l.
Proof.
  intros [a H|b H| |s H| |r H|]; unfold is_ban_acts; try (now touch).
  - now apply ok_add.
  - apply ok_ban; try exact H; try exact I. intro j. split; exact I.
  - apply ok_scan; try exact H; try exact I. intro j. split; [exact I|left; exact I].
  - now apply ok_propagate.
Qed.
Lemma ok_acts r l : acts_of r l -> Forall (ok r) l.
Proof.
  intros [adds n rounds is Ha Hr|c n|c turns H|i c|i w H|i c|calls H].
  - unfold stopped_acts. touch; [| | |now apply forall_map].
    + apply forall_concat. eapply Forall_impl; [|exact Ha]. intros e E. now apply ok_add.
    + now apply forall_repeat.
    + apply forall_concat. eapply Forall_impl; [|exact Hr]. exact ok_round.
  - apply forall_concat, forall_repeat. unfold peer_op. touch.
  - apply Forall_app. split; [|unfold peer_op; touch]. apply forall_concat. eapply Forall_impl; [|exact H].
    intros e [i p P|]; [|unfold peer_op; touch]. unfold peer_op. touch. now apply (ok_process c i).
  - unfold watcher_acts, peer_op. touch.
  - destruct H; unfold peer_op; touch.
  - unfold closer_acts, peer_op. touch.
  - apply forall_concat. eapply Forall_impl; [|exact H]. exact ok_call.
Qed.

(** One word in which the role does it. *)
Definition done_by (r : role) (a : act) : Prop := exists w, acts_of r w /\ In a w.
Lemma by_add a l : add_acts l -> In a l -> done_by Main a.
Proof.
  intros H I. exists (concat [l] ++ repeat (Go User) 0 ++ concat [] ++ stopped_acts []). split; [constructor; auto|].
  apply in_or_app. left. cbn. rewrite app_nil_r. exact I.
Qed.
Lemma by_connect a l : connect_acts l -> In a l -> done_by Main a.
Proof.
  intros H I. exists (concat [] ++ repeat (Go User) 0 ++ concat [[Sync CPool] ++ ([Acq Ptmu; Rd LTable] ++ concat [] ++ [Rel Ptmu]) ++ l] ++ stopped_acts []).
  split; [constructor; auto; constructor; auto; apply RoundKept; auto; constructor; auto|].
  cbn [concat repeat app]. right. right. right. right. apply in_or_app. left. rewrite app_nil_r. exact I.
Qed.
Lemma by_turn c a l i : process_acts c i l -> In a l -> done_by (Reader c) a.
Proof.
  intros H I. exists (concat [peer_op c ++ look ++ l] ++ peer_op c). split; [constructor; constructor; auto; econstructor; exact H|].
  apply in_or_app. left. cbn [concat]. rewrite app_nil_r. apply in_or_app. right. apply in_or_app. right. exact I.
Qed.
Lemma by_call a l : call_acts l -> In a l -> done_by User a.
Proof. intros H I. exists (concat [l]). split; [constructor; auto|]. cbn. rewrite app_nil_r. exact I. Qed.
Lemma by_relay i a l : relay_acts i l -> In a l -> done_by (Relayer i) a.
Proof. intros H I. exists l. split; [now constructor|exact I]. Qed.

Definition a_scan (i : nat) : list act := [Acq Ptmu; Rd LTable] ++ concat [[Rd LTable; Rd (LField i FStatus); Rd (LField i FStatus); Rd (LField i FCaps)]] ++ [Rel Ptmu].
Lemma a_scan_ok i : scan_acts (a_scan i).
Proof. constructor. repeat constructor. Qed.
Definition a_ban (i : nat) : list act := look ++ [Wr (LField i FStatus); Rd (LField i FPeer)] ++ peer_op 0 ++ [Acq Bnmu; Wr LBans; Rel Bnmu; Acq Ptmu; Wr LTable; Rel Ptmu].
Definition a_block (i : nat) : list act := [Sync CChain] ++ [] ++ [Acq (Mu i)] ++
  [Rd (LField i FDifficulty); Rd (LField i FHeight); Wr (LField i FDifficulty); Wr (LField i FHeight)] ++ [Rel (Mu i)] ++
  ([Acq Cpmu; Rd LUp] ++ map (fun i => Go (Relayer i)) [] ++ [Rel Cpmu]).
Lemma a_block_ok c i : process_acts c i (a_block i).
Proof. unfold a_block. apply PrBlock; [now left|cbn; auto|right; constructor]. Qed.
Definition a_connect (i : nat) : list act := [Rd LConnected] ++ look ++ [Acq (Mu i); Rd (LField i FStatus); Rd (LField i FStatus)] ++ connected_acts i 0 ++ [Rel (Mu i)].

Ltac pick := cbn; tauto.
Lemma writes_happen r x : writes r x -> done_by r (Wr x).
Proof.
  destruct r as [|c|c|i c|i|i|]; destruct x as [ | | | |j []]; cbn [writes]; try contradiction; intro H; try subst j.
  all: try (apply (by_add _ _ AddNew); pick).
  all: try (apply (by_connect _ (a_connect 0)); [constructor|pick]).
  all: try (apply (by_connect _ (a_connect j)); [constructor|pick]).
  all: try (apply (by_turn c _ (a_ban 0) 0); [apply PrBan, BanKnown|pick]).
  all: try (apply (by_turn c _ (a_ban j) 0); [apply PrBan, BanKnown|pick]).
  all: try (apply (by_turn c _ (a_block j) j); [apply a_block_ok|pick]).
  all: try (apply (by_call _ (a_ban 0)); [apply CallBan, BanKnown|pick]).
  all: try (apply (by_call _ (a_ban j)); [apply CallBan, BanKnown|pick]).
  all: try (eexists; split; [apply OfWatcher|pick]).
  all: try (eexists; split; [apply (OfCloser i 0)|pick]).
Qed.
Lemma reads_happen r x : reads r x -> done_by r (Rd x).
Proof.
  destruct r as [|c|c|i c|i|i|]; destruct x as [ | | | |j []]; cbn [reads]; try contradiction; intro H; try subst j.
  all: try (apply (by_connect _ (a_connect 0)); [constructor|pick]).
  all: try (apply (by_connect _ (a_connect j)); [constructor|pick]).
  all: try (apply (by_turn c _ (a_ban 0) 0); [apply PrBan, BanKnown|pick]).
  all: try (apply (by_turn c _ (a_ban j) 0); [apply PrBan, BanKnown|pick]).
  all: try (apply (by_turn c _ (a_block 0) 0); [apply a_block_ok|pick]).
  all: try (apply (by_turn c _ (a_block j) j); [apply a_block_ok|pick]).
  all: try (apply (by_turn c _ (a_scan j ++ peer_op c) 0); [apply PrGetPeers, a_scan_ok|pick]).
  all: try (apply (by_call _ (a_scan 0)); [apply CallPeers, a_scan_ok|pick]).
  all: try (apply (by_call _ (a_scan j)); [apply CallPeers, a_scan_ok|pick]).
  all: try (apply (by_call _ (a_ban j)); [apply CallBan, BanKnown|pick]).
  all: try (apply (by_call _ is_ban_acts); [apply CallIsBan|pick]).
  all: try (apply (by_call _ _ (CallPropagate _ (Propagate []))); pick).
  all: try (eexists; split; [apply OfWatcher|pick]).
  all: try (eexists; split; [apply (OfCloser i 0)|pick]).
  all: try (apply (by_relay i _ _ (RelayDifficulty i 0)); pick).
Qed.
Lemma writes_exact r x : (exists w, acts_of r w /\ In (Wr x) w) <-> writes r x.
Proof.
  split; [|apply writes_happen]. intros (w & A & I). exact (proj1 (Forall_forall _ _) (ok_acts r w A) _ I).
Qed.
Lemma reads_exact r x : ~ merged r x -> ((exists w, acts_of r w /\ In (Rd x) w) <-> reads r x).
Proof.
  intro M. split; [|apply reads_happen]. intros (w & A & I). destruct (proj1 (Forall_forall _ _) (ok_acts r w A) _ I); [assumption|contradiction].
Qed.
