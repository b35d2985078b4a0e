(** Proofs for C95-C97. *)
From Verif Require Import Race SpecRace.

(** ** Locks discipline of a sequence of actions *)

Definition lock_dec (a b : lock) : {a = b} + {a <> b}.
Proof. decide equality. apply Nat.eq_dec. Defined.
Definition field_dec (a b : field) : {a = b} + {a <> b}.
Proof. decide equality. Defined.
Definition loc_dec (a b : loc) : {a = b} + {a <> b}.
Proof. decide equality; [apply field_dec|apply Nat.eq_dec]. Defined.

(** [l] is taken and released alternately, and [x] touched only in between; [h]: it is held at first. *)
Fixpoint disc (l : lock) (x : loc) (h : bool) (w : list act) : Prop :=
  match w with
  | [] => h = false
  | Acq k :: w => if lock_dec k l then h = false /\ disc l x true w else disc l x h w
  | Rel k :: w => if lock_dec k l then h = true /\ disc l x false w else disc l x h w
  | Rd y :: w | Wr y :: w => (y = x -> h = true) /\ disc l x h w
  | _ :: w => disc l x h w
  end.
Definition seg (l : lock) (x : loc) (w : list act) : Prop := forall rest, disc l x false rest -> disc l x false (w ++ rest).

Section Seg.
Context (l : lock) (x : loc).
Lemma seg_nil : seg l x [].
Proof. intros rest H. exact H. Qed.
Lemma seg_app a b : seg l x a -> seg l x b -> seg l x (a ++ b).
Proof. intros A B rest H. rewrite <- app_assoc. apply A, B, H. Qed.
Lemma seg_concat ls : Forall (seg l x) ls -> seg l x (concat ls).
Proof. induction 1; cbn [concat]; [apply seg_nil|now apply seg_app]. Qed.
Lemma seg_go rs : seg l x (map Go rs).
Proof. intros rest H. induction rs; cbn; auto. Qed.
Lemma seg_disc w : seg l x w -> disc l x false w.
Proof. intro S. rewrite <- (app_nil_r w). now apply S. Qed.
End Seg.

(** Which variables are guarded by which mutex. *)
Inductive guarded : lock -> loc -> Prop :=
| GTable : guarded Ptmu LTable
| GUp : guarded Cpmu LUp
| GBans : guarded Bnmu LBans
| GVersion i : guarded (Mu i) (LField i FVersion)
| GLastConn i : guarded (Mu i) (LField i FLastConn).

Ltac crunch :=
  let rest := fresh in let H := fresh in intros rest H; cbn [app disc peer_op look is_ban_acts closer_acts watcher_acts];
  repeat match goal with
  | |- context [lock_dec ?a ?b] => destruct (lock_dec a b)
  end;
  repeat match goal with E : Mu _ = Mu _ |- _ => injection E as E; subst end;
  repeat split; intros; try congruence; try assumption.
Ltac by_guard G := destruct G; crunch.

Section Guarded.
Context (l : lock) (x : loc) (G : guarded l x).

Lemma go_map_seg {A} (f : A -> role) is : seg l x (map (fun i => Go (f i)) is).
Proof. rewrite <- (map_map f Go). apply seg_go. Qed.

Lemma seg_look : seg l x look. Proof. by_guard G. Qed.
Lemma seg_peer c : seg l x (peer_op c). Proof. by_guard G. Qed.
Lemma seg_sync c : seg l x [Sync c]. Proof. by_guard G. Qed.
Lemma seg_add w : add_acts w -> seg l x w.
Proof. intros []; by_guard G. Qed.
Lemma seg_ban w : ban_acts w -> seg l x w.
Proof. intros []; by_guard G. Qed.
Lemma seg_is_ban : seg l x is_ban_acts.
Proof. by_guard G. Qed.

(** Inside a scan the lock of the table is held. *)
Lemma scan_rest es rest h : Forall entry_acts es -> (l = Ptmu -> h = true) -> disc l x h rest ->
  disc l x h (concat es ++ rest).
Proof.
  intros F Hh R. induction F as [|e es E F IH]; cbn [concat]; [exact R|]. rewrite <- app_assoc.
  destruct E; destruct G; cbn [app disc]; repeat split; intros; try congruence; try (apply Hh; reflexivity); exact IH.
Qed.
Lemma seg_scan w : scan_acts w -> seg l x w.
Proof.
  intros [es F] rest H. rewrite <- !app_assoc. cbn [app disc].
  destruct (lock_dec Ptmu l) as [E|E].
  - split; [reflexivity|]. split; [reflexivity|]. apply scan_rest; [exact F|reflexivity|]. cbn [app disc].
    destruct (lock_dec Ptmu l); [auto|congruence].
  - split; [intro Ex; destruct G; congruence|]. apply scan_rest; [exact F|congruence|]. cbn [app disc].
    destruct (lock_dec Ptmu l); [congruence|exact H].
Qed.

Lemma gos_rest {A} (f : A -> role) is rest h : disc l x h rest -> disc l x h (map (fun i => Go (f i)) is ++ rest).
Proof. intro H. induction is; cbn; auto. Qed.
Lemma seg_propagate w : propagate_acts w -> seg l x w.
Proof.
  intros [is] rest H. rewrite <- !app_assoc. cbn [app disc].
  destruct (lock_dec Cpmu l) as [E|E].
  - split; [reflexivity|]. split; [reflexivity|]. apply gos_rest. cbn [app disc]. destruct (lock_dec Cpmu l); [auto|congruence].
  - split; [intro Ex; destruct G; congruence|]. apply gos_rest. cbn [app disc]. destruct (lock_dec Cpmu l); [congruence|exact H].
Qed.
Lemma seg_stopped is : seg l x (stopped_acts is).
Proof.
  intros rest H. unfold stopped_acts. rewrite <- !app_assoc. cbn [app disc].
  destruct (lock_dec Ptmu l) as [E|E].
  - split; [reflexivity|]. split; [reflexivity|]. apply gos_rest. cbn [app disc]. destruct (lock_dec Ptmu l); [auto|congruence].
  - split; [intro Ex; destruct G; congruence|]. apply gos_rest. cbn [app disc]. destruct (lock_dec Ptmu l); [congruence|exact H].
Qed.
Lemma seg_relay i w : relay_acts i w -> seg l x w.
Proof. intros []; by_guard G. Qed.
Lemma seg_connect w : connect_acts w -> seg l x w.
Proof.
  intros []; try solve [by_guard G].
  destruct G; intros rest H; cbn [app disc connected_acts peer_op look];
  repeat match goal with |- context [lock_dec ?a ?b] => destruct (lock_dec a b) end;
  repeat match goal with E : Mu _ = Mu _ |- _ => injection E as E; subst end;
  repeat split; intros; try congruence; try assumption.
Qed.
Lemma seg_round w : round_acts w -> seg l x w.
Proof.
  intros [s k Hs Hk|s k Hs Hk]; repeat apply seg_app; auto using seg_sync, seg_scan, seg_connect.
Qed.
Lemma seg_closer i c : seg l x (closer_acts i c).
Proof. by_guard G. Qed.
Lemma seg_watcher i c : seg l x (watcher_acts i c).
Proof. by_guard G. Qed.
Lemma seg_process c i w : process_acts c i w -> seg l x w.
Proof.
  intros [ | |s Hs|ls F| | |b Hb|b u r Hb Hu Hr].
  - by_guard G.
  - by_guard G.
  - apply seg_app; [now apply seg_scan|apply seg_peer].
  - apply seg_concat. eapply Forall_impl; [|exact F]. exact seg_add.
  - by_guard G.
  - apply seg_nil.
  - now apply seg_ban.
  - apply seg_app; [apply seg_sync|]. apply seg_app; [destruct Hb as [-> |Hb]; [apply seg_nil|now apply seg_ban]|].
    rewrite !app_assoc. apply seg_app; [|destruct Hr as [-> |Hr]; [apply seg_nil|now apply seg_propagate]].
    destruct Hu as [<-|[<-|[<-|[]]]]; by_guard G.
Qed.
Lemma seg_turn c w : turn_acts c w -> seg l x w.
Proof.
  intros [i p H|]; [|apply seg_peer]. apply seg_app; [apply seg_peer|]. apply seg_app; [apply seg_look|]. now apply (seg_process c i).
Qed.
Lemma seg_call w : call_acts w -> seg l x w.
Proof. intros []; auto using seg_add, seg_ban, seg_is_ban, seg_scan, seg_look, seg_propagate, seg_sync. Qed.

Lemma all_disc r w : acts_of r w -> disc l x false w.
Proof.
  intro H. apply seg_disc. destruct H as [adds n rounds is Ha Hr|c n|c turns F|i c|i w H|i c|calls F].
  - apply seg_app; [apply seg_concat; eapply Forall_impl; [|exact Ha]; exact seg_add|].
    apply seg_app. { intros rest H. induction n; cbn; auto. }
    apply seg_app; [apply seg_concat; eapply Forall_impl; [|exact Hr]; exact seg_round|]. apply seg_stopped.
  - apply seg_concat. induction n; cbn; constructor; [apply seg_peer|assumption].
  - apply seg_app; [|apply seg_peer]. apply seg_concat. eapply Forall_impl; [|exact F]. apply seg_turn.
  - apply seg_watcher.
  - now apply (seg_relay i).
  - apply seg_closer.
  - apply seg_concat. eapply Forall_impl; [|exact F]. exact seg_call.
Qed.
End Guarded.

(** ** The machine *)

Lemma set_length {A} n (x : A) ls : length (set_nth n x ls) = length ls.
Proof. revert ls. induction n; intros [|y ls]; cbn; auto. Qed.
Lemma nth_set_inv {A} n m (x w : A) ls : nth_error (set_nth n x ls) m = Some w ->
  (m = n /\ w = x) \/ (m <> n /\ nth_error ls m = Some w).
Proof.
  revert m ls. induction n as [|n IH]; intros [|m] [|y ls]; cbn; intro H; try discriminate; auto.
  - left. split; congruence.
  - destruct (IH m ls H) as [[-> ->]|[N Q]]; [left; auto|right; split; [congruence|exact Q]].
Qed.

Record inv (s : threads) : Prop := {
  inv_nodup : NoDup (map fst (th_held s));
  inv_live : forall l t, In (l, t) (th_held s) -> t < length (th_progs s);
  inv_disc : forall t w, nth_error (th_progs s) t = Some w -> forall l x, guarded l x ->
    exists h, (h = true <-> In (l, t) (th_held s)) /\ disc l x h w }.

Lemma next_live s t a w : next s t a w -> t < length (th_progs s).
Proof. intro H. apply nth_error_Some. unfold next in H. congruence. Qed.
Lemma unique_holder s l t u : NoDup (map fst (th_held s)) -> In (l, t) (th_held s) -> In (l, u) (th_held s) -> t = u.
Proof.
  generalize (th_held s). induction l0 as [|[k v] ls IH]; intros N A B; [contradiction|]. cbn in N. inversion N as [|? ? N1 N2]; subst.
  destruct A as [A|A], B as [B|B]; try congruence.
  - exfalso. apply N1. inversion A; subst. exact (in_map fst _ _ B).
  - exfalso. apply N1. inversion B; subst. exact (in_map fst _ _ A).
  - now apply IH.
Qed.
Lemma free_not_held s l t : free s l -> ~ In (l, t) (th_held s).
Proof. intros F H. apply F. exact (in_map fst _ _ H). Qed.

Lemma inv_start w : acts_of Main w -> inv (Threads [w] []).
Proof.
  intro H. split; cbn.
  - constructor.
  - intros l t [].
  - intros [|t] w' E l x G; [|destruct t; discriminate]. assert (w' = w) as -> by (cbn in E; congruence).
    exists false. split; [split; [discriminate|intros []]|]. exact (all_disc l x G Main w H).
Qed.

Lemma inv_step s e s' : inv s -> thread_step s e s' -> inv s'.
Proof.
  intros [ND LV DI] H. destruct H as [s t l w N F|s t l w pre post N E|s t r w v N V|s t a w N A]; split; cbn [th_progs th_held].
  - constructor; assumption.
  - intros k u [Q|Q]; rewrite set_length; [inversion Q; subst; exact (next_live _ _ _ _ N)|exact (LV _ _ Q)].
  - intros u w' E l' x G. apply nth_set_inv in E as [[-> ->]|[Ne E]].
    + destruct (DI t _ N l' x G) as (h & Hh & D). cbn [disc] in D. destruct (lock_dec l l') as [<-|Nl].
      * exists true. split; [|tauto]. split; [intros _; now left|reflexivity].
      * exists h. split; [|exact D]. rewrite Hh. cbn. split; [auto|intros [Q|Q]; [congruence|exact Q]].
    + destruct (DI u _ E l' x G) as (h & Hh & D). exists h. split; [|exact D]. rewrite Hh. cbn.
      split; [auto|intros [Q|Q]; [congruence|exact Q]].
  - rewrite E, map_app in ND. cbn [map] in ND. rewrite map_app. now apply NoDup_remove_1 in ND.
  - intros k u Q. rewrite set_length. apply (LV k u). rewrite E. apply in_app_iff in Q as [Q|Q]; apply in_app_iff; [now left|right; now right].
  - intros u w' E' l' x G. rewrite E in DI, ND. rewrite map_app in ND. cbn [map fst] in ND.
    assert (NI : forall z, In (l, z) (pre ++ post) -> False).
    { intros z Q. apply NoDup_remove_2 in ND. apply ND. rewrite <- map_app. exact (in_map fst _ _ Q). }
    assert (SAME : forall k z, (k, z) <> (l, t) -> (In (k, z) (pre ++ post) <-> In (k, z) (pre ++ (l, t) :: post))).
    { intros k z Ne. rewrite !in_app_iff. cbn. split; [tauto|]. intros [Q|[Q|Q]]; [tauto|congruence|tauto]. }
    apply nth_set_inv in E' as [[-> ->]|[Ne E']].
    + destruct (DI t _ N l' x G) as (h & Hh & D). cbn [disc] in D. destruct (lock_dec l l') as [<-|Nl].
      * exists false. split; [|tauto]. split; [discriminate|]. intro Q. destruct (NI _ Q).
      * exists h. split; [|exact D]. rewrite Hh. symmetry. apply SAME. congruence.
    + destruct (DI u _ E' l' x G) as (h & Hh & D). exists h. split; [|exact D]. rewrite Hh. symmetry. apply SAME. congruence.
  - exact ND.
  - intros k u Q. rewrite app_length, set_length. specialize (LV k u Q). lia.
  - intros u w' E l' x G. destruct (Nat.lt_ge_cases u (length (set_nth t w (th_progs s)))) as [L|L].
    + rewrite nth_error_app1 in E by exact L. apply nth_set_inv in E as [[-> ->]|[Ne E]]; [|exact (DI u _ E l' x G)].
      destruct (DI t _ N l' x G) as (h & Hh & D). exists h. split; [exact Hh|exact D].
    + rewrite nth_error_app2 in E by exact L. destruct (u - length (set_nth t w (th_progs s))) as [|k] eqn:K; [|destruct k; discriminate].
      assert (w' = v) as -> by (cbn in E; congruence). exists false. split; [|exact (all_disc l' x G r v V)].
      split; [discriminate|]. intro Q. specialize (LV _ _ Q). rewrite set_length in L. lia.
  - exact ND.
  - intros k u Q. rewrite set_length. exact (LV k u Q).
  - intros u w' E l' x G. apply nth_set_inv in E as [[-> ->]|[Ne E]]; [|exact (DI u _ E l' x G)].
    destruct (DI t _ N l' x G) as (h & Hh & D). exists h. split; [exact Hh|].
    destruct A as [(y & [-> | ->])|(c & ->)]; cbn [disc] in D; tauto.
Qed.
Lemma inv_steps s tr s' : inv s -> thread_steps s tr s' -> inv s'.
Proof. intros I H. induction H; [exact I|]. eapply inv_step; [|eassumption]. auto. Qed.

Lemma steps_app s tr s' tr' s'' : thread_steps s tr s' -> thread_steps s' tr' s'' -> thread_steps s (tr ++ tr') s''.
Proof.
  intros A B. induction B as [s'|s' tr' s1 e s2 B IH E]; [now rewrite app_nil_r|].
  rewrite app_assoc. econstructor; [apply IH, A|exact E].
Qed.
Lemma steps_split s tr s' : thread_steps s tr s' -> forall n e, nth_error tr n = Some e ->
  exists tr1 s1 s2 tr2, tr = tr1 ++ e :: tr2 /\ length tr1 = n /\ thread_steps s tr1 s1 /\ thread_step s1 e s2 /\ thread_steps s2 tr2 s'.
Proof.
  induction 1 as [s|s tr s1 e1 s2 H IH E]; intros n e Hn; [destruct n; discriminate|].
  destruct (Nat.lt_ge_cases n (length tr)) as [L|L].
  - rewrite nth_error_app1 in Hn by exact L. destruct (IH n e Hn) as (a & x & y & b & -> & Q1 & Q2 & Q3 & Q4).
    exists a, x, y, (b ++ [e1]). rewrite <- app_assoc. split; [reflexivity|]. split; [exact Q1|]. split; [exact Q2|]. split; [exact Q3|].
    econstructor; eassumption.
  - rewrite nth_error_app2 in Hn by exact L. destruct (n - length tr) as [|k] eqn:K; [|destruct k; discriminate].
    exists tr, s1, s2, []. assert (e1 = e) as -> by (cbn in Hn; congruence).
    split; [reflexivity|]. split; [lia|]. split; [exact H|]. split; [exact E|constructor].
Qed.

(** A guarded variable is touched only by the holder of its lock, who keeps it. *)
Lemma access_held s t a s' l x : inv s -> guarded l x -> thread_step s (Did t a) s' -> accesses a x ->
  In (l, t) (th_held s) /\ In (l, t) (th_held s').
Proof.
  intros [_ _ DI] G H A. inversion H; subst; try (destruct A; discriminate). cbn [th_held].
  enough (In (l, t) (th_held s)) by auto.
  destruct (DI t _ H3 l x G) as (h & Hh & D). apply Hh.
  destruct A as [-> | ->]; cbn [disc] in D; tauto.
Qed.

(** Who lost a lock released it; who got it acquired it. *)
Lemma lost s tr s' l t : thread_steps s tr s' -> In (l, t) (th_held s) -> ~ In (l, t) (th_held s') ->
  exists k, nth_error tr k = Some (Did t (Rel l)).
Proof.
  intros H I. induction H as [s|s tr s1 e s2 H IH E]; intro N; [contradiction|].
  destruct (in_dec (fun a b : lock * nat => ltac:(decide equality; [apply Nat.eq_dec|apply lock_dec])) (l, t) (th_held s1)) as [Q|Q].
  - exists (length tr). rewrite nth_error_app2, Nat.sub_diag by lia. cbn.
    destruct E; cbn [th_held] in N; try contradiction.
    + exfalso. apply N. now right.
    + rewrite H1 in Q. apply in_app_iff in Q as [Q|[Q|Q]].
      * exfalso. apply N, in_app_iff. now left.
      * congruence.
      * exfalso. apply N, in_app_iff. now right.
  - destruct (IH I Q) as [k K]. exists k. rewrite nth_error_app1; [exact K|]. apply nth_error_Some. congruence.
Qed.
Lemma handover s tr s' l t u : inv s -> thread_steps s tr s' -> In (l, t) (th_held s) -> In (l, u) (th_held s') -> t <> u ->
  exists k m, k < m /\ nth_error tr k = Some (Did t (Rel l)) /\ nth_error tr m = Some (Did u (Acq l)).
Proof.
  intros I0 H It. induction H as [s|s tr s1 e s2 H IH E]; intros Iu Ne.
  - destruct Ne. eapply unique_holder; [apply I0|eassumption|eassumption].
  - destruct (in_dec (fun a b : lock * nat => ltac:(decide equality; [apply Nat.eq_dec|apply lock_dec])) (l, u) (th_held s1)) as [Q|Q].
    + destruct (IH I0 It Q Ne) as (k & m & L & K & M). exists k, m. split; [exact L|].
      rewrite !nth_error_app1 by (apply nth_error_Some; congruence). auto.
    + destruct E; cbn [th_held] in Iu.
      * destruct Iu as [Iu|Iu]; [|contradiction]. inversion Iu; subst.
        destruct (lost _ _ _ l t H It) as [k K]; [now apply free_not_held|].
        exists k, (length tr). split; [apply nth_error_Some; congruence|]. split.
        -- rewrite nth_error_app1; [exact K|]. apply nth_error_Some. congruence.
        -- rewrite nth_error_app2, Nat.sub_diag by lia. reflexivity.
      * exfalso. apply Q. rewrite H1. apply in_app_iff in Iu as [Iu|Iu]; apply in_app_iff; [now left|right; now right].
      * contradiction.
      * contradiction.
Qed.

Theorem guarded_race_free tr s l x : execution tr s -> guarded l x -> ~ race false tr x.
Proof.
  intros (w & W & H) G (m & n & t & u & a & b & L & Ne & Hm & Hn & Aa & Ab & _ & NB). apply NB. clear NB.
  unfold at_pos in Hm, Hn. pose proof (inv_start w W) as I0.
  destruct (steps_split _ _ _ H m _ Hm) as (tr1 & s1 & s2 & tr2 & -> & L1 & S1 & E1 & S2).
  pose proof (inv_steps _ _ _ I0 S1) as I1. pose proof (inv_step _ _ _ I1 E1) as I2.
  destruct (access_held _ _ _ _ l x I1 G E1 Aa) as [_ T].
  assert (Hn' : nth_error tr2 (n - m - 1) = Some (Did u b)).
  { rewrite nth_error_app2 in Hn by lia. rewrite L1 in Hn. destruct (n - m) as [|k] eqn:K; [lia|]. cbn in Hn. now replace (S k - 1) with k by lia. }
  destruct (steps_split _ _ _ S2 _ _ Hn') as (tr3 & s3 & s4 & tr4 & -> & L3 & S3 & E3 & _).
  pose proof (inv_steps _ _ _ I2 S3) as I3. destruct (access_held _ _ _ _ l x I3 G E3 Ab) as [U _].
  destruct (handover _ _ _ l t u I2 S3 T U Ne) as (k & j & Lk & Hk & Hj).
  assert (P : forall i e, nth_error tr3 i = Some e -> at_pos (tr1 ++ Did t a :: tr3 ++ Did u b :: tr4) (m + 1 + i) e /\ i < length tr3).
  { intros i e Hi. assert (i < length tr3) by (apply nth_error_Some; congruence). split; [|assumption].
    unfold at_pos. rewrite nth_error_app2 by lia. replace (m + 1 + i - length tr1) with (S i) by lia. cbn.
    rewrite nth_error_app1; assumption. }
  destruct (P _ _ Hk) as [Pk Lk'], (P _ _ Hj) as [Pj Lj'].
  apply HbTrans with (k := m + 1 + k).
  - apply HbOrder with (e := Did t a) (e' := Did t (Rel l)) (t := t); try reflexivity; [lia|exact Hm|exact Pk].
  - apply HbTrans with (k := m + 1 + j).
    + apply HbLock with (t := t) (u := u) (l := l); [lia|exact Pk|exact Pj].
    + apply HbOrder with (e := Did u (Acq l)) (e' := Did u b) (t := u); try reflexivity; [lia|exact Pj|exact Hn].
Qed.

(** ** Order of the mutexes *)

(** A record's mutex comes before the three of the pool. *)
Definition rank (l : lock) : nat := match l with Mu _ => 0 | _ => 1 end.
(** Locks are taken in that order, released in the opposite one, and none is kept; [h]: those held at first. *)
Fixpoint ord (h : list lock) (w : list act) : Prop :=
  match w with
  | [] => h = []
  | Acq l :: w => (forall k, In k h -> rank k < rank l) /\ ord (l :: h) w
  | Rel l :: w => match h with k :: h' => k = l /\ ord h' w | [] => False end
  | _ :: w => ord h w
  end.
Definition oseg (w : list act) : Prop := forall rest, ord [] rest -> ord [] (w ++ rest).
Lemma oseg_nil : oseg [].
Proof. intros rest H. exact H. Qed.
Lemma oseg_app a b : oseg a -> oseg b -> oseg (a ++ b).
Proof. intros A B rest H. rewrite <- app_assoc. apply A, B, H. Qed.
Lemma oseg_concat ls : Forall oseg ls -> oseg (concat ls).
Proof. induction 1; cbn [concat]; [apply oseg_nil|now apply oseg_app]. Qed.
Ltac ocrunch := let rest := fresh in let H := fresh in intros rest H;
  cbn [app ord peer_op look is_ban_acts closer_acts watcher_acts connected_acts];
  repeat split; try (intros ? K; cbn [In] in K; destruct K as [<-|[]]; cbn; lia);
  try (intros ? []); try assumption.
Lemma oseg_look : oseg look. Proof. ocrunch. Qed.
Lemma oseg_peer c : oseg (peer_op c). Proof. ocrunch. Qed.
Lemma oseg_sync c : oseg [Sync c]. Proof. ocrunch. Qed.
Lemma oseg_add w : add_acts w -> oseg w. Proof. intros []; ocrunch. Qed.
Lemma oseg_ban w : ban_acts w -> oseg w. Proof. intros []; ocrunch. Qed.
Lemma oseg_is_ban : oseg is_ban_acts. Proof. ocrunch. Qed.
Lemma oseg_scan w : scan_acts w -> oseg w.
Proof.
  intros [es F] rest H. rewrite <- !app_assoc. cbn [app ord]. split; [intros ? []|].
  induction F as [|e es E F IH]; cbn [concat app ord]; [auto|]. rewrite <- app_assoc. destruct E; cbn [app ord]; exact IH.
Qed.
Lemma ogos {A} (f : A -> role) is rest h : ord h rest -> ord h (map (fun i => Go (f i)) is ++ rest).
Proof. intro H. induction is; cbn; auto. Qed.
Lemma oseg_propagate w : propagate_acts w -> oseg w.
Proof. intros [is] rest H. rewrite <- !app_assoc. cbn [app ord]. split; [intros ? []|]. apply ogos. cbn. auto. Qed.
Lemma oseg_stopped is : oseg (stopped_acts is).
Proof. intros rest H. unfold stopped_acts. rewrite <- !app_assoc. cbn [app ord]. split; [intros ? []|]. apply ogos. cbn. auto. Qed.
Lemma oseg_relay i w : relay_acts i w -> oseg w. Proof. intros []; ocrunch. Qed.
Lemma oseg_connect w : connect_acts w -> oseg w. Proof. intros []; ocrunch. Qed.
Lemma oseg_round w : round_acts w -> oseg w.
Proof. intros [s k Hs Hk|s k Hs Hk]; repeat apply oseg_app; auto using oseg_sync, oseg_scan, oseg_connect. Qed.
Lemma oseg_process c i w : process_acts c i w -> oseg w.
Proof.
  intros [ | |s Hs|ls F| | |b Hb|b u r Hb Hu Hr]; try solve [ocrunch].
  - apply oseg_app; [now apply oseg_scan|apply oseg_peer].
  - apply oseg_concat. eapply Forall_impl; [|exact F]. exact oseg_add.
  - now apply oseg_ban.
  - apply oseg_app; [apply oseg_sync|]. apply oseg_app; [destruct Hb as [-> |Hb]; [apply oseg_nil|now apply oseg_ban]|].
    rewrite !app_assoc. apply oseg_app; [|destruct Hr as [-> |Hr]; [apply oseg_nil|now apply oseg_propagate]].
    destruct Hu as [<-|[<-|[<-|[]]]]; ocrunch.
Qed.
Lemma oseg_turn c w : turn_acts c w -> oseg w.
Proof.
  intros [i p H|]; [|apply oseg_peer]. apply oseg_app; [apply oseg_peer|]. apply oseg_app; [apply oseg_look|]. now apply (oseg_process c i).
Qed.
Lemma oseg_call w : call_acts w -> oseg w.
Proof. intros []; auto using oseg_add, oseg_ban, oseg_is_ban, oseg_scan, oseg_look, oseg_propagate, oseg_sync. Qed.
Lemma all_ord r w : acts_of r w -> ord [] w.
Proof.
  intro H. rewrite <- (app_nil_r w). assert (oseg w) as O; [|now apply O].
  destruct H as [adds n rounds is Ha Hr|c n|c turns F|i c|i w H|i c|calls F].
  - apply oseg_app; [apply oseg_concat; eapply Forall_impl; [|exact Ha]; exact oseg_add|].
    apply oseg_app. { intros rest H. induction n; cbn; auto. }
    apply oseg_app; [apply oseg_concat; eapply Forall_impl; [|exact Hr]; exact oseg_round|]. apply oseg_stopped.
  - apply oseg_concat. induction n; cbn; constructor; [apply oseg_peer|assumption].
  - apply oseg_app; [|apply oseg_peer]. apply oseg_concat. eapply Forall_impl; [|exact F]. apply oseg_turn.
  - ocrunch.
  - now apply (oseg_relay i).
  - ocrunch.
  - apply oseg_concat. eapply Forall_impl; [|exact F]. exact oseg_call.
Qed.

Record oinv (s : threads) : Prop := {
  oinv_nodup : NoDup (map fst (th_held s));
  oinv_live : forall l t, In (l, t) (th_held s) -> t < length (th_progs s);
  oinv_ord : forall t w, nth_error (th_progs s) t = Some w ->
    exists h, NoDup h /\ (forall l, In (l, t) (th_held s) <-> In l h) /\ ord h w }.

Lemma oinv_start w : acts_of Main w -> oinv (Threads [w] []).
Proof.
  intro H. split; cbn; [constructor|intros l t []|].
  intros [|t] w' E; [|destruct t; discriminate]. assert (w' = w) as -> by (cbn in E; congruence).
  exists []. split; [constructor|]. split; [tauto|]. exact (all_ord Main w H).
Qed.
Lemma oinv_step s e s' : oinv s -> thread_step s e s' -> oinv s'.
Proof.
  intros [ND LV DI] H. destruct H as [s t l w N F|s t l w pre post N E|s t r w v N V|s t a w N A]; split; cbn [th_progs th_held].
  - constructor; assumption.
  - intros k u [Q|Q]; rewrite set_length; [inversion Q; subst; exact (next_live _ _ _ _ N)|exact (LV _ _ Q)].
  - intros u w' E. apply nth_set_inv in E as [[-> ->]|[Ne E]].
    + destruct (DI t _ N) as (h & NDh & Hh & O). cbn [ord] in O. destruct O as [R O]. exists (l :: h). split; [|split; [|exact O]].
      * constructor; [|exact NDh]. intro Q. specialize (R l Q). lia.
      * intro k. cbn. rewrite Hh. split; (intros [Q|Q]; [left; congruence|now right]).
    + destruct (DI u _ E) as (h & NDh & Hh & O). exists h. split; [exact NDh|]. split; [|exact O]. intro k. cbn. rewrite Hh.
      split; [intros [Q|Q]; [congruence|exact Q]|auto].
  - rewrite E, map_app in ND. cbn [map] in ND. rewrite map_app. now apply NoDup_remove_1 in ND.
  - intros k u Q. rewrite set_length. apply (LV k u). rewrite E. apply in_app_iff in Q as [Q|Q]; apply in_app_iff; [now left|right; now right].
  - intros u w' E'. rewrite E in DI, ND. rewrite map_app in ND. cbn [map fst] in ND.
    assert (NI : forall z, In (l, z) (pre ++ post) -> False).
    { intros z Q. apply NoDup_remove_2 in ND. apply ND. rewrite <- map_app. exact (in_map fst _ _ Q). }
    assert (SAME : forall k z, (k, z) <> (l, t) -> (In (k, z) (pre ++ post) <-> In (k, z) (pre ++ (l, t) :: post))).
    { intros k z Ne. rewrite !in_app_iff. cbn. split; [tauto|]. intros [Q|[Q|Q]]; [tauto|congruence|tauto]. }
    apply nth_set_inv in E' as [[-> ->]|[Ne E']].
    + destruct (DI t _ N) as (h & NDh & Hh & O). cbn [ord] in O. destruct h as [|k h]; [contradiction|]. destruct O as [-> O].
      inversion NDh as [|? ? K1 K2]; subst. exists h. split; [exact K2|]. split; [|exact O].
      intro k. destruct (lock_dec k l) as [->|Nk].
      * split; [intro Q; destruct (NI _ Q)|contradiction].
      * rewrite SAME by congruence. rewrite Hh. cbn. split; [intros [Q|Q]; [congruence|exact Q]|auto].
    + destruct (DI u _ E') as (h & NDh & Hh & O). exists h. split; [exact NDh|]. split; [|exact O].
      intro k. rewrite SAME by congruence. apply Hh.
  - exact ND.
  - intros k u Q. rewrite app_length, set_length. specialize (LV k u Q). lia.
  - intros u w' E. destruct (Nat.lt_ge_cases u (length (set_nth t w (th_progs s)))) as [L|L].
    + rewrite nth_error_app1 in E by exact L. apply nth_set_inv in E as [[-> ->]|[Ne E]]; [|exact (DI u _ E)].
      exact (DI t _ N).
    + rewrite nth_error_app2 in E by exact L. destruct (u - length (set_nth t w (th_progs s))) as [|k] eqn:K; [|destruct k; discriminate].
      assert (w' = v) as -> by (cbn in E; congruence). exists []. split; [constructor|]. split; [|exact (all_ord r v V)].
      intro k. split; [|intros []]. intro Q. specialize (LV _ _ Q). rewrite set_length in L. lia.
  - exact ND.
  - intros k u Q. rewrite set_length. exact (LV k u Q).
  - intros u w' E. apply nth_set_inv in E as [[-> ->]|[Ne E]]; [|exact (DI u _ E)].
    destruct (DI t _ N) as (h & NDh & Hh & O). exists h. split; [exact NDh|]. split; [exact Hh|].
    destruct A as [(y & [-> | ->])|(c & ->)]; exact O.
Qed.
Lemma oinv_steps s tr s' : oinv s -> thread_steps s tr s' -> oinv s'.
Proof. intros I H. induction H; [exact I|]. eapply oinv_step; [|eassumption]. auto. Qed.

Lemma some_acts r : exists v, acts_of r v.
Proof.
  destruct r as [|c|c|i c|i|i|].
  - eexists. apply (OfMain [] 0 [] []); constructor.
  - eexists. apply (OfWriter c 0).
  - eexists. apply (OfReader c []). constructor.
  - eexists. apply OfWatcher.
  - eexists. apply OfRelayer, RelayBehind.
  - eexists. apply (OfCloser i 0).
  - eexists. apply (OfUser []). constructor.
Qed.

(** A goroutine that is not waiting for a mutex in use can go on. *)
Lemma can_go s t a w : oinv s -> next s t a w -> (forall l, a = Acq l -> free s l) -> exists e s', thread_step s e s'.
Proof.
  intros I N F. destruct a as [l|l|x|x|c|r].
  - eexists _, _. eapply DoAcq; [exact N|exact (F l eq_refl)].
  - destruct (oinv_ord s I t _ N) as (h & _ & Hh & O). cbn [ord] in O. destruct h as [|k h]; [contradiction|]. destruct O as [-> _].
    destruct (in_split (l, t) (th_held s)) as (pre & post & E); [apply Hh; now left|].
    eexists _, _. eapply DoRel; [exact N|exact E].
  - eexists _, _. eapply DoAccess; [exact N|]. left. eauto.
  - eexists _, _. eapply DoAccess; [exact N|]. left. eauto.
  - eexists _, _. eapply DoAccess; [exact N|]. right. eauto.
  - destruct (some_acts r) as [v V]. eexists _, _. eapply DoGo; [exact N|exact V].
Qed.
Lemma free_dec s l : free s l \/ exists t, In (l, t) (th_held s).
Proof.
  unfold free. destruct (in_dec lock_dec l (map fst (th_held s))) as [H|H]; [right|now left].
  apply in_map_iff in H as ([k t] & <- & H). now exists t.
Qed.
(** The holder of a lock has something left to do, and if that is to take another, a later one. *)
Lemma holder s l t : oinv s -> In (l, t) (th_held s) -> exists a w, next s t a w /\ forall k, a = Acq k -> rank l < rank k.
Proof.
  intros I H. pose proof (oinv_live s I l t H) as L. apply nth_error_Some in L.
  destruct (nth_error (th_progs s) t) as [w|] eqn:E; [|congruence].
  destruct (oinv_ord s I t w E) as (h & _ & Hh & O). apply Hh in H. destruct w as [|a w]; cbn [ord] in O; [subst; contradiction|].
  exists a, w. split; [exact E|]. intros k ->. now apply O.
Qed.
Theorem mutexes_live tr s : execution tr s -> (exists t a w, next s t a w) -> exists e s', thread_step s e s'.
Proof.
  intros (w0 & W & H) (t & a & w & N). pose proof (oinv_steps _ _ _ (oinv_start w0 W) H) as I.
  destruct a as [l| | | | |]; try (eapply can_go; [exact I|exact N|discriminate]).
  destruct (free_dec s l) as [F|[u U]]; [eapply can_go; [exact I|exact N|intros k E; inversion E; now subst]|].
  destruct (holder s l u I U) as (a & w' & N' & R). destruct a as [l'| | | | |]; try (eapply can_go; [exact I|exact N'|discriminate]).
  specialize (R l' eq_refl).
  destruct (free_dec s l') as [F|[v V]]; [eapply can_go; [exact I|exact N'|intros k E; inversion E; now subst]|].
  destruct (holder s l' v I V) as (a & w'' & N'' & R'). eapply can_go; [exact I|exact N''|]. intros k E. specialize (R' k E).
  exfalso. assert (rank k <= 1) by (destruct k; cbn; lia). lia.
Qed.

Lemma safe_locations tr s x : execution tr s ->
  (x = LTable \/ x = LUp \/ x = LBans \/ exists i, x = LField i FVersion \/ x = LField i FLastConn) -> ~ race false tr x.
Proof.
  intros E [-> | [-> | [-> | (i & [-> | ->])]]]; (eapply guarded_race_free; [exact E|constructor]).
Qed.
Lemma only_racy tr s x : execution tr s -> race false tr x ->
  x = LConnected \/ exists i f, x = LField i f /\ In f [FStatus; FPeer; FHeight; FDifficulty; FCaps].
Proof.
  intros E R. pose proof (fun G => safe_locations tr s x E G R) as N. destruct x as [| | | |i f].
  - destruct N; auto.
  - destruct N; auto.
  - destruct N; auto.
  - now left.
  - right. exists i, f. split; [reflexivity|]. destruct f; cbn; auto 8; exfalso; apply N; eauto 8.
Qed.

(** A goroutine that waits for a mutex does not hold it. *)
Lemma wait_not_held s t l w : oinv s -> next s t (Acq l) w -> ~ In (l, t) (th_held s).
Proof.
  intros I N H. destruct (oinv_ord s I t _ N) as (h & _ & Hh & O). cbn [ord] in O. destruct O as [O _].
  apply Hh in H. specialize (O l H). lia.
Qed.
Lemma waits_end tr s t l w : execution tr s -> next s t (Acq l) w -> ~ free s l ->
  exists u, In (l, u) (th_held s) /\ u <> t /\ exists a v, next s u a v /\
    (forall k, a = Acq k -> ~ free s k ->
      exists u', In (k, u') (th_held s) /\ u' <> u /\ u' <> t /\ exists a' v', next s u' a' v' /\ forall k', a' <> Acq k').
Proof.
  intros (w0 & W & H) N F. pose proof (oinv_steps _ _ _ (oinv_start w0 W) H) as I.
  destruct (free_dec s l) as [F'|[u U]]; [contradiction|]. exists u. split; [exact U|].
  assert (Ut : u <> t) by (intros ->; exact (wait_not_held s t l w I N U)). split; [exact Ut|].
  destruct (holder s l u I U) as (a & v & N' & R). exists a, v. split; [exact N'|]. intros k -> Fk. specialize (R k eq_refl).
  destruct (free_dec s k) as [F''|[u' U']]; [contradiction|]. exists u'. split; [exact U'|].
  assert (Uu : u' <> u) by (intros ->; exact (wait_not_held s u k v I N' U')). split; [exact Uu|].
  destruct (holder s k u' I U') as (a' & v' & N'' & R').
  assert (Q : forall k', a' <> Acq k').
  { intros k' ->. specialize (R' k' eq_refl). assert (rank k' <= 1) by (destruct k'; cbn; lia). lia. }
  split; [|exists a', v'; split; assumption].
  intros ->. unfold next in N, N''. rewrite N in N''. injection N'' as <- _. exact (Q l eq_refl).
Qed.
