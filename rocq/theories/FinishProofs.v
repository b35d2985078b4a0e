(** Lemmas for C128. *)
From Verif Require Import Shutdown SpecPeer PeerProofs LiveProofs ShutdownProofs SpecFinish.
Local Open Scope nat_scope.

Section Finish.
Context (X : Ext).
Implicit Types s t u : lstate X.

(** How many steps are left at each point. *)
Definition dleft (d : dpc) : nat := match d with DRet => 0 | DWait => 1 | DConn => 2 | DQuit => 3 | DCas => 4 end.
Definition wleft (w : wpc X) : nat := match w with WDisc d => dleft d | WDone => 5 | WSelect => 6 | WCheck _ => 7 | WWrite _ => 8 end.
Definition rleft (r : rpc X) : nat :=
  match r with RDisc d => dleft d | RDone => 5 | RTest => 6 | RHandle => 7 | RRead => 8 | RSend _ => 9 | RBan d => 8 + dleft d end.
Definition oleft (o : opc X) : nat := match o with OSend _ => 3 | OSent => 0 | ODisc d => dleft d | OWait => 2 | OWaitWg => 1 | OWaited => 0 end.
Definition osleft (l : list (opc X)) : nat := list_sum (map oleft l).
Definition cleft (p : pstate X) : nat := match p_crash p with None => 1 | Some _ => 0 end.
Definition pleft (p : pstate X) : nat := wleft (p_writer p) + rleft (p_reader p) + osleft (p_others p) + cleft p.
Definition lleft (l : holder) (w : bool) : nat :=
  match l, w with LFree, true => 2 | LReader, true => 1 | LCloser _, true => 3 | LCloser _, false => 1 | _, false => 0 end.
Definition left_of s : nat := pleft (l_peer s) + lleft (l_lock s) (l_wants s).

Lemma list_sum_cons x l : list_sum (x :: l) = x + list_sum l.
Proof. reflexivity. Qed.
Lemma osleft_mid pre o post : osleft (pre ++ o :: post) = oleft o + osleft (pre ++ post).
Proof. unfold osleft. rewrite !map_app, !list_sum_app. cbn [map]. rewrite list_sum_cons. lia. Qed.
Lemma dleft_le d : dleft d <= 4.
Proof. destruct d; cbn; lia. Qed.
Lemma osleft_le l : osleft l <= 4 * List.length l.
Proof.
  induction l as [|o l IH]; [apply le_n|]. unfold osleft in *. cbn [map List.length]. rewrite list_sum_cons.
  assert (oleft o <= 4) by (destruct o; cbn; try lia; apply dleft_le). lia.
Qed.
Lemma pleft_le p : pleft p <= 21 + 4 * List.length (p_others p).
Proof.
  unfold pleft. pose proof (osleft_le (p_others p)). assert (cleft p <= 1) by (unfold cleft; destruct (p_crash p); lia).
  assert (wleft (p_writer p) <= 8) by (destruct (p_writer p) as [| | | |d]; cbn; try lia; pose proof (dleft_le d); lia).
  assert (rleft (p_reader p) <= 12) by (destruct (p_reader p) as [| | | |d| |d]; cbn; try lia; pose proof (dleft_le d); lia). lia.
Qed.

(** One step of Disconnect when somebody has begun it. *)
Lemma dstep_left (p : pstate X) d p' d' : dstep p d p' d' -> p_crash p = None -> p_flag p = true ->
  p_flag p' = true /\ p_writer p' = p_writer p /\ p_reader p' = p_reader p /\ p_others p' = p_others p /\ dleft d' + cleft p' < dleft d + cleft p.
Proof.
  intros H C F. unfold cleft. rewrite C. destruct H; cbn [set_flag add_quit set_closed crash p_flag p_writer p_reader p_others p_crash]; rewrite ?C, ?F; cbn; try (repeat split; lia).
Qed.
Lemma wg_done_left (p : pstate X) : p_crash p = None -> p_flag (wg_done p) = p_flag p /\ p_writer (wg_done p) = p_writer p /\ p_reader (wg_done p) = p_reader p /\
  p_others (wg_done p) = p_others p /\ cleft (wg_done p) <= cleft p.
Proof. intro C. unfold wg_done, cleft. destruct (_ <? _)%Z; cbn; rewrite C; repeat split; lia. Qed.

Ltac flds := cbn [set_flag set_writer set_reader set_others set_bans set_closed add_quit take wrote crash
  p_flag p_quits p_closed p_wg p_writer p_reader p_others p_bans p_crash] in *.
Lemma wstep_left (p p' : pstate X) : wstep p p' -> p_crash p = None -> p_flag p = true -> p_flag p' = true /\ p_reader p' = p_reader p /\ pleft p' < pleft p.
Proof.
  intros H C F. unfold pleft. destruct H.
  - unfold cleft. flds. rewrite H. cbn [wleft]. repeat split; [exact F|lia].
  - unfold cleft. flds. rewrite H. cbn [wleft]. repeat split; [exact F|lia].
  - congruence.
  - unfold cleft. flds. rewrite H. cbn [wleft]. repeat split; [exact F|lia].
  - unfold cleft. flds. rewrite H. cbn [wleft]. repeat split; [exact F|lia].
  - unfold cleft. flds. rewrite C. repeat split; [exact F|lia].
  - destruct (wg_done_left s C) as (A & B & D & E & G). unfold cleft in *. flds. rewrite H, D, E, A. cbn [wleft dleft]. repeat split; [exact F|lia].
  - destruct (dstep_left _ _ _ _ H0 C F) as (A & B & D & E & G). unfold cleft in *. flds. rewrite H, D, E. cbn [wleft]. repeat split; [exact A|lia].
Qed.
Lemma ostep_left (p p' : pstate X) : ostep p p' -> p_crash p = None -> p_flag p = true -> p_flag p' = true /\ p_reader p' = p_reader p /\ pleft p' < pleft p.
Proof.
  intros H C F. unfold pleft. destruct H; rewrite H; rewrite ?osleft_mid.
  - unfold cleft. flds. rewrite H0, osleft_mid. cbn [wleft oleft]. repeat split; [exact F|lia].
  - unfold cleft. flds. rewrite osleft_mid. cbn [oleft]. repeat split; [exact F|lia].
  - destruct (dstep_left _ _ _ _ H0 C F) as (A & B & D & E & G). unfold cleft in *. flds. rewrite B, D, osleft_mid. cbn [oleft]. repeat split; [exact A|lia].
  - unfold cleft. flds. rewrite osleft_mid. cbn [oleft]. repeat split; [exact F|lia].
  - unfold cleft. flds. rewrite osleft_mid. cbn [oleft]. repeat split; [exact F|lia].
Qed.
Definition starts (r r' : rpc X) : bool := match r, r' with RHandle, RSend _ | RHandle, RBan _ => true | _, _ => false end.
Lemma rstep_left (p p' : pstate X) : rstep p p' -> p_crash p = None -> p_flag p = true ->
  p_flag p' = true /\ pleft p' < pleft p + (if starts (p_reader p) (p_reader p') then 6 else 0) /\
  (p_reader p' = RRead -> p_reader p = RRead).
Proof.
  intros H C F. unfold pleft. destruct H; try congruence.
  all: try (unfold cleft; flds; rewrite ?H, ?C; try rewrite H0; cbn [rleft dleft wleft starts]; split; [first [exact F|reflexivity]|split; [lia|discriminate]]).
  - destruct (dstep_left _ _ _ _ H0 C F) as (A & B & D & E & G). unfold cleft in *. flds. rewrite H, B, E. cbn [rleft starts]. repeat split; [exact A|lia|discriminate].
  - destruct (wg_done_left s C) as (A & B & D & E & G). unfold cleft in *. flds. rewrite H, A, B, E. cbn [rleft dleft starts]. repeat split; [exact F|lia|discriminate].
  - destruct (dstep_left _ _ _ _ H0 C F) as (A & B & D & E & G). unfold cleft in *. flds. rewrite H, B, E. cbn [rleft starts]. repeat split; [exact A|lia|discriminate].
Qed.

Lemma rstep_others (p p' : pstate X) : rstep p p' -> p_others p' = p_others p.
Proof.
  intro H. destruct H; flds; try reflexivity.
  - now destruct (dstep_grows2 _ _ _ _ _ H0) as (_ & _ & E).
  - now rewrite wg_done_others.
  - now destruct (dstep_grows2 _ _ _ _ _ H0) as (_ & _ & E).
Qed.
Lemma ostep_others (p p' : pstate X) : ostep p p' -> List.length (p_others p') = List.length (p_others p).
Proof. intro H. destruct H; flds; rewrite H, !app_length; reflexivity. Qed.

Lemma own_left s t : lstep s t -> List.length (p_others (l_peer t)) = List.length (p_others (l_peer s)) -> p_flag (l_peer s) = true ->
  p_flag (l_peer t) = true /\ left_of t < left_of s + (if undertakes s t then 6 else 0) /\ (p_reader (l_peer t) = RRead -> p_reader (l_peer s) = RRead).
Proof.
  intros H L F. unfold left_of, undertakes. destruct H; cbn [l_peer l_lock l_wants] in *.
  - destruct (wstep_left _ _ H0 H F) as (A & B & D). rewrite B. split; [exact A|]. split; [|auto]. destruct (p_reader p), w; cbn; lia.
  - destruct (rstep_left _ _ H0 H F) as (A & B & D). split; [exact A|]. split; [|exact D]. unfold starts in B. destruct (p_reader p), (p_reader p'); cbn; lia.
  - destruct (ostep_left _ _ H0 H F) as (A & B & D). rewrite B. split; [exact A|]. split; [|auto]. destruct (p_reader p), w; cbn; lia.
  - destruct H0. cbn in L. rewrite app_length in L. cbn in L. lia.
  - split; [exact F|]. split; [|auto]. rewrite H0. destruct l; cbn; lia.
  - split; [exact F|]. split; [|auto]. destruct (p_reader p); cbn; lia.
  - split; [exact F|]. split; [|auto]. destruct (p_reader p); cbn; lia.
  - cbn in L. rewrite app_length in L. cbn in L. lia.
  - split; [exact F|]. split; [|auto]. destruct (p_reader p), w; cbn; lia.
Qed.

Lemma last_step {A} (l : list A) : forall x y, last (x :: l) y = last l x.
Proof. induction l as [|z l IH]; intros x y; [reflexivity|]. change (last (z :: l) y = last (z :: l) x). now rewrite !IH. Qed.
Lemma path_left path : forall s, p_flag (l_peer s) = true -> own_path s path ->
  p_flag (l_peer (last path s)) = true /\ List.length path + left_of (last path s) <= left_of s + 6 * times undertakes s path.
Proof.
  induction path as [|t path IH]; intros s F P; [cbn; lia|]. destruct P as (St & L & P). destruct (own_left s t St L F) as (F' & Lt & _).
  destruct (IH t F' P) as (F2 & L2). rewrite last_step. split; [exact F2|]. cbn [List.length times]. destruct (undertakes s t); lia.
Qed.
Lemma bounded s path : p_flag (l_peer s) = true -> own_path s path ->
  List.length path <= 24 + 4 * List.length (p_others (l_peer s)) + 6 * times undertakes s path.
Proof.
  intros F P. destruct (path_left path s F P) as (_ & L). unfold left_of at 2 in L. pose proof (pleft_le (l_peer s)).
  assert (lleft (l_lock s) (l_wants s) <= 3) by (destruct (l_lock s), (l_wants s); cbn; lia). lia.
Qed.
Lemma no_more path : forall s, p_flag (l_peer s) = true -> own_path s path -> p_reader (l_peer s) <> RRead -> times gets_message s path = 0.
Proof.
  induction path as [|t path IH]; intros s F P N; [reflexivity|]. destruct P as (St & L & P). destruct (own_left s t St L F) as (F' & _ & R).
  cbn [times]. rewrite (IH t F' P) by (intro Q; now apply N, R). unfold gets_message. destruct (p_reader (l_peer s)); try reflexivity. now elim N.
Qed.
Lemma one_more path : forall s, p_flag (l_peer s) = true -> own_path s path -> times gets_message s path <= 1.
Proof.
  induction path as [|t path IH]; intros s F P; [apply Nat.le_0_l|]. destruct P as (St & L & P). destruct (own_left s t St L F) as (F' & _ & R).
  cbn [times]. destruct (gets_message s t) eqn:E; [|exact (IH t F' P)].
  rewrite (no_more path t F' P); [lia|]. unfold gets_message in E. intro Q. rewrite Q in E. destruct (p_reader (l_peer s)); discriminate.
Qed.

(** *** Where it ends *)
Definition linv s : Prop :=
  (l_wants s = true -> p_reader (l_peer s) = RHandle) /\ (l_lock s = LReader -> l_wants s = true) /\
  (forall k, l_lock s = LCloser k -> exists d, nth_error (p_others (l_peer s)) k = Some (ODisc d)).
Lemma ostep_keeps (p p' : pstate X) k d : ostep p p' -> nth_error (p_others p) k = Some (ODisc d) -> exists d', nth_error (p_others p') k = Some (ODisc d').
Proof.
  intros H N. assert (K : forall pre x post y, p_others p = pre ++ x :: post -> (forall d, x <> ODisc d) -> exists d', nth_error (pre ++ y :: post) k = Some (ODisc d')).
  { intros pre x post y E Ne. exists d. rewrite E in N. destruct (Nat.lt_trichotomy k (List.length pre)) as [Lt|[->|Gt]].
    - now rewrite nth_error_app1 in * by exact Lt.
    - rewrite nth_error_app2, Nat.sub_diag in N by apply le_n. injection N as Q. now elim (Ne d).
    - rewrite nth_error_app2 in * by lia. destruct (k - List.length pre) as [|n] eqn:Q; [lia|]. exact N. }
  destruct H; flds; try (eapply K; [exact H|discriminate]).
  rewrite H in N. destruct (Nat.lt_trichotomy k (List.length pre)) as [Lt|[->|Gt]].
  - exists d. now rewrite nth_error_app1 in * by exact Lt.
  - exists d'. now rewrite nth_error_app2, Nat.sub_diag by apply le_n.
  - exists d. rewrite nth_error_app2 in * by lia. destruct (k - List.length pre) as [|n] eqn:Q; [lia|]. exact N.
Qed.
Lemma linv_step s t : linv s -> lstep s t -> linv t.
Proof.
  intros (A & B & C) H. destruct H; unfold linv in *; cbn [l_peer l_lock l_wants] in *.
  - split; [|split; [exact B|]].
    + intro Q. rewrite <- (A Q). clear -H0. destruct H0; flds; try reflexivity; [unfold wg_done; now destruct (_ <? _)%Z|].
      destruct H0; reflexivity.
    + intros k Q. rewrite (wstep_others _ _ _ H0). auto.
  - split; [discriminate|]. split; [exact B|]. intros k Q. rewrite (rstep_others _ _ H0). auto.
  - split; [|split; [exact B|]].
    + intro Q. rewrite <- (A Q). clear -H0. destruct H0; flds; try reflexivity. destruct H0; reflexivity.
    + intros k Q. destruct (C k Q) as (d & N). exact (ostep_keeps _ _ k d H0 N).
  - destruct H0. flds. split; [exact A|]. split; [exact B|]. intros k Q. destruct (C k Q) as (d & N). exists d.
    rewrite nth_error_app1; [exact N|]. apply nth_error_Some. congruence.
  - split; [auto|]. split; [auto|exact C].
  - split; [auto|]. split; [auto|discriminate].
  - split; [discriminate|]. split; [discriminate|discriminate].
  - flds. split; [exact A|]. split; [discriminate|]. intros k [= <-]. exists DCas. now rewrite nth_error_app2, Nat.sub_diag by apply le_n.
  - split; [exact A|]. split; [discriminate|discriminate].
Qed.
Lemma linv_all bans s : lsteps (l_start X bans) s -> linv s.
Proof.
  intro R. remember (l_start X bans) as a. induction R as [s|s t u R IH St]; subst.
  - split; [discriminate|]. split; discriminate.
  - exact (linv_step _ _ (IH eq_refl) St).
Qed.

Lemma path_lsteps path : forall s, own_path s path -> lsteps s (last path s).
Proof.
  induction path as [|t path IH]; intros s P; [apply LsNone|]. destruct P as (St & _ & P). rewrite last_step. exact (l_cons X s t _ St (IH t P)).
Qed.
Lemma lsteps_app s t u : lsteps s t -> lsteps t u -> lsteps s u.
Proof. intros A B. induction B as [t|t v w B IH St]; [exact A|]. exact (LsMore _ _ _ (IH A) St). Qed.

Lemma ends bans s : lsteps (l_start X bans) s -> at_an_end s ->
  (all_ended (l_peer s) /\ p_closed (l_peer s) = true /\ l_lock s = LFree /\ p_crash (l_peer s) = None) \/
  bans_itself s \/ closed_over s \/ p_crash (l_peer s) = Some NilMap \/ p_crash (l_peer s) = Some Encoding.
Proof.
  intros R E. pose proof (linv_all bans s R) as (A & B & C). pose proof (l_psteps X _ _ _ R (PsNone X (p_start X bans))) as Rp.
  destruct (p_crash (l_peer s)) as [c|] eqn:Cr.
  { destruct (once X bans _ Rp) as (O1 & O2 & _). destruct c; try congruence; auto. }
  destruct s as [p l w]. cbn [l_peer l_lock l_wants] in *.
  assert (Nw : forall p', ~ wstep p p') by (intros p' H; apply (E _ (LsWriter X p l w p' Cr H)); cbn; now rewrite (wstep_others _ _ _ H)).
  assert (No : forall p', ~ ostep p p') by (intros p' H; apply (E _ (LsOther X p l w p' Cr H)); cbn; exact (ostep_others _ _ H)).
  destruct w.
  - right. right. left. split; [reflexivity|]. split; [exact (A eq_refl)|]. destruct l as [| |k].
    + elim (E _ (LsLock X p Cr)). reflexivity.
    + elim (E _ (LsUnlock X p Cr)). reflexivity.
    + now exists k.
  - assert (Nr : forall p', ~ rstep p p') by (intros p' H; apply (E _ (LsReader X p l p' Cr H)); cbn; now rewrite (rstep_others _ _ H)).
    destruct (no_deadlock X bans p Rp) as [Q|Q].
    + intros t [H|[H|H]]; [now apply (Nw t)|now apply (Nr t)|now apply (No t)].
    + right. left. exact Q.
    + left. split; [exact Q|]. destruct (ended_closed X bans p Rp Q) as (_ & Cl & _). split; [exact Cl|]. split; [|reflexivity].
      destruct l as [| |k]; [reflexivity|discriminate (B eq_refl)|]. destruct (C k eq_refl) as (d & N).
      assert (d = DRet) as ->.
      { destruct Q as (_ & _ & Q). apply nth_error_In in N. rewrite Forall_forall in Q. destruct (Q _ N) as [K|[K|K]]; congruence. }
      elim (E _ (LsClosed X p k false Cr N)). reflexivity.
Qed.
Lemma path_ends bans s path : lsteps (l_start X bans) s -> own_path s path -> at_an_end (last path s) ->
  let t := last path s in
  (all_ended (l_peer t) /\ p_closed (l_peer t) = true /\ l_lock t = LFree /\ p_crash (l_peer t) = None) \/
  bans_itself t \/ closed_over t \/ p_crash (l_peer t) = Some NilMap \/ p_crash (l_peer t) = Some Encoding.
Proof. intros R P E t. apply (ends bans); [|exact E]. exact (lsteps_app _ _ _ R (path_lsteps path s P)). Qed.

(** *** A handler that only sends *)
Lemma harmless_step s t : lstep s t -> harmless s -> p_crash (l_peer s) <> Some NilMap -> bans_or_locks s t = false ->
  harmless t /\ p_crash (l_peer t) <> Some NilMap.
Proof.
  intros St (Hb & Hw) Hc E. unfold harmless.
  assert (Dr : forall (p p' : pstate X) d d', dstep p d p' d' -> p_reader p' = p_reader p /\ (p_crash p' = p_crash p \/ p_crash p' = Some CloseTwice))
    by (intros p p' d d' D; destruct D; cbn; auto).
  assert (Wg : forall p : pstate X, p_reader (wg_done p) = p_reader p /\ (p_crash (wg_done p) = p_crash p \/ p_crash (wg_done p) = Some NegativeWg))
    by (intro p; unfold wg_done; destruct (p_wg p - 1 <? 0)%Z; cbn; auto).
  destruct St as [p l w p' Cr St|p l p' Cr St|p l w p' Cr St|p l w p' Cr St|p l Cr Rd|p Cr|p Cr|p w Cr|p k w Cr N]; cbn [l_peer l_wants] in *.
  - destruct St as [| | | | | |p W|p d p' d' W D]; cbn; try (split; [now split|congruence]).
    { destruct (Wg p) as (-> & K). split; [now split|]. destruct K as [->| ->]; congruence. }
    destruct (Dr _ _ _ _ D) as (-> & K). split; [now split|]. destruct K as [->| ->]; congruence.
  - destruct St as [p R|p R|p R|p R|p R|p m R|p m R Q|p m R Q|p R|p d p' d' R D|p n R Q|p R Q|p R|p d p' d' R D];
      try (cbn; split; [split; [intro; discriminate|reflexivity]|congruence]); try (now elim (Hb _ R)).
    + exfalso. revert E. unfold bans_or_locks. cbn [l_peer l_wants]. rewrite R. cbn. discriminate.
    + cbn. destruct (Wg p) as (_ & K). split; [split; [intro; discriminate|reflexivity]|]. destruct K as [->| ->]; congruence.
    + cbn. destruct (Dr _ _ _ _ D) as (_ & K). split; [split; [intro; discriminate|reflexivity]|]. destruct K as [->| ->]; congruence.
  - destruct St as [| |p pre d post p' d' W D| |]; cbn; try (split; [now split|congruence]).
    destruct (Dr _ _ _ _ D) as (-> & K). split; [now split|]. destruct K as [->| ->]; congruence.
  - destruct St. cbn. split; [now split|congruence].
  - exfalso. revert E. unfold bans_or_locks. cbn [l_peer l_wants]. rewrite Rd. discriminate.
  - discriminate.
  - discriminate.
  - cbn. now repeat split.
  - now repeat split.
Qed.
Lemma harmless_path path : forall s, own_path s path -> harmless s -> p_crash (l_peer s) <> Some NilMap -> times bans_or_locks s path = 0 ->
  harmless (last path s) /\ p_crash (l_peer (last path s)) <> Some NilMap.
Proof.
  induction path as [|t path IH]; intros s P H C T; [now split|]. destruct P as (St & _ & P). cbn [times] in T.
  destruct (bans_or_locks s t) eqn:E; [discriminate T|]. destruct (harmless_step _ _ St H C E) as (H' & C'). rewrite last_step. now apply IH.
Qed.
Lemma path_ends_well bans s path : lsteps (l_start X bans) s -> own_path s path -> at_an_end (last path s) ->
  harmless s -> p_crash (l_peer s) = None -> times bans_or_locks s path = 0 ->
  let t := last path s in
  (all_ended (l_peer t) /\ p_closed (l_peer t) = true /\ l_lock t = LFree /\ p_crash (l_peer t) = None) \/ p_crash (l_peer t) = Some Encoding.
Proof.
  intros R P E H C T t. destruct (harmless_path path s P H) as ((Hb & Hw) & Hc); [congruence|exact T|].
  destruct (path_ends bans s path R P E) as [Q|[Q|[Q|[Q|Q]]]]; [now left|now elim (Hb _ Q)| |now elim Hc|now right].
  destruct Q as (Q & _). fold t in Q. unfold t in Q. congruence.
Qed.

(** *** An execution *)
Lemma ret_stays (p s' : pstate X) d d' : d = DRet -> ~ dstep p d s' d'.
Proof. intros -> Q. inversion Q. Qed.
Lemma ended_others (p p' : pstate X) : Forall other_ended (p_others p) -> ~ ostep p p'.
Proof.
  intros O H. rewrite Forall_forall in O.
  destruct H as [p pre m post E|p pre m post E|p pre d post p' d' E D|p pre post E|p pre post E].
  1,2: assert (K : other_ended (OSend m)) by (apply O; rewrite E; apply in_elt); destruct K as [K|[K|K]]; discriminate K.
  2,3: match type of E with _ = _ ++ ?o :: _ => assert (K : other_ended o) by (apply O; rewrite E; apply in_elt) end; destruct K as [K|[K|K]]; discriminate K.
  assert (K : other_ended (X:=X) (ODisc d)) by (apply O; rewrite E; apply in_elt). destruct K as [K|[K|K]]; try discriminate K.
  injection K as K. exact (ret_stays _ _ _ _ K D).
Qed.
Lemma ended_at_end (p : pstate X) : all_ended p -> at_an_end (LState p LFree false).
Proof.
  intros (W & R & O) t H. unfold writer_ended, reader_ended in *.
  inversion H as [q l w p' Cr St|q l p' Cr St|q l w p' Cr St|q l w p' Cr St|q l Cr Rd|q Cr|q Cr|q w Cr|q k w Cr N]; subst; cbn [l_peer].
  - exfalso. inversion St; subst; try congruence. match goal with K : p_writer p = WDisc ?d, D : dstep _ ?d _ _ |- _ => apply (ret_stays p _ d _ (ltac:(congruence) : d = DRet) D) end.
  - exfalso. inversion St; subst; try congruence. match goal with K : p_reader p = RDisc ?d, D : dstep _ ?d _ _ |- _ => apply (ret_stays p _ d _ (ltac:(congruence) : d = DRet) D) end.
  - elim (ended_others _ _ O St).
  - destruct St as [q o _]. cbn. rewrite app_length. cbn. lia.
  - congruence.
  - cbn. rewrite app_length. cbn. lia.
Qed.
Definition own_to s (n : nat) t : Prop := exists path, own_path s path /\ List.length path = n /\ last path s = t.
Lemma own_none s : own_to s 0 s.
Proof. now exists []. Qed.
Lemma own_cons s t n u : lstep s t -> List.length (p_others (l_peer t)) = List.length (p_others (l_peer s)) -> own_to t n u -> own_to s (S n) u.
Proof. intros St L (path & P & Ln & E). exists (t :: path). split; [now repeat split|]. split; [cbn; now rewrite Ln|]. now rewrite last_step. Qed.
Lemma run_finish bans : exists s path, lsteps (l_start X bans) s /\ p_flag (l_peer s) = true /\ p_reader (l_peer s) = RRead /\ p_writer (l_peer s) = WSelect /\
  own_path s path /\ List.length path = 9 /\ at_an_end (last path s).
Proof.
  assert (H : exists s t, lsteps (l_start X bans) s /\ p_flag (l_peer s) = true /\ p_reader (l_peer s) = RRead /\ p_writer (l_peer s) = WSelect /\ own_to s 9 t /\ at_an_end t).
  2:{ destruct H as (s & t & A & B & C & D & (path & P & L & <-) & E). now exists s, path. }
  eexists. eexists. split; [|split; [|split; [|split; [|split]]]].
  - eapply l_cons. { apply LsReader; [reflexivity|]. apply RsGo; reflexivity. }
    eapply l_cons. { apply LsSpawn; [reflexivity|]. apply (OsNew _ _ (ODisc DCas)). now left. }
    eapply l_cons. { apply LsOther; [reflexivity|]. eapply (OsDisc _ _ [] DCas []); [reflexivity|]. apply DsWin. reflexivity. }
    apply LsNone.
  - reflexivity.
  - reflexivity.
  - reflexivity.
  - eapply own_cons; [apply LsOther; [reflexivity|]; eapply (OsDisc _ _ [] DQuit []); [reflexivity|]; apply DsQuit; reflexivity|reflexivity|].
    eapply own_cons; [apply LsOther; [reflexivity|]; eapply (OsDisc _ _ [] DConn []); [reflexivity|]; apply DsConn|reflexivity|].
    eapply own_cons; [apply LsWriter; [reflexivity|]; apply WsQuit; [reflexivity|discriminate]|reflexivity|].
    eapply own_cons; [apply LsReader; [reflexivity|]; apply RsFailed; reflexivity|reflexivity|].
    eapply own_cons; [apply LsWriter; [reflexivity|]; apply WsDone; reflexivity|reflexivity|].
    eapply own_cons; [apply LsReader; [reflexivity|]; apply RsDone; reflexivity|reflexivity|].
    eapply own_cons; [apply LsWriter; [reflexivity|]; eapply WsDisc; [reflexivity|]; apply DsLose; reflexivity|reflexivity|].
    eapply own_cons; [apply LsReader; [reflexivity|]; eapply RsDisc; [reflexivity|]; apply DsLose; reflexivity|reflexivity|].
    eapply own_cons; [apply LsOther; [reflexivity|]; eapply (OsDisc _ _ [] DWait []); [reflexivity|]; apply DsWait; reflexivity|reflexivity|].
    apply own_none.
  - apply ended_at_end. repeat split. cbn. constructor; [|constructor]. right. now left.
Qed.
End Finish.
