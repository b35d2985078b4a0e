(** Under a fair scheduler a peer that begins to end does end. *)
From Verif Require Import Start SpecPeer SpecEarly PeerProofs Shutdown ShutdownProofs LiveProofs EarlyProofs SpecFair.

Section Fair.
Context (X : Ext).
Implicit Types (s t u : pstate X).

(** ** One step *)
Definition at_disc (g : goroutine) s : option dpc :=
  match g with
  | GWriter => match p_writer s with WDisc d => Some d | _ => None end
  | GReader => match p_reader s with RDisc d => Some d | _ => None end
  | GOther k => match nth_error (p_others s) k with Some (ODisc d) => Some d | _ => None end
  end.
(** [t] has of [u] what Disconnect changes. *)
Definition shows u t : Prop := p_flag t = p_flag u /\ p_quits t = p_quits u /\ p_closed t = p_closed u /\ p_crash t = p_crash u.
Definition went g s d t : Prop := exists u d', dstep s d u d' /\ at_disc g t = Some d' /\ shows u t.
Definition more s t : Prop :=
  (p_flag s = true -> p_flag t = true) /\ (p_quits s <= p_quits t)%nat /\ (p_closed s = true -> p_closed t = true).

Lemma dstep_more s d t d' : dstep s d t d' -> more s t.
Proof. intros []; unfold more; cbn; repeat split; auto. Qed.
Lemma more_refl s : more s s.
Proof. unfold more. auto. Qed.
Lemma wg_done_more s : more s (wg_done s).
Proof. destruct (wg_done_fields X s) as (F1 & F2 & F3 & _). unfold more. rewrite F1, F2, F3. auto. Qed.

Lemma pstep_more s t : pstep s t -> more s t.
Proof.
  intros [_ St|_ St|_ St|_ St].
  - destruct St as [s E Q|s m E F|s m E F|s m f n E K W|s m f n part rest E W P|s m E W|s E|s d t d' E D]; try (unfold more; cbn; auto; fail).
    + exact (wg_done_more s).
    + exact (dstep_more s d t d' D).
  - destruct St as [s E F|s E F|s E|s E|s E|s m E|s m E W|s m E Q|s E|s d t d' E D|s n E B|s E B|s E|s d t d' E D]; try (unfold more; cbn; auto; fail).
    + exact (dstep_more s d t d' D).
    + exact (wg_done_more s).
    + exact (dstep_more s d t d' D).
  - destruct St as [s pre m post E K|s pre m post E Q|s pre d post t d' E D|s pre post E Q|s pre post E Q]; try (unfold more; cbn; auto; fail).
    exact (dstep_more s d t d' D).
  - destruct St. unfold more; cbn; auto.
Qed.

(** What a step does to each of the goroutines. *)
Lemma wstep_reader s t : wstep s t -> p_reader t = p_reader s.
Proof. intro St. now destruct (wstep_other X s t St). Qed.
Lemma ostep_writer s t : ostep s t -> p_writer t = p_writer s \/ exists m, p_writer s = WSelect /\ p_writer t = WCheck m.
Proof.
  intros [u pre m post E K|u pre m post E Q|u pre d post v d' E D|u pre post E Q|u pre post E Q]; cbn; eauto.
  left. now destruct (dstep_same X u d v d' D).
Qed.
Lemma rstep_writer s t : rstep s t -> p_writer t = p_writer s \/ exists m, p_writer s = WSelect /\ p_writer t = WCheck m.
Proof.
  intros [u E F|u E F|u E|u E|u E|u m E|u m E W|u m E Q|u E|u d v d' E D|u n E B|u E B|u E|u d v d' E D]; cbn; eauto;
    try (left; now destruct (dstep_same X u d v d' D)).
  left. now destruct (wg_done_fields X u) as (F1 & F2 & F3 & F4 & F5 & _).
Qed.
Lemma ospawn_same s t : ospawn X s t -> p_writer t = p_writer s /\ p_reader t = p_reader s /\
  forall k o, nth_error (p_others s) k = Some o -> nth_error (p_others t) k = Some o.
Proof.
  intros [u o K]. cbn. repeat split. intros k x N. rewrite nth_error_app1; [exact N|]. apply nth_error_Some. congruence.
Qed.
Lemma writer_moves s t : pstep s t -> p_writer t = p_writer s \/ (exists m, p_writer s = WSelect /\ p_writer t = WCheck m) \/ wstep s t.
Proof.
  intros [_ St|_ St|_ St|_ St]; auto.
  - destruct (rstep_writer s t St); auto.
  - destruct (ostep_writer s t St); auto.
  - left. now destruct (ospawn_same s t St).
Qed.
Lemma reader_moves s t : pstep s t -> p_reader t = p_reader s \/ rstep s t.
Proof.
  intros [_ St|_ St|_ St|_ St]; auto.
  - left. exact (wstep_reader s t St).
  - left. now destruct (ostep_other X s t St).
  - left. now destruct (ospawn_same s t St).
Qed.
(** What happens to one of the other goroutines. *)
Inductive omove s (k : nat) t : Prop :=
| OmSent m : nth_error (p_others s) k = Some (OSend m) -> nth_error (p_others t) k = Some OSent -> omove s k t
| OmDisc d : nth_error (p_others s) k = Some (ODisc d) -> went (GOther k) s d t -> omove s k t
| OmWait : nth_error (p_others s) k = Some OWait -> nth_error (p_others t) k = Some OWaitWg -> omove s k t
| OmWaited : nth_error (p_others s) k = Some OWaitWg -> nth_error (p_others t) k = Some OWaited -> omove s k t.
Lemma nth_here {A} (pre post : list A) x : nth_error (pre ++ x :: post) (List.length pre) = Some x.
Proof. now rewrite nth_error_app2, Nat.sub_diag by lia. Qed.
Lemma nth_apart {A} (pre post : list A) x y k : k <> List.length pre -> nth_error (pre ++ y :: post) k = nth_error (pre ++ x :: post) k.
Proof.
  intro N. destruct (Nat.lt_ge_cases k (List.length pre)).
  - now rewrite !nth_error_app1 by lia.
  - rewrite !nth_error_app2 by lia. destruct (k - List.length pre)%nat eqn:E; [lia|reflexivity].
Qed.
Lemma ostep_moves s t k : ostep s t -> nth_error (p_others t) k = nth_error (p_others s) k \/ omove s k t.
Proof.
  intros [u pre m post E K|u pre m post E Q|u pre d post v d' E D|u pre post E Q|u pre post E Q];
    (destruct (Nat.eq_dec k (List.length pre)) as [->|N]; [right|left; cbn; rewrite E; now apply nth_apart]).
  - apply (OmSent _ _ _ m); [rewrite E|]; apply nth_here.
  - apply (OmSent _ _ _ m); [rewrite E|]; apply nth_here.
  - apply (OmDisc _ _ _ d); [rewrite E; apply nth_here|]. exists v, d'. split; [exact D|]. split; [cbn; now rewrite nth_here|].
    repeat split.
  - apply OmWait; [rewrite E|]; apply nth_here.
  - apply OmWaited; [rewrite E|]; apply nth_here.
Qed.
Lemma wstep_keeps s t : wstep s t -> p_others t = p_others s.
Proof. apply wstep_others. Qed.
Lemma other_moves s t k o : pstep s t -> nth_error (p_others s) k = Some o -> nth_error (p_others t) k = Some o \/ omove s k t.
Proof.
  intros [_ St|_ St|_ St|_ St] N.
  - left. now rewrite (wstep_keeps s t St).
  - left. now rewrite (rstep_others X s t St).
  - destruct (ostep_moves s t k St) as [->|M]; auto.
  - left. destruct (ospawn_same s t St) as (_ & _ & H). auto.
Qed.

Lemma writer_disc s t d : wstep s t -> p_writer s = WDisc d -> went GWriter s d t.
Proof.
  intros St E'. destruct St as [s E Q|s m E F|s m E F|s m f n E K W|s m f n part rest E W P|s m E W|s E|s e t d' E D]; rewrite E in E'; try discriminate.
  injection E' as <-. exists t, d'. repeat split; auto.
Qed.
Lemma reader_disc s t d : rstep s t -> p_reader s = RDisc d -> went GReader s d t.
Proof.
  intros St E'. destruct St as [s E F|s E F|s E|s E|s E|s m E|s m E W|s m E Q|s E|s e t d' E D|s n E B|s E B|s E|s e t d' E D]; rewrite E in E'; try discriminate.
  injection E' as <-. exists t, d'. repeat split; auto.
Qed.
Lemma takes_went g s t d : takes g s t -> at_disc g s = Some d -> went g s d t.
Proof.
  destruct g as [| |k]; cbn [takes at_disc].
  - destruct (p_writer s) eqn:E; try discriminate. intros St K. injection K as <-. now apply writer_disc.
  - destruct (p_reader s) eqn:E; try discriminate. intros St K. injection K as <-. now apply reader_disc.
  - intros (St & N). destruct (nth_error (p_others s) k) as [[]|] eqn:E; try discriminate. intro K. injection K as <-.
    destruct (ostep_moves s t k St) as [M|M]; [congruence|].
    destruct M as [m A B|e A B|A B|A B]; rewrite E in A; try discriminate. injection A as <-. exact B.
Qed.
Lemma step_went g s t d : pstep s t -> at_disc g s = Some d -> at_disc g t = Some d \/ went g s d t.
Proof.
  destruct g as [| |k]; cbn [at_disc]; intros St.
  - destruct (p_writer s) eqn:E; try discriminate. intro K. injection K as <-.
    destruct (writer_moves s t St) as [M|[(m & M & _)|M]]; [|congruence|right; now apply writer_disc].
    left. now rewrite M, E.
  - destruct (p_reader s) eqn:E; try discriminate. intro K. injection K as <-.
    destruct (reader_moves s t St) as [M|M]; [|right; now apply reader_disc]. left. now rewrite M, E.
  - destruct (nth_error (p_others s) k) as [[]|] eqn:E; try discriminate. intro K. injection K as <-.
    destruct (other_moves s t k _ St E) as [M|M]; [left; now rewrite M|right].
    destruct M as [m A B|e A B|A B|A B]; rewrite E in A; try discriminate. injection A as <-. exact B.
Qed.

(** ** What is always so, also if the peer was used before it was started *)
Lemma life_start bans s : psteps (p_start X bans) s -> life bans s.
Proof. intro R. exact (Lives X bans (p_new bans) s (PsNone X _) eq_refl R). Qed.
Lemma back_quits (l l' : list (opc X)) : Forall2 but_returned l l' -> o_quits X l = o_quits X l' /\ existsb (o_conn X) l = existsb (o_conn X) l'.
Proof.
  induction 1 as [|o o' l l' B F (IH1 & IH2)]; [now split|]. rewrite !o_quits_cons. cbn [existsb]. rewrite IH1, IH2. destruct B; now split.
Qed.
Lemma life_ok bans s : life bans s ->
  p_wg s = (in_writer X (p_writer s) + in_reader X (p_reader s))%Z /\
  (p_quits s + holders X s)%nat = (if p_flag s then 1 else 0)%nat /\ w_ok X s (p_writer s) /\ r_ok X s (p_reader s) /\
  (forall d, In (ODisc d) (p_others s) -> d_ok X s d) /\ closing_conn X s.
Proof.
  intro L. destruct (lives_as_if X bans s L) as (s' & R & A). destruct (reach_inv X bans s' R) as (I1 & I2 & _ & _ & I5 & I6 & I7).
  pose proof (closing_reach X bans s' R) as I8. pose proof (as_if_others X _ _ A) as F. destruct (back_quits _ _ F) as (B1 & B2).
  unfold as_if in A. destruct A as (A1 & A2 & A3 & A4 & A5 & A6 & _).
  assert (D : forall d, d_ok X s d <-> d_ok X s' d) by (intros []; cbn; rewrite ?A1, ?A2; tauto).
  unfold holders, closing_conn in *. rewrite A1, A2, A3, A4, A5, A6, B1, B2. repeat split; auto.
  - destruct (p_writer s'); cbn in *; auto. now apply D.
  - destruct (p_reader s'); cbn in *; auto; now apply D.
  - intros d K. apply In_nth_error in K as (k & K). destruct (nth_error_split _ _ K) as (pre & post & E & _). rewrite E in F.
    apply mid_left in F as (pre' & y & post' & E' & Ry & _). rewrite E' in I7. apply forall_at in I7.
    inversion Ry; subst; [now apply D|]. cbn in *. rewrite A1. destruct (p_flag s'); [reflexivity|lia].
Qed.

(** ** What is asked of a goroutine is possible *)
Lemma goes s d : (d = DQuit -> p_quits s = 0%nat) -> can_go s d -> exists t d', dstep s d t d' /\ d' <> d.
Proof.
  intros Z [->|[->|[->|(-> & W)]]].
  - destruct (p_flag s) eqn:F; eexists; eexists; (split; [|]); [now apply DsLose|discriminate|now apply DsWin|discriminate].
  - eexists; eexists; split; [apply DsQuit; auto|discriminate].
  - eexists; eexists; split; [apply DsConn|discriminate].
  - eexists; eexists; split; [now apply DsWait|discriminate].
Qed.
Lemma o_quit_in (l : list (opc X)) k : nth_error l k = Some (ODisc DQuit) -> (0 < o_quits X l)%nat.
Proof.
  revert k. induction l as [|o l IH]; intros [|k]; cbn; try discriminate.
  - intro E. injection E as ->. cbn. lia.
  - intro E. specialize (IH k E). unfold o_quits in IH. lia.
Qed.
Lemma must_can bans s g : life bans s -> must g s -> exists t, takes g s t.
Proof.
  intros P M. destruct (life_ok bans s P) as (_ & I & _).
  assert (Zq : (0 < holders X s)%nat -> p_quits s = 0%nat) by (destruct (p_flag s); lia). unfold holders in Zq.
  destruct g as [| |k]; cbn [must takes] in *.
  - destruct (p_writer s) as [|m|m| |d] eqn:E.
    + eexists. now apply WsQuit.
    + destruct (p_flag s) eqn:F; eexists; [now apply (WsDead X s m)|now apply (WsLive X s m)].
    + destruct (write_cases X m) as [((f & n) & W)|W]; eexists; [now apply (WsFailed X s m f n [] f)|now apply (WsBad X s m)].
    + eexists. now apply WsDone.
    + destruct (goes s d) as (t & d' & D & _); [intros ->; apply Zq; cbn; lia|exact M|]. eexists. now apply (WsDisc X s d t d').
  - destruct (p_reader s) as [| | |m|d| |d] eqn:E.
    + destruct (p_flag s) eqn:F; eexists; [now apply RsStop|now apply RsGo].
    + eexists. now apply RsFailed.
    + destruct M.
    + eexists. now apply (RsQuit X s m).
    + destruct M as [M| ->].
      * destruct (goes s d) as (t & d' & D & _); [intros ->; apply Zq; cbn; lia|exact M|]. eexists. now apply (RsBanning X s d t d').
      * destruct (p_bans s) as [n|] eqn:N; eexists; [now apply (RsBanned X s n)|now apply RsNilMap].
    + eexists. now apply RsDone.
    + destruct (goes s d) as (t & d' & D & _); [intros ->; apply Zq; cbn; lia|exact M|]. eexists. now apply (RsDisc X s d t d').
  - destruct (nth_error (p_others s) k) as [o|] eqn:N; [|destruct M].
    destruct (nth_error_split _ _ N) as (pre & post & E & L). subst k.
    assert (Hh : forall x, nth_error (pre ++ x :: post) (List.length pre) = Some x) by (intro; now rewrite nth_error_app2, Nat.sub_diag by lia).
    destruct o as [m| |d| | |]; try (now elim M).
    + eexists. split; [now apply (OsQuit X s pre m post)|]. cbn. rewrite Hh. discriminate.
    + destruct (goes s d) as (t & d' & D & Nd); [|exact M|].
      * intros ->. apply Zq. apply o_quit_in in N. lia.
      * eexists. split; [now apply (OsDisc X s pre d post t d')|]. cbn. rewrite Hh. congruence.
    + eexists. split; [now apply (OsWait X s pre post)|]. cbn. rewrite Hh. discriminate.
    + eexists. split; [now apply (OsWaitWg X s pre post)|]. cbn. rewrite Hh. discriminate.
Qed.

(** ** Endless runs *)
Section Run.
Context (bans : option nat) (f : nat -> pstate X).
Hypothesis (R : run bans f) (C : forall n, p_crash (f n) = None) (B : forall n, ~ banning (p_reader (f n)))
  (H : handled f) (F : fair f).

Lemma reached n : life bans (f n).
Proof.
  destruct R as (R0 & Rs). induction n as [|n IH]; [exact R0|]. destruct (Rs n) as [->|St]; [exact IH|].
  destruct IH as [e s Re Ce Rs']. exact (Lives X bans e _ Re Ce (PsMore X _ _ _ Rs' St)).
Qed.
Definition invs n := life_ok bans (f n) (reached n).

(** What is kept by every step is kept. *)
Lemma stays (P : pstate X -> Prop) n :
  (forall m, (n <= m)%nat -> P (f m) -> pstep (f m) (f (S m)) -> P (f (S m))) -> P (f n) -> forall m, (n <= m)%nat -> P (f m).
Proof.
  intros K P0 m L. induction L as [|m L IH]; [exact P0|]. destruct R as (_ & Rs). destruct (Rs m) as [->|St]; [exact IH|]. exact (K m L IH St).
Qed.
(** A measure that never grows, and shrinks when [g] takes a step, gets to zero. *)
Lemma shrinks (rank : pstate X -> nat) g n :
  (forall m, (n <= m)%nat -> pstep (f m) (f (S m)) -> (rank (f (S m)) <= rank (f m))%nat) ->
  (forall m, (n <= m)%nat -> rank (f m) <> 0%nat -> must g (f m)) ->
  (forall m, (n <= m)%nat -> rank (f m) <> 0%nat -> takes g (f m) (f (S m)) -> (rank (f (S m)) < rank (f m))%nat) ->
  exists m, (n <= m)%nat /\ rank (f m) = 0%nat.
Proof.
  intros K M T. assert (G : forall j i, (rank (f i) < j)%nat -> (n <= i)%nat -> exists m, (i <= m)%nat /\ rank (f m) = 0%nat).
  { induction j as [|j IH]; intros i L Ln; [lia|]. destruct (F g i) as (m & Lm & D).
    assert (D1 : (rank (f m) <= rank (f i))%nat).
    { apply (stays (fun s => (rank s <= rank (f i))%nat) i); [|lia|exact Lm]. intros k Lk Q St. assert (n <= k)%nat by lia. specialize (K k H0 St). lia. }
    destruct (Nat.eq_dec (rank (f m)) 0) as [Z|Z]; [now exists m|].
    destruct D as [D|D]; [elim D; apply M; [lia|exact Z]|].
    assert (D2 : (rank (f (S m)) < rank (f m))%nat) by (apply T; [lia|exact Z|exact D]).
    destruct (IH (S m)) as (k & Lk & Zk); [lia|lia|]. exists k. split; [lia|exact Zk]. }
  destruct (G (S (rank (f n))) n) as (m & L & Z); eauto.
Qed.

Lemma flag_stays n : p_flag (f n) = true -> forall m, (n <= m)%nat -> p_flag (f m) = true.
Proof. apply (stays (fun s => p_flag s = true)). intros m _ P St. destruct (pstep_more _ _ St) as (A & _). auto. Qed.
Lemma quit_stays n : p_quits (f n) <> 0%nat -> forall m, (n <= m)%nat -> p_quits (f m) <> 0%nat.
Proof. apply (stays (fun s => p_quits s <> 0%nat)). intros m _ P St. destruct (pstep_more _ _ St) as (_ & A & _). lia. Qed.
Lemma closed_stays n : p_closed (f n) = true -> forall m, (n <= m)%nat -> p_closed (f m) = true.
Proof. apply (stays (fun s => p_closed s = true)). intros m _ P St. destruct (pstep_more _ _ St) as (_ & _ & A). auto. Qed.

Lemma went_ok g n d : went g (f n) d (f (S n)) -> exists u d', dstep (f n) d u d' /\ at_disc g (f (S n)) = Some d' /\ shows u (f (S n)) /\ (dw d' < dw d)%nat.
Proof.
  intros (u & d' & D & A & S). exists u, d'. split; [exact D|]. split; [exact A|]. split; [exact S|].
  apply (dstep_down X _ _ _ _ D (C n)). destruct S as (_ & _ & _ & <-). apply C.
Qed.
Lemma quits_flag n : p_quits (f n) <> 0%nat -> p_flag (f n) = true.
Proof. intro Q. destruct (invs n) as (_ & I & _). destruct (p_flag (f n)); [reflexivity|lia]. Qed.
(** Being past the compare-and-swap means that the flag is set. *)
Lemma at_flag g n d : at_disc g (f n) = Some d -> d <> DCas -> p_flag (f n) = true.
Proof.
  intros A N. destruct (invs n) as (_ & I & W & Rr & O & _).
  assert (K : d_ok X (f n) d /\ (quitting d <= holders X (f n))%nat).
  { unfold holders. destruct g as [| |k]; cbn [at_disc] in A.
    - destruct (p_writer (f n)); try discriminate. injection A as ->. cbn in *. split; [exact W|lia].
    - destruct (p_reader (f n)); try discriminate. injection A as ->. cbn in *. split; [exact Rr|lia].
    - destruct (nth_error (p_others (f n)) k) as [[]|] eqn:E; try discriminate. injection A as ->.
      split; [|destruct d; cbn; try lia; apply o_quit_in in E; lia].
      exact (O _ (nth_error_In _ _ E)). }
  destruct K as (K1 & K2). destruct d; cbn in K1, K2; try exact K1; try (now elim N); destruct (p_flag (f n)); try reflexivity; lia.
Qed.
Lemma must_disc g s d : at_disc g s = Some d -> can_go s d -> must g s.
Proof.
  intros A D. destruct g as [| |k]; cbn [at_disc must] in *.
  - destruct (p_writer s); try discriminate. now injection A as ->.
  - destruct (p_reader s); try discriminate. now injection A as ->.
  - destruct (nth_error (p_others s) k) as [[]|]; try discriminate. now injection A as ->.
Qed.
Lemma disc_stays g n d : at_disc g (f n) = Some d -> forall m, (n <= m)%nat -> exists e, at_disc g (f m) = Some e.
Proof.
  intro A. apply (stays (fun s => exists e, at_disc g s = Some e)); [|now exists d]. intros m _ (e & E) St.
  destruct (step_went g _ _ e St E) as [K|(u & e' & _ & K & _)]; eauto.
Qed.

(** *** The flag is set *)
Lemma disc_flag g n d : at_disc g (f n) = Some d -> exists m, (n <= m)%nat /\ p_flag (f m) = true.
Proof.
  intro A. destruct (shrinks (fun s => if p_flag s then 0 else 1)%nat g n) as (m & L & Z).
  - intros m L St. destruct (pstep_more _ _ St) as (K & _). destruct (p_flag (f m)); [now rewrite K|destruct (p_flag (f (S m))); lia].
  - intros m L Z. destruct (disc_stays g n d A m L) as (e & E). apply (must_disc g _ e E).
    destruct e; try (left; reflexivity); rewrite (at_flag g m _ E) in Z by discriminate; now elim Z.
  - intros m L Z T. destruct (disc_stays g n d A m L) as (e & E). destruct (went_ok g m e (takes_went g _ _ e T E)) as (u & e' & D & A' & S & W).
    rewrite (at_flag g (Datatypes.S m) e' A'); [destruct (p_flag (f m)); [now elim Z|lia]|].
    intros ->. destruct e; cbn in W; lia.
  - exists m. split; [exact L|]. destruct (p_flag (f m)); [reflexivity|discriminate].
Qed.
Lemma writer_done n : p_writer (f n) = WDone -> exists m d, (n <= m)%nat /\ p_writer (f m) = WDisc d.
Proof.
  intro E. assert (K : forall m, (n <= m)%nat -> p_writer (f m) = WDone \/ exists d, p_writer (f m) = WDisc d).
  { apply (stays (fun s => p_writer s = WDone \/ exists d, p_writer s = WDisc d)); [|now left]. intros m _ P St.
    destruct (writer_moves _ _ St) as [->|[(x & Q & _)|Q]]; [exact P|destruct P as [P|(d & P)]; congruence|].
    right. destruct Q; destruct P as [P|(e & P)]; try congruence; cbn; eauto. }
  destruct (shrinks (fun s => match p_writer s with WDone => 1 | _ => 0 end)%nat GWriter n) as (m & L & Z).
  - intros m L St. destruct (K m L) as [->|(d & P)]; [destruct (p_writer (f (S m))); lia|].
    destruct (writer_moves _ _ St) as [->|[(x & Q & _)|Q]]; [lia|congruence|].
    destruct (writer_disc _ _ _ Q P) as (u & d' & _ & A & _). cbn in A. destruct (p_writer (f (S m))); try discriminate. lia.
  - intros m L Z. cbn. destruct (p_writer (f m)); try now elim Z. exact I.
  - intros m L Z T. cbn in T. destruct T; destruct (p_writer s); try congruence; try (now elim Z); cbn; lia.
  - exists m. destruct (K m L) as [P|(d & P)]; [rewrite P in Z; discriminate|eauto].
Qed.
Lemma reader_done n : p_reader (f n) = RDone -> exists m d, (n <= m)%nat /\ p_reader (f m) = RDisc d.
Proof.
  intro E. assert (K : forall m, (n <= m)%nat -> p_reader (f m) = RDone \/ exists d, p_reader (f m) = RDisc d).
  { apply (stays (fun s => p_reader s = RDone \/ exists d, p_reader s = RDisc d)); [|now left]. intros m _ P St.
    destruct (reader_moves _ _ St) as [->|Q]; [exact P|].
    right. destruct Q; destruct P as [P|(e & P)]; try congruence; cbn; eauto. }
  destruct (shrinks (fun s => match p_reader s with RDone => 1 | _ => 0 end)%nat GReader n) as (m & L & Z).
  - intros m L St. destruct (K m L) as [->|(d & P)]; [destruct (p_reader (f (S m))); lia|].
    destruct (reader_moves _ _ St) as [->|Q]; [lia|].
    destruct (reader_disc _ _ _ Q P) as (u & d' & _ & A & _). cbn in A. destruct (p_reader (f (S m))); try discriminate. lia.
  - intros m L Z. cbn. destruct (p_reader (f m)); try now elim Z. exact I.
  - intros m L Z T. cbn in T. destruct T; destruct (p_reader s); try congruence; try (now elim Z); cbn; lia.
  - exists m. destruct (K m L) as [P|(d & P)]; [rewrite P in Z; discriminate|eauto].
Qed.
Lemma ending_flag n : ending (f n) -> exists m, (n <= m)%nat /\ p_flag (f m) = true.
Proof.
  intros [E|[E|[(d & E)|[E|[(d & E)|(k & d & E)]]]]].
  - now exists n.
  - destruct (writer_done n E) as (m & d & L & P). destruct (disc_flag GWriter m d) as (j & Lj & Fj); [cbn; now rewrite P|]. exists j. split; [lia|exact Fj].
  - apply (disc_flag GWriter n d). cbn. now rewrite E.
  - destruct (reader_done n E) as (m & d & L & P). destruct (disc_flag GReader m d) as (j & Lj & Fj); [cbn; now rewrite P|]. exists j. split; [lia|exact Fj].
  - apply (disc_flag GReader n d). cbn. now rewrite E.
  - apply (disc_flag (GOther k) n d). cbn. now rewrite E.
Qed.

(** *** quit is closed, then the connection *)
Lemma o_quit_at (l : list (opc X)) : (0 < o_quits X l)%nat -> exists k, nth_error l k = Some (ODisc DQuit).
Proof.
  induction l as [|o l IH]; cbn; [lia|]. intro L. destruct (o_quit X o) eqn:E.
  - destruct IH as (k & K); [exact L|]. now exists (S k).
  - exists 0%nat. destruct o as [| |[]| | |]; cbn in E; try discriminate. reflexivity.
Qed.
Lemma flag_quit n : p_flag (f n) = true -> exists m, (n <= m)%nat /\ p_quits (f m) <> 0%nat.
Proof.
  intro Fl. destruct (Nat.eq_dec (p_quits (f n)) 0) as [Z|Z]; [|now exists n].
  assert (G : exists g, at_disc g (f n) = Some DQuit).
  { destruct (invs n) as (_ & I & _). rewrite Fl, Z in I. unfold holders in I. specialize (B n).
    destruct (w_quits X (p_writer (f n))) eqn:Ew; [destruct (r_quits X (p_reader (f n))) eqn:Er|].
    - destruct (o_quit_at (p_others (f n))) as (k & K); [lia|]. exists (GOther k). cbn. now rewrite K.
    - exists GReader. cbn. destruct (p_reader (f n)) as [| | | |d| |d]; cbn in Er; try discriminate; [elim B; now exists d|].
      destruct d; try discriminate. reflexivity.
    - exists GWriter. cbn. destruct (p_writer (f n)) as [| | | |[]]; cbn in Ew; try discriminate. reflexivity. }
  destruct G as (g & G).
  assert (K : forall m, (n <= m)%nat -> p_quits (f m) <> 0%nat \/ at_disc g (f m) = Some DQuit).
  { apply (stays (fun s => p_quits s <> 0%nat \/ at_disc g s = Some DQuit)); [|now right]. intros m _ P St.
    destruct (pstep_more _ _ St) as (_ & Q & _). destruct P as [P|P]; [left; lia|].
    destruct (step_went g _ _ _ St P) as [A|A]; [now right|]. destruct (went_ok g m _ A) as (u & d' & D & A' & (_ & S & _) & W).
    left. rewrite S. inversion D; subst; cbn; lia. }
  destruct (shrinks (fun s => match p_quits s with 0 => 1 | _ => 0 end)%nat g n) as (m & L & Zm).
  - intros m L St. destruct (pstep_more _ _ St) as (_ & Q & _). destruct (p_quits (f m)), (p_quits (f (S m))); lia.
  - intros m L Zm. destruct (K m L) as [P|P]; [destruct (p_quits (f m)); [now elim P|now elim Zm]|].
    apply (must_disc g _ _ P). right. now left.
  - intros m L Zm T. destruct (K m L) as [P|P]; [destruct (p_quits (f m)); [now elim P|now elim Zm]|].
    destruct (went_ok g m _ (takes_went g _ _ _ T P)) as (u & d' & D & A' & (_ & S & _) & W). rewrite S.
    inversion D; subst; cbn; [|lia]. rewrite H0. lia.
  - exists m. split; [exact L|]. destruct (p_quits (f m)); [discriminate|lia].
Qed.
Lemma quit_closed n : p_quits (f n) <> 0%nat -> exists m, (n <= m)%nat /\ p_closed (f m) = true.
Proof.
  intro Q. destruct (p_closed (f n)) eqn:Z; [now exists n|].
  assert (G : exists g, at_disc g (f n) = Some DConn).
  { specialize (B n). destruct (invs n) as (_ & _ & _ & _ & _ & G). destruct G as [E|[E|[E|[E|E]]]]; [now elim Q|congruence|..].
    - exists GWriter. cbn. destruct (p_writer (f n)) as [| | | |[]]; cbn in E; try discriminate. reflexivity.
    - exists GReader. cbn. destruct (p_reader (f n)) as [| | | |d| |d]; cbn in E; try discriminate; [elim B; now exists d|].
      destruct d; try discriminate. reflexivity.
    - apply existsb_exists in E. destruct E as (o & I & E). apply In_nth_error in I. destruct I as (k & K). exists (GOther k). cbn.
      rewrite K. destruct o as [| |[]| | |]; cbn in E; try discriminate. reflexivity. }
  destruct G as (g & G).
  assert (K : forall m, (n <= m)%nat -> p_closed (f m) = true \/ at_disc g (f m) = Some DConn).
  { apply (stays (fun s => p_closed s = true \/ at_disc g s = Some DConn)); [|now right]. intros m _ P St.
    destruct (pstep_more _ _ St) as (_ & _ & Qc). destruct P as [P|P]; [left; auto|].
    destruct (step_went g _ _ _ St P) as [A|A]; [now right|]. destruct (went_ok g m _ A) as (u & d' & D & A' & (_ & _ & S & _) & W).
    left. rewrite S. inversion D; subst. reflexivity. }
  destruct (shrinks (fun s => if p_closed s then 0 else 1)%nat g n) as (m & L & Zm).
  - intros m L St. destruct (pstep_more _ _ St) as (_ & _ & Qc). destruct (p_closed (f m)); [now rewrite Qc|destruct (p_closed (f (S m))); lia].
  - intros m L Zm. destruct (K m L) as [P|P]; [rewrite P in Zm; now elim Zm|]. apply (must_disc g _ _ P). right. right. now left.
  - intros m L Zm T. destruct (K m L) as [P|P]; [rewrite P in Zm; now elim Zm|].
    destruct (went_ok g m _ (takes_went g _ _ _ T P)) as (u & d' & D & A' & (_ & _ & S & _) & W). rewrite S.
    inversion D; subst. cbn. destruct (p_closed (f m)); [now elim Zm|lia].
  - exists m. split; [exact L|]. destruct (p_closed (f m)); [reflexivity|discriminate].
Qed.

(** *** The handlers leave their loops *)
Section Closing.
Context (n : nat).
Hypothesis (Q : p_quits (f n) <> 0%nat) (K : p_closed (f n) = true).
Let Fm m : (n <= m)%nat -> p_flag (f m) = true.
Proof. intro L. apply quits_flag. exact (quit_stays n Q m L). Qed.

Definition wleft (w : wpc X) : nat := match w with WSelect => 4 | WCheck _ => 3 | WWrite _ => 2 | WDone => 1 | WDisc _ => 0 end.
Lemma wstep_left m : (n <= m)%nat -> wstep (f m) (f (S m)) -> (wleft (p_writer (f (S m))) <= pred (wleft (p_writer (f m))))%nat.
Proof.
  intros L St. pose proof (Fm m L) as Fl. pose proof (closed_stays n K m L) as Kl. pose proof (C (S m)) as Cm.
  destruct St; try congruence; try (rewrite H0; cbn; lia). cbn in Cm. discriminate.
Qed.
Lemma writer_leaves : exists m, (n <= m)%nat /\ forall j, (m <= j)%nat -> writer_left (p_writer (f j)).
Proof.
  destruct (shrinks (fun s => wleft (p_writer s)) GWriter n) as (m & L & Z).
  - intros m L St. destruct (writer_moves _ _ St) as [->|[(x & -> & ->)|M]]; [lia|cbn; lia|]. pose proof (wstep_left m L M). lia.
  - intros m L Z. cbn. destruct (p_writer (f m)); cbn in Z; try exact I; [exact (quit_stays n Q m L)|exact (closed_stays n K m L)|now elim Z].
  - intros m L Z T. pose proof (wstep_left m L T). lia.
  - exists m. split; [exact L|]. apply (stays (fun s => writer_left (p_writer s))).
    + intros j _ (d & P) St. destruct (writer_moves _ _ St) as [->|[(x & P' & _)|M]]; [now exists d|congruence|].
      destruct (writer_disc _ _ _ M P) as (u & d' & _ & A & _). cbn in A. destruct (p_writer (f (S j))); try discriminate. eexists; reflexivity.
    + destruct (p_writer (f m)); try discriminate Z. eexists; reflexivity.
Qed.

Definition reading s : nat := match p_reader s with RRead => 1 | _ => 0 end.
Lemma read_over : exists m, (n <= m)%nat /\ forall j, (m <= j)%nat -> p_reader (f j) <> RRead.
Proof.
  assert (D : forall m, (n <= m)%nat -> rstep (f m) (f (S m)) -> p_reader (f (S m)) <> RRead).
  { intros m L St. pose proof (Fm m L) as Fl. destruct St; cbn; congruence. }
  destruct (shrinks reading GReader n) as (m & L & Z); unfold reading in *.
  - intros m L St. destruct (reader_moves _ _ St) as [->|M]; [lia|]. pose proof (D m L M). destruct (p_reader (f (S m))); try lia. congruence.
  - intros m L Z. cbn. destruct (p_reader (f m)); try (now elim Z). exact (closed_stays n K m L).
  - intros m L Z T. pose proof (D m L T). destruct (p_reader (f m)); try (now elim Z). destruct (p_reader (f (S m))); try lia. congruence.
  - exists m. split; [exact L|]. intros j Lj. apply (stays (fun s => p_reader s <> RRead) m); [|intro E; rewrite E in Z; discriminate|exact Lj].
    intros i Li P St. destruct (reader_moves _ _ St) as [->|M]; [exact P|]. apply D; [lia|exact M].
Qed.
Lemma send_over m : (n <= m)%nat -> sending (f m) -> exists k, (m <= k)%nat /\ ~ sending (f k).
Proof.
  intros L S. destruct (F GReader m) as (k & Lk & [D|D]).
  - exists k. split; [exact Lk|]. intros (x & E). apply D. cbn. rewrite E. apply (quit_stays n Q). lia.
  - destruct (p_reader (f k)) eqn:E; try (exists k; split; [exact Lk|]; intros (x & E'); congruence).
    exists (Datatypes.S k). split; [lia|]. intros (x & E'). cbn in D. destruct D; cbn in E'; congruence.
Qed.
Definition rleft s : nat := match p_reader s with RTest => 2 | RDone => 1 | RDisc _ => 0 | _ => 3 end.
Lemma reader_leaves : exists m, (n <= m)%nat /\ forall j, (m <= j)%nat -> reader_left (p_reader (f j)).
Proof.
  destruct read_over as (m & L & N).
  assert (G : exists k, (m <= k)%nat /\ ~ handling (f k)).
  { destruct (p_reader (f m)) eqn:E; try (exists m; split; [lia|]; intros [E'|(x & E')]; congruence).
    - apply H; [|now left]. intros i Li. apply send_over. lia.
    - apply H; [|right; eexists; exact E]. intros i Li. apply send_over. lia. }
  destruct G as (k & Lk & Nk).
  assert (D : forall j, (k <= j)%nat -> rstep (f j) (f (S j)) -> (rleft (f j) <= 2)%nat -> (rleft (f (S j)) <= pred (rleft (f j)))%nat).
  { intros j Lj St Le. assert (Ln : (n <= j)%nat) by lia. pose proof (Fm j Ln) as Fl. unfold rleft in *.
    destruct St; try congruence; rewrite H0 in *; cbn in *; lia. }
  assert (G : forall j, (k <= j)%nat -> (rleft (f j) <= 2)%nat).
  { apply (stays (fun s => (rleft s <= 2)%nat)).
    - intros j Lj P St. destruct (reader_moves _ _ St) as [E|M]; [unfold rleft in *; now rewrite E|]. pose proof (D j Lj M P). lia.
    - unfold rleft. pose proof (B k) as Bk. assert (Nr := N k Lk).
      destruct (p_reader (f k)) eqn:E; try lia; [now elim Nr|elim Nk; left; exact E|elim Nk; right; eexists; exact E|elim Bk; eexists; reflexivity]. }
  destruct (shrinks rleft GReader k) as (j & Lj & Z).
  - intros j Lj St. destruct (reader_moves _ _ St) as [E|M]; [unfold rleft; now rewrite E|]. pose proof (D j Lj M (G j Lj)). lia.
  - intros j Lj Z. pose proof (G j Lj) as Le. unfold rleft in *. cbn. destruct (p_reader (f j)); try lia; exact I.
  - intros j Lj Z T. pose proof (D j Lj T (G j Lj)). lia.
  - exists j. split; [lia|]. apply (stays (fun s => reader_left (p_reader s))).
    + intros i _ (d & P) St. destruct (reader_moves _ _ St) as [->|M]; [now exists d|].
      destruct (reader_disc _ _ _ M P) as (u & d' & _ & A & _). cbn in A. destruct (p_reader (f (S i))); try discriminate. eexists; reflexivity.
    + unfold rleft in Z. destruct (p_reader (f j)); try discriminate Z. eexists; reflexivity.
Qed.
End Closing.

Lemma wg_free n : ending (f n) -> exists m, (n <= m)%nat /\ forall j, (m <= j)%nat -> p_wg (f j) = 0%Z /\ p_quits (f j) <> 0%nat /\ p_closed (f j) = true.
Proof.
  intro E. destruct (ending_flag n E) as (a & La & Fa). destruct (flag_quit a Fa) as (b & Lb & Qb). destruct (quit_closed b Qb) as (c & Lc & Kc).
  pose proof (quit_stays b Qb c Lc) as Qc. destruct (writer_leaves c Qc Kc) as (d & Ld & Wd). destruct (reader_leaves c Qc Kc) as (e & Le & Re).
  exists (d + e)%nat. split; [lia|]. intros j Lj. destruct (Wd j) as (dw & Ew); [lia|]. destruct (Re j) as (dr & Er); [lia|].
  destruct (invs j) as (A & _). rewrite Ew, Er in A. split; [exact A|]. split; [apply (quit_stays c Qc)|apply (closed_stays c Kc)]; lia.
Qed.

(** *** Everything comes to its end *)
Lemma disc_ends g n d : (forall j, (n <= j)%nat -> p_wg (f j) = 0%Z) -> at_disc g (f n) = Some d ->
  exists m, (n <= m)%nat /\ forall j, (m <= j)%nat -> at_disc g (f j) = Some DRet.
Proof.
  intros Z A.
  destruct (shrinks (fun s => match at_disc g s with Some e => dw e | None => 0 end)%nat g n) as (m & L & Zm).
  - intros m L St. destruct (disc_stays g n d A m L) as (e & E). rewrite E. destruct (step_went g _ _ e St E) as [->|W]; [lia|].
    destruct (went_ok g m e W) as (u & e' & _ & -> & _ & L'). lia.
  - intros m L Zm. destruct (disc_stays g n d A m L) as (e & E). rewrite E in Zm. apply (must_disc g _ e E). unfold can_go. rewrite (Z m L).
    destruct e; cbn in Zm; auto. now elim Zm.
  - intros m L Zm T. destruct (disc_stays g n d A m L) as (e & E). rewrite E.
    destruct (went_ok g m e (takes_went g _ _ e T E)) as (u & e' & _ & -> & _ & L'). exact L'.
  - exists m. split; [exact L|]. apply (stays (fun s => at_disc g s = Some DRet)).
    + intros j _ P St. destruct (step_went g _ _ _ St P) as [Q|(u & e' & D & _)]; [exact Q|inversion D].
    + destruct (disc_stays g n d A m L) as (e & E). rewrite E in Zm |- *. destruct e; cbn in Zm; try discriminate. reflexivity.
Qed.
Lemma both_end n : ending (f n) ->
  exists m, (n <= m)%nat /\ forall j, (m <= j)%nat -> writer_ended (p_writer (f j)) /\ reader_ended (p_reader (f j)) /\ p_closed (f j) = true.
Proof.
  intro E. destruct (wg_free n E) as (m & L & Z). assert (Lf : writer_left (p_writer (f m)) /\ reader_left (p_reader (f m))).
  { destruct (Z m (Nat.le_refl m)) as (Zm & _). destruct (invs m) as (A & _). rewrite A in Zm. unfold writer_left, reader_left.
    destruct (p_writer (f m)), (p_reader (f m)); cbn in Zm; try lia; split; eexists; reflexivity. }
  destruct Lf as ((dw & Ew) & (dr & Er)).
  assert (Z' : forall j, (m <= j)%nat -> p_wg (f j) = 0%Z) by (intros j Lj; now apply Z).
  destruct (disc_ends GWriter m dw Z') as (a & La & Wa); [cbn; now rewrite Ew|].
  destruct (disc_ends GReader m dr Z') as (b & Lb & Rb); [cbn; now rewrite Er|].
  exists (a + b)%nat. split; [lia|]. intros j Lj. split; [|split; [|apply Z; lia]].
  - assert (G := Wa j ltac:(lia)). cbn in G. unfold writer_ended. destruct (p_writer (f j)); try discriminate. now injection G as ->.
  - assert (G := Rb j ltac:(lia)). cbn in G. unfold reader_ended. destruct (p_reader (f j)); try discriminate. now injection G as ->.
Qed.
Definition oleft (o : option (opc X)) : nat := match o with Some (OSend _) => 1 | Some OWait => 2 | Some OWaitWg => 1 | Some (ODisc d) => dw d | _ => 0 end.
Lemma other_ends n k o : ending (f n) -> nth_error (p_others (f n)) k = Some o ->
  exists m, (n <= m)%nat /\ forall j, (m <= j)%nat -> exists o', nth_error (p_others (f j)) k = Some o' /\ other_ended o'.
Proof.
  intros E N. destruct (wg_free n E) as (m & L & Z).
  assert (S : forall j, (n <= j)%nat -> exists o', nth_error (p_others (f j)) k = Some o').
  { apply (stays (fun s => exists o', nth_error (p_others s) k = Some o')); [|now exists o]. intros j _ (o' & P) St.
    destruct (other_moves _ _ k o' St P) as [M|M]; [eauto|]. destruct M as [x A G|d A (u & d' & _ & G & _)|A G|A G]; eauto.
    cbn in G. destruct (nth_error (p_others (f (Datatypes.S j))) k); [eauto|discriminate]. }
  assert (D : forall j, omove (f j) k (f (Datatypes.S j)) ->
    (oleft (nth_error (p_others (f (Datatypes.S j))) k) < oleft (nth_error (p_others (f j)) k))%nat).
  { intros j M. destruct M as [x A G|d A G|A G|A G]; rewrite A; [rewrite G; cbn; lia| |rewrite G; cbn; lia..].
    destruct (went_ok (GOther k) j d G) as (u & d' & _ & G' & _ & W). cbn in G'. destruct (nth_error (p_others (f (Datatypes.S j))) k) as [[]|]; try discriminate.
    injection G' as ->. exact W. }
  destruct (shrinks (fun s => oleft (nth_error (p_others s) k)) (GOther k) m) as (i & Li & Zi).
  - intros j Lj St. destruct (S j ltac:(lia)) as (o' & P). destruct (other_moves _ _ k o' St P) as [->|M]; [now rewrite P|]. pose proof (D j M). lia.
  - intros j Lj Zj. destruct (Z j Lj) as (Z1 & Z2 & _). cbn. destruct (nth_error (p_others (f j)) k) as [[| |d| | |]|]; cbn in Zj; auto; try now elim Zj.
    unfold can_go. rewrite Z1. destruct d; cbn in Zj; auto. now elim Zj.
  - intros j Lj Zj (St & T). destruct (ostep_moves _ _ k St) as [M|M]; [now elim T|]. exact (D j M).
  - exists i. split; [lia|]. apply (stays (fun s => exists o', nth_error (p_others s) k = Some o' /\ other_ended o')).
    + intros j _ (o' & P & En) St. destruct (other_moves _ _ k o' St P) as [M|M]; [eauto|].
      pose proof (D j M) as W. rewrite P in W. destruct En as [->|[->| ->]]; cbn in W; lia.
    + destruct (S i ltac:(lia)) as (o' & P). exists o'. split; [exact P|]. rewrite P in Zi. unfold other_ended.
      destruct o' as [| |[]| | |]; cbn in Zi; try discriminate; auto.
Qed.
End Run.
End Fair.
