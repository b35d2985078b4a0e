(** Proofs for C127. *)
From Verif Require Import Pool SpecPool PoolProofs.
From Verif Require Import Race SpecAccess.
Local Open Scope nat_scope.

(** ** Goroutines that have done part of what they do *)

(** What a goroutine runs and what it has done. *)
Definition task : Type := role * list act.
Definition goes_on (d : task) (r : list act) : Prop := acts_of (fst d) (snd d ++ r).
(** The events [tr] happen, with the locks [h] held afterwards, whatever the goroutines are going to do. *)
Definition sound (D : list task) (tr : list event) (h : list (lock * nat)) : Prop :=
  forall rests, Forall2 goes_on D rests -> execution tr (Threads rests h).

Definition forks (l : list act) : list task := flat_map (fun a => match a with Go r => [(r, [])] | _ => [] end) l.
Definition plain (a : act) : Prop := (exists x, a = Rd x \/ a = Wr x) \/ exists c, a = Sync c.
(** The locks held by goroutine [t] and others while it does [l]. *)
Inductive lockrun (t : nat) : list act -> list (lock * nat) -> list (lock * nat) -> Prop :=
| LrNil h : lockrun t [] h h
| LrAcq k l h h' : ~ In k (map fst h) -> lockrun t l ((k, t) :: h) h' -> lockrun t (Acq k :: l) h h'
| LrRel k l pre post h' : lockrun t l (pre ++ post) h' -> lockrun t (Rel k :: l) (pre ++ (k, t) :: post) h'
| LrGo r l h h' : lockrun t l h h' -> lockrun t (Go r :: l) h h'
| LrPlain a l h h' : plain a -> lockrun t l h h' -> lockrun t (a :: l) h h'.
Definition events_of (t : nat) (l : list act) (ev : list event) : Prop :=
  Forall (by_one t) ev /\ (forall a, In a l -> (forall r, a <> Go r) -> In (Did t a) ev) /\ (forall r, In (Go r) l -> exists u, In (Forked t u) ev).

Lemma set_same {A} n (x y : A) ls : nth_error ls n = Some y -> nth_error (set_nth n x ls) n = Some x.
Proof. revert ls. induction n as [|n IH]; intros [|z ls]; cbn; try discriminate; [reflexivity|apply IH]. Qed.
Lemma set_other {A} n m (x : A) ls : m <> n -> nth_error (set_nth n x ls) m = nth_error ls m.
Proof. revert m ls. induction n as [|n IH]; intros [|m] [|z ls] H; cbn; try reflexivity; [contradiction|]. apply IH. lia. Qed.
Lemma set_set {A} n (x y : A) ls : set_nth n x (set_nth n y ls) = set_nth n x ls.
Proof. revert ls. induction n as [|n IH]; intros [|z ls]; cbn; try reflexivity. now rewrite IH. Qed.
Lemma set_id {A} n (x : A) ls : nth_error ls n = Some x -> set_nth n x ls = ls.
Proof. revert ls. induction n as [|n IH]; intros [|z ls]; cbn; try discriminate; [now intros [= ->]|]. intro H. now rewrite (IH _ H). Qed.
Lemma set_app {A} n (x : A) ls ms : n < List.length ls -> set_nth n x (ls ++ ms) = set_nth n x ls ++ ms.
Proof. revert ls. induction n as [|n IH]; intros [|z ls] H; cbn in *; try lia; [reflexivity|]. rewrite IH by lia. reflexivity. Qed.
Lemma set_len {A} n (x : A) ls : List.length (set_nth n x ls) = List.length ls.
Proof. revert ls. induction n as [|n IH]; intros [|z ls]; cbn; try reflexivity. now rewrite IH. Qed.
Lemma nth_some_lt {A} (l : list A) n x : nth_error l n = Some x -> n < List.length l.
Proof. intro H. apply nth_error_Some. congruence. Qed.

(** Taking back the last action of goroutine [t]. *)
Lemma rests_back D t ro p a rests : nth_error D t = Some (ro, p) -> Forall2 goes_on (set_nth t (ro, p ++ [a]) D) rests ->
  exists r, nth_error rests t = Some r /\ Forall2 goes_on D (set_nth t (a :: r) rests).
Proof.
  revert t rests. induction D as [|d D IH]; intros [|t] rests; cbn; try discriminate.
  - intros [= ->] H. inversion H as [|? r ? rs G F]; subst. exists r. split; [reflexivity|]. constructor; [|exact F].
    unfold goes_on in *. cbn [fst snd] in *. now rewrite <- app_assoc in G.
  - intros N H. inversion H as [|? r ? rs G F]; subst. destruct (IH t rs N F) as (r' & N' & F'). exists r'. split; [exact N'|]. now constructor.
Qed.
Lemma goes_len D rests : Forall2 goes_on D rests -> List.length D = List.length rests.
Proof. intro H. induction H; cbn; congruence. Qed.

Lemma perform1 t ro p a h h' D tr : nth_error D t = Some (ro, p) -> lockrun t [a] h h' -> sound D tr h ->
  exists e, sound (set_nth t (ro, p ++ [a]) D ++ forks [a]) (tr ++ [e]) h' /\ events_of t [a] [e].
Proof.
  intros N L S.
  assert (St : forall rests r, Forall2 goes_on D (set_nth t (a :: r) rests) -> nth_error rests t = Some r -> forall e s'',
      (next (Threads (set_nth t (a :: r) rests) h) t a r -> thread_step (Threads (set_nth t (a :: r) rests) h) e s'') -> execution (tr ++ [e]) s'').
  { intros rests r F Nr e s'' H. destruct (S _ F) as (w & A & R). exists w. split; [exact A|].
    refine (MoreSteps _ _ _ _ _ R (H _)). exact (set_same _ _ _ _ Nr). }
  inversion L as [|k l h0 h1 Fr L1|k l pre post h1 L1|r l h0 h1 L1|a0 l h0 h1 Pl L1]; subst; inversion L1; subst.
  - exists (Did t (Acq k)). split.
    + cbn [forks flat_map]. rewrite app_nil_r. intros rests F. destruct (rests_back D t ro p _ rests N F) as (r & Nr & F').
      apply (St rests r F' Nr). intro Nx. pose proof (DoAcq _ _ _ _ Nx Fr) as Q. cbn [th_progs th_held] in Q. rewrite set_set, (set_id _ _ _ Nr) in Q. exact Q.
    + split; [repeat constructor|]. split; [intros b [<-|[]] _; now left|intros r [E|[]]; discriminate].
  - exists (Did t (Rel k)). split.
    + cbn [forks flat_map]. rewrite app_nil_r. intros rests F. destruct (rests_back D t ro p _ rests N F) as (r & Nr & F').
      apply (St rests r F' Nr). intro Nx. pose proof (DoRel _ _ _ _ _ _ Nx eq_refl) as Q. cbn [th_progs th_held] in Q. rewrite set_set, (set_id _ _ _ Nr) in Q. exact Q.
    + split; [repeat constructor|]. split; [intros b [<-|[]] _; now left|intros r [E|[]]; discriminate].
  - exists (Forked t (List.length D)). split.
    + cbn [forks flat_map app]. intros rests F. apply Forall2_app_inv_l in F. destruct F as (r1 & r2 & F & F2 & ->).
      inversion F2 as [|? v ? ? G F3]; subst. inversion F3; subst. destruct (rests_back D t ro p _ r1 N F) as (r' & Nr & F').
      apply (St r1 r' F' Nr). intro Nx. pose proof (DoGo _ _ _ _ v Nx G) as Q. cbn [th_progs th_held] in Q. rewrite set_set, (set_id _ _ _ Nr) in Q.
      rewrite <- (goes_len _ _ F') in Q. exact Q.
    + split; [repeat constructor|]. split; [intros b [<-|[]] H; now elim (H r)|]. intros r0 _. eexists. now left.
  - exists (Did t a). assert (Ng : forall r, a <> Go r) by (intros r ->; destruct Pl as [(x & [Q|Q])|(c & Q)]; discriminate). split.
    + replace (forks [a]) with (@nil task) by (destruct a; try reflexivity; now elim (Ng r)). rewrite app_nil_r. intros rests F.
      destruct (rests_back D t ro p _ rests N F) as (r & Nr & F').
      apply (St rests r F' Nr). intro Nx. pose proof (DoAccess _ _ _ _ Nx Pl) as Q. cbn [th_progs th_held] in Q. rewrite set_set, (set_id _ _ _ Nr) in Q. exact Q.
    + split; [repeat constructor|]. split; [intros b [<-|[]] _; now left|intros r [E|[]]; now elim (Ng r)].
Qed.

Lemma lockrun_split t a l h h' : lockrun t (a :: l) h h' -> exists h1, lockrun t [a] h h1 /\ lockrun t l h1 h'.
Proof.
  intro L. inversion L as [|k l0 h0 h1 Fr L1|k l0 pre post h1 L1|r l0 h0 h1 L1|a0 l0 h0 h1 Pl L1]; subst.
  - eexists. split; [|exact L1]. apply LrAcq; [exact Fr|constructor].
  - eexists. split; [|exact L1]. apply LrRel. constructor.
  - eexists. split; [|exact L1]. apply LrGo. constructor.
  - eexists. split; [|exact L1]. apply LrPlain; [exact Pl|constructor].
Qed.

Lemma perform t ro l : forall p h h' D tr, nth_error D t = Some (ro, p) -> lockrun t l h h' -> sound D tr h ->
  exists ev, sound (set_nth t (ro, p ++ l) D ++ forks l) (tr ++ ev) h' /\ events_of t l ev.
Proof.
  induction l as [|a l IH]; intros p h h' D tr N L S.
  - inversion L; subst. exists []. cbn [forks flat_map]. rewrite !app_nil_r, (set_id _ _ _ N). split; [exact S|].
    split; [constructor|]. split; [intros a []|intros r []].
  - destruct (lockrun_split _ _ _ _ _ L) as (h1 & L1 & L2). destruct (perform1 t ro p a h h1 D tr N L1 S) as (e & S1 & (B1 & A1 & G1)).
    assert (Lt : t < List.length (set_nth t (ro, p ++ [a]) D)) by (rewrite set_len; exact (nth_some_lt _ _ _ N)).
    assert (N1 : nth_error (set_nth t (ro, p ++ [a]) D ++ forks [a]) t = Some (ro, p ++ [a])).
    { rewrite nth_error_app1 by exact Lt. exact (set_same _ _ _ _ N). }
    destruct (IH _ _ _ _ _ N1 L2 S1) as (ev & S2 & (B2 & A2 & G2)). exists (e :: ev). split; [|split; [|split]].
    + rewrite set_app, set_set, <- app_assoc, <- !app_assoc in S2 by exact Lt. 
      replace (forks (a :: l)) with (forks [a] ++ forks l) by (unfold forks; cbn [flat_map]; now rewrite app_nil_r). exact S2.
    + constructor; [inversion B1; subst; assumption|exact B2].
    + intros b [<-|I] H; [destruct (A1 a (or_introl eq_refl) H) as [E|[]]; left; exact E|right; now apply A2].
    + intros r [->|I]; [destruct (G1 r (or_introl eq_refl)) as (u & [E|[]]); exists u; left; exact E|].
      destruct (G2 r I) as (u & Iu). exists u. now right.
Qed.

(** ** What each goroutine has done where it is *)
Definition base (b : list act) : Prop := exists n rounds, Forall round_acts rounds /\ b = repeat (Go User) n ++ concat rounds.
Definition run_tail (c : nat) (r : run_pc) : list act :=
  match r with
  | RuLookup _ => [Rd LConnected]
  | RuLock _ _ => [Rd LConnected] ++ look
  | RuCheck _ i => [Rd LConnected] ++ look ++ [Acq (Mu i)]
  | RuDial _ i | RuVersion _ i _ | RuRead _ i _ => [Rd LConnected] ++ look ++ [Acq (Mu i); Rd (LField i FStatus); Rd (LField i FStatus)]
  | RuWrite _ i _ _ => [Rd LConnected] ++ look ++ [Acq (Mu i); Rd (LField i FStatus); Rd (LField i FStatus)] ++ firstn 1 (connected_acts i c)
  | RuUpdate _ i _ => [Rd LConnected] ++ look ++ [Acq (Mu i); Rd (LField i FStatus); Rd (LField i FStatus)] ++ firstn 2 (connected_acts i c)
  | RuFill _ i _ => [Rd LConnected] ++ look ++ [Acq (Mu i); Rd (LField i FStatus); Rd (LField i FStatus)] ++ firstn 5 (connected_acts i c)
  | RuUp _ i => [Rd LConnected] ++ look ++ [Acq (Mu i); Rd (LField i FStatus); Rd (LField i FStatus)] ++ firstn 9 (connected_acts i c)
  | RuGo _ i => [Rd LConnected] ++ look ++ [Acq (Mu i); Rd (LField i FStatus); Rd (LField i FStatus)] ++ firstn 14 (connected_acts i c)
  | RuWatch _ i => [Rd LConnected] ++ look ++ [Acq (Mu i); Rd (LField i FStatus); Rd (LField i FStatus)] ++ firstn 16 (connected_acts i c)
  | _ => []
  end.
Definition run_done (c : nat) (r : run_pc) (p : list act) : Prop := exists b, base b /\
  match r with
  | RuSelect => p = b
  | RuPick => p = b ++ [Sync CPool]
  | RuScan _ _ => exists es, Forall entry_acts es /\ p = b ++ [Sync CPool; Acq Ptmu; Rd LTable] ++ concat es
  | RuFail => exists s k, scan_acts s /\ connect_acts k /\ p = b ++ [Sync CPool] ++ s ++ k
  | RuStopped => exists is, p = b ++ stopped_acts is
  | _ => exists s, scan_acts s /\ p = b ++ [Sync CPool] ++ s ++ run_tail c r
  end.
Definition watch_done (i c : nat) (w : watch_pc) (p : list act) : Prop :=
  p = firstn (match w with WtWait => 0 | WtStatus => 1 | WtRead => 4 | WtWrite _ => 5 | WtDelete => 6 | WtRelease => 9 | WtEnd => 10 end) (watcher_acts i c).
Definition ban_done (b : ban_pc) (p : list act) : Prop :=
  match b with
  | BnLookup _ => p = []
  | BnStatus _ i => p = look
  | BnClose _ i => p = look ++ [Wr (LField i FStatus)]
  | BnMap _ => exists i c, p = look ++ [Wr (LField i FStatus); Rd (LField i FPeer)] ++ peer_op c
  | BnDelete _ => exists i c, p = look ++ [Wr (LField i FStatus); Rd (LField i FPeer)] ++ peer_op c ++ [Acq Bnmu; Wr LBans; Rel Bnmu]
  | BnEnd => ban_acts p
  end.
Definition close_done (i : nat) (b : close_pc) (p : list act) : Prop :=
  match b with
  | ClLock i' => i' = i /\ p = []
  | ClClose i' => i' = i /\ p = [Acq (Mu i)]
  | ClStatus i' => i' = i /\ exists c, p = [Acq (Mu i); Rd (LField i FPeer)] ++ peer_op c
  | ClEnd => exists c, p = closer_acts i c
  end.
Definition turned (c : nat) (p : list act) : Prop := exists turns, Forall (turn_acts c) turns /\ p = concat turns.

(** *** It can go on *)
Lemma base_round b r : base b -> round_acts r -> base (b ++ r).
Proof.
  intros (n & rs & F & ->) R. exists n, (rs ++ [r]). split; [apply Forall_app; split; [exact F|now constructor]|].
  rewrite concat_app. cbn [concat]. now rewrite app_nil_r, app_assoc.
Qed.
Lemma base_main b is : base b -> acts_of Main (b ++ stopped_acts is).
Proof. intros (n & rs & F & ->). rewrite <- app_assoc. exact (OfMain [] n rs is (Forall_nil _) F). Qed.
Lemma kept_ends b s k : base b -> scan_acts s -> connect_acts k -> exists q, acts_of Main ((b ++ [Sync CPool] ++ s ++ k) ++ q).
Proof. intros B Sc K. exists (stopped_acts []). apply base_main. apply base_round; [exact B|]. now apply RoundKept. Qed.
Lemma run_ends c r p : run_done c r p -> exists q, acts_of Main (p ++ q).
Proof.
  assert (E0 : scan_acts ([Acq Ptmu; Rd LTable] ++ concat [] ++ [Rel Ptmu])) by (apply Scan; constructor).
  assert (T : forall b s k p0 q0, base b -> scan_acts s -> connect_acts k -> k = p0 ++ q0 -> exists q, acts_of Main ((b ++ [Sync CPool] ++ s ++ p0) ++ q)).
  { intros b s k p0 q0 B Sc K ->. destruct (kept_ends b s _ B Sc K) as (q & Q). exists (q0 ++ q).
    rewrite <- !app_assoc in *. exact Q. }
  intros (b & B & H). destruct r as [| |sec todo|a|a|a i|a i|a i|a i d|a i d|a i d v|a i d|a i d|a i|a i|a i| |];
    try (destruct H as (s & Sc & ->); refine (T b s _ _ _ B Sc _ _)).
  - subst p. exists (stopped_acts []). now apply base_main.
  - subst p. destruct (kept_ends b _ [] B E0 ConEmpty) as (q & Q). eexists. rewrite <- app_assoc in *. exact Q.
  - destruct H as (es & Es & ->). destruct (kept_ends b _ [] B (Scan es Es) ConEmpty) as (q & Q).
    exists ([Rel Ptmu] ++ q). rewrite <- !app_assoc in *. exact Q.
  - apply ConEmpty.
  - reflexivity.
  - apply ConTooMany.
  - symmetry. apply app_nil_r.
  - apply ConMissing.
  - symmetry. apply app_nil_r.
  - apply (ConBanned i).
  - reflexivity.
  - apply (ConRefused i).
  - reflexivity.
  - apply (ConRefused i).
  - reflexivity.
  - apply (ConRefused i).
  - reflexivity.
  - apply (ConDone i c).
  - reflexivity.
  - apply (ConDone i c).
  - reflexivity.
  - apply (ConDone i c).
  - reflexivity.
  - apply (ConDone i c).
  - reflexivity.
  - apply (ConDone i c).
  - reflexivity.
  - apply (ConDone i c).
  - reflexivity.
  - destruct H as (s & k & Sc & K & ->). exact (T b s k k [] B Sc K (eq_sym (app_nil_r k))).
  - destruct H as (is & ->). exists []. rewrite app_nil_r. now apply base_main.
Qed.
Lemma watch_ends i c w p : watch_done i c w p -> exists q, acts_of (Watcher i c) (p ++ q).
Proof.
  unfold watch_done. intros ->. eexists. rewrite firstn_skipn. apply OfWatcher.
Qed.
Lemma ban_full i c : ban_acts (look ++ [Wr (LField i FStatus); Rd (LField i FPeer)] ++ peer_op c ++ [Acq Bnmu; Wr LBans; Rel Bnmu; Acq Ptmu; Wr LTable; Rel Ptmu]).
Proof. apply BanKnown. Qed.
Lemma user_call l : call_acts l -> acts_of User l.
Proof. intro H. rewrite <- (app_nil_r l). exact (OfUser [l] (Forall_cons _ H (Forall_nil _))). Qed.
Lemma ban_ends b p : ban_done b p -> exists q, acts_of User (p ++ q).
Proof.
  destruct b as [a|a i|a i|a|a|]; cbn [ban_done].
  - intros ->. exists []. exact (OfUser [] (Forall_nil _)).
  - intros ->. eexists. apply user_call, CallBan. exact (ban_full i 0).
  - intros ->. eexists. apply user_call, CallBan. exact (ban_full i 0).
  - intros (i & c & ->). eexists. apply user_call, CallBan. exact (ban_full i c).
  - intros (i & c & ->). eexists. apply user_call, CallBan. exact (ban_full i c).
  - intro H. exists []. rewrite app_nil_r. now apply user_call, CallBan.
Qed.
Lemma close_ends i b p : close_done i b p -> exists q, acts_of (Closer i) (p ++ q).
Proof.
  destruct b as [i'|i'|i'|]; cbn [close_done].
  - intros (_ & ->). eexists. exact (OfCloser i 0).
  - intros (_ & ->). eexists. exact (OfCloser i 0).
  - intros (_ & c & ->). eexists. exact (OfCloser i c).
  - intros (c & ->). exists []. rewrite app_nil_r. exact (OfCloser i c).
Qed.
Lemma turn_ends c p : turned c p -> exists q, acts_of (Reader c) (p ++ q).
Proof. intros (ts & F & ->). eexists. exact (OfReader c ts F). Qed.
Lemma role_some r : exists v, acts_of r v.
Proof.
  destruct r as [|c|c|i c|i|i|].
  - exists ([] ++ stopped_acts []). apply base_main. exists 0, []. split; [constructor|reflexivity].
  - eexists. exact (OfWriter c 0).
  - eexists. exact (OfReader c [] (Forall_nil _)).
  - eexists. apply OfWatcher.
  - eexists. apply OfRelayer. apply RelayBehind.
  - eexists. exact (OfCloser i 0).
  - eexists. exact (OfUser [] (Forall_nil _)).
Qed.

(** ** The goroutines of a state of Pool.v *)
Definition run_lock (r : run_pc) : option nat :=
  match r with
  | RuCheck _ i | RuDial _ i | RuVersion _ i _ | RuRead _ i _ | RuWrite _ i _ _ | RuUpdate _ i _ | RuFill _ i _
  | RuUp _ i | RuGo _ i | RuWatch _ i => Some i
  | _ => None
  end.
Definition close_lock (b : close_pc) : option nat := match b with ClClose i | ClStatus i => Some i | _ => None end.
Definition scanning (r : run_pc) : bool := match r with RuScan _ _ => true | _ => false end.
Definition owns (r : run_pc) (cj : list (close_pc * nat)) (k : lock) (g : nat) : Prop :=
  match k with
  | Ptmu => g = 0 /\ scanning r = true
  | Cpmu | Bnmu => False
  | Mu i => (g = 0 /\ run_lock r = Some i) \/ exists b, In (b, g) cj /\ close_lock b = Some i
  end.
Definition held_ok (p : pool) (r : run_pc) (cj : list (close_pc * nat)) (h : list (lock * nat)) : Prop :=
  NoDup (map fst h) /\ (forall k g, In (k, g) h <-> owns r cj k g) /\ (forall i, locked p i <-> exists g, In (Mu i, g) h).

Definition main_ok (D : list task) (s : sys) : Prop := exists p, nth_error D 0 = Some (Main, p) /\ run_done (List.length (y_watch s)) (y_run s) p.
Definition watch_ok (D : list task) (ws : list watch) : Prop := forall k w, nth_error ws k = Some w ->
  exists j p, nth_error D j = Some (Watcher (wt_info w) k, p) /\ watch_done (wt_info w) k (wt_pc w) p.
Definition read_ok (D : list task) : Prop := exists j c p, nth_error D j = Some (Reader c, p) /\ turned c p.
Definition bans_ok (D : list task) (bj : list (ban_pc * nat)) : Prop := forall b j, In (b, j) bj ->
  exists p, nth_error D j = Some (User, p) /\ ban_done b p.
Definition closers_ok (D : list task) (cj : list (close_pc * nat)) : Prop := forall b j, In (b, j) cj ->
  exists i p, nth_error D j = Some (Closer i, p) /\ close_done i b p.
Definition idle_ok (D : list task) (uj : list nat) : Prop := forall j, In j uj -> nth_error D j = Some (User, []).
Definition ends_ok (D : list task) : Prop := forall j d, nth_error D j = Some d -> exists r, goes_on d r.
Record corr (s : sys) (D : list task) (h : list (lock * nat)) (bj : list (ban_pc * nat)) (cj : list (close_pc * nat)) (uj : list nat) : Prop := Corr {
  c_main : main_ok D s; c_watch : watch_ok D (y_watch s); c_read : handling s -> read_ok D;
  c_bans : bans_ok D bj; c_bans_eq : map fst bj = y_bans s;
  c_close : closers_ok D cj; c_close_eq : map fst cj = y_close s;
  c_idle : idle_ok D uj; c_dup : NoDup (map snd bj ++ uj); c_dup2 : NoDup (map snd cj);
  c_held : held_ok (y_pool s) (y_run s) cj h; c_ends : ends_ok D }.

(** *** Goroutines that do not move *)
Section Move.
Context (D : list task) (t : nat) (ro : role) (p l : list act) (F : list task).
Hypothesis N : nth_error D t = Some (ro, p).
Definition after : list task := set_nth t (ro, p ++ l) D ++ F.
Lemma after_self : nth_error after t = Some (ro, p ++ l).
Proof. unfold after. rewrite nth_error_app1 by (rewrite set_len; exact (nth_some_lt _ _ _ N)). exact (set_same _ _ _ _ N). Qed.
Lemma after_other j d : nth_error D j = Some d -> j <> t -> nth_error after j = Some d.
Proof. intros H Ne. unfold after. rewrite nth_error_app1 by (rewrite set_len; exact (nth_some_lt _ _ _ H)). now rewrite set_other. Qed.
Lemma after_role j ro' q : nth_error D j = Some (ro', q) -> ro' <> ro -> nth_error after j = Some (ro', q).
Proof. intros H Ne. apply after_other; [exact H|]. intros ->. congruence. Qed.
Lemma after_new k d : nth_error F k = Some d -> nth_error after (List.length D + k) = Some d.
Proof. intro H. unfold after. rewrite nth_error_app2 by (rewrite set_len; apply Nat.le_add_r). rewrite set_len. rewrite Nat.add_comm, Nat.add_sub. exact H. Qed.
Lemma watch_keep ws : (forall i c, ro <> Watcher i c) -> watch_ok D ws -> watch_ok after ws.
Proof. intros R W k w E. destruct (W k w E) as (j & q & A & B). exists j, q. split; [|exact B]. apply after_role; [exact A|]. intro Q. now elim (R (wt_info w) k). Qed.
Lemma read_keep : (forall c, ro <> Reader c) -> read_ok D -> read_ok after.
Proof. intros R (j & c & q & A & B). exists j, c, q. split; [|exact B]. apply after_role; [exact A|]. intro Q. now elim (R c). Qed.
Lemma bans_keep bj : ro <> User -> bans_ok D bj -> bans_ok after bj.
Proof. intros R W b j I. destruct (W b j I) as (q & A & B). exists q. split; [|exact B]. apply after_role; [exact A|congruence]. Qed.
Lemma bans_keep2 bj : ~ In t (map snd bj) -> bans_ok D bj -> bans_ok after bj.
Proof. intros R W b j I. destruct (W b j I) as (q & A & B). exists q. split; [|exact B]. apply after_other; [exact A|]. intros ->. apply R. apply in_map_iff. now exists (b, t). Qed.
Lemma close_keep cj : (forall i, ro <> Closer i) -> closers_ok D cj -> closers_ok after cj.
Proof. intros R W b j I. destruct (W b j I) as (i & q & A & B). exists i, q. split; [|exact B]. apply after_role; [exact A|]. intro Q. now elim (R i). Qed.
Lemma close_keep2 cj : ~ In t (map snd cj) -> closers_ok D cj -> closers_ok after cj.
Proof. intros R W b j I. destruct (W b j I) as (i & q & A & B). exists i, q. split; [|exact B]. apply after_other; [exact A|]. intros ->. apply R. apply in_map_iff. now exists (b, t). Qed.
Lemma idle_keep uj : ro <> User -> idle_ok D uj -> idle_ok after uj.
Proof. intros R W j I. apply after_role; [now apply W|congruence]. Qed.
Lemma idle_keep2 uj : ~ In t uj -> idle_ok D uj -> idle_ok after uj.
Proof. intros R W j I. apply after_other; [now apply W|]. intros ->. contradiction. Qed.
Lemma main_keep s : ro <> Main -> main_ok D s -> main_ok after s.
Proof. intros R (q & A & B). exists q. split; [|exact B]. apply after_role; [exact A|congruence]. Qed.
Lemma ends_keep : (exists r, goes_on (ro, p ++ l) r) -> (forall d, In d F -> snd d = []) -> ends_ok D -> ends_ok after.
Proof.
  intros G Em E j d H. destruct (Nat.eq_dec j t) as [->|Ne]; [rewrite after_self in H; injection H as <-; exact G|].
  destruct (Nat.lt_ge_cases j (List.length D)) as [L|L].
  - unfold after in H. rewrite nth_error_app1 in H by (now rewrite set_len). rewrite set_other in H by exact Ne. exact (E j d H).
  - unfold after in H. rewrite nth_error_app2 in H by (now rewrite set_len). apply nth_error_In in H. apply Em in H.
    destruct d as (r, q). cbn in H. subst q. exact (role_some r).
Qed.
End Move.
Lemma forks_fresh l d : In d (forks l) -> snd d = [].
Proof. unfold forks. rewrite in_flat_map. intros (a & _ & H). destruct a; try contradiction. destruct H as [<-|[]]. reflexivity. Qed.

(** *** Locks *)
Lemma held_free_mu p r cj h i : held_ok p r cj h -> unlocked p i -> ~ In (Mu i) (map fst h).
Proof.
  intros (_ & _ & L) (x & N & U) I. apply in_map_iff in I. destruct I as ((k, g) & E & I). cbn in E. subst k.
  destruct (proj2 (L i) (ex_intro _ g I)) as (y & N' & U'). congruence.
Qed.
Lemma held_free_pt p r cj h : held_ok p r cj h -> scanning r = false -> ~ In Ptmu (map fst h).
Proof.
  intros (_ & O & _) Sc I. apply in_map_iff in I. destruct I as ((k, g) & E & I). cbn in E. subst k. apply O in I. destruct I as (_ & Q). congruence.
Qed.
Lemma held_free_cp p r cj h : held_ok p r cj h -> ~ In Cpmu (map fst h).
Proof. intros (_ & O & _) I. apply in_map_iff in I. destruct I as ((k, g) & E & I). cbn in E. subst k. now apply O in I. Qed.
Lemma held_free_bn p r cj h : held_ok p r cj h -> ~ In Bnmu (map fst h).
Proof. intros (_ & O & _) I. apply in_map_iff in I. destruct I as ((k, g) & E & I). cbn in E. subst k. now apply O in I. Qed.
Lemma held_same p q r r' cj h : held_ok p r cj h -> run_lock r' = run_lock r -> scanning r' = scanning r ->
  (forall i, locked q i <-> locked p i) -> held_ok q r' cj h.
Proof.
  intros (Nd & O & L) Rl Sc Lk. split; [exact Nd|]. split; [|intro i; rewrite Lk; apply L].
  intros k g. rewrite O. unfold owns. now rewrite Rl, Sc.
Qed.
Lemma in_mid {A} (pre post : list A) x y : In y (pre ++ x :: post) <-> y = x \/ In y (pre ++ post).
Proof. rewrite !in_app_iff. cbn [In]. split; intros H; intuition congruence. Qed.
Lemma held_split (h : list (lock * nat)) k g : NoDup (map fst h) -> In (k, g) h ->
  exists pre post, h = pre ++ (k, g) :: post /\ NoDup (map fst (pre ++ post)) /\ ~ In k (map fst (pre ++ post)).
Proof.
  intros Nd I. apply in_split in I. destruct I as (pre & post & ->). exists pre, post. split; [reflexivity|].
  rewrite map_app in *. cbn [map fst] in Nd. split; [exact (NoDup_remove_1 _ _ _ Nd)|exact (NoDup_remove_2 _ _ _ Nd)].
Qed.
(** The locks when one of the records is taken or given back by goroutine [g]. *)
Lemma held_take p q r r' cj cj' h i g : held_ok p r cj h -> ~ In (Mu i) (map fst h) ->
  (forall k g', owns r' cj' k g' <-> (k = Mu i /\ g' = g) \/ owns r cj k g') ->
  (forall j, locked q j <-> j = i \/ locked p j) -> held_ok q r' cj' ((Mu i, g) :: h).
Proof.
  intros (Nd & O & L) Fr Ow Lk. split; [constructor; assumption|]. split.
  - intros k g'. rewrite Ow, <- O. cbn [In]. split; intros [E|E]; auto; left; [injection E as <- <-; auto|destruct E as (-> & ->); reflexivity].
  - intro j. rewrite Lk, L. cbn [In]. split.
    + intros [->|(g' & I)]; [exists g; now left|exists g'; now right].
    + intros (g' & [E|I]); [injection E as <- _; now left|right; now exists g'].
Qed.
Lemma held_give p q r r' cj cj' pre post k g : held_ok p r cj (pre ++ (k, g) :: post) -> 
  (forall k' g', owns r' cj' k' g' <-> k' <> k /\ owns r cj k' g') ->
  (forall j, locked q j <-> Mu j <> k /\ locked p j) -> held_ok q r' cj' (pre ++ post).
Proof.
  intros (Nd & O & L) Ow Lk.
  assert (Nk : NoDup (map fst (pre ++ post)) /\ ~ In k (map fst (pre ++ post))).
  { rewrite map_app in *. cbn [map fst] in Nd. split; [exact (NoDup_remove_1 _ _ _ Nd)|exact (NoDup_remove_2 _ _ _ Nd)]. }
  destruct Nk as (Nd' & Nk).
  assert (I' : forall k' g', In (k', g') (pre ++ post) <-> k' <> k /\ In (k', g') (pre ++ (k, g) :: post)).
  { intros k' g'. rewrite in_mid. split.
    - intro I. split; [|now right]. intros ->. apply Nk. apply in_map_iff. now exists (k, g').
    - intros (Ne & [E|I]); [congruence|exact I]. }
  split; [exact Nd'|]. split.
  - intros k' g'. rewrite Ow, I', O. reflexivity.
  - intro j. rewrite Lk, L. split.
    + intros (Ne & g' & I). exists g'. apply I'. auto.
    + intros (g' & I). apply I' in I. destruct I as (Ne & I). split; [exact Ne|now exists g'].
Qed.

Lemma locked_upd p i f j : (forall x, i_locked (f x) = i_locked x) -> locked (upd p i f) j <-> locked p j.
Proof.
  intro H. unfold locked, upd. cbn [pl_infos set_infos]. rewrite update_nth. destruct (Nat.eqb i j) eqn:E; [|reflexivity].
  destruct (nth_error (pl_infos p) j) as [x|]; cbn [option_map].
  - split; intros (y & Q & K); injection Q as <-; eexists; (split; [reflexivity|]); rewrite H in *; exact K.
  - split; intros (y & Q & K); discriminate.
Qed.
Lemma locked_take p i f j : unlocked p i -> (forall x, i_locked (f x) = true) -> locked (upd p i f) j <-> j = i \/ locked p j.
Proof.
  intros (x & N & U) H. unfold locked, upd. cbn [pl_infos set_infos]. rewrite update_nth. destruct (Nat.eqb_spec i j) as [<-|Ne].
  - rewrite N. cbn [option_map]. split; [now left|]. intros _. eexists. split; [reflexivity|apply H].
  - split; [now right|]. intros [->|K]; [contradiction|exact K].
Qed.
Lemma locked_give p i f j : (forall x, i_locked (f x) = false) -> locked (upd p i f) j <-> Mu j <> Mu i /\ locked p j.
Proof.
  intro H. unfold locked, upd. cbn [pl_infos set_infos]. rewrite update_nth. destruct (Nat.eqb_spec i j) as [<-|Ne].
  - split; [|intros (Q & _); now elim Q]. destruct (nth_error (pl_infos p) i) as [x|]; cbn [option_map]; intros (y & Q & K); [|discriminate].
    injection Q as <-. rewrite H in K. discriminate.
  - split; [|now intros (_ & K)]. intro K. split; [congruence|exact K].
Qed.
Lemma locked_add r a p j : locked (pool_add r a p) j <-> locked p j.
Proof.
  destruct (add_cases r a p) as [->|(_ & _ & _ & ->)]; [reflexivity|]. unfold locked. cbn [pl_infos set_table set_infos].
  destruct (Nat.lt_ge_cases j (List.length (pl_infos p))) as [Lt|Ge].
  - now rewrite nth_error_app1 by exact Lt.
  - rewrite nth_error_app2 by exact Ge. split; intros (x & N & K).
    + destruct (j - List.length (pl_infos p)) as [|n]; cbn in N; [injection N as <-; discriminate|destruct n; discriminate].
    + apply nth_some_lt in N. lia.
Qed.

(** *** Changes *)
Lemma changed_same p x : ~ changed p p x.
Proof. destruct x as [| | | |i f]; cbn; try congruence. intros (a & b & A & B & H). assert (a = b) as -> by congruence. exfalso. destruct f; cbn in H; congruence. Qed.
Lemma changed_eq p q x : pl_table q = pl_table p -> pl_up q = pl_up p -> pl_bans q = pl_bans p -> pl_connected q = pl_connected p -> pl_infos q = pl_infos p -> ~ changed p q x.
Proof.
  intros A B C E G. destruct x as [| | | |i f]; cbn; try congruence. rewrite G. intros (a & b & X & Y & H). assert (a = b) as -> by congruence. exfalso. destruct f; cbn in H; congruence.
Qed.
Lemma changed_infos p q x : pl_infos q = pl_infos p -> changed p q x -> x = LTable \/ x = LUp \/ x = LBans \/ x = LConnected.
Proof.
  intros G. destruct x as [| | | |i f]; cbn; auto. rewrite G. intros (a & b & X & Y & H). assert (a = b) as -> by congruence. exfalso. destruct f; cbn in H; congruence.
Qed.
Lemma changed_upd p i f x : changed p (upd p i f) x -> exists fl a, x = LField i fl /\ differ fl a (f a).
Proof.
  unfold upd. destruct x as [| | | |j fl]; cbn; try congruence. intros (a & b & X & Y & H). rewrite update_nth, X in Y.
  destruct (Nat.eqb_spec i j) as [<-|Ne]; cbn [option_map] in Y; injection Y as <-.
  - exists fl, a. auto.
  - exfalso. destruct fl; cbn in H; congruence.
Qed.
Lemma changed_add r a p x : changed p (pool_add r a p) x -> x = LTable.
Proof.
  destruct (add_cases r a p) as [->|(_ & _ & _ & ->)]; intro H; [now apply changed_same in H|].
  destruct x as [| | | |j fl]; cbn in H; try congruence. destruct H as (u & v & X & Y & H). rewrite nth_error_app1 in Y by exact (nth_some_lt _ _ _ X).
  assert (u = v) as -> by congruence. exfalso. destruct fl; cbn in H; congruence.
Qed.

(** ** Steps *)
Definition covers_l (s t : sys) (l : list act) : Prop :=
  (forall x, changed (y_pool s) (y_pool t) x -> In (Wr x) l) /\
  (pl_slots (y_pool s) <> pl_slots (y_pool t) -> In (Sync CPool) l) /\
  (y_quits s <> y_quits t -> In (Sync CQuit) l) /\
  (List.length (y_watch s) <> List.length (y_watch t) \/ List.length (y_close s) <> List.length (y_close t) -> exists r, In (Go r) l).
Lemma events_cover g l ev s t : events_of g l ev -> (y_run s <> y_run t -> g = 0) -> covers_l s t l -> covers s t ev.
Proof.
  intros (B & A & G) R (X & Y & Z & W). exists g. split; [exact B|]. split; [exact R|]. split; [|split; [|split]].
  - intros x C. apply A; [now apply X|discriminate].
  - intro C. apply A; [now apply Y|discriminate].
  - intro C. apply A; [now apply Z|discriminate].
  - intro C. destruct (W C) as (r & I). exact (G r I).
Qed.
Lemma covers_nil s t : covers_l s t [] -> covers s t [].
Proof. apply (events_cover 0); [|reflexivity]. split; [constructor|]. split; [intros a []|intros r []]. Qed.
Definition stepped (s t : sys) (D : list task) (tr : list event) (uj : list nat) : Prop :=
  exists seg D' h' bj' cj' uj', corr t D' h' bj' cj' uj' /\ sound D' (tr ++ seg) h' /\ covers s t seg /\ List.length uj <= S (List.length uj').

Lemma forks_in l r : In (Go r) l -> In (r, []) (forks l).
Proof. intro I. unfold forks. apply in_flat_map. exists (Go r). split; [exact I|now left]. Qed.
Lemma forks_nth l r : In (Go r) l -> exists k, nth_error (forks l) k = Some (r, []).
Proof. intro I. exact (In_nth_error _ _ (forks_in l r I)). Qed.

Lemma main_go s t D tr h h' bj cj uj p l : corr s D h bj cj uj -> sound D tr h -> nth_error D 0 = Some (Main, p) ->
  lockrun 0 l h h' -> covers_l s t l -> run_done (List.length (y_watch t)) (y_run t) (p ++ l) ->
  y_watch t = y_watch s -> y_bans t = y_bans s -> y_close t = y_close s ->
  (handling t -> handling s \/ exists c, In (Go (Reader c)) l) -> held_ok (y_pool t) (y_run t) cj h' -> stepped s t D tr uj.
Proof.
  intros C S N L Cv Rd W B Cl Hn He. destruct (perform 0 Main l p h h' D tr N L S) as (ev & S' & E).
  exists ev, (after D 0 Main p l (forks l)), h', bj, cj, uj. split; [|split; [exact S'|split; [exact (events_cover _ _ _ _ _ E (fun _ => eq_refl) Cv)|lia]]].
  destruct C as [Cm Cw Cr Cb Cbe Cc Cce Ci Cd Cd2 Ch Ce]. constructor; try assumption; try congruence.
  - exists (p ++ l). split; [exact (after_self D 0 Main p l _ N)|exact Rd].
  - rewrite W. exact (watch_keep D 0 Main p l _ N _ ltac:(discriminate) Cw).
  - intro Q. destruct (Hn Q) as [Q'|(c & I)]; [exact (read_keep D 0 Main p l _ N ltac:(discriminate) (Cr Q'))|].
    destruct (forks_nth l _ I) as (k & K). exists (List.length D + k), c, []. split; [exact (after_new D 0 Main p l _ k _ K)|].
    exists []. split; [constructor|reflexivity].
  - exact (bans_keep D 0 Main p l _ N _ ltac:(discriminate) Cb).
  - exact (close_keep D 0 Main p l _ N _ ltac:(discriminate) Cc).
  - exact (idle_keep D 0 Main p l _ N _ ltac:(discriminate) Ci).
  - apply (ends_keep D 0 Main p l _ N); [|apply forks_fresh|exact Ce]. exact (run_ends _ _ _ Rd).
Qed.

Lemma map_split {A B} (f : A -> B) l pre x post : map f l = pre ++ x :: post ->
  exists lp y lq, l = lp ++ y :: lq /\ map f lp = pre /\ f y = x /\ map f lq = post.
Proof.
  revert l. induction pre as [|z pre IH]; intros [|y l] H; cbn in H; try discriminate.
  - injection H as <- <-. exists [], y, l. auto.
  - injection H as <- H. destruct (IH l H) as (lp & y' & lq & -> & <- & E & <-). exists (y :: lp), y', lq. auto.
Qed.

Lemma ban_go s t D tr h bp b j bq cj uj p l b' : corr s D h (bp ++ (b, j) :: bq) cj uj -> sound D tr h -> nth_error D j = Some (User, p) ->
  lockrun j l h h -> covers_l s t l -> ban_done b' (p ++ l) -> forks l = [] ->
  y_run t = y_run s -> y_watch t = y_watch s -> y_close t = y_close s -> y_bans t = map fst bp ++ b' :: map fst bq ->
  held_ok (y_pool t) (y_run s) cj h -> stepped s t D tr uj.
Proof.
  intros C S N L Cv Bd Fk R W Cl B He. destruct (perform j User l p h h D tr N L S) as (ev & S' & E).
  exists ev, (after D j User p l (forks l)), h, (bp ++ (b', j) :: bq), cj, uj.
  split; [|split; [exact S'|split; [exact (events_cover _ _ _ _ _ E (fun Q => False_ind _ (Q (eq_sym R))) Cv)|lia]]].
  destruct C as [Cm Cw Cr Cb Cbe Cc Cce Ci Cd Cd2 Ch Ce].
  assert (Nj : ~ In j (map snd (bp ++ bq)) /\ ~ In j uj).
  { rewrite map_app in *. cbn [map snd] in Cd. rewrite <- app_assoc in Cd. cbn [app] in Cd. apply NoDup_remove_2 in Cd.
    rewrite in_app_iff in *. rewrite in_app_iff in Cd. tauto. }
  destruct Nj as (Nb & Nu). constructor; try assumption; try congruence.
  - destruct (main_keep D j User p l (forks l) N s ltac:(discriminate) Cm) as (q & A & Q). exists q. split; [exact A|]. now rewrite R, W.
  - rewrite W. exact (watch_keep D j User p l _ N _ ltac:(discriminate) Cw).
  - intro Q. apply (read_keep D j User p l _ N ltac:(discriminate)). apply Cr. unfold handling in *. now rewrite R, W in Q.
  - intros b0 j0 I. apply in_mid in I. destruct I as [Q|I].
    + injection Q as -> ->. exists (p ++ l). split; [exact (after_self D j User p l _ N)|exact Bd].
    + refine (bans_keep2 D j User p l _ (bp ++ bq) Nb _ b0 j0 I). intros b1 j1 I1. apply Cb. apply in_mid. now right.
  - rewrite B, map_app. reflexivity.
  - exact (close_keep D j User p l _ N _ ltac:(discriminate) Cc).
  - exact (idle_keep2 D j User p l _ _ Nu Ci).
  - rewrite map_app in *. exact Cd.
  - apply (ends_keep D j User p l _ N); [|apply forks_fresh|exact Ce]. exact (ban_ends _ _ Bd).
Qed.
Lemma idle_go s t D tr h bj cj u uj l : corr s D h bj cj (u :: uj) -> sound D tr h -> acts_of User l ->
  lockrun u l h h -> covers_l s t l -> y_run t = y_run s -> y_watch t = y_watch s -> y_close t = y_close s -> y_bans t = y_bans s ->
  held_ok (y_pool t) (y_run s) cj h -> stepped s t D tr (u :: uj).
Proof.
  intros C S Ao L Cv R W Cl B He. destruct C as [Cm Cw Cr Cb Cbe Cc Cce Ci Cd Cd2 Ch Ce].
  pose proof (Ci u (or_introl eq_refl)) as N. destruct (perform u User l [] h h D tr N L S) as (ev & S' & E).
  exists ev, (after D u User [] l (forks l)), h, bj, cj, uj.
  split; [|split; [exact S'|split; [exact (events_cover _ _ _ _ _ E (fun Q => False_ind _ (Q (eq_sym R))) Cv)|cbn [List.length]; lia]]].
  pose proof (NoDup_remove_2 _ _ _ Cd) as Nu. rewrite in_app_iff in Nu.
  constructor; try assumption; try congruence.
  - destruct (main_keep D u User [] l (forks l) N s ltac:(discriminate) Cm) as (q & A & Q). exists q. split; [exact A|]. now rewrite R, W.
  - rewrite W. exact (watch_keep D u User [] l _ N _ ltac:(discriminate) Cw).
  - intro Q. apply (read_keep D u User [] l _ N ltac:(discriminate)). apply Cr. unfold handling in *. now rewrite R, W in Q.
  - apply (bans_keep2 D u User [] l _ bj); [tauto|exact Cb].
  - exact (close_keep D u User [] l _ N _ ltac:(discriminate) Cc).
  - apply (idle_keep2 D u User [] l _ uj); [tauto|]. intros k I. apply Ci. now right.
  - exact (NoDup_remove_1 _ _ _ Cd).
  - apply (ends_keep D u User [] l _ N); [|apply forks_fresh|exact Ce]. exists []. unfold goes_on. cbn [fst snd app]. now rewrite app_nil_r.
Qed.
Lemma read_go s t D tr h bj cj uj j c p l : corr s D h bj cj uj -> sound D tr h -> nth_error D j = Some (Reader c, p) ->
  lockrun j l h h -> covers_l s t l -> turned c (p ++ l) ->
  y_run t = y_run s -> y_watch t = y_watch s -> y_close t = y_close s -> y_bans t = y_bans s ->
  held_ok (y_pool t) (y_run s) cj h -> stepped s t D tr uj.
Proof.
  intros C S N L Cv Tn R W Cl B He. destruct C as [Cm Cw Cr Cb Cbe Cc Cce Ci Cd Cd2 Ch Ce].
  destruct (perform j (Reader c) l p h h D tr N L S) as (ev & S' & E).
  exists ev, (after D j (Reader c) p l (forks l)), h, bj, cj, uj.
  split; [|split; [exact S'|split; [exact (events_cover _ _ _ _ _ E (fun Q => False_ind _ (Q (eq_sym R))) Cv)|lia]]].
  constructor; try assumption; try congruence.
  - destruct (main_keep D j (Reader c) p l (forks l) N s ltac:(discriminate) Cm) as (q & A & Q). exists q. split; [exact A|]. now rewrite R, W.
  - rewrite W. exact (watch_keep D j (Reader c) p l _ N _ ltac:(discriminate) Cw).
  - intros _. exists j, c, (p ++ l). split; [exact (after_self D j _ p l _ N)|exact Tn].
  - exact (bans_keep D j (Reader c) p l _ N bj ltac:(discriminate) Cb).
  - exact (close_keep D j (Reader c) p l _ N _ ltac:(discriminate) Cc).
  - exact (idle_keep D j (Reader c) p l _ N uj ltac:(discriminate) Ci).
  - apply (ends_keep D j (Reader c) p l _ N); [|apply forks_fresh|exact Ce]. exact (turn_ends _ _ Tn).
Qed.
Lemma watch_go s t D tr h bj cj uj pre a i w w' post p j l : corr s D h bj cj uj -> sound D tr h ->
  y_watch s = pre ++ Watch a i w :: post -> y_watch t = pre ++ Watch a i w' :: post ->
  nth_error D j = Some (Watcher i (List.length pre), p) -> lockrun j l h h -> covers_l s t l ->
  watch_done i (List.length pre) w' (p ++ l) ->
  y_run t = y_run s -> y_close t = y_close s -> y_bans t = y_bans s -> held_ok (y_pool t) (y_run s) cj h -> stepped s t D tr uj.
Proof.
  intros C S W W' N L Cv Wd R Cl B He. destruct C as [Cm Cw Cr Cb Cbe Cc Cce Ci Cd Cd2 Ch Ce].
  set (ro := Watcher i (List.length pre)) in *. destruct (perform j ro l p h h D tr N L S) as (ev & S' & E).
  exists ev, (after D j ro p l (forks l)), h, bj, cj, uj.
  split; [|split; [exact S'|split; [exact (events_cover _ _ _ _ _ E (fun Q => False_ind _ (Q (eq_sym R))) Cv)|lia]]].
  assert (Ln : List.length (y_watch t) = List.length (y_watch s)) by (rewrite W, W', !app_length; reflexivity).
  constructor; try assumption; try congruence.
  - destruct (main_keep D j ro p l (forks l) N s ltac:(discriminate) Cm) as (q & A & Q). exists q. split; [exact A|]. now rewrite R, Ln.
  - intros k w0 K. rewrite W' in K. rewrite W in Cw. destruct (Nat.eq_dec k (List.length pre)) as [->|Ne].
    + rewrite nth_error_app2, Nat.sub_diag in K by apply le_n. cbn in K. injection K as <-. exists j, (p ++ l).
      split; [exact (after_self D j ro p l _ N)|exact Wd].
    + destruct (Cw k w0) as (j0 & q & A & Q).
      { destruct (Nat.lt_ge_cases k (List.length pre)) as [Lt|Ge].
        - rewrite nth_error_app1 in * by exact Lt. exact K.
        - rewrite nth_error_app2 in * by exact Ge. destruct (k - List.length pre) as [|m] eqn:Em; [lia|exact K]. }
      exists j0, q. split; [|exact Q]. apply (after_role D j ro p l _ N); [exact A|]. unfold ro. congruence.
  - intro Q. apply (read_keep D j ro p l _ N ltac:(discriminate)). apply Cr. left. rewrite W. now destruct pre.
  - exact (bans_keep D j ro p l _ N bj ltac:(discriminate) Cb).
  - exact (close_keep D j ro p l _ N _ ltac:(discriminate) Cc).
  - exact (idle_keep D j ro p l _ N uj ltac:(discriminate) Ci).
  - apply (ends_keep D j ro p l _ N); [|apply forks_fresh|exact Ce]. exact (watch_ends _ _ _ _ Wd).
Qed.
Lemma close_go s t D tr h h' bj cp b j cq uj i p l b' : corr s D h bj (cp ++ (b, j) :: cq) uj -> sound D tr h ->
  nth_error D j = Some (Closer i, p) -> lockrun j l h h' -> covers_l s t l -> close_done i b' (p ++ l) ->
  y_run t = y_run s -> y_watch t = y_watch s -> y_bans t = y_bans s -> y_close t = map fst cp ++ b' :: map fst cq ->
  held_ok (y_pool t) (y_run s) (cp ++ (b', j) :: cq) h' -> stepped s t D tr uj.
Proof.
  intros C S N L Cv Bd R W B Cl He. destruct (perform j (Closer i) l p h h' D tr N L S) as (ev & S' & E).
  exists ev, (after D j (Closer i) p l (forks l)), h', bj, (cp ++ (b', j) :: cq), uj.
  split; [|split; [exact S'|split; [exact (events_cover _ _ _ _ _ E (fun Q => False_ind _ (Q (eq_sym R))) Cv)|lia]]].
  destruct C as [Cm Cw Cr Cb Cbe Cc Cce Ci Cd Cd2 Ch Ce].
  assert (Nb : ~ In j (map snd (cp ++ cq))).
  { rewrite map_app in *. cbn [map snd] in Cd2. now apply NoDup_remove_2 in Cd2. }
  constructor; try assumption; try congruence.
  - destruct (main_keep D j (Closer i) p l (forks l) N s ltac:(discriminate) Cm) as (q & A & Q). exists q. split; [exact A|]. now rewrite R, W.
  - rewrite W. exact (watch_keep D j (Closer i) p l _ N _ ltac:(discriminate) Cw).
  - intro Q. apply (read_keep D j (Closer i) p l _ N ltac:(discriminate)). apply Cr. unfold handling in *. now rewrite R, W in Q.
  - exact (bans_keep D j (Closer i) p l _ N bj ltac:(discriminate) Cb).
  - intros b0 j0 I. apply in_mid in I. destruct I as [Q|I].
    + injection Q as -> ->. exists i, (p ++ l). split; [exact (after_self D j _ p l _ N)|exact Bd].
    + refine (close_keep2 D j (Closer i) p l _ (cp ++ cq) Nb _ b0 j0 I). intros b1 j1 I1. apply Cc. apply in_mid. now right.
  - rewrite Cl, map_app. reflexivity.
  - exact (idle_keep D j (Closer i) p l _ N uj ltac:(discriminate) Ci).
  - rewrite map_app in *. exact Cd2.
  - apply (ends_keep D j (Closer i) p l _ N); [|apply forks_fresh|exact Ce]. exact (close_ends _ _ _ Bd).
Qed.
(** A step without an access. *)
Lemma still s t D tr h bj cj uj : corr s D h bj cj uj -> sound D tr h -> covers_l s t [] -> y_run t = y_run s -> y_watch t = y_watch s ->
  y_close t = y_close s -> y_bans t = y_bans s -> held_ok (y_pool t) (y_run s) cj h -> stepped s t D tr uj.
Proof.
  intros C S Cv R W Cl B He. exists [], D, h, bj, cj, uj. rewrite app_nil_r. split; [|split; [exact S|split; [now apply covers_nil|lia]]].
  destruct C as [Cm Cw Cr Cb Cbe Cc Cce Ci Cd Cd2 Ch Ce]. constructor; try assumption; try congruence.
  - destruct Cm as (q & A & Q). exists q. split; [exact A|]. now rewrite R, W.
  - now rewrite W.
  - intro Q. apply Cr. unfold handling in *. now rewrite R, W in Q.
Qed.
