(** Executions for C121: a section that is interrupted without consequence, and a scan of the table whose
    interruption shows. *)
From Verif Require Import Race SpecRace SpecAtomic RaceProofs RaceExamples AtomicProofs.

Definition two_users : list act := concat [] ++ repeat (Go User) 2 ++ concat [] ++ stopped_acts [].
Lemma two_users_ok : acts_of Main two_users.
Proof. apply OfMain; constructor. Qed.

(** ** A lookup and IsBan at the same time *)
Definition mixed_words : list (role * list act) := [(Main, two_users); (User, concat [look]); (User, concat [is_ban_acts])].
Lemma mixed_words_ok : Forall (fun rv => acts_of (fst rv) (snd rv)) mixed_words.
Proof.
  constructor; [exact two_users_ok|]. constructor; [|constructor; [|constructor]]; apply OfUser; constructor; [exact CallInfo|constructor|exact CallIsBan|constructor].
Qed.
Definition mixed_trace : list event :=
  [Forked 0 1; Forked 0 2; Did 1 (Acq Ptmu); Did 2 (Acq Bnmu); Did 1 (Rd LTable); Did 2 (Rd LBans); Did 1 (Rel Ptmu); Did 2 (Rel Bnmu)].
Lemma mixed_execution : exists s, execution mixed_trace s.
Proof.
  eexists. exists two_users. split; [exact two_users_ok|].
  apply (run_sound mixed_words [0; 0; 1; 2; 1; 2; 1; 2] mixed_words_ok). vm_compute. reflexivity.
Qed.
Lemma mixed_case : (exists s, execution mixed_trace s) /\
  section mixed_trace 1 Ptmu [Did 2 (Acq Bnmu); Did 1 (Rd LTable); Did 2 (Rd LBans)] /\
  plain 1 Ptmu [Did 2 (Acq Bnmu); Did 1 (Rd LTable); Did 2 (Rd LBans)] /\
  ~ uninterrupted 1 [Did 2 (Acq Bnmu); Did 1 (Rd LTable); Did 2 (Rd LBans)].
Proof.
  split; [exact mixed_execution|]. split; [|split].
  - exists [Forked 0 1; Forked 0 2], [Did 2 (Rel Bnmu)]. split; [reflexivity|]. cbn. intuition discriminate.
  - intros e [<-|[<-|[<-|[]]]] D; cbn in D; try discriminate D. exists (Rd LTable), LTable. repeat split. now left.
  - intro U. specialize (U _ (or_introl eq_refl)). discriminate U.
Qed.

(** ** Ban during Peers *)
Definition peers_scan : list act :=
  [Acq Ptmu; Rd LTable] ++ concat [[Rd LTable; Rd (LField 0 FStatus); Rd (LField 0 FStatus)]] ++ [Rel Ptmu].
Definition ban_word : list act :=
  look ++ [Wr (LField 0 FStatus); Rd (LField 0 FPeer)] ++ peer_op 0 ++ [Acq Bnmu; Wr LBans; Rel Bnmu; Acq Ptmu; Wr LTable; Rel Ptmu].
Definition scan_words : list (role * list act) := [(Main, two_users); (User, concat [peers_scan]); (User, concat [ban_word])].
Lemma scan_words_ok : Forall (fun rv => acts_of (fst rv) (snd rv)) scan_words.
Proof.
  constructor; [exact two_users_ok|]. constructor; [|constructor; [|constructor]]; apply OfUser; constructor; [|constructor| |constructor].
  - apply CallPeers, Scan. repeat constructor.
  - apply CallBan. exact (BanKnown 0 0).
Qed.
Definition scan_trace : list event :=
  [Forked 0 1; Forked 0 2; Did 2 (Acq Ptmu); Did 2 (Rd LTable); Did 2 (Rel Ptmu); Did 1 (Acq Ptmu); Did 1 (Rd LTable); Did 1 (Rd LTable);
   Did 1 (Rd (LField 0 FStatus)); Did 2 (Wr (LField 0 FStatus)); Did 1 (Rd (LField 0 FStatus)); Did 1 (Rel Ptmu)].
Lemma scan_execution : exists s, execution scan_trace s.
Proof.
  eexists. exists two_users. split; [exact two_users_ok|].
  apply (run_sound scan_words [0; 0; 2; 2; 2; 1; 1; 1; 1; 2; 1; 1] scan_words_ok). vm_compute. reflexivity.
Qed.

Lemma forks_new s tr s' : thread_steps s tr s' -> length (th_progs s) <= length (th_progs s') /\
  forall u v, In (Forked u v) tr -> length (th_progs s) <= v.
Proof.
  induction 1 as [s|s tr s1 e s2 H [IH1 IH2] E]; [split; [lia|intros u v []]|].
  split.
  - destruct E; cbn [th_progs]; rewrite ?app_length, ?set_length; lia.
  - intros u v I. apply in_app_iff in I as [I|[-> |[]]]; [exact (IH2 _ _ I)|]. inversion E; subst. exact IH1.
Qed.
Lemma seen_kept choose t tr : (forall e, In e tr -> ~ done_by t e) -> (forall u, ~ In (Forked u t) tr) ->
  forall w, w_seen (outcome choose tr w) t = w_seen w t.
Proof.
  induction tr as [|e tr IH]; intros D F w; [reflexivity|]. cbn. unfold outcome in IH. rewrite IH.
  - assert (N := D e (or_introl eq_refl)). destruct e as [u a|u v]; cbn in N.
    + assert (Nat.eqb t u = false) by (apply Nat.eqb_neq; congruence). destruct a; cbn; rewrite ?H; reflexivity.
    + assert (Nat.eqb t v = false) as Z; [|cbn; now rewrite Z]. apply Nat.eqb_neq. intros ->. apply (F u). now left.
  - intros e' I. apply D. now right.
  - intros u I. apply (F u). now right.
Qed.
Lemma filter_cons_inv {A} (f : A -> bool) l x r : filter f l = x :: r ->
  exists a c, l = a ++ x :: c /\ filter f a = [] /\ filter f c = r /\ f x = true.
Proof.
  induction l as [|y l IH]; cbn; [discriminate|]. destruct (f y) eqn:B; intro E.
  - injection E as -> E. exists [], l. auto.
  - destruct (IH E) as (a & c & -> & A1 & A2). exists (y :: a), c. cbn. rewrite B. auto.
Qed.
Lemma filter_app_inv {A} (f : A -> bool) x p r : forall l, filter f l = p ++ x :: r ->
  exists a c, l = a ++ x :: c /\ filter f a = p /\ filter f c = r.
Proof.
  induction p as [|y p IH]; intros l E; apply filter_cons_inv in E as (a & c & -> & A1 & A2 & A3).
  - exists a, c. auto.
  - destruct (IH c A2) as (a' & c' & -> & B1 & B2). exists (a ++ y :: a'), c'. rewrite <- app_assoc.
    split; [reflexivity|]. split; [|exact B2]. rewrite filter_app, A1. cbn. now rewrite A3, B1.
Qed.
Lemma all_by t b : uninterrupted t b -> of_goroutine t b = b.
Proof.
  induction b as [|e b IH]; intro U; [reflexivity|]. unfold of_goroutine in *. cbn [filter].
  rewrite (proj2 (by_iff t e) (U e (or_introl eq_refl))). f_equal. apply IH. intros e' I. apply U. now right.
Qed.

(** Nothing at first; Ban writes 7. *)
Definition blank : world := World (fun _ => 0) (fun _ => 0) (fun _ => []).
Lemma scan_interrupted : exists s, execution scan_trace s /\
  forall tr s', execution tr s' -> (forall t, of_goroutine t scan_trace = of_goroutine t tr) ->
  (forall t l b, pool_lock l -> section tr t l b -> uninterrupted t b) ->
  ~ same_world (outcome (fun _ _ _ => 7) scan_trace blank) (outcome (fun _ _ _ => 7) tr blank).
Proof.
  destruct scan_execution as [s E]. exists s. split; [exact E|]. intros tr s' (w & _ & H) P U (_ & _ & S).
  assert (P1 := P 1). change (of_goroutine 1 scan_trace) with
    ([] ++ Did 1 (Acq Ptmu) :: [Did 1 (Rd LTable); Did 1 (Rd LTable); Did 1 (Rd (LField 0 FStatus)); Did 1 (Rd (LField 0 FStatus))] ++
     Did 1 (Rel Ptmu) :: []) in P1. symmetry in P1. unfold of_goroutine in P1.
  apply filter_app_inv in P1 as (a & r & -> & _ & P1). apply filter_app_inv in P1 as (b & c & -> & Pb & Pc).
  assert (B : b = [Did 1 (Rd LTable); Did 1 (Rd LTable); Did 1 (Rd (LField 0 FStatus)); Did 1 (Rd (LField 0 FStatus))]).
  { rewrite <- Pb. symmetry. apply all_by. apply (U 1 Ptmu b I). exists a, c. split; [reflexivity|]. intro Q.
    assert (Q' : In (Did 1 (Rel Ptmu)) (filter (is_by 1) b)) by (apply filter_In; auto). rewrite Pb in Q'. cbn in Q'. intuition discriminate. }
  subst b. clear Pb U P.
  apply steps_app_inv in H as (m & _ & H).
  change (Did 1 (Acq Ptmu) :: [Did 1 (Rd LTable); Did 1 (Rd LTable); Did 1 (Rd (LField 0 FStatus)); Did 1 (Rd (LField 0 FStatus))] ++ Did 1 (Rel Ptmu) :: c)
    with ([Did 1 (Acq Ptmu)] ++ [Did 1 (Rd LTable); Did 1 (Rd LTable); Did 1 (Rd (LField 0 FStatus)); Did 1 (Rd (LField 0 FStatus)); Did 1 (Rel Ptmu)] ++ c) in H.
  apply steps_app_inv in H as (m1 & H1 & H). apply steps_app_inv in H as (m2 & H2 & H3).
  assert (L : 1 < length (th_progs m)).
  { apply steps_one_inv in H1. inversion H1 as [? ? ? ? N| | |? ? ? ? N]; exact (next_live _ _ _ _ N). }
  apply forks_new in H1 as [H1 _]. apply forks_new in H2 as [H2 _]. apply forks_new in H3 as [_ F].
  specialize (S 1). unfold outcome in S. rewrite (fold_left_app _ a) in S.
  set (w0 := fold_left (fun w e => effect (fun _ _ _ => 7) e w) a blank) in S. cbn [app fold_left] in S.
  change (fold_left (fun w e => effect (fun _ _ _ => 7) e w) c ?x) with (outcome (fun _ _ _ => 7) c x) in S.
  rewrite seen_kept in S.
  - cbn in S. apply (f_equal (@rev _)) in S. rewrite !rev_app_distr in S. cbn in S. injection S as S1 S2 _. congruence.
  - intros e Q D. apply by_iff in D. assert (In e (filter (is_by 1) c)) as Q' by (now apply filter_In). rewrite Pc in Q'. exact Q'.
  - intros u Q. specialize (F u 1 Q). lia.
Qed.
