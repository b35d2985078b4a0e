(** Proofs for C109. *)
From Coq Require Import Permutation.
From Verif Require Import Pool SpecPool SpecRecord PoolProofs.

Definition same_record (x y : info) : Prop := i_peer y = i_peer x /\ i_version y = i_version x /\ i_caps y = i_caps x.
Lemma upd_nth j f l i x' : nth_error (update j f l) i = Some x' ->
  exists x, nth_error l i = Some x /\ (x' = x \/ (i = j /\ x' = f x)).
Proof.
  rewrite update_nth. destruct (Nat.eqb_spec j i) as [->|].
  - destruct (nth_error l i) as [x|]; [|discriminate]. intro E. injection E as <-. eauto.
  - eauto.
Qed.

(** What a step can do to the records: those that were there are kept, or Run writes to them. *)
Definition filling (s : sys) (i : nat) : Prop := exists a d, y_run s = RuFill a i d.
Definition records_from (s t : sys) : Prop :=
  (List.length (pl_infos (y_pool s)) <= List.length (pl_infos (y_pool t)))%nat /\
  forall i x', nth_error (pl_infos (y_pool t)) i = Some x' ->
    (exists x, nth_error (pl_infos (y_pool s)) i = Some x /\ same_record x x' /\ (filling s i -> y_run t = y_run s) /\ (filling t i -> y_run t = y_run s)) \/
    (x' = fresh_info /\ i = List.length (pl_infos (y_pool s)) /\ y_run t = y_run s) \/
    (exists a d x, nth_error (pl_infos (y_pool s)) i = Some x /\ y_run s = RuUpdate a i d /\ run_step s t /\ y_run t = RuFill a i d /\
       x' = with_conn (List.length (y_watch s)) x) \/
    (exists a d x, nth_error (pl_infos (y_pool s)) i = Some x /\ y_run s = RuFill a i d /\ ~ filling t i /\ x' = with_told d x).

Definition quiet (s t : sys) : Prop := forall i, (filling s i -> y_run t = y_run s) /\ (filling t i -> y_run t = y_run s).
Lemma quiet_same s t : y_run t = y_run s -> quiet s t.
Proof. intros E i. split; intros _; exact E. Qed.
Lemma quiet_not s t : (forall a i d, y_run s <> RuFill a i d) -> (forall a i d, y_run t <> RuFill a i d) -> quiet s t.
Proof. intros A B i. split; intros (a & d & E); [now elim (A a i d)|now elim (B a i d)]. Qed.
Lemma kept_same s t : pl_infos (y_pool t) = pl_infos (y_pool s) -> quiet s t -> records_from s t.
Proof.
  intros E Q. split; [rewrite E; lia|]. rewrite E. intros i x H. left. exists x. split; [exact H|]. split; [repeat split|exact (Q i)].
Qed.
Lemma kept_upd s t j f : pl_infos (y_pool t) = update j f (pl_infos (y_pool s)) -> (forall x, same_record x (f x)) -> quiet s t -> records_from s t.
Proof.
  intros E F Q. split; [rewrite E, update_length; lia|]. rewrite E. intros i x' H. apply upd_nth in H as (x & H & [->|[_ ->]]); left; exists x.
  - split; [exact H|]. split; [repeat split|exact (Q i)].
  - split; [exact H|]. split; [apply F|exact (Q i)].
Qed.

Lemma step_records s t : sys_step s t -> records_from s t.
Proof.
  intros [C St|C St|C St|C St|C St].
  - pose proof St as St'.
    assert (No : forall a d i, y_run s = RuUpdate a i d -> forall j, filling s j -> False) by (intros a d i E j (b & e & K); congruence).
    run_cases St; try (apply kept_same; [reflexivity|apply quiet_not; [rewrite Er; discriminate|discriminate]]);
      try (eapply kept_upd; [reflexivity|solve [intro; repeat split]|apply quiet_not; [rewrite Er; discriminate|discriminate]]).
    + split; [fields; rewrite update_length; lia|]. fields. intros j x' H. rewrite update_nth in H. destruct (Nat.eqb_spec i j) as [<-|Nj].
      * destruct (nth_error (pl_infos (y_pool s)) i) as [x|] eqn:Ex; [|discriminate H]. injection H as <-.
        right; right; left. exists a, d, x. auto.
      * left. exists x'. split; [exact H|]. split; [repeat split|]. split; intro Fl; [elim (No _ _ _ Er _ Fl)|].
        destruct Fl as (b & e & Fl). cbn [go y_run] in Fl. congruence.
    + split; [fields; rewrite update_length; lia|]. fields. intros j x' H. rewrite update_nth in H. destruct (Nat.eqb_spec i j) as [<-|Nj].
      * destruct (nth_error (pl_infos (y_pool s)) i) as [x|] eqn:Ex; [|discriminate H]. injection H as <-.
        right; right; right. exists a, d, x. split; [reflexivity|]. split; [exact Er|]. split; [|reflexivity]. intros (b & e & Fl). discriminate Fl.
      * left. exists x'. split; [exact H|]. split; [repeat split|]. split; intros (b & e & Fl); cbn [go y_run] in Fl; congruence.
  - watch_cases St; try (apply kept_same; [reflexivity|now apply quiet_same]); (eapply kept_upd; [reflexivity|solve [intro; repeat split]|now apply quiet_same]).
  - ban_cases St; try (apply kept_same; [reflexivity|now apply quiet_same]); (eapply kept_upd; [reflexivity|solve [intro; repeat split]|now apply quiet_same]).
  - close_cases St; try (apply kept_same; [reflexivity|now apply quiet_same]); (eapply kept_upd; [reflexivity|solve [intro; repeat split]|now apply quiet_same]).
  - env_cases St; try (apply kept_same; [reflexivity|now apply quiet_same]); try (eapply kept_upd; [reflexivity|solve [intro; repeat split]|now apply quiet_same]).
    unfold records_from. fields. destruct (add_cases r a (y_pool s)) as [->|(_ & _ & _ & ->)]; cbn [pl_infos set_table set_infos].
    + split; [lia|]. intros i x H. left. exists x. split; [exact H|]. repeat split.
    + split; [rewrite app_length; lia|]. intros i x H. destruct (Nat.lt_ge_cases i (List.length (pl_infos (y_pool s)))) as [L|L].
      * left. rewrite nth_error_app1 in H by exact L. exists x. split; [exact H|]. repeat split.
      * right; left. rewrite nth_error_app2 in H by exact L. destruct (i - List.length (pl_infos (y_pool s)))%nat as [|[|k]] eqn:Ek; cbn in H; try congruence.
        split; [congruence|]. split; [lia|reflexivity].
Qed.

(** The table: a step adds only an entry with a new record. *)
Lemma step_table s t : sys_step s t -> forall a i, In (a, i) (pl_table (y_pool t)) ->
  In (a, i) (pl_table (y_pool s)) \/ i = List.length (pl_infos (y_pool s)).
Proof.
  intros [C St|C St|C St|C St|C St] b j; [run_cases St|watch_cases St|ban_cases St|close_cases St|env_cases St]; fields; auto.
  - intro I. apply remove_in in I. left. apply I.
  - destruct (add_cases r a (y_pool s)) as [->|(_ & _ & _ & ->)]; [auto|]. cbn [pl_table set_table set_infos]. intros [E|I]; [|auto]. injection E as <- <-. auto.
Qed.
Lemma step_new s t : sys_step s t -> valid_table (y_pool s) -> forall x y, In (x, List.length (pl_infos (y_pool s))) (pl_table (y_pool t)) ->
  In (y, List.length (pl_infos (y_pool s))) (pl_table (y_pool t)) -> x = y.
Proof.
  intros St Vt. assert (Gone : forall c, In (c, List.length (pl_infos (y_pool s))) (pl_table (y_pool s)) -> False) by (intros c K; specialize (Vt _ _ K); lia).
  intros x0 y0. destruct St as [C St|C St|C St|C St|C St]; [run_cases St|watch_cases St|ban_cases St|close_cases St|env_cases St]; fields;
    try (intros I J; exfalso; eapply Gone; exact I).
  - intros I J. apply remove_in in I. exfalso. eapply Gone. apply I.
  - destruct (add_cases r a (y_pool s)) as [->|(_ & _ & _ & ->)]; cbn [pl_table set_table set_infos]; [intros I; exfalso; eapply Gone; exact I|].
    intros [I|I] [J|J]; try (exfalso; eapply Gone; eassumption). congruence.
Qed.
(** Where Run gets its entry from. *)
Lemma step_entry s t : sys_step s t -> forall a i, run_entry (y_run t) = Some (a, i) ->
  run_entry (y_run s) = Some (a, i) \/ In (a, i) (pl_table (y_pool s)).
Proof.
  intros [C St|C St|C St|C St|C St] b j; [run_cases St|watch_cases St|ban_cases St|close_cases St|env_cases St]; fields; auto; rewrite ?Er;
    cbn [run_entry]; try discriminate; auto.
  intro E. injection E as <- <-. right. now apply lookup_in.
Qed.
Definition dialled_version (r : run_pc) : option N :=
  match r with RuRead _ _ d | RuWrite _ _ d _ | RuUpdate _ _ d | RuFill _ _ d => Some (dl_version d) | _ => None end.
Lemma step_version s t : sys_step s t -> forall v, dialled_version (y_run t) = Some v -> dialled_version (y_run s) = Some v \/ v = 1.
Proof.
  intros [C St|C St|C St|C St|C St] v0; [run_cases St|watch_cases St|ban_cases St|close_cases St|env_cases St]; fields; auto; rewrite ?Er;
    cbn [dialled_version]; try discriminate; auto.
  intro E. injection E as <-. right. exact Vd.
Qed.

Section Reach.
Context (bans : option (list bytes)).

Lemma past_more s t a i c d : connected_before bans s a i c d -> sys_step s t -> connected_before bans t a i c d.
Proof. intros (s1 & s2 & A & B & B' & C & D & E) St. exists s1, s2. repeat (split; [assumption|]). exact (YsMore _ _ _ E St). Qed.

Definition owned a i s : Prop := (i < List.length (pl_infos (y_pool s)))%nat /\ forall b, In (b, i) (pl_table (y_pool s)) -> a = b.
Lemma owned_step a i s t : owned a i s -> sys_step s t -> owned a i t.
Proof.
  intros [L O] St. pose proof (proj1 (step_records s t St)). split; [lia|]. intros b I. apply (step_table s t St) in I as [I|I]; [now apply O|lia].
Qed.
Lemma owned_steps a i s t : owned a i s -> sys_steps s t -> owned a i t.
Proof. intros O R. revert R. apply (sys_ind' (owned a i)); [exact O|]. intros u v. apply owned_step. Qed.

Definition record_inv s : Prop :=
  sys_steps (sys_start bans) s /\
  (forall v, dialled_version (y_run s) = Some v -> v = 1) /\
  (forall a i, In (a, i) (pl_table (y_pool s)) -> owned a i s) /\
  (forall a i, run_entry (y_run s) = Some (a, i) -> owned a i s) /\
  (forall a i d x, y_run s = RuFill a i d -> nth_error (pl_infos (y_pool s)) i = Some x ->
     exists c, connected_before bans s a i c d /\ i_peer x = Some c) /\
  (forall i x, nth_error (pl_infos (y_pool s)) i = Some x ->
     (i_version x = 0 /\ i_caps x = 0 /\ (i_peer x = None \/ filling s i)) \/
     (exists a c d, connected_before bans s a i c d /\ i_version x = 1 /\ i_caps x = dl_caps d /\ (i_peer x = Some c \/ filling s i))).

Lemma record_step s t : record_inv s -> sys_step s t -> record_inv t.
Proof.
  intros (R & V & T & E & Fi & H) St. assert (R' : sys_steps (sys_start bans) t) by exact (YsMore _ _ _ R St). split; [exact R'|].
  split; [|split; [|split; [|split]]].
  - intros v D. apply (step_version s t St) in D as [D| ->]; auto.
  - intros a i I. pose proof I as I'. apply (step_table s t St) in I' as [I'| ->].
    + apply (owned_step a i s t); auto.
    + pose proof (table_reach bans t R') as (_ & _ & Vt). split; [exact (Vt _ _ I)|]. intros b J.
      apply (step_new s t St (proj2 (proj2 (table_reach bans s R))) _ _ I J).
  - intros a i D. apply (step_entry s t St) in D as [D|D]; apply (owned_step a i s t); auto.
  - intros a i d x' Et N. assert (Ft : filling t i) by (exists a, d; exact Et).
    apply (proj2 (step_records s t St)) in N as [(x & N & (P1 & P2 & P3) & Q1 & Q2)|[(-> & Ei & Er)|[(a' & d' & x & N & Er & Rs & Er' & ->)|(a' & d' & x & N & Er & Nf & ->)]]].
    + specialize (Q2 Ft). rewrite Q2 in Et. destruct (Fi a i d x Et N) as (c & K & K'). exists c. split; [exact (past_more s t a i c d K St)|]. now rewrite P1.
    + rewrite Er in Et. destruct (E a i) as (Lt & _); [now rewrite Et|]. lia.
    + assert (a' = a /\ d' = d) as (-> & ->) by (split; congruence). exists (List.length (y_watch s)). split; [|reflexivity].
      exists s, t. repeat (split; [first [assumption|reflexivity]|]). apply YsNone.
    + contradiction.
  - intros i x' N. apply (proj2 (step_records s t St)) in N as [(x & N & (P1 & P2 & P3) & Q1 & Q2)|[(-> & Ei & Er)|[(a & d & x & N & Er & Rs & Er' & ->)|(a & d & x & N & Er & Nf & ->)]]].
    + rewrite P1, P2, P3. assert (Fl : filling s i -> filling t i) by (intros Fs; destruct Fs as (a & d & Fs); exists a, d; rewrite Q1; [exact Fs|now exists a, d]).
      destruct (H i x N) as [(K1 & K2 & K3)|(a & c & d & K & K1 & K2 & K3)].
      * left. split; [exact K1|]. split; [exact K2|]. destruct K3; auto.
      * right. exists a, c, d. split; [exact (past_more s t a i c d K St)|]. split; [exact K1|]. split; [exact K2|]. destruct K3; auto.
    + left. repeat split. now left.
    + assert (Ft : filling t i) by (exists a, d; exact Er'). cbn [i_version i_caps i_peer with_conn].
      destruct (H i x N) as [(K1 & K2 & _)|(a1 & c1 & d1 & K & K1 & K2 & _)]; [left; auto|right].
      exists a1, c1, d1. split; [exact (past_more s t a1 i c1 d1 K St)|]. auto.
    + right. destruct (Fi a i d x Er N) as (c & K & K'). exists a, c, d. split; [exact (past_more s t a i c d K St)|]. cbn [i_version i_caps i_peer with_told].
      split; [apply V; now rewrite Er|]. split; [reflexivity|]. now left.
Qed.
Lemma record_reach s : sys_steps (sys_start bans) s -> record_inv s.
Proof.
  apply (sys_ind' record_inv); [|exact record_step]. split; [apply YsNone|]. split; [discriminate|]. split; [intros a i []|]. split; [discriminate|].
  split; [discriminate|]. intros i x N. destruct i; discriminate N.
Qed.

(** ** The theorems *)
Lemma recorded_from s i x : sys_steps (sys_start bans) s -> nth_error (pl_infos (y_pool s)) i = Some x -> (forall a d, y_run s <> RuFill a i d) ->
  (i_peer x = None /\ i_version x = 0 /\ i_caps x = 0) \/
  (exists a c d, connected_before bans s a i c d /\ i_peer x = Some c /\ i_version x = 1 /\ i_caps x = dl_caps d).
Proof.
  intros R N Nf. apply record_reach in R. assert (Nf' : ~ filling s i) by (intros (a & d & K); now apply (Nf a d)).
  destruct R as (_ & _ & _ & _ & _ & H). destruct (H i x N) as [(K1 & K2 & [K3|K3])|(a & c & d & K & K1 & K2 & [K3|K3])]; try contradiction; [left; auto|right].
  exists a, c, d. auto.
Qed.
Lemma half_recorded s a i d x : sys_steps (sys_start bans) s -> y_run s = RuFill a i d -> nth_error (pl_infos (y_pool s)) i = Some x ->
  (exists c, connected_before bans s a i c d /\ i_peer x = Some c) /\
  ((i_version x = 0 /\ i_caps x = 0) \/
   (exists a' c' d', connected_before bans s a' i c' d' /\ i_version x = 1 /\ i_caps x = dl_caps d')).
Proof.
  intros R E N. apply record_reach in R. destruct R as (_ & _ & _ & _ & Fi & H). split; [exact (Fi a i d x E N)|].
  destruct (H i x N) as [(K1 & K2 & _)|(a1 & c & d1 & K & K1 & K2 & _)]; [left; auto|right]. exists a1, c, d1. auto.
Qed.
Lemma told_from s i x : sys_steps (sys_start bans) s -> nth_error (pl_infos (y_pool s)) i = Some x -> i_caps x = 0 \/
  exists a c d, connected_before bans s a i c d /\ i_caps x = dl_caps d.
Proof.
  intros R N. apply record_reach in R. destruct R as (_ & _ & _ & _ & _ & H).
  destruct (H i x N) as [(K1 & K2 & _)|(a1 & c & d1 & K & K1 & K2 & _)]; [left; auto|right]. exists a1, c, d1. auto.
Qed.

Lemma when_connected s t a i d : sys_steps (sys_start bans) s -> run_step s t -> y_run s = RuUpdate a i d ->
  y_run t = RuFill a i d /\
  exists x, nth_error (pl_infos (y_pool t)) i = Some x /\ i_status x = StConnected /\ i_peer x = Some (List.length (y_watch s)).
Proof.
  intros R St E0. destruct (record_reach s R) as (_ & V & _ & E & _). destruct (E a i) as [L0 _]; [now rewrite E0|].
  destruct (nth_error (pl_infos (y_pool s)) i) as [x|] eqn:N; [|apply nth_error_None in N; lia]. clear V E L0 R.
  destruct St; try congruence. assert (i0 = i /\ d0 = d /\ a0 = a) as (-> & -> & ->) by (repeat split; congruence). split; [reflexivity|].
  exists (with_conn (List.length (y_watch s)) x). split; [|split; reflexivity]. fields. rewrite update_nth, Nat.eqb_refl, N. reflexivity.
Qed.
Lemma when_told s t a i d : sys_steps (sys_start bans) s -> run_step s t -> y_run s = RuFill a i d ->
  y_run t = RuUp a i /\ exists x, nth_error (pl_infos (y_pool t)) i = Some x /\ status_of (y_pool s) i = Some (i_status x) /\
    (exists c, connected_before bans s a i c d /\ i_peer x = Some c) /\
    i_version x = 1 /\ i_height x = 0 /\ i_td x = dl_td d /\ i_caps x = dl_caps d.
Proof.
  intros R St E0. destruct (record_reach s R) as (_ & V & _ & E & Fi & _). destruct (E a i) as [L0 _]; [now rewrite E0|].
  assert (V1 : dl_version d = 1) by (apply V; now rewrite E0).
  destruct (nth_error (pl_infos (y_pool s)) i) as [x|] eqn:N; [|apply nth_error_None in N; lia].
  destruct (Fi a i d x E0 N) as (c & K & K'). clear V E L0 R Fi. 
  destruct St; try congruence. assert (i0 = i /\ d0 = d /\ a0 = a) as (-> & -> & ->) by (repeat split; congruence). split; [reflexivity|].
  exists (with_told d x). split; [fields; rewrite update_nth, Nat.eqb_refl, N; reflexivity|]. split; [unfold status_of; now rewrite N|].
  split; [exists c; split; [exact K|exact K']|]. repeat split. exact V1.
Qed.

Lemma handed_out s resolve caps order n : sys_steps (sys_start bans) s -> Permutation order (pl_table (y_pool s)) -> caps <> 0 ->
  In n (pool_peers resolve caps order (y_pool s)) ->
  exists a i c d, connected_before bans s a i c d /\ resolve a = Some n /\ In (a, i) (pl_table (y_pool s)) /\
    (forall k, N.testbit caps k = true -> N.testbit (dl_caps d) k = true).
Proof.
  intros R Pm C I. pose proof (table_reach bans s R) as (_ & _ & V).
  destruct (peers_ok resolve caps order (y_pool s) V Pm) as (_ & P & _). destruct (P n I) as (a & i & x & J & N & (_ & _ & El) & Rs).
  destruct (told_from s i x R N) as [Z|(a' & c & d & K & Cd)].
  - exfalso. apply C. apply N.bits_inj_0. intro k. specialize (El k). rewrite Z, N.bits_0 in El. destruct (N.testbit caps k); [now discriminate El|reflexivity].
  - assert (a' = a); [|subst a'].
    { destruct K as (s1 & s2 & R1 & Er & _ & S1 & _ & R2). assert (O : owned a' i s1) by (apply (record_reach s1 R1); now rewrite Er).
      apply (owned_step _ _ _ _ O) in S1. apply (owned_steps _ _ _ _ S1) in R2. now apply R2. }
    exists a, i, c, d. split; [exact K|]. split; [exact Rs|]. split; [exact J|]. rewrite <- Cd. exact El.
Qed.
End Reach.

(** ** No connection of the right version is dropped *)
Definition watched (ws : list watch) (k : nat) (a : bytes) (i : nat) : Prop :=
  exists w, nth_error ws k = Some w /\ wt_addr w = a /\ wt_info w = i.
Lemma watched_mid pre a0 i0 pc pc' post k a i : watched (pre ++ Watch a0 i0 pc :: post) k a i -> watched (pre ++ Watch a0 i0 pc' :: post) k a i.
Proof.
  intros (w & N & A & I). unfold watched. destruct (Nat.lt_ge_cases k (List.length pre)) as [L|L].
  - rewrite nth_error_app1 in * by exact L. eauto.
  - rewrite nth_error_app2 in * by exact L. destruct (k - List.length pre)%nat; [|eauto]. cbn in *. injection N as <-. eauto.
Qed.
Lemma watched_more ws l k a i : watched ws k a i -> watched (ws ++ l) k a i.
Proof. intros (w & N & H). exists w. split; [|exact H]. rewrite nth_error_app1; [exact N|]. apply nth_error_Some. congruence. Qed.
Definition kept n a i d s : Prop := (taking_on a i d (y_run s) /\ List.length (y_watch s) = n) \/ watched (y_watch s) n a i.
Lemma kept_step nw ad ix dd s t : dl_version dd = 1 -> kept nw ad ix dd s -> sys_step s t -> kept nw ad ix dd t.
Proof.
  intros V H [C St|C St|C St|C St|C St].
  - destruct H as [(T & Ln)|W].
    + unfold taking_on in T. run_cases St; rewrite Er in T;
        destruct T as [T|[T|[(v1 & T)|[T|[T|[T|[T|T]]]]]]]; try discriminate T; injection T; intros; subst; unfold kept, taking_on; fields;
        try (elim Vd; exact V); try (left; split; [|reflexivity]; eauto 10).
      right. exists (Watch ad ix WtWait). split; [|split; reflexivity]. rewrite nth_error_app2 by apply le_n. now rewrite Nat.sub_diag.
    + right. run_cases St; fields; auto. now apply watched_more.
  - watch_cases St; unfold kept in *; fields; rewrite E in H; (destruct H as [(T & Ln)|W];
      [left; split; [exact T|]; rewrite app_length in *; exact Ln|right; exact (watched_mid _ _ _ _ _ _ _ _ _ W)]).
  - ban_cases St; exact H.
  - close_cases St; exact H.
  - env_cases St; exact H.
Qed.
Lemma taken_on s t a i d : y_run s = RuVersion a i d -> dl_version d = 1 -> sys_steps s t ->
  (taking_on a i d (y_run t) /\ List.length (y_watch t) = List.length (y_watch s)) \/
  exists w, nth_error (y_watch t) (List.length (y_watch s)) = Some w /\ wt_addr w = a /\ wt_info w = i.
Proof.
  intros E V R. apply (sys_ind' (kept (List.length (y_watch s)) a i d) s); [left; split; [left; exact E|reflexivity]| |exact R].
  intros u v K St. exact (kept_step _ _ _ _ u v V K St).
Qed.
