(** Proofs for C127: each step of Pool.v. *)
From Verif Require Import Pool SpecPool PoolProofs.
From Verif Require Import Race SpecAccess AccessProofs.
Local Open Scope nat_scope.

Lemma uniq (h : list (lock * nat)) k g g' : NoDup (map fst h) -> In (k, g) h -> In (k, g') h -> g = g'.
Proof.
  intros Nd I I'. destruct (held_split h k g Nd I) as (pre & post & -> & _ & Nk). apply in_mid in I'. destruct I' as [E|I']; [congruence|].
  elim Nk. apply in_map_iff. now exists (k, g').
Qed.
Lemma held_pt_take p r r' cj h : held_ok p r cj h -> scanning r = false -> scanning r' = true -> run_lock r = None -> run_lock r' = None ->
  held_ok p r' cj ((Ptmu, 0) :: h).
Proof.
  intros He Sc Sc' Rl Rl'. pose proof (held_free_pt p r cj h He Sc) as Fr. destruct He as (Nd & O & L). split; [constructor; assumption|]. split.
  - intros k g. cbn [In]. rewrite O. unfold owns. rewrite Rl, Rl', Sc, Sc'. destruct k as [| | |i]; split.
    + intros [E|(_ & E)]; [injection E as <-; auto|discriminate].
    + intros (-> & _). now left.
    + intros [E|E]; [discriminate|exact E].
    + auto.
    + intros [E|E]; [discriminate|exact E].
    + auto.
    + intros [E|E]; [discriminate|exact E].
    + auto.
  - intro i. rewrite L. cbn [In]. split; intros (g & I); exists g; [now right|destruct I as [I|I]; [discriminate|exact I]].
Qed.
Lemma held_pt_give p r cj h : held_ok p r cj h -> scanning r = true -> exists pre post, h = pre ++ (Ptmu, 0) :: post /\
  forall r', scanning r' = false -> run_lock r' = None -> held_ok p r' cj (pre ++ post).
Proof.
  intros He Sc. pose proof He as (Nd & O & L). assert (I : In (Ptmu, 0) h) by (apply O; split; auto).
  destruct (in_split _ _ I) as (pre & post & ->). exists pre, post. split; [reflexivity|]. intros r' Sc' Rl'.
  apply (held_give p p r r' cj cj pre post Ptmu 0 He).
  - intros k g. unfold owns. rewrite Sc', Rl'. destruct k as [| | |i].
    + split; [intros (_ & Q); discriminate|intros (Q & _); now elim Q].
    + split; [tauto|tauto].
    + tauto.
    + assert (R0 : run_lock r = None) by (destruct r; try discriminate; reflexivity). rewrite R0. split; [intro Q; split; [discriminate|exact Q]|now intros (_ & Q)].
  - intro j. split; [intro Q; split; [discriminate|exact Q]|now intros (_ & Q)].
Qed.
Lemma held_main_take p q r r' cj h i : held_ok p r cj h -> unlocked p i -> scanning r = false -> scanning r' = false -> run_lock r = None -> run_lock r' = Some i ->
  (forall j, locked q j <-> j = i \/ locked p j) -> held_ok q r' cj ((Mu i, 0) :: h).
Proof.
  intros He U Sc Sc' Rl Rl' Lk. apply (held_take p q r r' cj cj h i 0 He (held_free_mu _ _ _ _ _ He U)); [|exact Lk].
  intros k g. unfold owns. rewrite Sc, Sc', Rl, Rl'. destruct k as [| | |j].
  - split; [intros (_ & Q); discriminate|intros [(Q & _)|(_ & Q)]; discriminate].
  - split; [tauto|intros [(Q & _)|Q]; [discriminate|exact Q]].
  - split; [tauto|intros [(Q & _)|Q]; [discriminate|exact Q]].
  - split.
    + intros [(-> & Q)|Q]; [injection Q as <-; now left|right; now right].
    + intros [(Q & ->)|[(_ & Q)|Q]]; [injection Q as ->; now left|discriminate|now right].
Qed.
Lemma held_main_give p r cj h i : held_ok p r cj h -> run_lock r = Some i -> (forall b, ~ In (b, 0) cj) -> exists pre post, h = pre ++ (Mu i, 0) :: post /\
  forall q r', scanning r' = false -> run_lock r' = None -> (forall j, locked q j <-> Mu j <> Mu i /\ locked p j) -> held_ok q r' cj (pre ++ post).
Proof.
  intros He Rl Z. pose proof He as (Nd & O & L). assert (I : In (Mu i, 0) h) by (apply O; left; auto).
  assert (Un : forall g, In (Mu i, g) h -> g = 0) by (intros g I'; exact (uniq h (Mu i) g 0 Nd I' I)).
  destruct (in_split _ _ I) as (pre & post & E). exists pre, post. split; [exact E|]. intros q r' Sc' Rl' Lk. rewrite E in He.
  apply (held_give p q r r' cj cj pre post (Mu i) 0 He); [|exact Lk].
  assert (Sc : scanning r = false) by (destruct r; try discriminate; reflexivity).
  intros k g. unfold owns. rewrite Sc', Rl', Rl, Sc. destruct k as [| | |j].
  - split; [intros (_ & Q); discriminate|intros (_ & _ & Q); discriminate].
  - tauto.
  - tauto.
  - split.
    + intros [(_ & Q)|(b & Ib & Q)]; [discriminate|]. split; [|right; now exists b]. intros [= ->].
      assert (g = 0) by (apply Un, O; right; now exists b). subst g. exact (Z b Ib).
    + intros (Ne & [(_ & Q)|Q]); [congruence|now right].
Qed.
Lemma closers_not_main s D h bj cj uj : corr s D h bj cj uj -> forall b, ~ In (b, 0) cj.
Proof. intros C b I. destruct (c_close _ _ _ _ _ _ C b 0 I) as (i & p & N & _). destruct (c_main _ _ _ _ _ _ C) as (q & N' & _). congruence. Qed.

Lemma changed_connected p v x : changed p (set_connected p v) x -> x = LConnected.
Proof. intro H. destruct x as [| | | |i f]; try reflexivity; try (cbn in H; congruence). now apply changed_infos in H; [destruct H as [H|[H|[H|H]]]; discriminate|]. Qed.
Lemma changed_up p v x : changed p (set_up p v) x -> x = LUp.
Proof. intro H. destruct x as [| | | |i f]; try reflexivity; try (cbn in H; congruence). now apply changed_infos in H; [destruct H as [H|[H|[H|H]]]; discriminate|]. Qed.
Lemma changed_table p v x : changed p (set_table p v) x -> x = LTable.
Proof. intro H. destruct x as [| | | |i f]; try reflexivity; try (cbn in H; congruence). now apply changed_infos in H; [destruct H as [H|[H|[H|H]]]; discriminate|]. Qed.
Lemma changed_banned p v x : changed p (set_banned p v) x -> x = LBans.
Proof. intro H. destruct x as [| | | |i f]; try reflexivity; try (cbn in H; congruence). now apply changed_infos in H; [destruct H as [H|[H|[H|H]]]; discriminate|]. Qed.
Lemma changed_slots p n x : ~ changed p (set_slots p n) x.
Proof. apply changed_eq; reflexivity. Qed.

Ltac lr := repeat first [apply LrNil | apply LrGo
  | apply LrPlain; [first [left; eexists; left; reflexivity | left; eexists; right; reflexivity | right; eexists; reflexivity]|]
  | apply LrAcq; [assumption|] | apply (LrRel _ _ _ []) ].
Ltac chg C := first
  [ exfalso; exact (changed_same _ _ C) | exfalso; exact (changed_slots _ _ _ C)
  | apply changed_connected in C; subst; cbn; auto 20
  | apply changed_up in C; subst; cbn; auto 20
  | apply changed_table in C; subst; cbn; auto 20
  | apply changed_banned in C; subst; cbn; auto 20
  | apply changed_add in C; subst; cbn; auto 20
  | let fl := fresh in let y := fresh in let Df := fresh in
    apply changed_upd in C; destruct C as (fl & y & -> & Df); destruct fl; cbn in Df; first [exfalso; congruence | cbn; auto 20] ].
Ltac cov := split; [let x := fresh in let Cx := fresh in intros x Cx; cbn [go leak set_pool set_watch set_ban set_close stop down y_pool] in Cx; chg Cx|];
  split; [cbn; first [congruence | auto 20]|]; split; [cbn; congruence|let Q := fresh in intros [Q|Q]; exfalso; apply Q; first [reflexivity | match goal with E : _ = _ ++ _ :: _ |- _ => cbn; rewrite E, !app_length; reflexivity end]].
Lemma tail_ext b s0 tl tl' l : tl' = tl ++ l -> (b ++ [Sync CPool] ++ s0 ++ tl) ++ l = b ++ [Sync CPool] ++ s0 ++ tl'.
Proof. intros ->. now rewrite <- !app_assoc. Qed.
Lemma in_snoc {A} (l : list A) x : In x (l ++ [x]).
Proof. apply in_or_app. right. now left. Qed.
Ltac hand := intros [Qh|(ah & ih & [Qh|Qh])]; cbn in Qh; [left; left; exact Qh|try discriminate|try discriminate].

Lemma entry1 es i : Forall entry_acts es -> Forall entry_acts (es ++ [[Rd LTable; Rd (LField i FStatus)]]).
Proof. intro F. apply Forall_app. split; [exact F|]. constructor; [apply EntryStatus|constructor]. Qed.

(** RnWatch: a goroutine starts to wait. *)
Lemma start_watch s D tr h bj cj uj p a i : corr s D h bj cj uj -> sound D tr h -> nth_error D 0 = Some (Main, p) ->
  y_run s = RuWatch a i -> run_done (List.length (y_watch s)) (RuWatch a i) p ->
  stepped s (go (set_watch s (y_pool s) (y_watch s ++ [Watch a i WtWait])) (upd (y_pool s) i (with_lock false)) RuSelect) D tr uj.
Proof.
  intros C Sd Np Er (b & B & sc & Sc & ->). pose proof (c_held _ _ _ _ _ _ C) as He. rewrite Er in He.
  destruct (held_main_give _ _ _ _ i He eq_refl (closers_not_main _ _ _ _ _ _ C)) as (pre & post & -> & Hg).
  set (c := List.length (y_watch s)) in *. set (l := [Go (Watcher i c); Rel (Mu i)]).
  assert (L : lockrun 0 l (pre ++ (Mu i, 0) :: post) (pre ++ post)) by (apply LrGo, LrRel, LrNil).
  set (p := b ++ [Sync CPool] ++ sc ++ run_tail c (RuWatch a i)) in *.
  destruct (perform 0 Main l p _ _ D tr Np L Sd) as (ev & S' & E).
  assert (Rd : run_done (List.length (y_watch s ++ [Watch a i WtWait])) RuSelect (p ++ l)).
  { eexists. split; [|reflexivity]. unfold p. rewrite (tail_ext _ _ _ _ _ eq_refl). apply base_round; [exact B|].
    apply RoundKept; [exact Sc|]. exact (ConDone i c). }
  exists ev, (after D 0 Main p l (forks l)), (pre ++ post), bj, cj, uj. split; [|split; [exact S'|split; [|lia]]].
  - destruct C as [Cm Cw Cr Cb Cbe Cc Cce Ci Cd Cd2 Ch Ce]. constructor; try assumption; try congruence.
    + exists (p ++ l). split; [exact (after_self D 0 Main p l _ Np)|exact Rd].
    + cbn [go set_watch y_watch]. intros k w K. destruct (Nat.lt_ge_cases k c) as [Lt|Ge].
      * rewrite nth_error_app1 in K by exact Lt. exact (watch_keep D 0 Main p l _ Np _ ltac:(discriminate) Cw k w K).
      * rewrite nth_error_app2 in K by exact Ge. change (List.length (y_watch s)) with c in K. destruct (k - c) as [|m] eqn:Em; [|destruct m; discriminate].
        cbn in K. injection K as <-. replace k with c by lia. exists (List.length D + 0), []. split; [|reflexivity].
        exact (after_new D 0 Main p l (forks l) 0 _ eq_refl).
    + intros _. apply (read_keep D 0 Main p l _ Np ltac:(discriminate)). apply Cr. right. eauto.
    + exact (bans_keep D 0 Main p l _ Np _ ltac:(discriminate) Cb).
    + exact (close_keep D 0 Main p l _ Np _ ltac:(discriminate) Cc).
    + exact (idle_keep D 0 Main p l _ Np _ ltac:(discriminate) Ci).
    + apply Hg; try reflexivity. intro j. now apply locked_give.
    + apply (ends_keep D 0 Main p l _ Np); [|apply forks_fresh|exact Ce]. exact (run_ends _ _ _ Rd).
  - apply (events_cover 0 l); [exact E|reflexivity|]. split; [intros x Cx; cbn [go set_watch y_pool] in Cx; chg Cx|].
    split; [cbn; congruence|]. split; [cbn; congruence|]. intros _. eexists. left. reflexivity.
Qed.

(** RnQuit: the closing goroutines start. *)
Fixpoint number (n : nat) (is : list nat) : list (close_pc * nat) :=
  match is with [] => [] | i :: is => (ClLock i, n) :: number (S n) is end.
Lemma number_fst n is : map fst (number n is) = map ClLock is.
Proof. revert n. induction is as [|i is IH]; intro n; cbn; [reflexivity|]. now rewrite IH. Qed.
Lemma number_in n is b j : In (b, j) (number n is) -> exists k i, nth_error is k = Some i /\ b = ClLock i /\ j = n + k.
Proof.
  revert n. induction is as [|i is IH]; intros n; cbn; [tauto|]. intros [[= <- <-]|I]; [exists 0, i; auto|].
  destruct (IH (S n) I) as (k & i' & K & -> & ->). exists (S k), i'. split; [exact K|]. split; [reflexivity|lia].
Qed.
Lemma number_ge n is j : In j (map snd (number n is)) -> n <= j.
Proof. intro I. apply in_map_iff in I. destruct I as ((b, j') & <- & I). apply number_in in I. destruct I as (k & i & _ & _ & ->). cbn. lia. Qed.
Lemma number_nodup n is : NoDup (map snd (number n is)).
Proof. revert n. induction is as [|i is IH]; intro n; cbn; constructor; [|apply IH]. intro I. apply number_ge in I. lia. Qed.
Lemma lockrun_gos t rs l h h' : lockrun t l h h' -> lockrun t (map Go rs ++ l) h h'.
Proof. intro L. induction rs as [|r rs IH]; cbn; [exact L|]. now apply LrGo. Qed.
Lemma forks_gos rs : forks (map Go rs) = map (fun r => (r, [])) rs.
Proof. unfold forks. induction rs as [|r rs IH]; cbn; [reflexivity|]. now rewrite IH. Qed.
Lemma forks_app l m : forks (l ++ m) = forks l ++ forks m.
Proof. unfold forks. now rewrite flat_map_app. Qed.
Lemma NoDup_app_intro {A} (l m : list A) : NoDup l -> NoDup m -> (forall x, In x l -> ~ In x m) -> NoDup (l ++ m).
Proof.
  intros Nl Nm H. induction Nl as [|x l Nx Nl IH]; cbn; [exact Nm|]. constructor.
  - intro I. apply in_app_or in I. destruct I as [I|I]; [contradiction|]. exact (H x (or_introl eq_refl) I).
  - apply IH. intros y I. apply H. now right.
Qed.
Lemma start_close s D tr h bj cj uj p : corr s D h bj cj uj -> sound D tr h -> nth_error D 0 = Some (Main, p) ->
  y_run s = RuSelect -> run_done (List.length (y_watch s)) RuSelect p -> 
  stepped s (Sys (y_pool s) (y_quits s) RuStopped (y_watch s) (y_bans s)
               (y_close s ++ map (fun kv => ClLock (snd kv)) (pl_table (y_pool s))) (y_leaked s) (y_crash s)) D tr uj.
Proof.
  intros C Sd Np Er (b & B & ->). pose proof (c_held _ _ _ _ _ _ C) as He. rewrite Er in He.
  set (is := map snd (pl_table (y_pool s))). set (l := stopped_acts is).
  pose proof (held_free_pt _ _ _ _ He eq_refl) as Fp.
  assert (L : lockrun 0 l h h).
  { unfold l, stopped_acts. cbn [app]. apply LrPlain; [right; eexists; reflexivity|]. apply LrAcq; [exact Fp|].
    apply LrPlain; [left; eexists; left; reflexivity|]. rewrite <- map_map. apply lockrun_gos. apply (LrRel _ _ _ []). apply LrNil. }
  assert (Fk : forks l = map (fun i => (Closer i, [])) is).
  { unfold l, stopped_acts. rewrite !forks_app. cbn [forks flat_map app]. rewrite app_nil_r, <- map_map.
    change (forks (map Go (map Closer is)) = map (fun i => (Closer i, [])) is). rewrite forks_gos, map_map. reflexivity. }
  destruct (perform 0 Main l b _ _ D tr Np L Sd) as (ev & S' & E).
  assert (Rd : run_done (List.length (y_watch s)) RuStopped (b ++ l)) by (exists b; split; [exact B|now exists is]).
  assert (Lt : forall bb j, In (bb, j) cj -> j < List.length D).
  { intros bb j I. destruct (c_close _ _ _ _ _ _ C bb j I) as (i & q & N & _). exact (nth_some_lt _ _ _ N). }
  exists ev, (after D 0 Main b l (forks l)), h, bj, (cj ++ number (List.length D) is), uj. split; [|split; [exact S'|split; [|lia]]].
  - destruct C as [Cm Cw Cr Cb Cbe Cc Cce Ci Cd Cd2 Ch Ce]. constructor; try assumption; try congruence.
    + exists (b ++ l). split; [exact (after_self D 0 Main b l _ Np)|exact Rd].
    + exact (watch_keep D 0 Main b l _ Np _ ltac:(discriminate) Cw).
    + intros [Q|(a & i & [Q|Q])]; cbn in Q; [|discriminate|discriminate].
      apply (read_keep D 0 Main b l _ Np ltac:(discriminate)). apply Cr. left. exact Q.
    + exact (bans_keep D 0 Main b l _ Np _ ltac:(discriminate) Cb).
    + intros b0 j I. apply in_app_or in I. destruct I as [I|I]; [exact (close_keep D 0 Main b l _ Np _ ltac:(discriminate) Cc b0 j I)|].
      apply number_in in I. destruct I as (k & i & K & -> & ->). exists i, []. split; [|split; reflexivity].
      apply (after_new D 0 Main b l). rewrite Fk. now rewrite nth_error_map, K.
    + cbn [y_close]. rewrite map_app, number_fst, Cce. unfold is. now rewrite map_map.
    + exact (idle_keep D 0 Main b l _ Np _ ltac:(discriminate) Ci).
    + rewrite map_app. apply NoDup_app_intro; [exact Cd2|apply number_nodup|]. intros j I I'. apply number_ge in I'.
      apply in_map_iff in I. destruct I as ((b0, j') & <- & I). specialize (Lt b0 j' I). cbn in I'. unfold task in *. lia.
    + cbn [y_pool y_run]. destruct He as (Nd & O & Lk). split; [exact Nd|]. split; [|exact Lk]. intros k g. rewrite O. unfold owns.
      destruct k as [| | |i]; cbn [scanning run_lock]; try reflexivity. split.
      * intros [(_ & Q)|(b0 & I & Q)]; [discriminate|]. right. exists b0. split; [apply in_or_app; now left|exact Q].
      * intros [(_ & Q)|(b0 & I & Q)]; [discriminate|]. right. exists b0. split; [|exact Q]. apply in_app_or in I. destruct I as [I|I]; [exact I|].
        apply number_in in I. destruct I as (k & i' & _ & -> & _). discriminate.
    + apply (ends_keep D 0 Main b l _ Np); [|apply forks_fresh|exact Ce]. exact (run_ends _ _ _ Rd).
  - apply (events_cover 0 l); [exact E|reflexivity|]. split; [intros x Cx; cbn [y_pool] in Cx; chg Cx|].
    split; [cbn; congruence|]. split; [cbn; congruence|]. cbn [y_watch y_close]. rewrite app_length, map_length. intros [Q|Q]; [now elim Q|].
    destruct (pl_table (y_pool s)) as [|(a0, i0) tb]; [cbn in Q; lia|]. exists (Closer i0). unfold l, stopped_acts, is. cbn. auto 10.
Qed.

Lemma run_simulated s0 t0 D tr h bj cj uj : corr s0 D h bj cj uj -> sound D tr h -> run_step s0 t0 -> stepped s0 t0 D tr uj.
Proof.
  intros C Sd St. pose proof (c_main _ _ _ _ _ _ C) as (p & Np & (b & B & H)). pose proof (c_held _ _ _ _ _ _ C) as He.
  pose proof (closers_not_main _ _ _ _ _ _ C) as Z. pose proof (held_free_cp _ _ _ _ He) as Fc.
  run_cases St; rewrite Er in H, He; cbn [run_tail] in H.
  - apply (start_close s D tr h bj cj uj p C Sd Np Er). now exists b.
  - subst p. apply (main_go s _ D tr h h bj cj uj b [Sync CPool] C Sd Np); try reflexivity.
    + lr.
    + cov.
    + exists b. split; [exact B|reflexivity].
    + hand.
    + apply (held_same _ _ _ RuPick cj h He); try reflexivity.
  - subst p. pose proof (held_free_pt _ _ _ _ He eq_refl) as Fp.
    apply (main_go s _ D tr h ((Ptmu, 0) :: h) bj cj uj _ [Acq Ptmu; Rd LTable] C Sd Np); try reflexivity.
    + lr.
    + cov.
    + exists b. split; [exact B|]. exists []. split; [constructor|]. now rewrite <- app_assoc.
    + hand.
    + apply (held_pt_take _ RuPick (RuScan false o) cj h He); reflexivity.
  - destruct H as (es & Fe & ->). destruct (held_pt_give _ _ _ _ He eq_refl) as (pre & post & -> & Hg).
    apply (main_go s _ D tr _ (pre ++ post) bj cj uj _ [Rd LTable; Rd (LField i FStatus); Rel Ptmu] C Sd Np); try reflexivity.
    + apply LrPlain; [left; eexists; left; reflexivity|]. apply LrPlain; [left; eexists; left; reflexivity|]. apply LrRel. apply LrNil.
    + cov.
    + exists b. split; [exact B|]. exists ([Acq Ptmu; Rd LTable] ++ concat (es ++ [[Rd LTable; Rd (LField i FStatus)]]) ++ [Rel Ptmu]).
      split; [apply Scan; now apply entry1|]. rewrite concat_app. cbn [concat run_tail]. rewrite app_nil_r, <- !app_assoc. reflexivity.
    + hand.
    + now apply Hg.
  - destruct H as (es & Fe & ->).
    apply (main_go s _ D tr h h bj cj uj _ [Rd LTable; Rd (LField i FStatus)] C Sd Np); try reflexivity.
    + lr.
    + cov.
    + exists b. split; [exact B|]. exists (es ++ [[Rd LTable; Rd (LField i FStatus)]]). split; [now apply entry1|].
      rewrite concat_app. cbn [concat]. rewrite app_nil_r, <- !app_assoc. reflexivity.
    + hand.
    + apply (held_same _ _ _ (RuScan sec l) cj h He); reflexivity.
  - destruct H as (es & Fe & ->).
    apply (main_go s _ D tr h h bj cj uj _ [] C Sd Np); try reflexivity.
    + lr.
    + cov.
    + exists b. split; [exact B|]. exists es. split; [exact Fe|]. now rewrite app_nil_r.
    + hand.
    + apply (held_same _ _ _ (RuScan true o) cj h He); reflexivity.
  - destruct H as (es & Fe & ->). destruct (held_pt_give _ _ _ _ He eq_refl) as (pre & post & -> & Hg).
    apply (main_go s _ D tr _ (pre ++ post) bj cj uj _ [Rel Ptmu] C Sd Np); try reflexivity.
    + apply LrRel. apply LrNil.
    + cov.
    + exists b. split; [exact B|]. exists ([Acq Ptmu; Rd LTable] ++ concat es ++ [Rel Ptmu]).
      split; [apply Scan; exact Fe|]. cbn [run_tail]. rewrite app_nil_r, <- !app_assoc. reflexivity.
    + hand.
    + now apply Hg.
  - destruct H as (sc & Sc & ->).
    apply (main_go s _ D tr h h bj cj uj _ [] C Sd Np); try reflexivity.
    + lr.
    + cov.
    + rewrite app_nil_r. eexists. split; [|reflexivity]. apply base_round; [exact B|]. apply RoundKept; [exact Sc|apply ConEmpty].
    + hand.
    + apply (held_same _ _ _ RuSelect cj h He); reflexivity.
  - destruct H as (sc & Sc & ->).
    apply (main_go s _ D tr h h bj cj uj _ [Rd LConnected] C Sd Np); try reflexivity.
    + lr.
    + cov.
    + exists b. split; [exact B|]. exists sc, [Rd LConnected]. split; [exact Sc|]. split; [apply ConTooMany|]. now apply tail_ext.
    + hand.
    + apply (held_same _ _ _ RuFail cj h He); reflexivity.
  - destruct H as (sc & Sc & ->).
    apply (main_go s _ D tr h h bj cj uj _ [Rd LConnected] C Sd Np); try reflexivity.
    + lr.
    + cov.
    + exists b. split; [exact B|]. exists sc. split; [exact Sc|]. now apply tail_ext.
    + hand.
    + apply (held_same _ _ _ (RuLookup a) cj h He); reflexivity.
  - destruct H as (sc & Sc & ->). pose proof (held_free_pt _ _ _ _ He eq_refl) as Fp.
    apply (main_go s _ D tr h h bj cj uj _ look C Sd Np); try reflexivity.
    + lr.
    + cov.
    + exists b. split; [exact B|]. exists sc, ([Rd LConnected] ++ look). split; [exact Sc|]. split; [apply ConMissing|]. now apply tail_ext.
    + hand.
    + apply (held_same _ _ _ RuFail cj h He); reflexivity.
  - destruct H as (sc & Sc & ->). pose proof (held_free_pt _ _ _ _ He eq_refl) as Fp.
    apply (main_go s _ D tr h h bj cj uj _ look C Sd Np); try reflexivity.
    + lr.
    + cov.
    + exists b. split; [exact B|]. exists sc. split; [exact Sc|]. now apply tail_ext.
    + hand.
    + apply (held_same _ _ _ (RuLock a i) cj h He); reflexivity.
  - destruct H as (sc & Sc & ->). pose proof (held_free_mu _ _ _ _ _ He U) as Fm.
    apply (main_go s _ D tr h ((Mu i, 0) :: h) bj cj uj _ [Acq (Mu i)] C Sd Np); try reflexivity.
    + lr.
    + cov.
    + exists b. split; [exact B|]. exists sc. split; [exact Sc|]. now apply tail_ext.
    + hand.
    + apply (held_main_take (y_pool s) _ (RuLock a i) (RuCheck a i) cj h i He U); try reflexivity. intro j. apply locked_take; [exact U|reflexivity].
  - destruct H as (sc & Sc & ->). destruct (held_main_give _ _ _ _ i He eq_refl Z) as (pre & post & -> & Hg).
    apply (main_go s _ D tr _ (pre ++ post) bj cj uj _ [Rd (LField i FStatus); Rel (Mu i)] C Sd Np); try reflexivity.
    + apply LrPlain; [left; eexists; left; reflexivity|]. apply LrRel. apply LrNil.
    + cov.
    + eexists. split; [|reflexivity]. rewrite (tail_ext _ _ _ _ _ eq_refl). apply base_round; [exact B|]. apply RoundKept; [exact Sc|apply (ConBanned i)].
    + hand.
    + apply Hg; try reflexivity. intro j. now apply locked_give.
  - destruct H as (sc & Sc & ->).
    apply (main_go s _ D tr h h bj cj uj _ [Rd (LField i FStatus); Rd (LField i FStatus)] C Sd Np); try reflexivity.
    + lr.
    + cov.
    + exists b. split; [exact B|]. exists sc. split; [exact Sc|]. now apply tail_ext.
    + hand.
    + apply (held_same _ _ _ (RuDial a i) cj h He); reflexivity.
  - destruct H as (sc & Sc & ->). destruct (held_main_give _ _ _ _ i He eq_refl Z) as (pre & post & -> & Hg).
    apply (main_go s _ D tr _ (pre ++ post) bj cj uj _ [Wr (LField i FStatus); Rel (Mu i)] C Sd Np); try reflexivity.
    + apply LrPlain; [left; eexists; right; reflexivity|]. apply LrRel. apply LrNil.
    + cov.
    + exists b. split; [exact B|]. exists sc. eexists. split; [exact Sc|]. split; [apply (ConFailed i)|]. now apply tail_ext.
    + hand.
    + apply Hg; try reflexivity. intro j. now apply locked_give.
  - destruct H as (sc & Sc & ->).
    apply (main_go s _ D tr h h bj cj uj _ [] C Sd Np); try reflexivity.
    + lr.
    + cov.
    + exists b. split; [exact B|]. exists sc. split; [exact Sc|]. now apply tail_ext.
    + hand.
    + apply (held_same _ _ _ (RuVersion a i d) cj h He); reflexivity.
  - destruct H as (sc & Sc & ->). destruct (held_main_give _ _ _ _ i He eq_refl Z) as (pre & post & -> & Hg).
    apply (main_go s _ D tr _ (pre ++ post) bj cj uj _ [Rel (Mu i)] C Sd Np); try reflexivity.
    + apply LrRel. apply LrNil.
    + cov.
    + exists b. split; [exact B|]. exists sc. eexists. split; [exact Sc|]. split; [apply (ConRefused i)|]. now apply tail_ext.
    + hand.
    + apply Hg; try reflexivity. intro j. now apply locked_give.
  - destruct H as (sc & Sc & ->).
    apply (main_go s _ D tr h h bj cj uj _ [] C Sd Np); try reflexivity.
    + lr.
    + cov.
    + exists b. split; [exact B|]. exists sc. split; [exact Sc|]. now apply tail_ext.
    + hand.
    + apply (held_same _ _ _ (RuRead a i d) cj h He); reflexivity.
  - destruct H as (sc & Sc & ->).
    apply (main_go s _ D tr h h bj cj uj _ [Rd LConnected] C Sd Np); try reflexivity.
    + lr.
    + cov.
    + exists b. split; [exact B|]. exists sc. split; [exact Sc|]. now apply tail_ext.
    + hand.
    + apply (held_same _ _ _ (RuWrite a i d (pl_connected (y_pool s))) cj h He); reflexivity.
  - destruct H as (sc & Sc & ->).
    apply (main_go s _ D tr h h bj cj uj _ [Wr LConnected] C Sd Np); try reflexivity.
    + lr.
    + cov.
    + exists b. split; [exact B|]. exists sc. split; [exact Sc|]. now apply tail_ext.
    + hand.
    + apply (held_same _ _ _ (RuUpdate a i d) cj h He); reflexivity.
  - destruct H as (sc & Sc & ->).
    apply (main_go s _ D tr h h bj cj uj _ [Wr (LField i FPeer); Wr (LField i FStatus); Wr (LField i FLastConn)] C Sd Np); try reflexivity.
    + lr.
    + cov.
    + exists b. split; [exact B|]. exists sc. split; [exact Sc|]. now apply tail_ext.
    + hand.
    + apply (held_same (y_pool s) _ _ (RuFill a i d) cj h He); try reflexivity. intro j. now apply locked_upd.
  - destruct H as (sc & Sc & ->).
    apply (main_go s _ D tr h h bj cj uj _ [Wr (LField i FVersion); Wr (LField i FHeight); Wr (LField i FDifficulty); Wr (LField i FCaps)] C Sd Np); try reflexivity.
    + lr.
    + cov.
    + exists b. split; [exact B|]. exists sc. split; [exact Sc|]. now apply tail_ext.
    + hand.
    + apply (held_same (y_pool s) _ _ (RuUp a i) cj h He); try reflexivity. intro j. now apply locked_upd.
  - destruct H as (sc & Sc & ->).
    apply (main_go s _ D tr h h bj cj uj _ [Acq Cpmu; Wr LUp; Rel Cpmu; Go (Writer (List.length (y_watch s))); Go (Reader (List.length (y_watch s)))] C Sd Np); try reflexivity.
    + lr.
    + cov.
    + exists b. split; [exact B|]. exists sc. split; [exact Sc|]. now apply tail_ext.
    + intros _. right. eexists. do 4 right. left. reflexivity.
    + apply (held_same _ _ _ (RuGo a i) cj h He); reflexivity.
  - destruct H as (sc & Sc & ->).
    apply (main_go s _ D tr h h bj cj uj _ (peer_op (List.length (y_watch s)) ++ peer_op (List.length (y_watch s))) C Sd Np); try reflexivity.
    + lr.
    + cov.
    + exists b. split; [exact B|]. exists sc. split; [exact Sc|]. now apply tail_ext.
    + intros _. left. right. eauto.
    + apply (held_same _ _ _ (RuWatch a i) cj h He); reflexivity.
  - apply (start_watch s D tr h bj cj uj p a i C Sd Np Er). exists b. split; [exact B|exact H].
  - destruct H as (sc & k & Sc & Ka & ->).
    apply (main_go s _ D tr h h bj cj uj _ [Sync CPool] C Sd Np); try reflexivity.
    + lr.
    + cov.
    + eexists. split; [|reflexivity]. rewrite <- !app_assoc. apply base_round; [exact B|]. now apply RoundFreed.
    + hand.
    + apply (held_same _ _ _ RuSelect cj h He); reflexivity.
Qed.

Lemma watch_simulated s0 t0 D tr h bj cj uj : corr s0 D h bj cj uj -> sound D tr h -> watch_step s0 t0 -> stepped s0 t0 D tr uj.
Proof.
  intros C Sd St. pose proof (c_held _ _ _ _ _ _ C) as He. pose proof (held_free_cp _ _ _ _ He) as Fc. pose proof (c_watch _ _ _ _ _ _ C) as Cw.
  assert (Me : forall pre a i w post, y_watch s0 = pre ++ Watch a i w :: post -> exists j p,
    nth_error D j = Some (Watcher i (List.length pre), p) /\ watch_done i (List.length pre) w p).
  { intros pre a i w post E. destruct (Cw (List.length pre) (Watch a i w)) as (j & p & A & Q); [|now exists j, p].
    rewrite E, nth_error_app2, Nat.sub_diag by apply le_n. reflexivity. }
  watch_cases St; destruct (Me _ _ _ _ _ E) as (j & p & N & Wd); unfold watch_done in Wd; cbn in Wd.
  - apply (watch_go s _ D tr h bj cj uj pre a i _ WtStatus post p j (peer_op (List.length pre)) C Sd E); try reflexivity.
    + exact N.
    + lr.
    + cov.
    + unfold watch_done. now rewrite Wd.
    + exact He.
  - pose proof (held_free_mu _ _ _ _ _ He U) as Fm.
    apply (watch_go s _ D tr h bj cj uj pre a i _ WtRead post p j [Acq (Mu i); Wr (LField i FStatus); Rel (Mu i)] C Sd E); try reflexivity.
    + exact N.
    + lr.
    + cov.
    + unfold watch_done. now rewrite Wd.
    + apply (held_same (y_pool s) _ _ (y_run s) cj h He); try reflexivity. intro k. now apply locked_upd.
  - apply (watch_go s _ D tr h bj cj uj pre a i _ (WtWrite (pl_connected (y_pool s))) post p j [Rd LConnected] C Sd E); try reflexivity.
    + exact N.
    + lr.
    + cov.
    + unfold watch_done. now rewrite Wd.
    + exact He.
  - apply (watch_go s _ D tr h bj cj uj pre a i _ WtDelete post p j [Wr LConnected] C Sd E); try reflexivity.
    + exact N.
    + lr.
    + cov.
    + unfold watch_done. now rewrite Wd.
    + exact He.
  - apply (watch_go s _ D tr h bj cj uj pre a i _ WtRelease post p j [Acq Cpmu; Wr LUp; Rel Cpmu] C Sd E); try reflexivity.
    + exact N.
    + lr.
    + cov.
    + unfold watch_done. now rewrite Wd.
    + exact He.
  - apply (watch_go s _ D tr h bj cj uj pre a i _ WtEnd post p j [Sync CPool] C Sd E); try reflexivity.
    + exact N.
    + lr.
    + cov.
    + unfold watch_done. now rewrite Wd.
    + exact He.
Qed.

Lemma free_scan s : table_free s -> scanning (y_run s) = false.
Proof. unfold table_free. destruct (y_run s); cbn; tauto. Qed.

Lemma ban_simulated s0 t0 D tr h bj cj uj : corr s0 D h bj cj uj -> sound D tr h -> ban_step s0 t0 -> stepped s0 t0 D tr uj.
Proof.
  intros C Sd St. pose proof (c_held _ _ _ _ _ _ C) as He. pose proof (held_free_bn _ _ _ _ He) as Fb.
  assert (Me : forall pre b post, y_bans s0 = pre ++ b :: post -> exists bp j bq p, bj = bp ++ (b, j) :: bq /\ map fst bp = pre /\ map fst bq = post /\
    nth_error D j = Some (User, p) /\ ban_done b p).
  { intros pre b post E. rewrite <- (c_bans_eq _ _ _ _ _ _ C) in E. apply map_split in E. destruct E as (bp & (b1, j) & bq & -> & A & B & G). cbn in B. subst b1.
    destruct (c_bans _ _ _ _ _ _ C b j) as (p & N & Bd); [apply in_mid; now left|]. exists bp, j, bq, p. auto 10. }
  ban_cases St; destruct (Me _ _ _ E) as (bp & j & bq & p & -> & <- & <- & Nj & Bd); cbn [ban_done] in Bd.
  - pose proof (held_free_pt _ _ _ _ He (free_scan _ Tf)) as Fp. subst p.
    apply (ban_go s _ D tr h bp _ j bq cj uj [] look BnEnd C Sd Nj); try reflexivity.
    + lr.
    + cov.
    + exact BanUnknown.
    + exact He.
  - pose proof (held_free_pt _ _ _ _ He (free_scan _ Tf)) as Fp. subst p.
    apply (ban_go s _ D tr h bp _ j bq cj uj [] look (BnStatus a i) C Sd Nj); try reflexivity.
    + lr.
    + cov.
    + exact He.
  - subst p. apply (ban_go s _ D tr h bp _ j bq cj uj look [Wr (LField i FStatus)] (BnClose a i) C Sd Nj); try reflexivity.
    + lr.
    + cov.
    + apply (held_same (y_pool s) _ _ (y_run s) cj h He); try reflexivity. intro k. now apply locked_upd.
  - apply (still s _ D tr h _ cj uj C Sd); try reflexivity; [cov|exact He].
  - subst p. apply (ban_go s _ D tr h bp _ j bq cj uj _ ([Rd (LField i FPeer)] ++ peer_op c) (BnMap a) C Sd Nj); try reflexivity.
    + lr.
    + cov.
    + exists i, c. reflexivity.
    + exact He.
  - apply (still s _ D tr h _ cj uj C Sd); try reflexivity; [cov|exact He].
  - destruct Bd as (i & c & ->).
    apply (ban_go s _ D tr h bp _ j bq cj uj _ [Acq Bnmu; Wr LBans; Rel Bnmu] (BnDelete a) C Sd Nj); try reflexivity.
    + lr.
    + cov.
    + exists i, c. reflexivity.
    + exact He.
  - pose proof (held_free_pt _ _ _ _ He (free_scan _ Tf)) as Fp. destruct Bd as (i & c & ->).
    apply (ban_go s _ D tr h bp _ j bq cj uj _ [Acq Ptmu; Wr LTable; Rel Ptmu] BnEnd C Sd Nj); try reflexivity.
    + lr.
    + cov.
    + exact (ban_full i c).
    + exact He.
Qed.

Lemma close_simulated s0 t0 D tr h bj cj uj : corr s0 D h bj cj uj -> sound D tr h -> close_step s0 t0 -> stepped s0 t0 D tr uj.
Proof.
  intros C Sd St. pose proof (c_held _ _ _ _ _ _ C) as He. pose proof (closers_not_main _ _ _ _ _ _ C) as Z. pose proof (c_dup2 _ _ _ _ _ _ C) as Cd.
  assert (Me : forall pre b post, y_close s0 = pre ++ b :: post -> exists cp j cq i p, cj = cp ++ (b, j) :: cq /\ map fst cp = pre /\ map fst cq = post /\
    nth_error D j = Some (Closer i, p) /\ close_done i b p).
  { intros pre b post E. rewrite <- (c_close_eq _ _ _ _ _ _ C) in E. apply map_split in E. destruct E as (cp & (b1, j) & cq & -> & A & B & G). cbn in B. subst b1.
    destruct (c_close _ _ _ _ _ _ C b j) as (i & p & N & Bd); [apply in_mid; now left|]. exists cp, j, cq, i, p. auto 10. }
  close_cases St; destruct (Me _ _ _ E) as (cp & j & cq & i' & p & -> & <- & <- & Nj & Bd); cbn [close_done] in Bd.
  - destruct Bd as (<- & ->). pose proof (held_free_mu _ _ _ _ _ He U) as Fm.
    apply (close_go s _ D tr h ((Mu i, j) :: h) bj cp _ j cq uj i [] [Acq (Mu i)] (ClClose i) C Sd Nj); try reflexivity.
    + lr.
    + cov.
    + split; reflexivity.
    + apply (held_take (y_pool s) _ (y_run s) (y_run s) (cp ++ (ClLock i, j) :: cq) _ h i j He Fm).
      * intros k g. unfold owns. destruct k as [| | |i0]; try (split; [intro Q; now right|intros [(Q & _)|Q]; [discriminate|exact Q]]).
        split.
        -- intros [Q|(b & I & Q)]; [right; now left|]. apply in_mid in I. destruct I as [I|I].
           ++ injection I as -> ->. cbn in Q. injection Q as ->. now left.
           ++ right. right. exists b. split; [apply in_mid; now right|exact Q].
        -- intros [(Q & ->)|[Q|(b & I & Q)]]; [|now left|].
           ++ injection Q as ->. right. exists (ClClose i). split; [apply in_mid; now left|reflexivity].
           ++ right. exists b. split; [|exact Q]. apply in_mid in I. destruct I as [I|I]; [injection I as -> ->; discriminate|apply in_mid; now right].
      * intro k. apply locked_take; [exact U|reflexivity].
  - apply (still s _ D tr h bj _ uj C Sd); try reflexivity; [cov|exact He].
  - destruct Bd as (<- & ->).
    apply (close_go s _ D tr h h bj cp _ j cq uj i _ ([Rd (LField i FPeer)] ++ peer_op c) (ClStatus i) C Sd Nj); try reflexivity.
    + lr.
    + cov.
    + split; [reflexivity|]. exists c. reflexivity.
    + destruct He as (Nd & O & Lk). split; [exact Nd|]. split; [|exact Lk]. intros k g. rewrite O. unfold owns. destruct k as [| | |i0]; try reflexivity.
      split; (intros [Q|(b & I & Q)]; [now left|right]; apply in_mid in I; destruct I as [I|I];
        [injection I as -> ->; cbn in Q; eexists; split; [apply in_mid; left; reflexivity|exact Q]
        |exists b; split; [apply in_mid; now right|exact Q]]).
  - destruct Bd as (<- & c & ->). pose proof He as (Nd & O & Lk).
    assert (I : In (Mu i, j) h) by (apply O; right; exists (ClStatus i); split; [apply in_mid; now left|reflexivity]).
    assert (Un : forall g, In (Mu i, g) h -> g = j) by (intros g I'; exact (uniq h (Mu i) g j Nd I' I)).
    destruct (in_split _ _ I) as (pre & post & Eh).
    apply (close_go s _ D tr h (pre ++ post) bj cp _ j cq uj i _ [Wr (LField i FStatus); Rel (Mu i)] ClEnd C Sd Nj); try reflexivity.
    + rewrite Eh. apply LrPlain; [left; eexists; right; reflexivity|]. apply LrRel. apply LrNil.
    + cov.
    + exists c. reflexivity.
    + rewrite Eh in He. apply (held_give (y_pool s) _ (y_run s) (y_run s) (cp ++ (ClStatus i, j) :: cq) _ pre post (Mu i) j He).
      * intros k g. unfold owns. destruct k as [| | |i0]; try (split; [intro Q; split; [discriminate|exact Q]|now intros (_ & Q)]).
        split.
        -- intros Q. assert (Ow : owns (y_run s) (cp ++ (ClStatus i, j) :: cq) (Mu i0) g).
           { destruct Q as [Q|(b & I0 & Q)]; [now left|right]. apply in_mid in I0. destruct I0 as [I0|I0]; [injection I0 as -> ->; discriminate|].
             exists b. split; [apply in_mid; now right|exact Q]. }
           split; [|exact Ow]. intros [= ->]. assert (g = j) by (apply Un, O; exact Ow). subst g. destruct Q as [(-> & _)|(b & I0 & Q)].
           ++ apply (Z (ClStatus i)). apply in_mid. now left.
           ++ apply in_mid in I0. destruct I0 as [I0|I0]; [injection I0 as ->; discriminate|].
              rewrite map_app in Cd. cbn [map snd] in Cd. apply NoDup_remove_2 in Cd. apply Cd. rewrite <- map_app. apply in_map_iff. now exists (b, j).
        -- intros (Ne & [Q|(b & I0 & Q)]); [now left|right]. apply in_mid in I0. destruct I0 as [I0|I0].
           ++ injection I0 as -> ->. cbn in Q. congruence.
           ++ exists b. split; [apply in_mid; now right|exact Q].
      * intro k. now apply locked_give.
Qed.

Lemma mid_same {A} (l : list A) i x : nth_error l i = Some x -> firstn i l ++ x :: skipn (S i) l = l.
Proof. revert i. induction l as [|y l IH]; intros [|i] N; try discriminate; [now injection N as ->|]. cbn [firstn skipn app]. f_equal. exact (IH i N). Qed.
Lemma env_simulated s0 t0 D tr h bj cj u uj : corr s0 D h bj cj (u :: uj) -> sound D tr h -> heard s0 t0 -> env_step s0 t0 -> stepped s0 t0 D tr (u :: uj).
Proof.
  intros C Sd Hd St. pose proof (c_held _ _ _ _ _ _ C) as He. destruct St as [s r a Tf|s a|s i td hh U|s Q|s Q].
  - pose proof (held_free_pt _ _ _ _ He (free_scan _ Tf)) as Fp.
    apply (idle_go s _ D tr h bj cj u uj [Acq Ptmu; Rd LTable; Rd LTable; Wr LTable; Rel Ptmu] C Sd); try reflexivity.
    + apply user_call, CallAdd, AddNew.
    + lr.
    + split; [intros x Cx; cbn [set_pool y_pool] in Cx; apply changed_add in Cx; subst; cbn; auto 10|].
      split; [cbn [set_pool y_pool]; rewrite add_slots; congruence|]. split; [cbn; congruence|]. intros [K|K]; exfalso; apply K; reflexivity.
    + apply (held_same (y_pool s) _ _ (y_run s) cj h He); try reflexivity. intro k. apply locked_add.
  - exists [], D, h, (bj ++ [(BnLookup a, u)]), cj, uj. rewrite app_nil_r. split; [|split; [exact Sd|split; [|cbn; lia]]].
    + destruct C as [Cm Cw Cr Cb Cbe Cc Cce Ci Cd Cd2 Ch Ce]. constructor; try assumption; try congruence.
      * intros b j I. apply in_app_or in I. destruct I as [I|[I|[]]]; [now apply Cb|]. injection I as <- <-. exists []. split; [apply Ci; now left|reflexivity].
      * rewrite map_app, Cbe. reflexivity.
      * intros j I. apply Ci. now right.
      * rewrite map_app. cbn [map snd]. rewrite <- app_assoc. exact Cd.
    + apply covers_nil. cov.
  - destruct U as (x & N & Ul). destruct (N.eq_dec (i_td x) td) as [Et|Et]; [destruct (N.eq_dec (i_height x) hh) as [Eh|Eh]|].
    + subst. assert (Eq : update i (with_record (i_td x) (i_height x)) (pl_infos (y_pool s)) = pl_infos (y_pool s)).
      { unfold update. rewrite N. replace (with_record (i_td x) (i_height x) x) with x by now destruct x. exact (mid_same _ _ _ N). }
      apply (still s _ D tr h bj cj (u :: uj) C Sd); try reflexivity.
      * split; [|split; [cbn; congruence|split; [cbn; congruence|intros [K|K]; exfalso; apply K; reflexivity]]].
        intros y Cy. exfalso. revert Cy. apply changed_eq; try reflexivity. exact Eq.
      * apply (held_same (y_pool s) _ _ (y_run s) cj h He); try reflexivity. intro k. now apply locked_upd.
    + assert (Cg : changed (y_pool s) (upd (y_pool s) i (with_record td hh)) (LField i FHeight)).
      { exists x. eexists. split; [exact N|]. cbn [upd set_infos pl_infos]. rewrite update_nth, Nat.eqb_refl, N. split; [reflexivity|exact Eh]. }
      destruct (Hd i FHeight (or_introl eq_refl) Cg eq_refl) as (Tf & Hn).
      destruct (c_read _ _ _ _ _ _ C Hn) as (j & c & p & Nj & (ts & Ft & ->)).
      pose proof (held_free_pt _ _ _ _ He (free_scan _ Tf)) as Fp. pose proof (held_free_mu _ _ _ _ _ He (ex_intro _ x (conj N Ul))) as Fm.
      apply (read_go s _ D tr h bj cj (u :: uj) j c _ (peer_op c ++ look ++ [Acq (Mu i); Wr (LField i FDifficulty); Wr (LField i FHeight); Rel (Mu i)]) C Sd Nj); try reflexivity.
      * lr.
      * cov.
      * exists (ts ++ [peer_op c ++ look ++ [Acq (Mu i); Wr (LField i FDifficulty); Wr (LField i FHeight); Rel (Mu i)]]). split.
        -- apply Forall_app. split; [exact Ft|]. constructor; [|constructor]. apply (TurnMessage c i). apply PrPong.
        -- rewrite concat_app. cbn [concat]. now rewrite app_nil_r.
      * apply (held_same (y_pool s) _ _ (y_run s) cj h He); try reflexivity. intro k. now apply locked_upd.
    + assert (Cg : changed (y_pool s) (upd (y_pool s) i (with_record td hh)) (LField i FDifficulty)).
      { exists x. eexists. split; [exact N|]. cbn [upd set_infos pl_infos]. rewrite update_nth, Nat.eqb_refl, N. split; [reflexivity|exact Et]. }
      destruct (Hd i FDifficulty (or_intror eq_refl) Cg eq_refl) as (Tf & Hn).
      destruct (c_read _ _ _ _ _ _ C Hn) as (j & c & p & Nj & (ts & Ft & ->)).
      pose proof (held_free_pt _ _ _ _ He (free_scan _ Tf)) as Fp. pose proof (held_free_mu _ _ _ _ _ He (ex_intro _ x (conj N Ul))) as Fm.
      apply (read_go s _ D tr h bj cj (u :: uj) j c _ (peer_op c ++ look ++ [Acq (Mu i); Wr (LField i FDifficulty); Wr (LField i FHeight); Rel (Mu i)]) C Sd Nj); try reflexivity.
      * lr.
      * cov.
      * exists (ts ++ [peer_op c ++ look ++ [Acq (Mu i); Wr (LField i FDifficulty); Wr (LField i FHeight); Rel (Mu i)]]). split.
        -- apply Forall_app. split; [exact Ft|]. constructor; [|constructor]. apply (TurnMessage c i). apply PrPong.
        -- rewrite concat_app. cbn [concat]. now rewrite app_nil_r.
      * apply (held_same (y_pool s) _ _ (y_run s) cj h He); try reflexivity. intro k. now apply locked_upd.
  - apply (idle_go s _ D tr h bj cj u uj [Sync CQuit] C Sd); try reflexivity.
    + apply user_call, CallStop.
    + lr.
    + split; [intros x Cx; cbn [stop y_pool] in Cx; chg Cx|]. split; [cbn; congruence|]. split; [cbn; auto|]. intros [K|K]; exfalso; apply K; reflexivity.
    + exact He.
  - apply (still s _ D tr h bj cj (u :: uj) C Sd); try reflexivity; [cov|exact He].
Qed.

Lemma step_simulated s t D tr h bj cj uj : corr s D h bj cj uj -> sound D tr h -> uj <> [] -> sys_step s t -> heard s t -> stepped s t D tr uj.
Proof.
  intros C Sd Ne [_ St|_ St|_ St|_ St|_ St] Hd.
  - exact (run_simulated s t D tr h bj cj uj C Sd St).
  - exact (watch_simulated s t D tr h bj cj uj C Sd St).
  - exact (ban_simulated s t D tr h bj cj uj C Sd St).
  - exact (close_simulated s t D tr h bj cj uj C Sd St).
  - destruct uj as [|u uj]; [contradiction|]. exact (env_simulated s t D tr h bj cj u uj C Sd Hd St).
Qed.

(** ** Executions *)
Lemma path_simulated path : forall s D tr h bj cj uj, corr s D h bj cj uj -> sound D tr h -> List.length path <= List.length uj -> sys_run s path ->
  exists segs D' h' bj' cj' uj', corr (last path s) D' h' bj' cj' uj' /\ sound D' (tr ++ concat segs) h' /\ follows s path segs.
Proof.
  induction path as [|t path IH]; intros s D tr h bj cj uj C Sd Ln R.
  - exists [], D, h, bj, cj, uj. cbn. rewrite app_nil_r. auto.
  - destruct R as (St & Hd & R). assert (Ne : uj <> []) by (intros ->; cbn in Ln; lia).
    destruct (step_simulated s t D tr h bj cj uj C Sd Ne St Hd) as (seg & D1 & h1 & bj1 & cj1 & uj1 & C1 & S1 & Cv & L1).
    destruct (IH t D1 (tr ++ seg) h1 bj1 cj1 uj1 C1 S1) as (segs & D2 & h2 & bj2 & cj2 & uj2 & C2 & S2 & F2); [cbn in Ln; lia|exact R|].
    exists (seg :: segs), D2, h2, bj2, cj2, uj2. split; [|split].
    + replace (last (t :: path) s) with (last path t); [exact C2|]. clear. revert t s. induction path as [|x path IH]; intros t s; [reflexivity|].
      cbn [last] in *. destruct path; [reflexivity|]. exact (IH t s).
    + cbn [concat]. now rewrite app_assoc.
    + split; assumption.
Qed.

(** Main starts [n] users. *)
Lemma start_sound n : exists tr, sound ((Main, repeat (Go User) n) :: repeat (User, []) n) tr [] /\ Forall (fun e => exists u, e = Forked 0 u) tr.
Proof.
  induction n as [|n (tr & S & F)].
  - exists []. split; [|constructor]. intros rests G. inversion G as [|? r ? rs G0 F']; subst. inversion F'; subst. exists r. split; [exact G0|apply NoSteps].
  - destruct (perform1 0 Main (repeat (Go User) n) (Go User) [] [] ((Main, repeat (Go User) n) :: repeat (User, []) n) tr eq_refl (LrGo _ _ _ _ _ (LrNil _ _)) S) as (e & S1 & (_ & _ & Fk)).
    exists (tr ++ [e]). split.
    + cbn [set_nth forks flat_map app] in S1. rewrite <- !(repeat_cons n) in S1. exact S1.
    + apply Forall_app. split; [exact F|]. constructor; [|constructor]. destruct (Fk User (or_introl eq_refl)) as (u & [->|[]]). now exists u.
Qed.

Lemma start_corr bans n : corr (sys_start bans) ((Main, repeat (Go User) n) :: repeat (User, []) n) [] [] [] (seq 1 n).
Proof.
  constructor.
  - exists (repeat (Go User) n). split; [reflexivity|]. exists (repeat (Go User) n). split; [|reflexivity]. exists n, []. split; [constructor|]. now rewrite app_nil_r.
  - intros [|k] w Q; discriminate.
  - intros [Q|(a & i & [Q|Q])]; [now elim Q|discriminate|discriminate].
  - intros b j [].
  - reflexivity.
  - intros b j [].
  - reflexivity.
  - intros j I. apply in_seq in I. destruct j as [|j]; [lia|]. cbn [nth_error]. rewrite nth_error_repeat by lia. reflexivity.
  - apply seq_NoDup.
  - constructor.
  - split; [constructor|]. split.
    + intros k g. split; [intros []|]. destruct k; cbn; try tauto; [intros (_ & Q); discriminate|]. intros [(_ & Q)|(b & [] & _)]. discriminate.
    + intro i. split; [|intros (g & [])]. intros (x & Q & _). destruct i; discriminate.
  - intros j d N. destruct j as [|j].
    + injection N as <-. exact (run_ends 0 RuSelect _ (ex_intro _ _ (conj (ex_intro _ n (ex_intro _ [] (conj (Forall_nil _) (eq_sym (app_nil_r _))))) eq_refl))).
    + cbn in N. apply nth_error_In, repeat_spec in N. subst d. exact (role_some User).
Qed.

Lemma ends_rests D : ends_ok D -> exists rests, Forall2 goes_on D rests.
Proof.
  induction D as [|d D IH]; intro E; [exists []; constructor|].
  destruct (E 0 d eq_refl) as (r & G). destruct IH as (rs & F); [intros j d' N; exact (E (S j) d' N)|]. exists (r :: rs). now constructor.
Qed.

Lemma accessed bans path : sys_run (sys_start bans) path -> exists pre segs ts,
  Forall (fun e => exists u, e = Forked 0 u) pre /\ execution (pre ++ concat segs) ts /\ follows (sys_start bans) path segs /\ same_locks (last path (sys_start bans)) ts.
Proof.
  intro R. destruct (start_sound (List.length path)) as (pre & S0 & F0).
  destruct (path_simulated path _ _ pre [] [] [] (seq 1 (List.length path)) (start_corr bans (List.length path)) S0) as (segs & D & h & bj & cj & uj & C & Sd & Fo);
    [now rewrite seq_length|exact R|].
  destruct (ends_rests D (c_ends _ _ _ _ _ _ C)) as (rests & G). exists pre, segs, (Threads rests h).
  split; [exact F0|]. split; [exact (Sd rests G)|]. split; [exact Fo|].
  destruct (c_held _ _ _ _ _ _ C) as (_ & O & Lk). split; [exact Lk|]. split.
  - cbn [th_held]. unfold table_free. split.
    + intros Tf (g & I). apply O in I. destruct I as (_ & I). destruct (y_run (last path (sys_start bans))); cbn in *; first [discriminate|contradiction].
    + intros Ne. destruct (y_run (last path (sys_start bans))) eqn:E; try exact I. cbn. apply Ne. exists 0. apply O. now split.
  - intro g. cbn [th_held]. split; intro I; now apply O in I.
Qed.
