(** Executions of the pool. *)
From Verif Require Import Pool SpecPool PoolProofs.

(** "a:1" and "b:2", resolved to 127.0.0.1. *)
Definition addr_a : bytes := [x61; x3a; x31].
Definition addr_b : bytes := [x62; x3a; x32].
Definition home : option addr := Some (Addr [x7f; x00; x00; x01] 13414).
(** A peer of this protocol version. *)
Definition good_peer : dialled := Dialled 1 7 30000.

Ltac settle := cbv -[Z.add Z.sub].
Ltac step tac := eapply sys_cons; [tac|settle].
(** notConnected, iterating over the table in order [o], nobody interfering. *)
Ltac pick o := eapply sys_app; [apply run_all; [reflexivity|]; apply (scan_alone _ o o); reflexivity|settle].
Ltac add a := step ltac:(apply YsEnv; [reflexivity|]; apply (EnAdd _ home a); exact I).
Ltac r tac := step ltac:(apply YsRun; [reflexivity|]; tac).
Ltac w tac := step ltac:(apply YsWatch; [reflexivity|]; tac).
Ltac b tac := step ltac:(apply YsBan; [reflexivity|]; tac).
Ltac free := eexists; split; reflexivity.
(** Run takes a token and picks [a], with record [i], iterating over the table in order [o]. *)
Ltac run_pick o a i :=
  r ltac:(apply RnToken; [reflexivity|cbv; lia]);
  pick o;
  r ltac:(apply (RnTest _ a); [reflexivity|discriminate|cbv -[Z.le Z.add Z.sub]; lia]);
  r ltac:(apply (RnFound _ a i); [reflexivity|reflexivity]);
  r ltac:(apply (RnLock _ a i); [reflexivity|free]).
Ltac run_dial o a i st :=
  run_pick o a i;
  r ltac:(apply (RnCheck _ a i st); [reflexivity|reflexivity|discriminate|discriminate]).
Ltac run_dialled o a i st :=
  run_dial o a i st;
  r ltac:(apply (RnDialled _ a i good_peer); reflexivity);
  r ltac:(apply (RnVersion _ a i good_peer); [reflexivity|reflexivity]);
  r ltac:(apply (RnRead _ a i good_peer); reflexivity).
Ltac run_started a i :=
  r ltac:(eapply (RnWrite _ a i good_peer); reflexivity);
  r ltac:(apply (RnUpdate _ a i good_peer); reflexivity);
  r ltac:(apply (RnFill _ a i good_peer); reflexivity);
  r ltac:(apply (RnUp _ a i); reflexivity).
Ltac run_finish a i :=
  run_started a i;
  r ltac:(apply (RnGo _ a i); reflexivity);
  r ltac:(apply (RnWatch _ a i); reflexivity).

(** A connection is made and lives. *)
Lemma run_connected bans : exists s, sys_steps (sys_start bans) s /\ live s = 1%nat /\ y_run s = RuSelect /\ y_crash s = None /\
  pl_connected (y_pool s) = 1%Z /\ pl_up (y_pool s) = [(addr_a, 0%nat)] /\ nobody_to_connect (y_pool s) /\ pl_slots (y_pool s) = 1%nat /\ y_leaked s = 0%nat.
Proof.
  eexists. split.
  - add addr_a. run_dialled [(addr_a, 0%nat)] addr_a 0%nat StNew. run_finish addr_a 0%nat. apply YsNone.
  - repeat split; try reflexivity. intros a i [E|[]]. injection E as <- <-. left. reflexivity.
Qed.

(** The disconnect of a connection overtaken by the next connection to the same address. *)
Lemma run_forgotten bans : exists s, sys_steps (sys_start bans) s /\ live s = 1%nat /\ y_run s = RuSelect /\ y_crash s = None /\
  pl_up (y_pool s) = [] /\ forall w, In w (y_watch s) -> waiting w = true \/ running w = false.
Proof.
  eexists. split.
  - add addr_a. run_dialled [(addr_a, 0%nat)] addr_a 0%nat StNew. run_finish addr_a 0%nat.
    w ltac:(apply (WaReturn _ [] addr_a 0%nat []); reflexivity).
    w ltac:(apply (WaStatus _ [] addr_a 0%nat []); [reflexivity|free]).
    w ltac:(apply (WaRead _ [] addr_a 0%nat []); reflexivity).
    w ltac:(eapply (WaWrite _ [] addr_a 0%nat _ []); reflexivity).
    run_dialled [(addr_a, 0%nat)] addr_a 0%nat StDisconnected. run_finish addr_a 0%nat.
    w ltac:(apply (WaDelete _ [] addr_a 0%nat [Watch addr_a 0%nat WtWait]); reflexivity).
    w ltac:(eapply (WaRelease _ [] addr_a 0%nat _ [Watch addr_a 0%nat WtWait]); reflexivity).
    apply YsNone.
  - repeat split; try reflexivity. intros w [<-|[<-|[]]]; auto.
Qed.

(** With a made map: an address is banned, added again and dialled. *)
Lemma run_banned_again : exists s i, sys_steps (sys_start (Some [])) s /\ y_crash s = None /\ is_ban addr_a (y_pool s) = true /\
  y_run s = RuDial addr_a i /\ peer_info addr_a (y_pool s) = Some i.
Proof.
  eexists. exists 1%nat. split.
  - add addr_a. run_dialled [(addr_a, 0%nat)] addr_a 0%nat StNew. run_finish addr_a 0%nat.
    step ltac:(apply YsEnv; [reflexivity|]; apply (EnBan _ addr_a)).
    b ltac:(apply (BaFound _ [] addr_a 0%nat []); [reflexivity|exact I|reflexivity]).
    b ltac:(apply (BaStatus _ [] addr_a 0%nat []); reflexivity).
    b ltac:(eapply (BaClosed _ [] addr_a 0%nat []); reflexivity).
    b ltac:(apply (BaMap _ [] addr_a [] []); reflexivity).
    b ltac:(apply (BaDelete _ [] addr_a []); [reflexivity|exact I]).
    add addr_a. run_dial [(addr_a, 1%nat)] addr_a 1%nat StNew. apply YsNone.
  - repeat split; reflexivity.
Qed.
(** Without it the same ban takes the process down, *)
Lemma run_ban_crash : exists s, sys_steps (sys_start None) s /\ y_crash s = Some NilBans.
Proof.
  eexists. split.
  - add addr_a. run_dialled [(addr_a, 0%nat)] addr_a 0%nat StNew. run_finish addr_a 0%nat.
    step ltac:(apply YsEnv; [reflexivity|]; apply (EnBan _ addr_a)).
    b ltac:(apply (BaFound _ [] addr_a 0%nat []); [reflexivity|exact I|reflexivity]).
    b ltac:(apply (BaStatus _ [] addr_a 0%nat []); reflexivity).
    b ltac:(eapply (BaClosed _ [] addr_a 0%nat []); reflexivity).
    b ltac:(apply (BaNilMap _ [] addr_a []); reflexivity).
    apply YsNone.
  - reflexivity.
Qed.
(** and so does one of an address that was never connected. *)
Lemma run_ban_nil bans : exists s, sys_steps (sys_start bans) s /\ y_crash s = Some NilPeer.
Proof.
  eexists. split.
  - add addr_a.
    step ltac:(apply YsEnv; [reflexivity|]; apply (EnBan _ addr_a)).
    b ltac:(apply (BaFound _ [] addr_a 0%nat []); [reflexivity|exact I|reflexivity]).
    b ltac:(apply (BaStatus _ [] addr_a 0%nat []); reflexivity).
    b ltac:(eapply (BaNil _ [] addr_a 0%nat []); reflexivity).
    apply YsNone.
  - reflexivity.
Qed.

(** Drift of the counter: two addresses, connected in turn; each time the other's disconnect counts
    down between the two halves of Run's count up. *)
Definition drifting bans k up ws infos : sys :=
  Sys (Pool k 1 infos [(addr_b, 1%nat); (addr_a, 0%nat)] up bans) 0 RuSelect ws [] [] 0 None.
Definition dialable (x : info) : Prop := (i_status x = StNew \/ i_status x = StDisconnected) /\ i_locked x = false.
Definition connected (x : info) : Prop := i_status x = StConnected /\ i_locked x = false.
Ltac settle ::= cbv -[Z.add Z.sub app assign remove].
Ltac drift_round k olds a i b j st :=
  r ltac:(apply RnToken; [reflexivity|cbv; lia]);
  pick [(addr_b, 1%nat); (addr_a, 0%nat)];
  r ltac:(apply (RnTest _ a); [reflexivity|discriminate|assumption]);
  r ltac:(apply (RnFound _ a i); [reflexivity|reflexivity]);
  r ltac:(apply (RnLock _ a i); [reflexivity|free]);
  r ltac:(apply (RnCheck _ a i st); [reflexivity|reflexivity|discriminate|discriminate]);
  r ltac:(apply (RnDialled _ a i good_peer); reflexivity);
  r ltac:(apply (RnVersion _ a i good_peer); [reflexivity|reflexivity]);
  r ltac:(apply (RnRead _ a i good_peer); reflexivity);
  w ltac:(apply (WaReturn _ olds b j []); reflexivity);
  w ltac:(apply (WaStatus _ olds b j []); [reflexivity|free]);
  w ltac:(apply (WaRead _ olds b j []); reflexivity);
  w ltac:(eapply (WaWrite _ olds b j _ []); reflexivity);
  w ltac:(apply (WaDelete _ olds b j []); reflexivity);
  w ltac:(eapply (WaRelease _ olds b j _ []); reflexivity);
  run_finish a i.
Lemma drift_ab bans k up olds x y : (k <= 15)%Z -> dialable x -> connected y ->
  exists up' x' y', sys_steps (drifting bans k up (olds ++ [Watch addr_b 1 WtWait]) [x; y])
    (drifting bans (k + 1) up' ((olds ++ [Watch addr_b 1 WtEnd]) ++ [Watch addr_a 0 WtWait]) [x'; y']) /\ connected x' /\ dialable y'.
Proof.
  intros K (Sx & Lx) (Sy & Ly). destruct x as [st p0 v0 h0 t0 c0 l0], y as [st1 p1 v1 h1 t1 c1 l1]. cbn in Sx, Lx, Sy, Ly. subst l0 l1 st1.
  destruct Sx as [-> | ->].
  - eexists. eexists. eexists. split; [unfold drifting; drift_round k olds addr_a 0%nat addr_b 1%nat StNew; apply YsNone|].
    split; [split; reflexivity|split; [right; reflexivity|reflexivity]].
  - eexists. eexists. eexists. split; [unfold drifting; drift_round k olds addr_a 0%nat addr_b 1%nat StDisconnected; apply YsNone|].
    split; [split; reflexivity|split; [right; reflexivity|reflexivity]].
Qed.
Lemma drift_ba bans k up olds x y : (k <= 15)%Z -> connected x -> dialable y ->
  exists up' x' y', sys_steps (drifting bans k up (olds ++ [Watch addr_a 0 WtWait]) [x; y])
    (drifting bans (k + 1) up' ((olds ++ [Watch addr_a 0 WtEnd]) ++ [Watch addr_b 1 WtWait]) [x'; y']) /\ dialable x' /\ connected y'.
Proof.
  intros K (Sx & Lx) (Sy & Ly). destruct x as [st p0 v0 h0 t0 c0 l0], y as [st1 p1 v1 h1 t1 c1 l1]. cbn in Sx, Lx, Sy, Ly. subst l0 l1 st.
  destruct Sy as [-> | ->].
  - eexists. eexists. eexists. split; [unfold drifting; drift_round k olds addr_b 1%nat addr_a 0%nat StNew; apply YsNone|].
    split; [split; [right; reflexivity|reflexivity]|split; reflexivity].
  - eexists. eexists. eexists. split; [unfold drifting; drift_round k olds addr_b 1%nat addr_a 0%nat StDisconnected; apply YsNone|].
    split; [split; [right; reflexivity|reflexivity]|split; reflexivity].
Qed.
Ltac step tac ::= eapply sys_cons; [tac|cbv -[Z.add Z.sub]].
Lemma drift n : forall bans k up olds x y, (k + 2 * Z.of_nat n <= 16)%Z -> dialable x -> connected y -> act olds = 0%nat ->
  exists up' olds' x' y', sys_steps (drifting bans k up (olds ++ [Watch addr_b 1 WtWait]) [x; y])
    (drifting bans (k + 2 * Z.of_nat n) up' (olds' ++ [Watch addr_b 1 WtWait]) [x'; y']) /\ dialable x' /\ connected y' /\ act olds' = 0%nat.
Proof.
  induction n as [|n IH]; intros bans k up olds x y L X Y A.
  - exists up, olds, x, y. rewrite Z.add_0_r. split; [apply YsNone|auto].
  - destruct (drift_ab bans k up olds x y) as (u1 & x1 & y1 & R1 & X1 & Y1); [lia|exact X|exact Y|].
    destruct (drift_ba bans (k + 1) u1 (olds ++ [Watch addr_b 1 WtEnd]) x1 y1) as (u2 & x2 & y2 & R2 & X2 & Y2); [lia|exact X1|exact Y1|].
    destruct (IH bans (k + 1 + 1)%Z u2 ((olds ++ [Watch addr_b 1 WtEnd]) ++ [Watch addr_a 0 WtEnd]) x2 y2) as (u3 & o3 & x3 & y3 & R3 & X3 & Y3 & A3).
    + lia.
    + exact X2.
    + exact Y2.
    + rewrite !act_app, A. reflexivity.
    + exists u3, o3, x3, y3. split; [|auto]. replace (k + 2 * Z.of_nat (S n))%Z with (k + 1 + 1 + 2 * Z.of_nat n)%Z by lia.
      exact (sys_app _ _ _ R1 (sys_app _ _ _ R2 R3)).
Qed.
Lemma act_waiting ws : act ws = 0%nat -> filter waiting ws = [] /\ forall w, In w ws -> running w = false.
Proof.
  unfold act. induction ws as [|x ws IH]; [split; [reflexivity|intros w []]|].
  cbn [filter]. destruct (running x) eqn:E; [discriminate|]. intro H. destruct (IH H) as (F & K).
  split; [|intros w [<-|I]; auto]. assert (W : waiting x = false) by (unfold waiting, running in *; destruct (wt_pc x); congruence).
  rewrite W. exact F.
Qed.
Lemma run_drift bans : exists s, sys_steps (sys_start bans) s /\ live s = 1%nat /\ pl_connected (y_pool s) = 16%Z /\ y_run s = RuSelect /\
  y_crash s = None /\ y_leaked s = 0%nat /\ forall w, In w (y_watch s) -> waiting w = true \/ running w = false.
Proof.
  assert (R0 : exists x y, sys_steps (sys_start bans) (drifting bans 1 [(addr_b, 1%nat)] ([] ++ [Watch addr_b 1 WtWait]) [x; y]) /\ dialable x /\ connected y).
  { eexists. eexists. split. unfold drifting.
    add addr_a. add addr_b. run_dialled [(addr_b, 1%nat); (addr_a, 0%nat)] addr_b 1%nat StNew. run_finish addr_b 1%nat. apply YsNone.
    split; [split; [left|]|split]; reflexivity. }
  destruct R0 as (x0 & y0 & R0 & X0 & Y0).
  destruct (drift 7 bans 1 [(addr_b, 1%nat)] [] x0 y0) as (u1 & o1 & x1 & y1 & R1 & X1 & Y1 & A1); [lia|exact X0|exact Y0|reflexivity|].
  destruct (drift_ab bans 15 u1 o1 x1 y1) as (u2 & x2 & y2 & R2 & X2 & Y2); [lia|exact X1|exact Y1|].
  destruct (act_waiting o1 A1) as (F & K).
  eexists. split; [exact (sys_app _ _ _ R0 (sys_app _ _ _ R1 R2))|].
  split. { unfold live, drifting. cbn [y_watch y_run setting_up]. rewrite !filter_app, F. reflexivity. }
  repeat split; try reflexivity. unfold drifting. cbn [y_watch]. intros w I. apply in_app_or in I. destruct I as [I|[<-|[]]]; [|auto].
  apply in_app_or in I. destruct I as [I|[<-|[]]]; [right; now apply K|auto].
Qed.

(** Drift the other way: one address, whose next connection counts up between the two halves of the count down
    for the last one. *)
Definition sinking bans k up ws x : sys := Sys (Pool k 1 [x] [(addr_a, 0%nat)] up bans) 0 RuSelect ws [] [] 0 None.
Ltac settle ::= cbv -[Z.add Z.sub app assign remove].
Lemma sink_round bans k up olds x : (k <= 15)%Z -> connected x ->
  exists up' x', sys_steps (sinking bans k up (olds ++ [Watch addr_a 0 WtWait]) x)
    (sinking bans (k - 1) up' (olds ++ [Watch addr_a 0 WtEnd; Watch addr_a 0 WtWait]) x') /\ connected x'.
Proof.
  intros K (Sx & Lx). destruct x as [st p0 v0 h0 t0 c0 l0]. cbn in Sx, Lx. subst l0 st.
  eexists. eexists. split.
  - unfold sinking.
    w ltac:(apply (WaReturn _ olds addr_a 0%nat []); reflexivity).
    w ltac:(apply (WaStatus _ olds addr_a 0%nat []); [reflexivity|free]).
    w ltac:(apply (WaRead _ olds addr_a 0%nat []); reflexivity).
    r ltac:(apply RnToken; [reflexivity|cbv; lia]).
    pick [(addr_a, 0%nat)].
    r ltac:(apply (RnTest _ addr_a); [reflexivity|discriminate|assumption]).
    r ltac:(apply (RnFound _ addr_a 0%nat); [reflexivity|reflexivity]).
    r ltac:(apply (RnLock _ addr_a 0%nat); [reflexivity|free]).
    r ltac:(apply (RnCheck _ addr_a 0%nat StDisconnected); [reflexivity|reflexivity|discriminate|discriminate]).
    r ltac:(apply (RnDialled _ addr_a 0%nat good_peer); reflexivity).
    r ltac:(apply (RnVersion _ addr_a 0%nat good_peer); [reflexivity|reflexivity]).
    r ltac:(apply (RnRead _ addr_a 0%nat good_peer); reflexivity).
    run_finish addr_a 0%nat.
    w ltac:(eapply (WaWrite _ olds addr_a 0%nat _ [Watch addr_a 0 WtWait]); exact (eq_sym (app_assoc olds [_] [Watch addr_a 0 WtWait]))).
    w ltac:(apply (WaDelete _ olds addr_a 0%nat [Watch addr_a 0 WtWait]); reflexivity).
    w ltac:(eapply (WaRelease _ olds addr_a 0%nat _ [Watch addr_a 0 WtWait]); reflexivity).
    apply YsNone.
  - split; reflexivity.
Qed.
Ltac step tac ::= eapply sys_cons; [tac|cbv -[Z.add Z.sub]].
Lemma sink n : forall bans k up olds x, (k <= 15)%Z -> connected x -> act olds = 0%nat ->
  exists up' olds' x', sys_steps (sinking bans k up (olds ++ [Watch addr_a 0 WtWait]) x)
    (sinking bans (k - Z.of_nat n) up' (olds' ++ [Watch addr_a 0 WtWait]) x') /\ connected x' /\ act olds' = 0%nat /\
    List.length olds' = (List.length olds + n)%nat.
Proof.
  induction n as [|n IH]; intros bans k up olds x L X A.
  - exists up, olds, x. rewrite Z.sub_0_r. split; [apply YsNone|]. repeat split; auto; apply X.
  - destruct (sink_round bans k up olds x L X) as (u1 & x1 & R1 & X1).
    destruct (IH bans (k - 1)%Z u1 (olds ++ [Watch addr_a 0 WtEnd]) x1) as (u2 & o2 & x2 & R2 & X2 & A2 & L2).
    + lia.
    + exact X1.
    + rewrite act_app, A. reflexivity.
    + exists u2, o2, x2. split; [|split; [exact X2|split; [exact A2|rewrite L2, app_length; cbn; lia]]].
      replace (k - Z.of_nat (S n))%Z with (k - 1 - Z.of_nat n)%Z by lia. rewrite <- app_assoc in R2.
      exact (sys_app _ _ _ R1 R2).
Qed.
Lemma run_sink bans n : exists s, sys_steps (sys_start bans) s /\ live s = 1%nat /\ pl_connected (y_pool s) = (1 - Z.of_nat n)%Z /\
  List.length (y_watch s) = S n /\ y_run s = RuSelect /\ y_crash s = None /\ y_leaked s = 0%nat /\
  forall w, In w (y_watch s) -> waiting w = true \/ running w = false.
Proof.
  assert (R0 : exists x, sys_steps (sys_start bans) (sinking bans 1 [(addr_a, 0%nat)] ([] ++ [Watch addr_a 0 WtWait]) x) /\ connected x).
  { eexists. split; [unfold sinking; add addr_a; run_dialled [(addr_a, 0%nat)] addr_a 0%nat StNew; run_finish addr_a 0%nat; apply YsNone|].
    split; reflexivity. }
  destruct R0 as (x0 & R0 & X0).
  destruct (sink n bans 1 [(addr_a, 0%nat)] [] x0) as (u1 & o1 & x1 & R1 & X1 & A1 & L1); [lia|exact X0|reflexivity|].
  destruct (act_waiting o1 A1) as (F & K).
  eexists. split; [exact (sys_app _ _ _ R0 R1)|].
  split. { unfold live, sinking. cbn [y_watch y_run setting_up]. rewrite !filter_app, F. reflexivity. }
  split; [reflexivity|]. split; [unfold sinking; cbn [y_watch]; rewrite app_length, L1; cbn; lia|].
  repeat split; try reflexivity. unfold sinking. cbn [y_watch]. intros w I. apply in_app_or in I. destruct I as [I|[<-|[]]]; [|auto].
  right; now apply K.
Qed.

(** The shipped node's table before its first dial succeeds: stopping takes it down. *)
Lemma run_stop_case : exists s t, sys_steps (sys_start None) s /\ y_crash s = None /\ y_run s = RuSelect /\ In (addr_a, 0%nat) (pl_table (y_pool s)) /\
  no_peer (y_pool s) 0 /\ unlocked (y_pool s) 0 /\ run_step s t /\ y_run t = RuStopped.
Proof.
  eexists. eexists. split.
  - add addr_a.
    r ltac:(apply RnToken; [reflexivity|cbv; lia]).
    pick [(addr_a, 0%nat)].
    r ltac:(apply (RnTest _ addr_a); [reflexivity|discriminate|cbv -[Z.le]; lia]).
    r ltac:(apply (RnFound _ addr_a 0%nat); [reflexivity|reflexivity]).
    r ltac:(apply (RnLock _ addr_a 0%nat); [reflexivity|free]).
    r ltac:(apply (RnCheck _ addr_a 0%nat StNew); [reflexivity|reflexivity|discriminate|discriminate]).
    r ltac:(apply (RnDialFailed _ addr_a 0%nat); reflexivity).
    r ltac:(eapply RnRelease; reflexivity).
    step ltac:(apply YsEnv; [reflexivity|]; apply EnStop; reflexivity).
    apply YsNone.
  - split; [reflexivity|]. split; [reflexivity|]. split; [left; reflexivity|]. split; [eexists; split; reflexivity|].
    split; [eexists; split; reflexivity|]. split; [apply RnQuit; [reflexivity|discriminate]|reflexivity].
Qed.

Lemma run_stop_clean : exists s t, sys_steps (sys_start None) s /\ y_crash s = None /\ y_run s = RuSelect /\
  pl_table (y_pool s) = [(addr_a, 0%nat)] /\ has_peer (y_pool s) 0 /\ run_step s t /\ y_run t = RuStopped.
Proof.
  eexists. eexists. split.
  - add addr_a. run_dialled [(addr_a, 0%nat)] addr_a 0%nat StNew. run_finish addr_a 0%nat.
    step ltac:(apply YsEnv; [reflexivity|]; apply EnStop; reflexivity). apply YsNone.
  - split; [reflexivity|]. split; [reflexivity|]. split; [reflexivity|]. split; [eexists; eexists; repeat split; reflexivity|].
    split; [apply RnQuit; [reflexivity|discriminate]|reflexivity].
Qed.
Lemma run_redial : exists s w, sys_steps (sys_start None) s /\ y_run s = RuDial addr_a 0 /\ In w (y_watch s) /\ wt_info w = 0%nat.
Proof.
  eexists. eexists. split.
  - add addr_a. run_dialled [(addr_a, 0%nat)] addr_a 0%nat StNew. run_finish addr_a 0%nat.
    w ltac:(apply (WaReturn _ [] addr_a 0%nat []); reflexivity).
    w ltac:(apply (WaStatus _ [] addr_a 0%nat []); [reflexivity|free]).
    run_dial [(addr_a, 0%nat)] addr_a 0%nat StDisconnected. apply YsNone.
  - split; [reflexivity|]. split; [left; reflexivity|reflexivity].
Qed.
Lemma run_forgotten_blocks bans : exists s, sys_steps (sys_start bans) s /\ live s = 1%nat /\ y_run s = RuSelect /\
  y_crash s = None /\ pl_up (y_pool s) = [] /\ (forall h td, propagate h td (y_pool s) = []) /\
  forall w, In w (y_watch s) -> waiting w = true \/ running w = false.
Proof.
  destruct (run_forgotten bans) as (s & R & L & E & C & U & W). exists s. repeat (split; [assumption|]). split; [|exact W].
  intros h td. unfold propagate. now rewrite U.
Qed.
Lemma dead_start bans : exists s, sys_steps (sys_start bans) s /\ y_crash s = None /\ live s = 0%nat /\
  forall t, sys_steps s t -> idle (y_run t) /\ live t = 0%nat.
Proof.
  destruct (starved_start bans) as (s & R & L & W & C). exists s. split; [exact R|]. split; [exact C|].
  split; [apply (dead bans s s R L (YsNone s))|]. intros t Rt. exact (dead bans s t R L Rt).
Qed.
Lemma one_peer bans : exists s, sys_steps (sys_start bans) s /\ y_crash s = None /\ live s = 1%nat /\
  forall t, sys_steps s t -> (live t <= 1)%nat.
Proof.
  destruct (run_connected bans) as (s & R & L & E & C & _ & _ & Nb & Sl & Lk).
  destruct (starved s C E) as (t & Rt & A1 & A2 & A3 & _ & _ & A6); [rewrite Sl; lia|exact Nb|].
  pose proof (sys_app _ _ _ R Rt) as Rs. rewrite Lk, Sl in A2. exists t. split; [exact Rs|]. split; [exact A6|].
  assert (Cap : forall u, sys_steps t u -> (live u <= 1)%nat) by (intros u Ru; pose proof (capacity bans t u Rs Ru); lia).
  split; [|exact Cap]. pose proof (Cap t (YsNone t)).
  assert (live s <= live t)%nat by (unfold live; rewrite A3, E; cbn [setting_up]; lia). lia.
Qed.
Lemma never_banned s : sys_steps (sys_start None) s -> forall a, is_ban a (y_pool s) = false.
Proof. intros R a. unfold is_ban. now rewrite (bans_none_reach s R). Qed.
Lemma bans_ignored r a o1 o2 p b :
  pl_table (pool_add r a (set_banned p b)) = pl_table (pool_add r a p) /\
  pl_infos (pool_add r a (set_banned p b)) = pl_infos (pool_add r a p) /\
  not_connected o1 o2 (set_banned p b) = not_connected o1 o2 p.
Proof. destruct (add_ignores r a p b). auto. Qed.
