(** A peer that does not read what it is sent: proofs for C126. *)
From Verif Require Import Peer SpecPeer PeerProofs Sync SpecPool SpecSync PoolProofs SyncProofs SpecStall.
Local Open Scope nat_scope.

Section Stall.
Context {X : Ext}.
Implicit Types s t u : pstate X.

Ltac pf := cbn [set_flag add_quit set_closed set_writer set_reader set_others set_bans take wrote crash
  p_flag p_quits p_closed p_wg p_writer p_reader p_others p_bans p_taken p_wire p_sent p_crash] in *.

Lemma dstep_others s d t d' : dstep s d t d' -> p_others t = p_others s /\ p_writer t = p_writer s /\ p_reader t = p_reader s /\
  p_taken t = p_taken s /\ p_wire t = p_wire s /\ p_quits s <= p_quits t.
Proof. intros [? ?|? ?|? ?|? ?|?|? ?]; pf; repeat split; auto. Qed.
Lemma wg_done_rest s : p_others (wg_done s) = p_others s /\ p_quits (wg_done s) = p_quits s /\ p_taken (wg_done s) = p_taken s /\
  p_wire (wg_done s) = p_wire s /\ p_writer (wg_done s) = p_writer s.
Proof. unfold wg_done. destruct (_ <? 0)%Z; repeat split. Qed.

(** ** Disconnect is not left unnoticed *)
Lemma disc_mid s pre (o o' : opc X) post (d : dpc) : p_others s = pre ++ o :: post -> In (ODisc d) (p_others s) ->
  (forall d0, o = ODisc d0 -> exists d1, o' = ODisc d1) -> exists d', In (ODisc d') (pre ++ o' :: post).
Proof.
  intros E I H. rewrite E in I. apply in_app_or in I. destruct I as [I|[I|I]].
  - exists d. apply in_or_app. now left.
  - destruct (H d I) as (d1 & ->). exists d1. apply in_or_app. right. now left.
  - exists d. apply in_or_app. right. now right.
Qed.
Lemma disc_stays s t : pstep s t -> disconnecting s -> disconnecting t.
Proof.
  intros St (d & I). unfold disconnecting. destruct St as [C St|C St|C St|C St].
  - exists d. destruct St; pf; auto; try (rewrite (proj1 (wg_done_rest s)); exact I).
    match goal with H : dstep _ _ _ _ |- _ => rewrite (proj1 (dstep_others _ _ _ _ H)); exact I end.
  - exists d. destruct St; pf; auto; try (rewrite (proj1 (wg_done_rest s)); exact I);
      match goal with H : dstep _ _ _ _ |- _ => rewrite (proj1 (dstep_others _ _ _ _ H)); exact I end.
  - destruct St as [s pre m post E W|s pre m post E Q|s pre d0 post s' d1 E D|s pre post E Q|s pre post E W]; pf;
      (eapply disc_mid; [exact E|exact I|intros d2 H; try discriminate H]). now exists d1.
  - destruct St as [s o H]. pf. exists d. apply in_or_app. now left.
Qed.

(** ** While a write does not return *)
Lemma quits_grow s t : pstep s t -> p_quits s <= p_quits t.
Proof.
  intros [C St|C St|C St|C St].
  - destruct St; pf; auto; try (rewrite (proj1 (proj2 (wg_done_rest s))); auto);
      match goal with H : dstep _ _ _ _ |- _ => apply (dstep_others _ _ _ _ H) end.
  - destruct St; pf; auto; try (rewrite (proj1 (proj2 (wg_done_rest s))); auto);
      match goal with H : dstep _ _ _ _ |- _ => apply (dstep_others _ _ _ _ H) end.
  - destruct St; pf; auto. match goal with H : dstep _ _ _ _ |- _ => apply (dstep_others _ _ _ _ H) end.
  - destruct St; pf; auto.
Qed.
Lemma nth_other {A} (pre : list A) o o' post i x : nth_error (pre ++ o :: post) i = Some x -> x <> o -> nth_error (pre ++ o' :: post) i = Some x.
Proof.
  intros H N. destruct (Nat.lt_ge_cases i (List.length pre)) as [L|L].
  - rewrite nth_error_app1 in * by exact L. exact H.
  - rewrite nth_error_app2 in * by exact L. destruct (i - List.length pre); [cbn in *; congruence|exact H].
Qed.
Definition waits s t : Prop :=
  p_taken t = p_taken s /\ p_wire t = p_wire s /\
  (forall i m', nth_error (p_others s) i = Some (OSend m') -> nth_error (p_others t) i = Some (OSend m')) /\
  (forall m', p_reader s = RSend m' -> p_reader t = RSend m').
Lemma waits_one s t m : p_writer s = WWrite m -> (exists f, write_message X m = Ok f) -> pstep s t -> p_writer t = WWrite m ->
  p_quits t = 0 -> waits s t.
Proof.
  intros W En St Wt Q. assert (Qs : p_quits s = 0) by (pose proof (quits_grow s t St); lia). unfold waits.
  destruct St as [C St|C St|C St|C St].
  - destruct St; pf; try congruence. destruct En as (f & Ef). specialize (H0 f). congruence.
  - destruct St; pf; try congruence; try (repeat split; auto; congruence).
    + destruct (dstep_others _ _ _ _ H0) as (A & B & _ & D & E & _). rewrite A, D, E. repeat split; auto. congruence.
    + destruct (wg_done_rest s) as (A & B & D & E & F). rewrite A, D, E. repeat split; auto. congruence.
    + destruct (dstep_others _ _ _ _ H0) as (A & B & _ & D & E & _). rewrite A, D, E. repeat split; auto. congruence.
  - destruct St as [s pre m0 post E K|s pre m0 post E K|s pre d0 post s' d1 E D|s pre post E K|s pre post E K]; pf; try congruence.
    + destruct (dstep_others _ _ _ _ D) as (_ & _ & A & B & F & _). rewrite A, B, F. repeat split; auto.
      intros i m' N. rewrite E in N. apply (nth_other _ _ _ _ _ _ N). discriminate.
    + repeat split; auto. intros i m' N. rewrite E in N. apply (nth_other _ _ _ _ _ _ N). discriminate.
  - destruct St as [s o H]. pf. repeat split; auto. intros i m' N. rewrite nth_error_app1; [exact N|]. apply nth_error_Some. congruence.
Qed.
Lemma stall_waits s t m : p_writer s = WWrite m -> (exists f, write_message X m = Ok f) -> stalled_steps s t -> p_quits t = 0 ->
  p_writer t = WWrite m /\ p_taken t = p_taken s /\ p_wire t = p_wire s /\
  (forall i m', nth_error (p_others s) i = Some (OSend m') -> nth_error (p_others t) i = Some (OSend m')) /\
  (forall m', p_reader s = RSend m' -> p_reader t = RSend m').
Proof.
  intros W En R Q. induction R as [s|s t u R IH St K].
  - repeat split; auto.
  - assert (Qt : p_quits t = 0) by (pose proof (quits_grow t u St); lia).
    destruct (IH W Qt) as (A & B & D & E & F). pose proof (K m A) as Wu.
    destruct (waits_one t u m A En St Wu Q) as (B' & D' & E' & F'). split; [exact Wu|]. split; [congruence|]. split; [congruence|]. auto.
Qed.

(** If the read handler waits as well, only new goroutines come. *)
Lemma stall_frozen bans s t m m' : psteps (p_start X bans) s -> p_writer s = WWrite m -> (exists f, write_message X m = Ok f) ->
  p_reader s = RSend m' -> p_quits s = 0 -> stalled_steps s t -> ~ disconnecting t ->
  exists more, t = set_others s (p_others s ++ more) /\ Forall fresh more.
Proof.
  intros Rs W En Rd Q R. pose proof (reach_inv X bans s Rs) as (Wg & _). rewrite W, Rd in Wg. cbn in Wg. clear Rs.
  induction R as [s|s t u R IH St K]; intro N.
  - exists []. rewrite app_nil_r. split; [destruct s; reflexivity|constructor].
  - destruct (IH W Rd Q Wg) as (more & E & F).
    { intro D. apply N. exact (disc_stays t u St D). }
    assert (Wt : p_writer t = WWrite m) by (rewrite E; exact W). pose proof (K m Wt) as Wu.
    assert (Rt : p_reader t = RSend m') by (rewrite E; exact Rd).
    assert (Qt : p_quits t = 0) by (rewrite E; exact Q). assert (Gt : p_wg t = 2%Z) by (rewrite E; exact Wg).
    destruct St as [C St|C St|C St|C St].
    + destruct St; pf; try congruence. destruct En as (f & Ef). specialize (H0 f). congruence.
    + destruct St; pf; try congruence.
    + destruct St as [t pre m0 post E1 K1|t pre m0 post E1 K1|t pre d0 post s' d1 E1 D|t pre post E1 K1|t pre post E1 K1]; pf; try congruence.
      elim N. exists d1. apply in_or_app. right. now left.
    + destruct St as [t o H]. exists (more ++ [o]). split.
      * subst t. pf. now rewrite app_assoc.
      * apply Forall_app. split; [exact F|]. constructor; [|constructor]. destruct H as [->|[->|H]]; [|now left|now right].
        elim N. exists DCas. pf. apply in_or_app. right. now left.
Qed.

(** Any number of goroutines can be waiting. *)
Lemma spawn_many s (ms : list (message X)) : p_crash s = None -> psteps s (set_others s (p_others s ++ map OSend ms)).
Proof.
  revert s. induction ms as [|m ms IH]; intros s C.
  - rewrite app_nil_r. destruct s. apply PsNone.
  - eapply (psteps_cons X); [apply PsSpawn; [exact C|]; apply (OsNew X s (OSend m)); eauto|].
    specialize (IH (set_others s (p_others s ++ [OSend m])) C). pf. rewrite <- app_assoc in IH. exact IH.
Qed.
Lemma sends_map (ms : list (message X)) : flat_map (fun o : opc X => match o with OSend m => [m] | _ => [] end) (map OSend ms) = ms.
Proof. induction ms as [|m ms IH]; [reflexivity|]. cbn. now rewrite IH. Qed.
Lemma pile bans (m m' : message X) ms f n : write_message X m = Ok (f, n) ->
  exists s, psteps (p_start X bans) s /\ p_writer s = WWrite m /\ p_reader s = RSend m' /\ p_quits s = 0 /\ p_crash s = None /\
    ~ disconnecting s /\ waiting_sends s = ms /\ p_wire s = [].
Proof.
  intro W. eexists. split.
  - eapply (psteps_cons X). { apply PsSpawn; [reflexivity|]. apply (OsNew X _ (OSend m)). eauto. } cbn.
    eapply (psteps_cons X). { apply PsOther; [reflexivity|]. apply (OsSend X _ [] m []); reflexivity. } cbn.
    eapply (psteps_cons X). { apply PsWriter; [reflexivity|]. apply (WsLive X _ m); reflexivity. } cbn.
    eapply (psteps_cons X). { apply PsReader; [reflexivity|]. apply RsGo; reflexivity. } cbn.
    eapply (psteps_cons X). { apply PsReader; [reflexivity|]. apply RsMessage; reflexivity. } cbn.
    eapply (psteps_cons X). { apply PsReader; [reflexivity|]. apply (RsAnswer X _ m'); reflexivity. } cbn.
    apply (spawn_many _ ms). reflexivity.
  - repeat split; try reflexivity.
    + intros (d & I). apply in_app_or in I. destruct I as [[I|[]]|I]; [discriminate|]. apply in_map_iff in I. destruct I as (x & I & _). discriminate.
    + unfold waiting_sends. pf. cbn [app flat_map]. apply sends_map.
Qed.

(** ** When writes return, the sends do *)
Lemma find_send (l : list (opc X)) : flat_map (fun o => match o with OSend m => [m] | _ => [] end) l <> [] ->
  exists pre m post, l = pre ++ OSend m :: post /\ flat_map (fun o => match o with OSend m => [m] | _ => [] end) pre = [].
Proof.
  induction l as [|o l IH]; [intro H; now elim H|].
  destruct o as [m| | | | |]; try (cbn; intro H; destruct (IH H) as (pre & m & post & -> & E); eexists (_ :: pre), m, post; split; [reflexivity|exact E]).
  intros _. exists [], m, l. split; reflexivity.
Qed.
Lemma drain_select ms s : p_writer s = WSelect -> p_flag s = false -> p_closed s = false -> p_crash s = None ->
  waiting_sends s = ms -> (forall m, In m ms -> exists f, write_message X m = Ok f) ->
  exists t, psteps s t /\ p_taken t = p_taken s ++ ms /\ waiting_sends t = [] /\ p_writer t = WSelect /\ p_crash t = None /\ p_reader t = p_reader s.
Proof.
  revert s. induction ms as [|m ms IH]; intros s W F C Cr E En.
  - exists s. rewrite app_nil_r. repeat split; auto. apply PsNone.
  - destruct (find_send (p_others s)) as (pre & m0 & post & Eo & Ep); [unfold waiting_sends in E; congruence|].
    unfold waiting_sends in E. rewrite Eo, flat_map_app, Ep in E. cbn [app flat_map] in E. injection E as -> Em.
    destruct (En m (or_introl eq_refl)) as ((f & n) & Ef).
    set (s1 := set_others (take s m) (pre ++ OSent :: post)). set (s2 := set_writer s1 (WWrite m)).
    set (s3 := set_writer (wrote s2 f n) WSelect).
    destruct (IH s3) as (t & R & A & B & D & K & G); try reflexivity; try assumption.
    { unfold waiting_sends, s3, s2, s1. pf. rewrite flat_map_app, Ep. cbn [app flat_map]. exact Em. }
    { intros x I. apply En. now right. }
    exists t. split.
    + eapply (psteps_cons X); [apply PsOther; [exact Cr|]; apply (OsSend X s pre m post); assumption|]. change (psteps s1 t).
      eapply (psteps_cons X); [apply PsWriter; [exact Cr|]; apply (WsLive X s1 m); [reflexivity|exact F]|]. change (psteps s2 t).
      eapply (psteps_cons X); [apply PsWriter; [exact Cr|]; apply (WsWritten X s2 m f n); [reflexivity|exact C|exact Ef]|]. exact R.
    + unfold s3, s2, s1 in A. pf. rewrite <- app_assoc in A. repeat split; auto.
Qed.
Lemma drain s : p_flag s = false -> p_closed s = false -> p_crash s = None ->
  p_writer s = WSelect \/ (exists m, p_writer s = WWrite m /\ exists f, write_message X m = Ok f) ->
  (forall m, In m (waiting_sends s) -> exists f, write_message X m = Ok f) ->
  exists t, psteps s t /\ p_taken t = p_taken s ++ waiting_sends s /\ waiting_sends t = [] /\ p_crash t = None.
Proof.
  intros F C Cr [W|(m & W & (f & n) & Ef)] En.
  - destruct (drain_select (waiting_sends s) s W F C Cr eq_refl En) as (t & R & A & B & _ & K & _). eauto.
  - set (s1 := set_writer (wrote s f n) WSelect).
    destruct (drain_select (waiting_sends s) s1 eq_refl F C Cr eq_refl En) as (t & R & A & B & _ & K & _). exists t. split; [|auto].
    eapply (psteps_cons X); [apply PsWriter; [exact Cr|]; apply (WsWritten X s m f n); assumption|]. exact R.
Qed.
End Stall.

(** ** Where the sends come from *)
Section Relay.
Context {X : Ext} {S : storage X}.
Lemma block_again c (n : node X S) i x b : sender c n i x -> fst (process_block (x_clock c 0) (nd_chain n) b) = Ok tt ->
  let n1 := o_node (process_message c n (MBlock b)) in
  o_end (process_message c n (MBlock b)) = HDone /\ (exists y, sender c n1 i y) /\ nd_chain n1 = nd_chain n /\ pl_up (nd_pool n1) = pl_up (nd_pool n) /\
  forall j, j <> i -> nth_error (pl_infos (nd_pool n1)) j = nth_error (pl_infos (nd_pool n)) j.
Proof.
  intros H E n1. pose proof (chain_kept X S c n (MBlock b)) as Ck. fold n1 in Ck. destruct H as (I & Nd & Nx). 
  assert (P : nd_pool n1 = upd (nd_pool n) i (fun x => if (i_td x <? h_total_difficulty (b_header b))%N || (i_height x <? h_height (b_header b))%N
     then with_record (h_total_difficulty (b_header b)) (h_height (b_header b)) x else x) /\ o_end (process_message c n (MBlock b)) = HDone).
  { unfold n1, process_message. rewrite (sender_info X S c n i x (conj I (conj Nd Nx))), E. split; reflexivity. }
  destruct P as (P & Oe). split; [exact Oe|]. rewrite P. split; [|split; [exact Ck|split; [reflexivity|]]].
  - eexists. unfold sender. rewrite P. split; [exact I|]. split; [exact Nd|]. cbn [upd pl_infos set_infos]. unfold upd. cbn [pl_infos set_infos].
    rewrite update_nth, Nat.eqb_refl, Nx. reflexivity.
  - intros j J. unfold upd. cbn [pl_infos set_infos]. rewrite update_nth. destruct (Nat.eqb_spec i j); [congruence|reflexivity].
Qed.
Lemma relayed_again c b cn a j y k (n : node X S) i x : sender c n i x -> fst (process_block (x_clock c 0) (nd_chain n) b) = Ok tt ->
  h_height (b_header b) = c_height (nd_chain n) -> j <> i -> In (a, j) (pl_up (nd_pool n)) -> nth_error (pl_infos (nd_pool n)) j = Some y ->
  behind (b_header b) y -> i_peer y = Some cn -> k <= count_occ Nat.eq_dec (relays c n (MBlock b) k) cn.
Proof.
  revert n x. induction k as [|k IH]; intros n x H E Eh J I Ny B P; [apply Nat.le_0_l|]. cbn [relays]. rewrite count_occ_app.
  assert (K : In cn (o_relay (process_message c n (MBlock b)))).
  { apply (accepted_relay X S c n i x b cn H E Eh). exists a, j, y. auto. }
  apply (count_occ_In Nat.eq_dec) in K. destruct (block_again c n i x b H E) as (_ & (x1 & H1) & Ck & Up & Inf).
  specialize (IH (o_node (process_message c n (MBlock b))) x1 H1). rewrite Ck, Up, (Inf j J) in IH. specialize (IH E Eh J I Ny B P). lia.
Qed.
End Relay.
