(** Proofs for C120. *)
From Verif Require Import Sync SpecPool SpecSync SpecDial SpecRecord SpecLate PoolProofs RecordProofs SyncProofs.

Lemma order_in {A} (l : list A) v1 v2 v3 : in_order l v1 v2 v3 -> In v1 l /\ In v2 l /\ In v3 l.
Proof.
  intros (l1 & l2 & l3 & l4 & E & E1 & I). rewrite E. assert (K : forall w, In w (v1 :: l2) -> In w (l1 ++ v1 :: l2)) by (intros w Iw; apply in_or_app; now right).
  split; [apply K; now left|]. split; apply K; rewrite E1; apply in_or_app; right; [now left|exact I].
Qed.
Lemma late_alone height td p : propagate height td p =
  flat_map (fun kv => match relay_late height td (snd kv) p p p with Some c => [c] | None => [] end) (pl_up p).
Proof.
  unfold propagate, relay_late. apply flat_map_ext. intros (a, i). cbn [snd]. destruct (nth_error (pl_infos p) i) as [x|]; [|reflexivity].
  destruct (_ || _); reflexivity.
Qed.
Lemma trace_steps s l t : trace s l t -> forall v, In v l -> sys_steps s v /\ sys_steps v t.
Proof.
  intros T. induction T as [s|s l t u T IH St]; intros v I.
  - destruct I as [<-|[]]. split; apply YsNone.
  - apply in_app_or in I as [I|[<-|[]]].
    + destruct (IH v I) as (A & B). split; [exact A|]. exact (YsMore _ _ _ B St).
    + split; [|apply YsNone]. destruct (IH t) as (A & _).
      { clear - T. destruct T; [now left|]. apply in_or_app. right. now left. }
      exact (YsMore _ _ _ A St).
Qed.
Lemma peer_from bans s i x cn : sys_steps (sys_start bans) s -> nth_error (pl_infos (y_pool s)) i = Some x -> i_peer x = Some cn ->
  exists a d, connected_before bans s a i cn d.
Proof.
  intros R N P. destruct (y_run s) as [| |sec todo|a|a|a k|a k|a k|a k d|a k d|a k d v|a k d|a k d|a k|a k|a k| |] eqn:E;
    try (destruct (recorded_from bans s i x R N) as [(K & _)|(a1 & c1 & d1 & K & K1 & _)]; [congruence|congruence|]; rewrite P in K1; injection K1 as <-; eauto; fail).
  destruct (Nat.eq_dec k i) as [->|Nk].
  - destruct (half_recorded bans s a i d x R E N) as ((c1 & K & K1) & _). rewrite P in K1. injection K1 as <-. eauto.
  - destruct (recorded_from bans s i x R N) as [(K & _)|(a1 & c1 & d1 & K & K1 & _)]; [congruence|congruence|]. rewrite P in K1. injection K1 as <-. eauto.
Qed.

Lemma late_reads bans s l t height td i v1 v2 v3 cn : sys_steps (sys_start bans) s -> trace s l t -> in_order l v1 v2 v3 ->
  relay_late height td i (y_pool v1) (y_pool v2) (y_pool v3) = Some cn ->
  (exists v x, In v l /\ nth_error (pl_infos (y_pool v)) i = Some x /\ below height td x) /\
  (exists x, nth_error (pl_infos (y_pool v3)) i = Some x /\ i_peer x = Some cn) /\
  (exists a d, connected_before bans v3 a i cn d).
Proof.
  intros R T O. destruct (order_in _ _ _ _ O) as (I1 & I2 & I3). unfold relay_late.
  destruct (nth_error (pl_infos (y_pool v1)) i) as [x1|] eqn:N1; [|discriminate]. destruct (nth_error (pl_infos (y_pool v2)) i) as [x2|] eqn:N2; [|discriminate].
  destruct (nth_error (pl_infos (y_pool v3)) i) as [x3|] eqn:N3; [|discriminate].
  destruct ((_ <? _) || (_ <? _)) eqn:B; [|discriminate]. intro P. split; [|split; [exists x3; auto|]].
  - apply Bool.orb_true_iff in B. rewrite !N.ltb_lt in B. destruct B as [B|B]; [exists v1, x1|exists v2, x2]; unfold below; auto.
  - apply (peer_from bans v3 i x3); [|exact N3|exact P]. eapply sys_app; [exact R|]. apply (trace_steps s l t T v3 I3).
Qed.
Lemma late_sent l height td i v1 v2 v3 cn : in_order l v1 v2 v3 ->
  (forall v, In v l -> exists x, nth_error (pl_infos (y_pool v)) i = Some x /\ i_peer x = Some cn) ->
  (forall v x, In v l -> nth_error (pl_infos (y_pool v)) i = Some x -> i_height x < height) \/
  (forall v x, In v l -> nth_error (pl_infos (y_pool v)) i = Some x -> i_td x < td) ->
  relay_late height td i (y_pool v1) (y_pool v2) (y_pool v3) = Some cn.
Proof.
  intros O H M. destruct (order_in _ _ _ _ O) as (I1 & I2 & I3). destruct (H v1 I1) as (x1 & N1 & P1). destruct (H v2 I2) as (x2 & N2 & P2).
  destruct (H v3 I3) as (x3 & N3 & P3). unfold relay_late. rewrite N1, N2, N3.
  replace ((i_height x1 <? height) || (i_td x2 <? td)) with true; [exact P3|]. symmetry. apply Bool.orb_true_iff. rewrite !N.ltb_lt.
  destruct M as [M|M]; [left; exact (M v1 x1 I1 N1)|right; exact (M v2 x2 I2 N2)].
Qed.

(** ** Back to the sender *)
Lemma echoed X (S : storage X) c (n : node X S) i x b p cn : sender c n i x -> fst (process_block (x_clock c 0%nat) (nd_chain n) b) = Ok tt ->
  i_peer x = Some cn -> pg_height p < h_height (b_header b) \/ pg_difficulty p < h_total_difficulty (b_header b) ->
  let n1 := o_node (process_message c n (MBlock b)) in let n2 := o_node (process_message c n1 (MPing p)) in
  relay_late (h_height (b_header b)) (h_total_difficulty (b_header b)) i (nd_pool n1) (nd_pool n1) (nd_pool n1) = None /\
  relay_late (h_height (b_header b)) (h_total_difficulty (b_header b)) i (nd_pool n2) (nd_pool n2) (nd_pool n2) = Some cn.
Proof.
  intros H E P L n1 n2. pose proof H as (I & Nd & Nx).
  assert (E1 : nd_pool n1 = upd (nd_pool n) i (newer (b_header b))).
  { unfold n1, process_message. rewrite (sender_info _ _ c n i x H), E. reflexivity. }
  assert (T1 : pl_table (nd_pool n1) = pl_table (nd_pool n)) by (rewrite E1; reflexivity).
  assert (N1 : nth_error (pl_infos (nd_pool n1)) i = Some (newer (b_header b) x)).
  { rewrite E1. unfold upd. cbn [pl_infos set_infos]. now rewrite update_nth, Nat.eqb_refl, Nx. }
  assert (H1 : sender c n1 i (newer (b_header b) x)) by (split; [rewrite T1; exact I|]; split; [rewrite T1; exact Nd|exact N1]).
  assert (Pk : i_peer (newer (b_header b) x) = Some cn) by (unfold newer; destruct (_ || _); exact P).
  split.
  - unfold relay_late. rewrite N1. pose proof (newer_not_behind (b_header b) x) as Nb. unfold behind in Nb.
    replace ((_ <? _) || (_ <? _)) with false; [reflexivity|]. symmetry. apply Bool.orb_false_iff. rewrite !N.ltb_ge. lia.
  - assert (N2 : nth_error (pl_infos (nd_pool n2)) i = Some (with_record (pg_difficulty p) (pg_height p) (newer (b_header b) x))).
    { unfold n2, process_message. rewrite (sender_info _ _ c n1 i _ H1). cbn [o_node with_pool nd_pool]. unfold upd. cbn [pl_infos set_infos].
      now rewrite update_nth, Nat.eqb_refl, N1. }
    unfold relay_late. rewrite N2. cbn [with_record i_height i_td i_peer].
    replace ((_ <? _) || (_ <? _)) with true; [exact Pk|]. symmetry. apply Bool.orb_true_iff. rewrite !N.ltb_lt. exact L.
Qed.
