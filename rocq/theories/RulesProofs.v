(** Lemmas about the consensus rules. *)
From Coq Require Import Permutation Sorted.
From Verif Require Import Consensus SpecPow SpecCodec SpecConsensus SpecSchnorr SpecRules SipProofs CycleProofs PowProofs PowCodecProofs CodecProofs
  BlockCodecProofs SchnorrProofs.

(** ** Versions *)

Lemma version_iff height version : validate_block_version height version = true <-> version_valid height version.
Proof.
  unfold validate_block_version, version_valid, version_table, hard_fork_v2_height, hard_fork_interval.
  change (2 * 250000) with 500000.
  split.
  - destruct (N.ltb_spec height 95000); [|destruct (N.ltb_spec height 250000); [|destruct (N.ltb_spec height 500000); [|discriminate]]];
      intro E; apply N.eqb_eq in E; subst; cbn [In].
    + exists (1, 0, 95000). cbn [fst snd]. repeat split; auto; lia.
    + exists (2, 95000, 250000). cbn [fst snd]. repeat split; auto; lia.
    + exists (3, 250000, 500000). cbn [fst snd]. repeat split; auto; lia.
  - intros (row & H & <- & R). cbn in H. repeat destruct H as [<-|H]; try contradiction; cbn in *;
      repeat (match goal with |- context [?a <? ?b] => destruct (N.ltb_spec a b) end); try reflexivity; lia.
Qed.

Lemma version_unique height v w : version_valid height v -> version_valid height w -> v = w.
Proof.
  intros (r & Hr & <- & R) (s & Hs & <- & S). cbn in Hr, Hs.
  repeat destruct Hr as [<-|Hr]; try contradiction; repeat destruct Hs as [<-|Hs]; try contradiction; cbn in *; try reflexivity; lia.
Qed.

(** ** Headers *)

Lemma far_future_iff now t : clock_ok now -> time_wf t ->
  ((1000000000 * 12 * block_time_sec <? time_sub t now)%Z = false <-> not_far_future now t).
Proof.
  intros Hc Ht. rewrite time_sub_sat by assumption. cbv zeta. unfold block_time_sec, not_far_future.
  rewrite Z.ltb_ge. destruct (Z.ltb_spec (instant t - instant now) (- 2 ^ 63)); [lia|].
  destruct (Z.ltb_spec (2 ^ 63 - 1) (instant t - instant now)); lia.
Qed.

Lemma bwp_length h a : header_sized h -> header_bytes_without_pow h = Ok a -> List.length a = 246%nat.
Proof.
  intros (H1 & H2 & H3 & H4 & H5 & H6) E. rewrite header_bwp_ok in E by (repeat split; assumption).
  apply Ok_inj in E. subst a. rewrite !app_length, !be_length. lia.
Qed.

Lemma pow_valid_iff X h : header_sized h -> (exists e, header_bytes h = Ok e) ->
  (pow_validate X h = Ok tt <-> pow_valid X h).
Proof.
  intros Hs [e He]. unfold pow_validate, pow_valid.
  assert (exists a, header_bytes_without_pow h = Ok a) as [a Ea].
  { rewrite header_bwp_ok by exact Hs. eauto. }
  pose proof (bwp_length h a Hs Ea) as La.
  assert (firstn 246 e = a) as Fe.
  { unfold header_bytes in He. rewrite Ea in He. cbn [rbind] in He. destruct (proof_enc (h_pow h)); try discriminate He.
    cbn [rbind] in He. apply Ok_inj in He. subst e. now rewrite firstn_app, La, Nat.sub_diag, <- La, firstn_all, app_nil_r. }
  rewrite Ea. cbn [rbind].
  split.
  - intro H. exists e. split; [exact He|]. rewrite Fe. destruct (cuckaroo_verify _ _ _); [reflexivity|discriminate].
  - intros (b & Eb & V). rewrite He in Eb. apply Ok_inj in Eb. subst b. rewrite Fe in V. now rewrite V.
Qed.

Lemma pow_survives X h : header_sized h -> survives (pow_validate X h).
Proof.
  intro Hs. unfold pow_validate. rewrite header_bwp_ok by exact Hs. cbn [rbind].
  destruct (cuckaroo_verify _ _ _); split; discriminate.
Qed.

Lemma header_survives X now h : header_sized h -> survives (header_validate X now h).
Proof.
  intro Hs. unfold header_validate. cbv zeta.
  destruct (negb _); [split; discriminate|]. destruct (_ <? _)%Z; [split; discriminate|].
  destruct (_ && _); [split; discriminate|]. destruct (_ && _); [split; discriminate|]. now apply pow_survives.
Qed.

(** What [header_validate] checks, in order. *)
Lemma header_validate_cases X now h : clock_ok now -> time_wf (h_time h) ->
  (header_validate X now h = Ok tt <->
   version_valid (h_height h) (h_version h) /\ not_far_future now (h_time h) /\ graph_valid h /\
   pow_validate X h = Ok tt).
Proof.
  intros Hc Ht. unfold header_validate, graph_valid, second_pow_edge_bits, default_min_edge_bits.
  rewrite <- version_iff, <- far_future_iff by assumption.
  destruct (validate_block_version _ _); cbn [negb]; [|split; [discriminate|intros [E _]; discriminate E]].
  destruct (_ <? _)%Z; [split; [discriminate|intros (_ & E & _); discriminate E]|].
  cbv zeta. destruct (N.eqb_spec (p_bits (h_pow h)) 29) as [E|E]; cbn [negb andb].
  - rewrite andb_false_r. cbn [andb]. split; [auto|tauto].
  - rewrite andb_true_r. destruct (N.ltb_spec (p_bits (h_pow h)) 30).
    + split; [discriminate|]. intros (_ & _ & [F|[F _]] & _); lia.
    + destruct (N.eqb_spec (h_scaling h) 1); cbn [negb andb].
      * split; [auto 6|tauto].
      * split; [discriminate|]. intros (_ & _ & [F|[_ F]] & _); contradiction.
Qed.

Lemma header_iff X now h : clock_ok now -> header_typed h -> header_sized h ->
  List.length (p_nonces (h_pow h)) = 42%nat ->
  (header_validate X now h = Ok tt <-> header_rules X now h).
Proof.
  intros Hc Ht Hs Hn. destruct (header_layout_ok h Ht Hs Hn) as (b & Eb & _).
  rewrite header_validate_cases by (try exact Hc; apply Ht). unfold header_rules.
  now rewrite <- pow_valid_iff by (try exact Hs; eauto).
Qed.

(** Timestamps as they come off the wire: those above 2^63-1-62135596800 wrap. *)
Lemma wire_instant bs h rest : header_read bs = Ok (h, rest) ->
  time_wf (h_time h) /\
  instant (h_time h) =
    ((wire_time bs + 62135596800 - (if 2 ^ 63 - 1 - 62135596800 <? wire_time bs then 2 ^ 64 else 0)) * 1000000000)%Z.
Proof.
  intro R. destruct (header_read_inv bs h rest R) as (Hw & V & front & mid & Ef & -> & _).
  destruct Hw as (Ht & Hs & Hp). assert (Tw : time_wf (h_time h)) by apply Ht. split; [exact Tw|].
  destruct (header_layout_ok h Ht Hs) as (b & Eb & L); [apply Hp|].
  assert (unbe (field 10 8 (front ++ mid)) = unbe (field 10 8 b)) as Ff.
  { unfold header_bytes in Eb. rewrite Ef in Eb. cbn [rbind] in Eb.
    destruct (proof_enc (h_pow h)) as [e| | |]; try discriminate Eb. cbn [rbind] in Eb. apply Ok_inj in Eb. subst b.
    pose proof (bwp_length h front Hs Ef) as Lf. unfold field.
    rewrite !skipn_app, !firstn_app, !skipn_length, Lf.
    now replace (8 - (246 - 10))%nat with 0%nat by reflexivity. }
  unfold wire_time. rewrite Ff. destruct L as (_ & _ & _ & L & _). rewrite L. clear - Tw V.
  destruct Tw as [Tw _].
  assert (t_nsec (h_time h) = 0%Z) as Hn.
  { rewrite <- V. reflexivity. }
  unfold instant. rewrite Hn. unfold is_i64 in Tw. set (s := t_sec (h_time h)) in *.
  destruct (Z.ltb_spec s (62135596800 - 2 ^ 63)) as [A|A].
  - (* wrapped *)
    rewrite <- (Z.mod_unique (s - 62135596800) (2 ^ 64) (-1) (s - 62135596800 + 2 ^ 64)) by lia.
    destruct (Z.ltb_spec (s - 62135596800 + 2 ^ 64) (2 ^ 63)); [|lia].
    destruct (Z.ltb_spec (2 ^ 63 - 1 - 62135596800) (s - 62135596800 + 2 ^ 64)); lia.
  - destruct (Z.ltb_spec s 62135596800).
    + rewrite <- (Z.mod_unique (s - 62135596800) (2 ^ 64) (-1) (s - 62135596800 + 2 ^ 64)) by lia.
      destruct (Z.ltb_spec (s - 62135596800 + 2 ^ 64) (2 ^ 63)); [lia|].
      destruct (Z.ltb_spec (2 ^ 63 - 1 - 62135596800) (s - 62135596800 + 2 ^ 64 - 2 ^ 64)); lia.
    + rewrite (Z.mod_small (s - 62135596800)) by lia.
      destruct (Z.ltb_spec (s - 62135596800) (2 ^ 63)); [|lia].
      destruct (Z.ltb_spec (2 ^ 63 - 1 - 62135596800) (s - 62135596800)); lia.
Qed.

Lemma far_future_refused X now bs h rest : clock_ok now -> header_read bs = Ok (h, rest) ->
  (wire_time bs <= 2 ^ 63 - 1 - 62135596800)%Z ->
  (unix_nanos now + 720 * 1000000000 < wire_time bs * 1000000000)%Z ->
  header_validate X now h = Err (Msg "invalid block version") \/
  header_validate X now h = Err (Msg "invalid block time").
Proof.
  intros Hc R L F. destruct (wire_instant bs h rest R) as [Tw E].
  unfold header_validate. destruct (validate_block_version _ _); cbn [negb]; [right|left; reflexivity].
  destruct (1000000000 * 12 * block_time_sec <? _)%Z eqn:B; [reflexivity|]. apply far_future_iff in B; [|exact Hc|exact Tw].
  unfold not_far_future, unix_nanos in *. rewrite E in B.
  destruct (Z.ltb_spec (2 ^ 63 - 1 - 62135596800) (wire_time bs)); lia.
Qed.

Lemma overflow_accepted X now bs h rest : clock_ok now -> (0 <= t_sec now)%Z -> header_read bs = Ok (h, rest) ->
  (2 ^ 63 - 1 - 62135596800 < wire_time bs)%Z ->
  not_far_future now (h_time h) /\ header_validate X now h <> Err (Msg "invalid block time") /\
  (header_validate X now h = Ok tt <->
   version_valid (h_height h) (h_version h) /\ graph_valid h /\ pow_valid X h).
Proof.
  intros Hc Hp R L. destruct (wire_instant bs h rest R) as [Tw E].
  destruct (header_read_inv bs h rest R) as ((Ht & Hs & Hn) & _).
  assert (wire_time bs < 2 ^ 63)%Z as W.
  { unfold wire_time. cbv zeta. destruct (Z.ltb_spec (Z.of_N (unbe (field 10 8 bs))) (2 ^ 63)); [assumption|].
    assert (unbe (field 10 8 bs) < 2 ^ 64); [|lia].
    eapply N.lt_le_trans; [apply unbe_lt|]. change (2 ^ 64) with (256 ^ 8).
    apply N.pow_le_mono_r; [lia|]. unfold field. pose proof (firstn_le_length 8 (skipn 10 bs)). lia. }
  assert (not_far_future now (h_time h)) as F.
  { unfold not_far_future. rewrite E. destruct Hc as [[_ Hc] _]. unfold instant at 1.
    destruct (Z.ltb_spec (2 ^ 63 - 1 - 62135596800) (wire_time bs)); lia. }
  split; [exact F|]. split.
  - unfold header_validate. destruct (negb _); [discriminate|].
    destruct (1000000000 * 12 * block_time_sec <? _)%Z eqn:B; [|cbv zeta; destruct (_ && _); [discriminate|]; destruct (_ && _); [discriminate|]].
    + apply (far_future_iff now (h_time h) Hc Tw) in F. rewrite B in F. discriminate F.
    + unfold pow_validate. rewrite header_bwp_ok by exact Hs. cbn [rbind]. destruct (cuckaroo_verify _ _ _); discriminate.
  - rewrite header_iff by (try assumption; apply Hn). unfold header_rules. tauto.
Qed.

(** ** Blocks *)

Lemma is_coinbase_odd f : is_coinbase f = coinbase f.
Proof.
  unfold is_coinbase, coinbase. change 1 with (N.ones 1) at 1. rewrite N.land_ones. change (2 ^ 1) with 2.
  rewrite <- N.bit0_mod, N.bit0_odd. now destruct (N.odd f).
Qed.

Lemma kernel_signed_iff X k : kernel_validate X k = Ok tt <-> kernel_signed X k.
Proof.
  unfold kernel_validate, kernel_signed, verify_signature, decode_signature, decompress_point, compute_message.
  cbn [sg_R sg_s]. cbv zeta. rewrite challenge_spec. unfold slice. rewrite skipn_O.
  assert (brepeat x00 16 = repeat x00 16) as -> by reflexivity.
  destruct (N.eqb_spec (px (c_smul X (c_G X) (unbe (firstn 32 (skipn 32 (k_sig k))))))
    (px (c_add X (Point (unbe (firstn 32 (k_sig k)))
        (c_sqrt X (unbe (firstn 32 (k_sig k)) * unbe (firstn 32 (k_sig k)) * unbe (firstn 32 (k_sig k)) + 7)))
      (c_smul X (k_excess k) (fiat_shamir X (Point (unbe (firstn 32 (k_sig k)))
        (c_sqrt X (unbe (firstn 32 (k_sig k)) * unbe (firstn 32 (k_sig k)) * unbe (firstn 32 (k_sig k)) + 7)))
        (k_excess k) (repeat x00 16 ++ be 8 (k_fee k) ++ be 8 (k_lock k)))))));
    split; try discriminate; auto. intro; contradiction.
Qed.

Lemma count_cons {A} (f : A -> bool) a l : count f (a :: l) = ((if f a then 1 else 0) + count f l)%nat.
Proof. unfold count. cbn. destruct (f a); reflexivity. Qed.

Section Blocks.
Context (X : Ext).

Lemma verify_coinbase_iff (l : list (output X)) : forall n,
  (verify_coinbase_from X n l = Ok tt <-> (count (fun o => coinbase (out_features o)) l = 0 \/
     n + count (fun o => coinbase (out_features o)) l <= 1)%nat).
Proof.
  induction l as [|o l IH]; intro n; cbn [verify_coinbase_from]; [split; auto|].
  rewrite count_cons, is_coinbase_odd. destruct (coinbase (out_features o)); cbn [rbind output_validate].
  - unfold max_coinbase_outputs. destruct (Nat.ltb_spec 1 (S n)); [split; [discriminate|lia]|].
    rewrite IH. lia.
  - rewrite IH. lia.
Qed.

Lemma verify_coinbase_safe (l : list (output X)) : forall n, survives (verify_coinbase_from X n l).
Proof.
  induction l as [|o l IH]; intro n; cbn [verify_coinbase_from]; [split; discriminate|].
  destruct (is_coinbase _); [|apply IH]. destruct (Nat.ltb _ _); [split; discriminate|]. apply IH.
Qed.

Lemma verify_kernels_iff (l : list kernel) : forall n,
  (verify_kernels_from X n l = Ok tt <->
   (count (fun k => coinbase (k_features k)) l = 0 \/ n + count (fun k => coinbase (k_features k)) l <= 1)%nat /\
   Forall (fun k => coinbase (k_features k) = true -> kernel_signed X k) l).
Proof.
  induction l as [|k l IH]; intro n; cbn [verify_kernels_from]; [split; auto|].
  rewrite count_cons, is_coinbase_odd, Forall_cons_iff. destruct (coinbase (k_features k)).
  - unfold max_coinbase_kernels. destruct (Nat.ltb_spec 1 (S n)); [split; [discriminate|lia]|].
    destruct (kernel_validate X k) as [[]| | |] eqn:E; cbn [rbind].
    + rewrite IH. apply kernel_signed_iff in E. split; [|intros (? & ? & ?); split; [lia|assumption]].
      intros [? ?]. split; [lia|]. auto.
    + split; [discriminate|]. intros (_ & F & _). specialize (F eq_refl). apply kernel_signed_iff in F. congruence.
    + split; [discriminate|]. intros (_ & F & _). specialize (F eq_refl). apply kernel_signed_iff in F. congruence.
    + split; [discriminate|]. intros (_ & F & _). specialize (F eq_refl). apply kernel_signed_iff in F. congruence.
  - rewrite IH. split; [intros [? ?]; split; [lia|]; split; [discriminate|assumption]|intros (? & _ & ?); split; [lia|assumption]].
Qed.

Lemma kernel_validate_safe k : survives (kernel_validate X k).
Proof. unfold kernel_validate. destruct (verify_signature _ _ _ _); split; discriminate. Qed.

Lemma verify_kernels_safe (l : list kernel) : forall n, survives (verify_kernels_from X n l).
Proof.
  induction l as [|k l IH]; intro n; cbn [verify_kernels_from]; [split; discriminate|].
  destruct (is_coinbase _); [|apply IH]. destruct (Nat.ltb _ _); [split; discriminate|].
  pose proof (kernel_validate_safe k) as [? ?].
  destruct (kernel_validate X k); cbn [rbind]; [apply IH|split; discriminate|contradiction|contradiction].
Qed.

Lemma verify_range_iff (l : list (output X)) :
  verify_range_proofs X l = Ok tt <-> Forall (fun o => rp_verify X (out_commit o) (out_proof o) = true) l.
Proof.
  induction l as [|o l IH]; cbn [verify_range_proofs]; [split; auto|]. rewrite Forall_cons_iff.
  destruct (rp_verify X _ _); cbn [negb].
  - rewrite IH. split; [auto|tauto].
  - split; [discriminate|]. intros [E _]; discriminate E.
Qed.

Lemma verify_range_safe (l : list (output X)) : survives (verify_range_proofs X l).
Proof.
  induction l as [|o l IH]; cbn [verify_range_proofs]; [split; discriminate|].
  destruct (rp_verify X _ _); cbn [negb]; [exact IH|split; discriminate].
Qed.

Lemma verify_sorted_iff (b : block X) :
  verify_sorted X b = Ok tt <-> lists_sorted X (b_inputs b) (b_outputs b) (b_kernels b).
Proof.
  unfold verify_sorted, lists_sorted. rewrite <- !is_sorted_iff.
  change (input_key X) with (input_hash X). change (output_key X) with (output_hash X).
  change (kernel_key X) with (kernel_hash X).
  destruct (is_sorted (input_hash X) _), (is_sorted (output_hash X) _), (is_sorted (kernel_hash X) _); cbn [negb];
    split; try discriminate; auto; intros (? & ? & ?); discriminate.
Qed.

Lemma verify_sorted_safe (b : block X) : survives (verify_sorted X b).
Proof.
  unfold verify_sorted. destruct (negb _); [split; discriminate|]. destruct (negb _); [split; discriminate|].
  destruct (negb _); split; discriminate.
Qed.

Lemma lenN_zero {A} (l : list A) : (lenN l =? 0) = true <-> l = [].
Proof. rewrite N.eqb_eq. destruct l; unfold lenN; cbn [List.length]; split; try reflexivity; try discriminate; lia. Qed.

Lemma bind_ok {A B} (r : res A) (f : A -> res B) b : rbind r f = Ok b <-> exists a, r = Ok a /\ f a = Ok b.
Proof.
  destruct r; cbn [rbind]; split; try discriminate; try (intros (? & E & _); discriminate E).
  - eauto.
  - intros (a' & E & F). apply Ok_inj in E. now subst.
Qed.

Lemma unit_ok {B} (r : res unit) (f : unit -> res B) b : rbind r f = Ok b <-> r = Ok tt /\ f tt = Ok b.
Proof.
  rewrite bind_ok. split; [intros ([] & ? & ?); auto|intros [? ?]; eauto].
Qed.

Lemma block_validate_iff now (b : block X) :
  block_validate X now b = Ok tt <->
  header_validate X now (b_header b) = Ok tt /\
  b_outputs b <> [] /\ b_kernels b <> [] /\
  lists_sorted X (b_inputs b) (b_outputs b) (b_kernels b) /\
  (count (fun o => coinbase (out_features o)) (b_outputs b) <= 1)%nat /\
  (count (fun k => coinbase (k_features k)) (b_kernels b) <= 1)%nat /\
  Forall (fun o => rp_verify X (out_commit o) (out_proof o) = true) (b_outputs b) /\
  Forall (fun k => coinbase (k_features k) = true -> kernel_signed X k) (b_kernels b).
Proof.
  unfold block_validate. rewrite unit_ok.
  destruct (lenN (b_outputs b) =? 0) eqn:Eo; cbn [orb].
  { apply lenN_zero in Eo. split; [intros [_ E]; discriminate E|]. intros (_ & E & _). contradiction. }
  destruct (lenN (b_kernels b) =? 0) eqn:Ek.
  { apply lenN_zero in Ek. split; [intros [_ E]; discriminate E|]. intros (_ & _ & E & _). contradiction. }
  assert (b_outputs b <> []) by (intro E; apply lenN_zero in E; congruence).
  assert (b_kernels b <> []) by (intro E; apply lenN_zero in E; congruence).
  rewrite !unit_ok, verify_sorted_iff, verify_coinbase_iff, verify_range_iff, verify_kernels_iff.
  split.
  - intros (? & ? & ? & ? & ? & ?). repeat (split; try assumption); lia.
  - intros (? & _ & _ & ? & ? & ? & ? & ?). repeat (split; try assumption); lia.
Qed.

Lemma block_iff now (b : block X) : clock_ok now -> header_typed (b_header b) -> header_sized (b_header b) ->
  List.length (p_nonces (h_pow (b_header b))) = 42%nat ->
  (block_validate X now b = Ok tt <-> block_rules X now b).
Proof.
  intros. rewrite block_validate_iff, header_iff by assumption. reflexivity.
Qed.

Lemma rbind_safe {A B} (r : res A) (f : A -> res B) : survives r -> (forall a, survives (f a)) -> survives (rbind r f).
Proof.
  intros [H1 H2] F. destruct r; cbn [rbind]; [apply F|split; discriminate|contradiction|contradiction].
Qed.

Lemma block_survives now (b : block X) : header_sized (b_header b) -> survives (block_validate X now b).
Proof.
  intro Hs. unfold block_validate. apply rbind_safe; [now apply header_survives|]. intro.
  destruct (_ || _); [split; discriminate|].
  apply rbind_safe; [apply verify_sorted_safe|]. intro.
  apply rbind_safe; [apply verify_coinbase_safe|]. intro.
  apply rbind_safe; [apply verify_range_safe|]. intro. apply verify_kernels_safe.
Qed.

(** Blocks made of one repeated non-coinbase output and kernel. *)
Lemma sorted_repeat {A} (key : A -> bytes) a n : key_sorted key (repeat a n).
Proof.
  unfold key_sorted. induction n; cbn [repeat]; constructor; [exact IHn|].
  apply Forall_forall. intros x H. apply repeat_spec in H. subst x.
  apply bytes_lt_irrefl.
Qed.

Lemma count_repeat {A} (f : A -> bool) a n : f a = false -> count f (repeat a n) = 0%nat.
Proof. intro H. induction n; [reflexivity|]. cbn [repeat]. now rewrite count_cons, H, IHn. Qed.

Lemma repeat_accepted now h o k n m :
  header_validate X now h = Ok tt -> coinbase (out_features o) = false ->
  rp_verify X (out_commit o) (out_proof o) = true -> coinbase (k_features k) = false ->
  block_validate X now (Block h [] (repeat o (S n)) (repeat k (S m))) = Ok tt.
Proof.
  intros Hh Ho Hp Hk. apply block_validate_iff. cbn [b_header b_inputs b_outputs b_kernels].
  rewrite !count_repeat by assumption.
  split; [exact Hh|]. split; [discriminate|]. split; [discriminate|].
  split; [|split; [lia|split; [lia|split]]].
  - repeat apply conj; [constructor|apply sorted_repeat|apply sorted_repeat].
  - apply Forall_forall. intros x H. apply repeat_spec in H. now subst.
  - apply Forall_forall. intros x H. apply repeat_spec in H. subst. congruence.
Qed.

(** ** From the wire *)

Lemma block_read_header bs (b : block X) rest : block_read X bs = Ok (b, rest) ->
  exists rest', header_read bs = Ok (b_header b, rest').
Proof.
  unfold block_read. intro H.
  apply pbind_inv in H as (h & m1 & R1 & H). exists m1.
  apply pbind_inv in H as (ni & m2 & _ & H). apply pbind_inv in H as (no & m3 & _ & H).
  apply pbind_inv in H as (nk & m4 & _ & H).
  destruct (_ <? _); [discriminate|]. destruct (_ <? _); [discriminate|]. destruct (_ <? _); [discriminate|].
  apply pbind_inv in H as (l & m5 & _ & H). unfold rret in H. injection H as <- _. exact R1.
Qed.

Lemma wire_header_safe now bs h rest : header_read bs = Ok (h, rest) ->
  (exists d, header_hash X h = Ok d) /\ (exists b, header_bytes h = Ok b) /\ survives (header_validate X now h).
Proof.
  intro R. destruct (header_read_inv bs h rest R) as ((Ht & Hs & Hp) & _).
  destruct (header_layout_ok h Ht Hs) as (b & Eb & _); [apply Hp|].
  split; [|split; [eauto|now apply header_survives]].
  unfold header_hash. unfold header_bytes in Eb. rewrite header_bwp_ok in Eb by exact Hs. cbn [rbind] in Eb.
  unfold proof_enc in Eb. destruct (proof_bytes (h_pow h)); try discriminate Eb. eexists. reflexivity.
Qed.

Lemma wire_block_safe now bs (b : block X) rest : block_read X bs = Ok (b, rest) ->
  (exists d, block_hash X b = Ok d) /\ (exists r, block_bytes X b = Ok r) /\ survives (block_validate X now b).
Proof.
  intro R. destruct (block_read_header bs b rest R) as (rest' & Rh).
  destruct (wire_header_safe now bs _ _ Rh) as ((d & Ed) & (hb & Eb) & _).
  destruct (header_read_inv _ _ _ Rh) as ((_ & Hs & _) & _).
  split; [exists d; exact Ed|]. split; [|now apply block_survives].
  unfold block_bytes. rewrite Eb. cbn [rbind]. eauto.
Qed.
End Blocks.

(** ** Difficulty *)

Lemma diff_from_hash_eq hash : (8 <= List.length hash)%nat ->
  diff_from_hash hash =
  let top := unbe (firstn 8 hash) in if top =? 0 then Panic else Ok (1152921504606846975 / top).
Proof.
  intro L. unfold diff_from_hash, slice. rewrite skipn_O.
  destruct (N.ltb_spec (lenN hash) 8); [unfold lenN in *; lia|]. reflexivity.
Qed.

Lemma time_insert_len t l : List.length (time_insert t l) = S (List.length l).
Proof. induction l as [|u r IH]; cbn [time_insert]; [reflexivity|]. destruct (time_before t u); cbn; [reflexivity|now rewrite IH]. Qed.
Lemma time_sort_len l : List.length (time_sort l) = List.length l.
Proof.
  unfold time_sort. assert (forall acc, List.length (time_sort_acc acc l) = (List.length acc + List.length l)%nat) as H.
  { induction l as [|t r IH]; intro acc; cbn [time_sort_acc]; [cbn; lia|]. rewrite IH, time_insert_len. cbn. lia. }
  now rewrite H.
Qed.
Lemma median_total l : l <> [] -> exists t, median l = Ok t.
Proof.
  intro H. unfold median. destruct (nth_error l _) eqn:E; [eauto|]. apply nth_error_None in E.
  destruct l; [contradiction|]. pose proof (Nat.div_lt (List.length (g :: l)) 2). cbn [List.length] in *. lia.
Qed.

Section Diff.
Context {X : Ext}.
Implicit Type bl : list (block X).

Definition dsum bl : N := fold_right N.add 0 (map (fun b => h_difficulty (b_header b)) bl).

Lemma dsum_app a b : dsum (a ++ b) = dsum a + dsum b.
Proof. unfold dsum. induction a; cbn; [reflexivity|]. rewrite IHa. lia. Qed.

Lemma firstn_S_nth {A} n (l : list A) a : nth_error l n = Some a -> firstn (S n) l = firstn n l ++ [a].
Proof.
  revert l; induction n; intros [|b l] E; try discriminate E; cbn in *; [now injection E as ->|].
  f_equal. apply IHn, E.
Qed.

Lemma w64_add a b : w64 (w64 a + b) = w64 (a + b).
Proof. rewrite !w64_mod. now rewrite N.add_mod_idemp_l. Qed.

(** Below the adjustment window the loop adds up every difficulty. *)
Lemma window_low i : forall bl sum wb we, (i <= 60)%nat -> (i <= List.length bl)%nat ->
  exists wb', window_loop X i bl (w64 sum, wb, we) = (w64 (sum + dsum (firstn i bl)), wb', we) /\
    List.length wb' = (List.length wb + min i 11)%nat.
Proof.
  induction i as [|i IH]; intros bl sum wb we Hi Hl.
  - exists wb. cbn. rewrite N.add_0_r. split; [reflexivity|lia].
  - cbn [window_loop]. destruct (nth_error bl i) as [b|] eqn:E; [|apply nth_error_None in E; lia].
    unfold difficulty_adjust_window, median_time_window. destruct (Nat.ltb_spec i 60); [|lia].
    rewrite w64_add.
    destruct (IH bl (sum + h_difficulty (b_header b)) (if Nat.ltb i 11 then wb ++ [h_time (b_header b)] else wb) we) as (wb' & E' & L');
      [lia|lia|].
    exists wb'. rewrite E', (firstn_S_nth i bl b E), dsum_app. split.
    + f_equal. f_equal. f_equal. cbn. lia.
    + rewrite L'. destruct (Nat.ltb_spec i 11); [rewrite app_length; cbn; lia|lia].
Qed.

Lemma window_S i bl wb we : window_loop X (S i) bl (0, wb, we) =
      match nth_error bl i with
      | None => (0, wb, we)
      | Some b =>
          if Nat.ltb i difficulty_adjust_window then
            window_loop X i bl
              (w64 (0 + h_difficulty (b_header b)),
               if Nat.ltb i median_time_window then wb ++ [h_time (b_header b)] else wb, we)
          else if Nat.ltb i (difficulty_adjust_window + median_time_window) then
            window_loop X i bl (0, wb, we ++ [h_time (b_header b)])
          else (0, wb, we)
      end.
Proof. reflexivity. Qed.

(** Above it, the loop collects the end times. *)
Lemma window_high j : forall bl wb we, (j <= 11)%nat -> (60 + j <= List.length bl)%nat ->
  exists we', window_loop X (60 + j) bl (0, wb, we) = window_loop X 60 bl (0, wb, we') /\
    List.length we' = (List.length we + j)%nat.
Proof.
  induction j as [|j IH]; intros bl wb we Hj Hl.
  - exists we. split; [f_equal; lia|lia].
  - replace (60 + S j)%nat with (S (60 + j)) by lia.
    rewrite window_S.
    destruct (nth_error bl (60 + j)) as [b|] eqn:E; [|apply nth_error_None in E; lia].
    unfold difficulty_adjust_window, median_time_window.
    destruct (Nat.ltb_spec (60 + j) 60); [lia|]. destruct (Nat.ltb_spec (60 + j) (60 + 11)); [|lia].
    destruct (IH bl wb (we ++ [h_time (b_header b)])) as (we' & E' & L'); [lia|lia|].
    exists we'. split; [exact E'|]. rewrite L', app_length. cbn. lia.
Qed.

Lemma next_difficulty_eq bl : next_difficulty X bl =
  match List.length bl with
  | O => Ok 0
  | n => if Nat.eqb n 71 then Ok (target_difficulty bl) else Ok 1
  end.
Proof.
  destruct bl as [|b0 bl0] eqn:Ebl; [reflexivity|]. rewrite <- Ebl.
  assert (List.length bl <> 0)%nat as Hn by (subst; discriminate).
  replace (next_difficulty X bl) with
    (let '(sum, wb, we) := window_loop X (List.length bl) bl (0, [], []) in
      if Nat.ltb (List.length we) median_time_window then Ok 1
      else
        let! bt := median (time_sort wb) in
        let! et := median (time_sort we) in
        let avg := sum / N.of_nat difficulty_adjust_window in
        let ts := Z.quot (wrap64 (3 * block_time_window + time_sub bt et)) 4 in
        let ts := if (ts <? lower_time_bound)%Z then lower_time_bound else ts in
        let ts := if (upper_time_bound <? ts)%Z then upper_time_bound else ts in
        let diff := w64 (avg * Z.to_N block_time_window) / u64_of_i64 ts in
        Ok (if 1 <? diff then diff else 1)) by (subst bl; reflexivity).
  destruct (List.length bl) as [|len] eqn:El; [contradiction|]. rewrite <- El. clear Hn Ebl b0 bl0.
  destruct (Nat.le_gt_cases (List.length bl) 60) as [L|L].
  - destruct (window_low (List.length bl) bl 0 [] [] L (le_n _)) as (wb & E & _). change (w64 0) with 0 in E. rewrite E.
    change (Nat.ltb (List.length []) median_time_window) with true. cbv iota.
    destruct (Nat.eqb_spec (List.length bl) 71); [lia|reflexivity].
  - destruct (Nat.le_gt_cases (List.length bl) 71) as [L'|L'].
    + destruct (window_high (List.length bl - 60) bl [] []) as (we & E & Lw); [lia|lia|].
      replace (60 + (List.length bl - 60))%nat with (List.length bl) in E by lia. rewrite E.
      destruct (window_low 60 bl 0 [] we) as (wb & E' & Lb); [lia|lia|]. change (w64 0) with 0 in E'. rewrite E'.
      unfold median_time_window. destruct (Nat.ltb_spec (List.length we) 11) as [B|B]; cbn [List.length] in Lw.
      * destruct (Nat.eqb_spec (List.length bl) 71); [lia|reflexivity].
      * destruct (Nat.eqb_spec (List.length bl) 71); [|lia].
        destruct (median_total (time_sort wb)) as [bt Et].
        { intro Z. apply (f_equal (@List.length _)) in Z. rewrite time_sort_len, Lb in Z. cbn in Z. lia. }
        destruct (median_total (time_sort we)) as [et Ee].
        { intro Z. apply (f_equal (@List.length _)) in Z. rewrite time_sort_len in Z. cbn in Z. lia. }
        rewrite Et, Ee. cbn [rbind]. cbv zeta.
        set (q := Z.quot _ 4).
        assert ((if (upper_time_bound <? (if (q <? lower_time_bound)%Z then lower_time_bound else q))%Z
                 then upper_time_bound else (if (q <? lower_time_bound)%Z then lower_time_bound else q)) = 7200%Z) as ->.
        { unfold upper_time_bound, lower_time_bound, block_time_window, block_time_sec.
          destruct (Z.ltb_spec q (60 * 60 * 2)); [reflexivity|].
          destruct (Z.ltb_spec (60 * 60 * 2) q); lia. }
        change (u64_of_i64 7200) with 7200. change (Z.to_N block_time_window) with 3600.
        change (N.of_nat difficulty_adjust_window) with 60. cbn [N.add].
        unfold target_difficulty, window_sum. fold (dsum (firstn 60 bl)). rewrite !w64_mod.
        f_equal. set (d := _ / 7200). destruct (N.ltb_spec 1 d); lia.
    + replace (List.length bl) with (S len). cbn [window_loop].
      assert (Nat.ltb len difficulty_adjust_window = false) as -> by (apply Nat.ltb_ge; unfold difficulty_adjust_window; lia).
      assert (Nat.ltb len (difficulty_adjust_window + median_time_window) = false) as ->
        by (apply Nat.ltb_ge; unfold difficulty_adjust_window, median_time_window; lia).
      destruct (nth_error bl len); change (Nat.ltb (List.length []) median_time_window) with true; cbv iota;
        (destruct (Nat.eqb_spec (S len) 71); [lia|reflexivity]).
Qed.

(** The result depends on the declared difficulties alone. *)
Lemma next_difficulty_times bl bl' :
  map (fun b => h_difficulty (b_header b)) bl = map (fun b => h_difficulty (b_header b)) bl' ->
  next_difficulty X bl = next_difficulty X bl'.
Proof.
  intro E. rewrite !next_difficulty_eq.
  assert (List.length bl = List.length bl') as L by (rewrite <- (map_length (fun b => h_difficulty (b_header b)) bl), E; apply map_length).
  rewrite L. destruct (List.length bl'); [reflexivity|]. destruct (Nat.eqb _ _); [|reflexivity].
  unfold target_difficulty, window_sum. rewrite <- !firstn_map. now rewrite E.
Qed.
End Diff.

(** ** Short ids *)

Lemma unle_le_mod k n : unle (le k n) = n mod 256 ^ N.of_nat k.
Proof.
  revert n; induction k as [|k IH]; intros n.
  - cbn [le unle]. rewrite N.pow_0_r, N.mod_1_r. reflexivity.
  - cbn [le unle]. rewrite b2n_n2b, IH, pow256_S.
    pose proof (pow256_pos (N.of_nat k)).
    rewrite N.mod_mul_r by lia. lia.
Qed.

Lemma short_id_eq X h bh : (16 <= List.length bh)%nat ->
  exists id, short_id X h bh = Ok id /\ List.length id = 6%nat /\
    unle id = sip_lib X (unle (firstn 8 bh)) (unle (firstn 8 (skipn 8 bh))) h mod 2 ^ 48.
Proof.
  intro L. unfold short_id. destruct (N.ltb_spec (lenN bh) 16); [unfold lenN in *; lia|].
  eexists. split; [reflexivity|]. unfold slice. rewrite !skipn_O. set (s := sip_lib X _ _ h).
  assert (forall n, firstn 6 (le 8 n) = le 6 n) as F by reflexivity.
  rewrite F. split; [apply le_length|]. rewrite unle_le_mod. reflexivity.
Qed.

Lemma short_id_panics X h bh : (List.length bh < 16)%nat -> short_id X h bh = Panic.
Proof. intro L. unfold short_id. destruct (N.ltb_spec (lenN bh) 16); [reflexivity|unfold lenN in *; lia]. Qed.

(** ** Restatements for the property file *)

Lemma version_cases height version :
  validate_block_version height version = true <->
  (version = 1 /\ height < 95000) \/ (version = 2 /\ 95000 <= height < 250000) \/
  (version = 3 /\ 250000 <= height < 500000).
Proof.
  rewrite version_iff. unfold version_valid, version_table. split.
  - intros (r & H & <- & R). cbn [In] in H. repeat destruct H as [<-|H]; try contradiction; cbn in *; lia.
  - intros [[-> H]|[[-> H]|[-> H]]].
    + exists (1, 0, 95000). cbn. repeat split; auto; lia.
    + exists (2, 95000, 250000). cbn. repeat split; auto; lia.
    + exists (3, 250000, 500000). cbn. repeat split; auto; lia.
Qed.

Lemma version_at_most_one height v w :
  validate_block_version height v = true -> validate_block_version height w = true -> v = w.
Proof. rewrite !version_iff. apply version_unique. Qed.

Lemma version_none_after height version : 500000 <= height -> validate_block_version height version = false.
Proof.
  intro H. destruct (validate_block_version height version) eqn:E; [|reflexivity]. apply version_cases in E. lia.
Qed.

Lemma accepted_nonces X now h :
  clock_ok now -> header_typed h -> header_sized h -> List.length (p_nonces (h_pow h)) = 42%nat ->
  header_validate X now h = Ok tt ->
  StronglySorted N.lt (p_nonces (h_pow h)) /\ Forall (fun n => n < 2 ^ p_bits (h_pow h)) (p_nonces (h_pow h)).
Proof.
  intros Hc Ht Hs Hn V. apply header_iff in V; try assumption. destruct V as (_ & _ & _ & b & _ & V).
  apply cuckaroo_nonces in V; [apply V|]. apply Ht.
Qed.

Lemma cycle_accepted X now h b :
  clock_ok now -> header_typed h -> header_sized h -> List.length (p_nonces (h_pow h)) = 42%nat ->
  version_valid (h_height h) (h_version h) -> not_far_future now (h_time h) -> graph_valid h ->
  header_bytes h = Ok b ->
  StronglySorted N.lt (p_nonces (h_pow h)) -> Forall (fun n => n < 2 ^ p_bits (h_pow h)) (p_nonces (h_pow h)) ->
  simple_cycle (map (cuckaroo_ends (key_words (blake2b X (firstn 246 b))) (p_bits (h_pow h))) (p_nonces (h_pow h))) ->
  header_validate X now h = Ok tt.
Proof.
  intros Hc Ht Hs Hn Hv Hf Hg Hb H1 H2 Hcy. apply header_iff; try assumption.
  repeat (split; [assumption|]). exists b. split; [exact Hb|].
  apply cuckaroo_digest_complete.
  - apply Ht.
  - split; [|split; assumption]. intro E. rewrite E in Hn. discriminate Hn.
  - exact Hcy.
Qed.

Lemma coinbase_signed X now b : block_validate X now b = Ok tt ->
  Forall (fun k => coinbase (k_features k) = true -> kernel_signed X k) (b_kernels b).
Proof. intro H. apply block_validate_iff in H. apply H. Qed.

Lemma closed_form X (bl : list (block X)) :
  (bl = [] -> next_difficulty X bl = Ok 0) /\
  (bl <> [] -> List.length bl <> 71%nat -> next_difficulty X bl = Ok 1) /\
  (List.length bl = 71%nat -> next_difficulty X bl = Ok (target_difficulty bl)).
Proof.
  rewrite next_difficulty_eq. split; [intros ->; reflexivity|]. split.
  - intros H L. destruct (List.length bl) eqn:E; [destruct bl; [contradiction|discriminate]|].
    destruct (Nat.eqb_spec (S n) 71); [contradiction|reflexivity].
  - intros ->. reflexivity.
Qed.

Lemma diff_cases hash : List.length hash = 32%nat ->
  let top := unbe (firstn 8 hash) in
  (top = 0 -> diff_from_hash hash = Panic) /\
  (0 < top -> diff_from_hash hash = Ok (0x0fffffffffffffff / top)) /\
  (0x0fffffffffffffff < top -> diff_from_hash hash = Ok 0) /\
  (0 < top <= 0x0fffffffffffffff -> exists d, diff_from_hash hash = Ok d /\ 1 <= d).
Proof.
  intros L top. rewrite diff_from_hash_eq by lia. fold top. cbv zeta.
  destruct (N.eqb_spec top 0) as [E|E].
  - repeat split; try reflexivity; lia.
  - repeat split; try lia.
    + intro. f_equal. now apply N.div_small.
    + intro. eexists. split; [reflexivity|]. apply N.div_le_lower_bound; lia.
Qed.

Lemma to_difficulty_eq X p e : hash_laws X -> proof_enc p = Ok e ->
  let top := unbe (firstn 8 (blake2b X e)) in
  to_difficulty X p = if top =? 0 then Panic else Ok (0x0fffffffffffffff / top).
Proof.
  intros (H & _) E. unfold to_difficulty, proof_hash. rewrite E. cbn [rmap rbind].
  now rewrite diff_from_hash_eq by (rewrite H; lia).
Qed.
