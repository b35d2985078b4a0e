(** Concrete cases for the consensus-rule theorems, among them a header with a genuine proof of
    work: a 42-cycle found in the Cuckaroo graph with 2^29 edges keyed by (1009, 2, 3, 4). *)
From Coq Require Import Permutation Sorted.
From Verif Require Import Consensus SpecPow SpecCodec SpecConsensus SpecSchnorr SpecRules SipProofs CycleProofs PowProofs PowExamples
  PowCodecProofs CodecProofs BlockCodecProofs RulesProofs Instance CodecExamples.

Definition mined_seed : bytes := le 8 1009 ++ le 8 2 ++ le 8 3 ++ le 8 4.
Definition mined_nonces : list N := [11034915; 14297014; 15396660; 30985202; 40785688; 62561984; 74285350; 78201952; 89855944; 92475072;
   103996122; 110596976; 183414391; 183932459; 192356857; 251715671; 260167892; 264471203; 269926880;
   275394606; 308428463; 310859840; 311161509; 312944110; 313624299; 366339898; 371029656; 374701303;
   421050896; 422685444; 431394106; 431460612; 435119837; 444999446; 446392101; 462909601; 465072118;
   475359310; 486706998; 508912410; 530580997; 532418941].

(** The toy instance, except that the hash of a 246-byte string is the seed above. *)
Definition mined_hash (m : bytes) : bytes := if lenN m =? 246 then mined_seed else toy_hash 0 m.
Definition mined : Ext := {|
  blake2b := mined_hash; sha256 := sha256 toy; sip_lib := sip_lib toy;
  c_order := c_order toy; c_G := c_G toy; c_H := c_H toy;
  c_smul := c_smul toy; c_add := c_add toy; c_sqrt := c_sqrt toy;
  point_enc := point_enc toy; point_read := point_read toy;
  rproof := N; rproof_enc := rproof_enc toy; rproof_read := rproof_read toy;
  rp_verify := rp_verify toy; go_sort := @go_sort toy
|}.

Lemma mined_hash_len m : List.length (mined_hash m) = 32%nat.
Proof. unfold mined_hash. destruct (_ =? _); [reflexivity|apply be_length]. Qed.
Lemma mined_hash_laws : hash_laws mined.
Proof. split; [exact mined_hash_len|exact (proj2 toy_hash_laws)]. Qed.
Lemma mined_sort : sort_laws mined.
Proof. exact toy_sort. Qed.
Lemma mined_codec : codec_laws mined toy_P toy_Q.
Proof. destruct toy_codec as [A B C D]. exact (@Build_codec_laws mined toy_P toy_Q A B C D). Qed.

(** 16 November 2026, 00:00 UTC and 5 nanoseconds. *)
Definition ex_now : gotime := GoTime (1794787200 + 62135596800) 5.
Lemma ex_now_ok : clock_ok ex_now.
Proof. repeat split; cbn; lia. Qed.

Definition mined_at (ts : Z) : header :=
  Header 3 260000 (brepeat x11 32) (brepeat x22 32) (time_unix ts) (brepeat x33 32)
    (brepeat x44 32) (brepeat x55 32) 77 (brepeat x66 32) [] 12 34 (Proof 29 mined_nonces) 0 1000000 7.
Definition mined_header : header := mined_at 1794787200.

Lemma mined_u32 : Forall is_u32 mined_nonces.
Proof. apply below_sound; vm_compute; reflexivity. Qed.
Lemma mined_len : List.length mined_nonces = 42%nat.
Proof. reflexivity. Qed.
Lemma mined_typed ts : header_typed (mined_at ts).
Proof.
  unfold header_typed. cbn [mined_at h_version h_height h_time h_nonce h_output_mmr h_kernel_mmr
    h_total_difficulty h_scaling h_pow p_bits p_nonces].
  split; [reflexivity|]. split; [reflexivity|]. split; [apply time_unix_wf|].
  do 6 (split; [reflexivity|]). exact mined_u32.
Qed.
Lemma mined_sized ts : header_sized (mined_at ts).
Proof. repeat split. Qed.
Lemma mined_canonical : proof_canonical (Proof 29 mined_nonces).
Proof.
  split; [cbn; lia|]. split; [reflexivity|]. apply below_sound. vm_compute. reflexivity.
Qed.

Fixpoint nodupb (l : list N) : bool :=
  match l with [] => true | a :: t => negb (existsb (N.eqb a) t) && nodupb t end.
Lemma nodup_sound l : nodupb l = true -> NoDup l.
Proof.
  induction l as [|a t IH]; cbn; [constructor|]. intro H. apply andb_prop in H as [H1 H2]. constructor; [|auto].
  intro I. apply negb_true_iff in H1. rewrite <- not_true_iff_false in H1. apply H1, existsb_exists.
  exists a. split; [exact I|apply N.eqb_refl].
Qed.

(** The cycle. *)
Lemma mined_edges : map (cuckaroo_ends (key_words mined_seed) 29) mined_nonces = [(348334680, 133263320); (377405769, 329465179); (390799420, 465346935); (196322412, 165249924);
   (289602004, 491361848); (289602004, 469446917); (88553681, 302861822); (376611968, 469446917);
   (44227532, 491361848); (263503257, 394897845); (289798499, 71803472); (88553681, 407183834);
   (450164031, 254273681); (388711757, 58879601); (15221549, 407183834); (59812127, 393529834);
   (8650855, 254273681); (102167752, 302861822); (149567419, 427801847); (390799420, 133263320);
   (518443662, 465346935); (377405769, 257255202); (388711757, 394897845); (94907569, 6297368);
   (15221549, 155158504); (450164031, 165249924); (263503257, 271941972); (289798499, 222091299);
   (149567419, 222091299); (513882826, 329465179); (348334680, 271941972); (196322412, 393529834);
   (59812127, 6297368); (518443662, 427801847); (513882826, 58879601); (94907569, 257255202);
   (102167752, 278469461); (44227532, 278469461); (8650855, 155158504); (376611968, 187964331);
   (393866073, 187964331); (393866073, 71803472)].
Proof.
  change (key_words mined_seed) with (words_of (Sip 1009 2 3 4)).
  rewrite <- (cuckaroo_ends_map (Sip 1009 2 3 4) 29 mined_nonces) by (first [exact mined_u32|repeat split; reflexivity]).
  vm_compute. reflexivity.
Qed.
Lemma mined_cycle : simple_cycle (map (cuckaroo_ends (key_words mined_seed) 29) mined_nonces).
Proof.
  rewrite mined_edges.
  exists [348334680; 263503257; 388711757; 513882826; 377405769; 94907569; 59812127; 196322412; 450164031;
   8650855; 15221549; 88553681; 102167752; 44227532; 289602004; 376611968; 393866073; 289798499;
   149567419; 518443662; 390799420], [133263320; 271941972; 394897845; 58879601; 329465179; 257255202; 6297368; 393529834; 165249924;
   254273681; 155158504; 407183834; 302861822; 278469461; 491361848; 469446917; 187964331; 71803472;
   222091299; 427801847; 465346935].
  split; [discriminate|]. split; [reflexivity|].
  split; [apply nodup_sound; vm_compute; reflexivity|]. split; [apply nodup_sound; vm_compute; reflexivity|].
  apply perm_check_sound. vm_compute. reflexivity.
Qed.

Lemma mined_hash_bwp ts b : header_bytes (mined_at ts) = Ok b -> blake2b mined (firstn 246 b) = mined_seed.
Proof.
  intro E. cbn [blake2b mined]. unfold mined_hash.
  assert (List.length (firstn 246 b) = 246%nat) as L.
  { destruct (header_layout_ok (mined_at ts) (mined_typed ts) (mined_sized ts) mined_len) as (b' & E' & L & _).
    rewrite E in E'. apply Ok_inj in E'. subst b'. rewrite firstn_length. unfold lenN in L.
    change (p_bits (h_pow (mined_at ts))) with 29 in L. change (bytes_for (42 * 29)) with 153 in L. lia. }
  unfold lenN. now rewrite L.
Qed.

Lemma mined_accepts now ts : clock_ok now -> not_far_future now (time_unix ts) ->
  header_validate mined now (mined_at ts) = Ok tt.
Proof.
  intros Hc Hf.
  destruct (header_layout_ok (mined_at ts) (mined_typed ts) (mined_sized ts) mined_len) as (b & E & _).
  apply (cycle_accepted mined now (mined_at ts) b Hc (mined_typed ts) (mined_sized ts) mined_len).
  - exists (3, 250000, 500000). split; [cbn; auto|]. split; [reflexivity|]. cbn. lia.
  - exact Hf.
  - left. reflexivity.
  - exact E.
  - apply increasing_sound. vm_compute. reflexivity.
  - apply below_sound. vm_compute. reflexivity.
  - rewrite (mined_hash_bwp ts b E). exact mined_cycle.
Qed.

Lemma mined_header_accepted : header_validate mined ex_now mined_header = Ok tt.
Proof. apply mined_accepts; [exact ex_now_ok|]. unfold not_far_future. vm_compute. discriminate. Qed.

Lemma mined_ok : clock_ok ex_now /\ header_typed mined_header /\ header_sized mined_header /\
  List.length (p_nonces (h_pow mined_header)) = 42%nat /\ header_validate mined ex_now mined_header = Ok tt.
Proof.
  exact (conj ex_now_ok (conj (mined_typed _) (conj (mined_sized _) (conj mined_len mined_header_accepted)))).
Qed.

(** ** On the wire *)
Lemma mined_read ts : is_i64 ts -> exists bs, header_read bs = Ok (mined_at ts, []) /\ wire_time bs = ts.
Proof.
  intro H. destruct (header_roundtrip (mined_at ts) []) as (b & E & R).
  { split; [apply mined_typed|]. split; [apply mined_sized|exact mined_canonical]. }
  assert (wire_view (mined_at ts) = mined_at ts) as V.
  { unfold wire_view, mined_at. cbn [h_time h_version h_height h_previous h_prev_root h_utxo_root h_rp_root h_kernel_root
      h_nonce h_offset h_kernel_sum h_output_mmr h_kernel_mmr h_pow h_difficulty h_total_difficulty h_scaling]. reflexivity. }
  rewrite V, app_nil_r in R. exists b. split; [exact R|].
  destruct (header_layout_ok (mined_at ts) (mined_typed ts) (mined_sized ts) mined_len) as (b' & E' & L).
  rewrite E in E'. apply Ok_inj in E'. subst b'. destruct L as (_ & _ & _ & L & _).
  unfold wire_time. rewrite L. cbn [mined_at h_time]. unfold time_unix. cbn [t_sec]. unfold is_i64 in H.
  assert ((wrap64 (ts + unix_to_internal) - 62135596800) mod 2 ^ 64 = ts mod 2 ^ 64)%Z as ->.
  { unfold wrap64, unix_to_internal.
    pose proof (Z.div_mod (ts + 62135596800 + 2 ^ 63) (2 ^ 64) ltac:(lia)) as D.
    set (q := ((ts + 62135596800 + 2 ^ 63) / 2 ^ 64)%Z) in *.
    replace ((ts + 62135596800 + 2 ^ 63) mod 2 ^ 64 - 2 ^ 63 - 62135596800)%Z with (ts + (- q) * 2 ^ 64)%Z by lia.
    apply Z_mod_plus_full. }
  destruct (Z.lt_ge_cases ts 0).
  - rewrite <- (Z.mod_unique ts (2 ^ 64) (-1) (ts + 2 ^ 64)) by lia. destruct (Z.ltb_spec (ts + 2 ^ 64) (2 ^ 63)); lia.
  - rewrite Z.mod_small by lia. destruct (Z.ltb_spec ts (2 ^ 63)); lia.
Qed.

Lemma mined_wire : exists bs h, header_read bs = Ok (h, []) /\ header_validate mined ex_now h = Ok tt.
Proof.
  destruct (mined_read 1794787200) as (bs & R & _); [split; cbn; lia|].
  exists bs, mined_header. split; [exact R|exact mined_header_accepted].
Qed.

Lemma future_witness : exists X now bs h,
  hash_laws X /\ clock_ok now /\ header_read bs = Ok (h, []) /\
  (unix_nanos now + 720 * 1000000000 < wire_time bs * 1000000000)%Z /\ header_validate X now h = Ok tt.
Proof.
  destruct (mined_read (2 ^ 63 - 1)) as (bs & R & W); [split; cbn; lia|].
  exists mined, ex_now, bs, (mined_at (2 ^ 63 - 1)). split; [exact mined_hash_laws|]. split; [exact ex_now_ok|].
  split; [exact R|]. rewrite W. split; [vm_compute; reflexivity|].
  apply mined_accepts; [exact ex_now_ok|]. unfold not_far_future. vm_compute. discriminate.
Qed.

Lemma future_case : exists bs h, clock_ok ex_now /\ header_read bs = Ok (h, []) /\
  (wire_time bs <= 2 ^ 63 - 1 - 62135596800)%Z /\
  (unix_nanos ex_now + 720 * 1000000000 < wire_time bs * 1000000000)%Z /\
  header_validate mined ex_now h = Err (Msg "invalid block time").
Proof.
  destruct (mined_read 1794787921) as (bs & R & W); [split; cbn; lia|].
  exists bs, (mined_at 1794787921). split; [exact ex_now_ok|]. split; [exact R|]. rewrite W.
  split; [vm_compute; discriminate|]. split; [vm_compute; reflexivity|].
  vm_compute. reflexivity.
Qed.

(** ** Blocks *)
Definition ex_plain_out : output mined := @Output mined 0 (c_smul toy toy_G 3) (px (c_smul toy toy_G 3)).
Definition ex_coin_out : output mined := @Output mined 1 (c_smul toy toy_G 4) (px (c_smul toy toy_G 4)).
Definition ex_plain_ker : kernel := Kernel 0 5 0 (c_smul toy toy_G 3) (brepeat x09 64).
Definition ex_coin_ker : kernel :=
  Kernel 1 0 0 (c_smul toy toy_G 9) (sig_bytes (sign_message toy 3 (c_smul toy toy_G 9) 9 (compute_message 0 0))).
Definition mined_block : block mined :=
  Block mined_header [ex_input 1; ex_input 0] [ex_plain_out; ex_coin_out] [ex_plain_ker; ex_coin_ker].

Lemma sorted2 {A} (key : A -> bytes) a b : bytes_lt (key b) (key a) = false -> key_sorted key [a; b].
Proof. intro H. repeat constructor. exact H. Qed.

Lemma ex_coin_signed : kernel_signed mined ex_coin_ker.
Proof. vm_compute. reflexivity. Qed.

Lemma mined_block_ok : header_typed (b_header mined_block) /\ header_sized (b_header mined_block) /\
  List.length (p_nonces (h_pow (b_header mined_block))) = 42%nat /\
  block_validate mined ex_now mined_block = Ok tt /\
  existsb (fun o => coinbase (out_features o)) (b_outputs mined_block) = true /\
  existsb (fun k => coinbase (k_features k)) (b_kernels mined_block) = true.
Proof.
  split; [apply mined_typed|]. split; [apply mined_sized|]. split; [reflexivity|].
  split; [|split; reflexivity].
  apply block_validate_iff. cbn [mined_block b_header b_inputs b_outputs b_kernels].
  split; [exact mined_header_accepted|]. split; [discriminate|]. split; [discriminate|].
  split; [|split; [vm_compute; constructor|split; [vm_compute; constructor|split]]].
  - split; [|split]; apply sorted2; vm_compute; reflexivity.
  - constructor; [vm_compute; reflexivity|]. constructor; [vm_compute; reflexivity|constructor].
  - constructor; [discriminate|]. constructor; [|constructor]. intros _. exact ex_coin_signed.
Qed.

Lemma repeated_ok n m : block_validate mined ex_now
  (Block mined_header [] (repeat ex_plain_out (S n)) (repeat ex_plain_ker (S m))) = Ok tt.
Proof.
  apply repeat_accepted; [exact mined_header_accepted|reflexivity|vm_compute; reflexivity|reflexivity].
Qed.

Lemma unsigned_witness : exists X now b, clock_ok now /\ block_validate X now b = Ok tt /\
  ~ Forall (kernel_signed X) (b_kernels b).
Proof.
  exists mined, ex_now, (Block mined_header [] (repeat ex_plain_out 1) (repeat ex_plain_ker 1)).
  split; [exact ex_now_ok|]. split; [exact (repeated_ok 0 0)|].
  cbn [b_kernels repeat]. intro H. apply Forall_inv in H. vm_compute in H. discriminate H.
Qed.

Lemma no_coinbase_witness : exists X now (b : block X), clock_ok now /\ block_validate X now b = Ok tt /\
  count (fun o => coinbase (out_features o)) (b_outputs b) = 0%nat /\
  count (fun k => coinbase (k_features k)) (b_kernels b) = 0%nat.
Proof.
  exists mined, ex_now, (Block mined_header [] (repeat ex_plain_out 1) (repeat ex_plain_ker 1)).
  split; [exact ex_now_ok|]. split; [exact (repeated_ok 0 0)|]. split; reflexivity.
Qed.

Lemma duplicate_witness : exists X now (b : block X), clock_ok now /\ block_validate X now b = Ok tt /\
  ~ NoDup (b_outputs b) /\ ~ NoDup (b_kernels b).
Proof.
  exists mined, ex_now, (Block mined_header [] (repeat ex_plain_out 2) (repeat ex_plain_ker 2)).
  split; [exact ex_now_ok|]. split; [exact (repeated_ok 1 1)|].
  cbn [b_outputs b_kernels repeat]. split; intro H; inversion H as [|? ? N _]; apply N; left; reflexivity.
Qed.

Lemma weight_witness w : exists X now (b : block X), clock_ok now /\ block_validate X now b = Ok tt /\ w < weight b.
Proof.
  exists mined, ex_now, (Block mined_header [] (repeat ex_plain_out (S (N.to_nat w))) (repeat ex_plain_ker 1)).
  split; [exact ex_now_ok|]. split; [exact (repeated_ok (N.to_nat w) 0)|].
  unfold weight. cbn [b_inputs b_outputs b_kernels]. unfold lenN. rewrite !repeat_length. cbn [List.length]. lia.
Qed.

(** ** Difficulty: 71 blocks of difficulty 120000, [gap] seconds apart, latest first. *)
Definition ex_chain (gap : Z) : list (block toy) :=
  map (fun i => Block (Header 1 (N.of_nat (100 - i)) [] [] (time_unix (1546300800 - Z.of_nat i * gap)) [] [] [] 0 [] [] 0 0
    (Proof 29 []) 120000 0 1) [] [] []) (seq 0 71).
Lemma ex_chain_ok : List.length (ex_chain 1) = 71%nat /\
  map (fun b => h_difficulty (b_header b)) (ex_chain 1) = map (fun b => h_difficulty (b_header b)) (ex_chain 31536000) /\
  next_difficulty toy (ex_chain 1) = Ok 60000 /\ next_difficulty toy (ex_chain 31536000) = Ok 60000.
Proof.
  split; [reflexivity|]. split; [reflexivity|].
  rewrite !next_difficulty_eq. split; vm_compute; reflexivity.
Qed.
