(** Lemmas about the wire formats of items, blocks, compact blocks, transactions and locators. *)
From Coq Require Import Permutation Sorted.
From Verif Require Import Consensus SpecCodec SpecConsensus SipProofs PowCodecProofs CodecProofs.

(** ** Sorting *)

Lemma not_lt_trans a b c : bytes_lt b a = false -> bytes_lt c b = false -> bytes_lt c a = false.
Proof.
  intros H1 H2. destruct (bytes_lt c a) eqn:E; [|reflexivity].
  destruct (bytes_lt a b) eqn:E1.
  - rewrite (bytes_lt_trans _ _ _ E E1) in H2. discriminate.
  - rewrite (bytes_lt_total _ _ E1 H1) in E. congruence.
Qed.

Lemma is_sorted_iff {A} (key : A -> bytes) l : is_sorted key l = true <-> key_sorted key l.
Proof.
  unfold key_sorted. split.
  - intro H. apply Sorted_StronglySorted.
    + intros a b c. apply not_lt_trans.
    + induction l as [|a [|b l] IH]; [constructor|constructor; constructor|].
      cbn [is_sorted] in H. apply andb_true_iff in H as [H1 H2]. apply negb_true_iff in H1.
      constructor; [apply IH, H2|constructor; exact H1].
  - intro H. apply StronglySorted_Sorted in H. induction H as [|a l Hl IH Hd]; [reflexivity|].
    destruct l as [|b l]; [reflexivity|]. cbn [is_sorted].
    inversion Hd; subst. apply andb_true_iff. split; [now apply negb_true_iff|exact IH].
Qed.

Lemma sorted_perm {A} (X : Ext) (key : A -> bytes) l : sort_laws X ->
  is_sorted key (go_sort X key l) = true.
Proof. intro H. apply is_sorted_iff, H. Qed.

Section Codec.
Context (X : Ext) (P : point -> Prop) (Q : rproof X -> Prop).
Context (CL : codec_laws X P Q).

Lemma lenN_sort {A} (key : A -> bytes) l : sort_laws X -> lenN (go_sort X key l) = lenN l.
Proof. intro SL. unfold lenN. f_equal. apply Permutation_length, SL. Qed.

Lemma Forall_sort {A} (key : A -> bytes) (R : A -> Prop) l : sort_laws X -> Forall R l -> Forall R (go_sort X key l).
Proof. intros SL H. eapply Permutation_Forall; [apply Permutation_sym, SL|exact H]. Qed.

Lemma sort_nil {A} (key : A -> bytes) : sort_laws X -> go_sort X key [] = [].
Proof. intro SL. apply Permutation_nil, Permutation_sym, SL. Qed.

(** ** Items *)

Lemma input_rt i rest : input_wf i -> input_read (input_bytes i ++ rest) = Ok (i, rest).
Proof.
  intros [H1 H2]. unfold input_read, input_bytes. rewrite <- app_assoc.
  eapply step; [apply (read_be_app 1); exact H1|].
  eapply step; [apply read_full_app'; unfold lenN; rewrite H2; reflexivity|]. now destruct i.
Qed.

Lemma output_rt o rest : output_wf X P Q o -> output_read X (output_bytes X o ++ rest) = Ok (o, rest).
Proof.
  intros (H1 & H2 & H3). unfold output_read, output_bytes, output_bytes_without_proof. rewrite <- !app_assoc.
  pose proof (rproof_len X P Q CL _ H3) as L.
  eapply step; [apply (read_be_app 1); exact H1|].
  eapply step; [apply (point_rt X P Q CL); exact H2|].
  eapply step; [apply (read_be_app 8); change (256 ^ N.of_nat 8) with (2 ^ 64); lia|].
  unfold max_proof_size. replace (5134 <? _) with false by (symmetry; apply N.ltb_ge; exact L).
  assert (R : rproof_read_limited X (lenN (rproof_enc X (out_proof o))) (rproof_enc X (out_proof o) ++ rest) =
              Ok (out_proof o, rest)).
  { unfold rproof_read_limited. rewrite (limit_reader_exact _ _ _ (out_proof o)); [reflexivity|].
    apply (rproof_rt X P Q CL), H3. }
  eapply step; [exact R|]. now destruct o.
Qed.

Lemma kernel_rt k rest : kernel_wf P k -> kernel_read X (kernel_bytes X k ++ rest) = Ok (k, rest).
Proof.
  intros (H1 & H2 & H3 & H4 & H5). unfold kernel_read, kernel_bytes. rewrite <- !app_assoc.
  eapply step; [apply (read_be_app 1); exact H1|].
  eapply step; [apply (read_be_app 8); exact H2|].
  eapply step; [apply (read_be_app 8); exact H3|].
  eapply step; [apply (point_rt X P Q CL); exact H4|].
  eapply step; [apply read_full_app'; unfold lenN; rewrite H5; reflexivity|]. now destruct k.
Qed.

Lemma lists_rt ins outs kers rest :
  Forall input_wf ins -> Forall (output_wf X P Q) outs -> Forall (kernel_wf P) kers ->
  lists_read X (lenN ins) (lenN outs) (lenN kers)
    (flat_map input_bytes ins ++ flat_map (output_bytes X) outs ++ flat_map (kernel_bytes X) kers ++ rest) =
    Ok (ins, outs, kers, rest).
Proof.
  intros Hi Ho Hk. rewrite Forall_forall in Hi, Ho, Hk. unfold lists_read, lenN. rewrite !Nat2N.id.
  eapply step; [apply read_n_app; intros a r Ha; apply input_rt, Hi, Ha|].
  eapply step; [apply read_n_app; intros a r Ha; apply output_rt, Ho, Ha|].
  eapply step; [apply read_n_app; intros a r Ha; apply kernel_rt, Hk, Ha|]. reflexivity.
Qed.

Lemma le_u64 n : n <= 1000000 -> n < 256 ^ N.of_nat 8.
Proof. intro H. change (256 ^ N.of_nat 8) with (2 ^ 64). lia. Qed.
Lemma within n : n <= 1000000 -> (max_items <? n) = false.
Proof. intro H. apply N.ltb_ge. exact H. Qed.

(** ** Blocks *)

Lemma block_roundtrip b rest : sort_laws X -> block_wf X P Q b ->
  exists bs b', block_bytes X b = Ok (bs, b') /\
    b_header b' = b_header b /\
    Permutation (b_inputs b') (b_inputs b) /\ Permutation (b_outputs b') (b_outputs b) /\
    Permutation (b_kernels b') (b_kernels b) /\
    lists_sorted X (b_inputs b') (b_outputs b') (b_kernels b') /\
    block_read X (bs ++ rest) =
      Ok (Block (wire_view (b_header b)) (b_inputs b') (b_outputs b') (b_kernels b'), rest).
Proof.
  intros SL (Hh & Hi & Ho & Hk & Li & Lo & Lk). unfold block_bytes.
  destruct (header_roundtrip (b_header b)
     ((be 8 (lenN (b_inputs b)) ++ be 8 (lenN (b_outputs b)) ++ be 8 (lenN (b_kernels b)) ++
      flat_map input_bytes (go_sort X (input_hash X) (b_inputs b)) ++
      flat_map (output_bytes X) (go_sort X (output_hash X) (b_outputs b)) ++
      flat_map (kernel_bytes X) (go_sort X (kernel_hash X) (b_kernels b)) ++ rest)) Hh) as (hb & E & R).
  rewrite E. cbn [rbind].
  eexists. exists (block_sort X b). split; [reflexivity|]. split; [reflexivity|].
  cbn [block_sort b_inputs b_outputs b_kernels b_header].
  split; [apply SL|]. split; [apply SL|]. split; [apply SL|].
  split; [repeat split; apply SL|].
  rewrite <- !app_assoc. unfold block_read.
  eapply step; [exact R|].
  eapply step; [apply (read_be_app 8), le_u64, Li|].
  eapply step; [apply (read_be_app 8), le_u64, Lo|].
  eapply step; [apply (read_be_app 8), le_u64, Lk|].
  rewrite !within by assumption.
  eapply step.
  - rewrite <- (lenN_sort (input_hash X) (b_inputs b) SL), <- (lenN_sort (output_hash X) (b_outputs b) SL),
      <- (lenN_sort (kernel_hash X) (b_kernels b) SL).
    apply lists_rt; apply Forall_sort; assumption.
  - reflexivity.
Qed.

(** ** Transactions *)

Lemma tx_read_wire t rest : tx_wf X P Q t ->
  (lists_sorted X (tx_inputs t) (tx_outputs t) (tx_kernels t) /\ tx_read X (tx_wire X t ++ rest) = Ok (t, rest)) \/
  (~ lists_sorted X (tx_inputs t) (tx_outputs t) (tx_kernels t) /\
   exists e, tx_read X (tx_wire X t ++ rest) = Err e).
Proof.
  intros (Hoff & Hi & Ho & Hk & Li & Lo & Lk).
  set (ok := is_sorted (input_hash X) (tx_inputs t) && is_sorted (output_hash X) (tx_outputs t) &&
             is_sorted (kernel_hash X) (tx_kernels t)).
  assert (R : tx_read X (tx_wire X t ++ rest) = if ok then Ok (t, rest) else
     if negb (is_sorted (input_hash X) (tx_inputs t)) then Err (Msg "consensus error: inputs are not sorted")
     else if negb (is_sorted (output_hash X) (tx_outputs t)) then Err (Msg "consensus error: outputs are not sorted")
     else Err (Msg "consensus error: kernels are not sorted")).
  { unfold tx_wire, tx_read. rewrite <- !app_assoc.
    eapply step; [apply read_full_app'; unfold lenN; rewrite Hoff; reflexivity|].
    eapply step; [apply (read_be_app 8), le_u64, Li|].
    eapply step; [apply (read_be_app 8), le_u64, Lo|].
    eapply step; [apply (read_be_app 8), le_u64, Lk|].
    rewrite !within by assumption.
    eapply step; [apply lists_rt; assumption|]. cbn [fst snd].
    unfold ok. destruct (is_sorted (input_hash X) _), (is_sorted (output_hash X) _), (is_sorted (kernel_hash X) _);
      cbn; try reflexivity. now destruct t. }
  rewrite R. destruct ok eqn:E; unfold ok in E.
  - left. rewrite !andb_true_iff in E. destruct E as [[E1 E2] E3].
    split; [|reflexivity]. split; [apply (proj1 (is_sorted_iff (input_hash X) _)), E1|].
    split; [apply (proj1 (is_sorted_iff (output_hash X) _)), E2|apply (proj1 (is_sorted_iff (kernel_hash X) _)), E3].
  - right. split.
    + intros (S1 & S2 & S3). apply (is_sorted_iff (input_hash X)) in S1. apply (is_sorted_iff (output_hash X)) in S2.
      apply (is_sorted_iff (kernel_hash X)) in S3. rewrite S1, S2, S3 in E. discriminate.
    + destruct (negb _); [eexists; reflexivity|]. destruct (negb _); eexists; reflexivity.
Qed.

Lemma tx_no_inputs_roundtrip t rest : sort_laws X -> tx_wf X P Q t -> tx_inputs t = [] ->
  tx_read X (fst (tx_bytes X t) ++ rest) = Ok (snd (tx_bytes X t), rest) /\
  tx_offset (snd (tx_bytes X t)) = tx_offset t /\ tx_inputs (snd (tx_bytes X t)) = [] /\
  Permutation (tx_outputs (snd (tx_bytes X t))) (tx_outputs t) /\
  Permutation (tx_kernels (snd (tx_bytes X t))) (tx_kernels t).
Proof.
  intros SL (Hoff & Hi & Ho & Hk & Li & Lo & Lk) Hn.
  set (t' := snd (tx_bytes X t)).
  assert (W : tx_wf X P Q t').
  { unfold t', tx_wf. cbn [tx_bytes snd tx_sort tx_offset tx_inputs tx_outputs tx_kernels].
    unfold tx_bytes, tx_sort; cbn [snd tx_offset tx_inputs tx_outputs tx_kernels].
    rewrite !(lenN_sort _ _ SL).
    split; [exact Hoff|]. split; [apply Forall_sort; assumption|]. split; [apply Forall_sort; assumption|].
    split; [apply Forall_sort; assumption|]. auto. }
  assert (In0 : tx_inputs t' = []).
  { unfold t'. cbn [tx_bytes snd tx_sort tx_inputs]. rewrite Hn. apply Permutation_nil, Permutation_sym, SL. }
  assert (B : fst (tx_bytes X t) = tx_wire X t').
  { unfold tx_wire. rewrite In0.
    unfold t'. cbn [tx_bytes fst snd tx_sort tx_offset tx_outputs tx_kernels].
    rewrite !(lenN_sort _ _ SL). rewrite Hn. cbn [tx_sort tx_inputs]. rewrite Hn.
    rewrite (sort_nil (input_hash X) SL).
    reflexivity. }
  rewrite B. destruct (tx_read_wire t' rest W) as [[_ R]|[N _]].
  - split; [exact R|]. split; [reflexivity|]. split; [exact In0|]. split; apply SL.
  - exfalso. apply N. repeat split; apply SL.
Qed.

(** The reader takes the first byte of the first commitment for the feature byte. *)
Lemma tx_first_input t rest t' rest' : sort_laws X -> Forall input_wf (tx_inputs t) ->
  List.length (tx_offset t) = 32%nat -> lenN (tx_inputs t) <= 1000000 ->
  lenN (tx_outputs t) <= 1000000 -> lenN (tx_kernels t) <= 1000000 ->
  tx_inputs t <> [] -> tx_read X (fst (tx_bytes X t) ++ rest) = Ok (t', rest') ->
  exists i l j l', tx_inputs (snd (tx_bytes X t)) = i :: l /\ tx_inputs t' = j :: l' /\
    in_features j = b2n (hd x00 (in_commit i)).
Proof.
  intros SL Hi Hoff Li Lo Lk Hne H. unfold tx_bytes in H. cbn [fst snd] in *.
  unfold tx_read in H. rewrite <- !app_assoc in H.
  rewrite (pbind_ok _ _ _ (tx_offset t) _ (read_full_app' 32 _ _ ltac:(unfold lenN; rewrite Hoff; reflexivity))) in H.
  rewrite (pbind_ok _ _ _ _ _ (read_be_app 8 _ _ (le_u64 _ Li))) in H.
  rewrite (pbind_ok _ _ _ _ _ (read_be_app 8 _ _ (le_u64 _ Lo))) in H.
  rewrite (pbind_ok _ _ _ _ _ (read_be_app 8 _ _ (le_u64 _ Lk))) in H.
  rewrite !within in H by assumption.
  cbn [tx_sort tx_inputs tx_outputs tx_kernels tx_bytes fst snd] in *.
  assert (Hs : Forall input_wf (go_sort X (input_hash X) (tx_inputs t))) by (apply Forall_sort; assumption).
  destruct (go_sort X (input_hash X) (tx_inputs t)) as [|i l] eqn:Es.
  { exfalso. apply Hne. apply Permutation_nil. rewrite <- Es. apply SL. }
  assert (Ln : lenN (tx_inputs t) = N.of_nat (S (List.length l))).
  { rewrite <- (lenN_sort (input_hash X) _ SL), Es. reflexivity. }
  apply pbind_inv in H as (ls & m & H1 & H2). unfold lists_read in H1.
  apply pbind_inv in H1 as (ins & m1 & H1 & H3). rewrite Ln, Nat2N.id in H1. cbn [read_n] in H1.
  apply pbind_inv in H1 as (j & m2 & H1 & H4). apply pbind_inv in H4 as (l' & m3 & _ & H5).
  unfold rret in H5. apply Ok_inj in H5. assert (ins = j :: l') by congruence. subst ins. clear H5.
  apply pbind_inv in H3 as (outs & m4 & _ & H3). apply pbind_inv in H3 as (kers & m5 & _ & H3).
  unfold rret in H3. apply Ok_inj in H3. assert (ls = (j :: l', outs, kers)) by congruence. subst ls. clear H3.
  cbn [fst snd] in H2.
  assert (T : tx_inputs t' = j :: l').
  { destruct (negb _); [discriminate|]. destruct (negb _); [discriminate|]. destruct (negb _); [discriminate|].
    unfold rret in H2. apply Ok_inj in H2. assert (E : t' = Transaction (tx_offset t) (j :: l') outs kers) by congruence.
    now rewrite E. }
  exists i, l, j, l'. split; [reflexivity|]. split; [exact T|].
  unfold input_read in H1. apply pbind_inv in H1 as (f & m6 & H1 & H6). apply pbind_inv in H6 as (c & m7 & _ & H6).
  unfold rret in H6. apply Ok_inj in H6. assert (j = Input f c) by congruence. subst j. cbn [in_features].
  apply read_be_inv in H1 as [H1 Hf]. inversion Hs as [|? ? [_ Hc] _]; subst.
  cbn [flat_map] in H1. destruct (in_commit i) as [|b0 cs]; [discriminate|]. cbn [hd].
  cbn [app] in H1. change (be 1 f) with [n2b f] in H1. cbn [app] in H1.
  assert (b0 = n2b f) by congruence. subst b0. rewrite b2n_n2b, N.mod_small by exact Hf. reflexivity.
Qed.

(** ** Lengths *)

Definition sum_len {A} (f : A -> N) (l : list A) : N := fold_right (fun a s => f a + s) 0 l.

Lemma lenN_flat_map {A} (f : A -> bytes) l : lenN (flat_map f l) = sum_len (fun a => lenN (f a)) l.
Proof. induction l as [|a l IH]; cbn; [reflexivity|]. rewrite lenN_app, IH. reflexivity. Qed.

Lemma sum_len_perm {A} (f : A -> N) l l' : Permutation l l' -> sum_len f l = sum_len f l'.
Proof. induction 1; unfold sum_len in *; cbn [fold_right]; lia. Qed.

Lemma read_n_len {A} (p : reader A) (f : A -> N) :
  (forall bs a rest, p bs = Ok (a, rest) -> lenN bs = f a + lenN rest) ->
  forall n bs l rest, read_n n p bs = Ok (l, rest) -> lenN bs = sum_len f l + lenN rest.
Proof.
  intro H. induction n as [|n IH]; intros bs l rest E; cbn [read_n] in E.
  - unfold rret in E. assert (l = []) by congruence. assert (bs = rest) by congruence. subst. reflexivity.
  - apply pbind_inv in E as (a & m & E1 & E). apply pbind_inv in E as (l' & m' & E2 & E).
    unfold rret in E. assert (l = a :: l') by congruence. assert (m' = rest) by congruence. subst.
    apply H in E1. apply IH in E2. unfold sum_len in *. cbn [fold_right]. lia.
Qed.

Lemma read_full_len n bs l rest : read_full n bs = Ok (l, rest) -> lenN bs = n + lenN rest.
Proof. intro H. apply read_full_inv in H as [-> H]. rewrite lenN_app. lia. Qed.
Lemma read_be_len k bs a rest : read_be k bs = Ok (a, rest) -> lenN bs = N.of_nat k + lenN rest.
Proof. intro H. apply read_be_inv in H as [-> H]. rewrite lenN_app. unfold lenN at 1. now rewrite be_length. Qed.

Lemma limit_len {A} (f : A -> N) (p : reader A) n :
  (forall bs a rest, p bs = Ok (a, rest) -> lenN bs = f a + lenN rest) ->
  forall bs a rest, limit_reader n p bs = Ok (a, rest) -> lenN bs = f a + lenN rest.
Proof.
  intros H bs a rest E. unfold limit_reader in E. destruct (p (takeN n bs)) as [[a' r]|e| |] eqn:Ep; try discriminate.
  assert (a' = a) by congruence. assert (r ++ dropN n bs = rest) by congruence. subst.
  apply H in Ep. rewrite lenN_app. rewrite <- (takeN_dropN n bs) at 1. rewrite lenN_app. lia.
Qed.

Definition item_len_o (o : output X) : N := 42 + lenN (rproof_enc X (out_proof o)).
Definition item_len_k (k : kernel) : N := 114.

Lemma input_read_len bs i rest : input_read bs = Ok (i, rest) -> lenN bs = 34 + lenN rest.
Proof.
  unfold input_read. intro H. apply pbind_inv in H as (f & m & H1 & H). apply pbind_inv in H as (c & m' & H2 & H).
  unfold rret in H. assert (m' = rest) by congruence. subst. apply read_be_len in H1. apply read_full_len in H2.
  unfold pedersen_commitment_size in H2. lia.
Qed.

Lemma output_read_len bs o rest : codec_exact X -> output_read X bs = Ok (o, rest) -> lenN bs = item_len_o o + lenN rest.
Proof.
  intros [CP CR]. unfold output_read. intro H.
  apply pbind_inv in H as (f & m1 & H1 & H). apply pbind_inv in H as (c & m2 & H2 & H).
  apply pbind_inv in H as (n & m3 & H3 & H). destruct (max_proof_size <? n); [discriminate|].
  apply pbind_inv in H as (q & m4 & H4 & H). unfold rret in H.
  assert (o = Output f c q) by congruence. assert (m4 = rest) by congruence. subst.
  apply read_be_len in H1. apply CP in H2. apply read_be_len in H3.
  assert (H4' : limit_reader n (rproof_read X) m3 = Ok (q, rest)).
  { unfold rproof_read_limited in H4. destruct (limit_reader n (rproof_read X) m3); congruence. }
  apply (limit_len (fun q => lenN (rproof_enc X q)) _ _ CR) in H4'. unfold item_len_o. cbn [out_proof]. lia.
Qed.

Lemma kernel_read_len bs k rest : codec_exact X -> kernel_read X bs = Ok (k, rest) -> lenN bs = item_len_k k + lenN rest.
Proof.
  intros [CP CR]. unfold kernel_read. intro H.
  apply pbind_inv in H as (f & m1 & H1 & H). apply pbind_inv in H as (fee & m2 & H2 & H).
  apply pbind_inv in H as (lock & m3 & H3 & H). apply pbind_inv in H as (p & m4 & H4 & H).
  apply pbind_inv in H as (s & m5 & H5 & H). unfold rret in H. assert (m5 = rest) by congruence. subst.
  apply read_be_len in H1, H2, H3. apply CP in H4. apply read_full_len in H5. unfold item_len_k. lia.
Qed.

Lemma tx_read_len bs t rest : codec_exact X -> tx_read X bs = Ok (t, rest) ->
  lenN bs = 56 + sum_len (fun _ => 34) (tx_inputs t) + sum_len item_len_o (tx_outputs t) +
            sum_len item_len_k (tx_kernels t) + lenN rest.
Proof.
  intros CE H. unfold tx_read in H.
  apply pbind_inv in H as (off & m1 & H1 & H). apply pbind_inv in H as (ni & m2 & H2 & H).
  apply pbind_inv in H as (no & m3 & H3 & H). apply pbind_inv in H as (nk & m4 & H4 & H).
  destruct (max_items <? ni); [discriminate|]. destruct (max_items <? no); [discriminate|].
  destruct (max_items <? nk); [discriminate|].
  apply pbind_inv in H as (ls & m5 & H5 & H). unfold lists_read in H5.
  apply pbind_inv in H5 as (ins & n1 & L1 & H5). apply pbind_inv in H5 as (outs & n2 & L2 & H5).
  apply pbind_inv in H5 as (kers & n3 & L3 & H5). unfold rret in H5.
  assert (ls = (ins, outs, kers)) by congruence. assert (n3 = m5) by congruence. subst. cbn [fst snd] in H.
  destruct (negb _); [discriminate|]. destruct (negb _); [discriminate|]. destruct (negb _); [discriminate|].
  unfold rret in H. assert (t = Transaction off ins outs kers) by congruence. assert (m5 = rest) by congruence. subst.
  cbn [tx_inputs tx_outputs tx_kernels].
  apply read_full_len in H1. apply read_be_len in H2, H3, H4.
  apply (read_n_len _ (fun _ => 34) input_read_len) in L1.
  apply (read_n_len _ item_len_o (fun a b c => output_read_len a b c CE)) in L2.
  apply (read_n_len _ item_len_k (fun a b c => kernel_read_len a b c CE)) in L3. lia.
Qed.

Lemma sum_len_ext {A} (f g : A -> N) l : (forall a, In a l -> f a = g a) -> sum_len f l = sum_len g l.
Proof.
  induction l as [|a l IH]; intro H; [reflexivity|]. cbn. rewrite (H a) by now left.
  f_equal. apply IH. intros b Hb. apply H. now right.
Qed.

(** No transaction with an input is read back, whatever follows it. *)
Lemma tx_inputs_never t rest : sort_laws X -> codec_exact X -> tx_wf X P Q t -> tx_inputs t <> [] ->
  tx_read X (fst (tx_bytes X t) ++ rest) <> Ok (snd (tx_bytes X t), rest).
Proof.
  intros SL CE (Hoff & Hi & Ho & Hk & Li & Lo & Lk) Hne H. apply (tx_read_len _ _ _ CE) in H.
  unfold tx_bytes in H. cbn [fst snd tx_sort tx_inputs tx_outputs tx_kernels] in H.
  pose proof (Forall_sort (input_hash X) _ _ SL Hi) as Hi'.
  pose proof (Forall_sort (output_hash X) _ _ SL Ho) as Ho'.
  pose proof (Forall_sort (kernel_hash X) _ _ SL Hk) as Hk'.
  rewrite !lenN_app, !lenN_flat_map in H.
  rewrite (sum_len_ext (fun a => lenN (output_bytes X a)) item_len_o) in H.
  2:{ intros a Ha. rewrite Forall_forall in Ho'. destruct (Ho' a Ha) as (_ & Hp & _).
      unfold output_bytes, output_bytes_without_proof, item_len_o. rewrite !lenN_app. unfold lenN at 1 2 3.
      rewrite !be_length, (point_len X P Q CL _ Hp). lia. }
  rewrite (sum_len_ext (fun a => lenN (kernel_bytes X a)) item_len_k) in H.
  2:{ intros a Ha. rewrite Forall_forall in Hk'. destruct (Hk' a Ha) as (_ & _ & _ & Hp & Hs).
      unfold kernel_bytes, item_len_k, lenN. rewrite !app_length, !be_length, (point_len X P Q CL _ Hp), Hs. reflexivity. }
  rewrite (sum_len_ext (fun a => lenN (in_commit a)) (fun _ => 33)) in H.
  2:{ intros a Ha. rewrite Forall_forall in Hi'. destruct (Hi' a Ha) as (_ & Hc). unfold lenN. now rewrite Hc. }
  assert (B8 : forall n, lenN (be 8 n) = 8) by (intro; unfold lenN; now rewrite be_length).
  rewrite !B8 in H. unfold lenN at 1 in H. rewrite Hoff in H.
  assert (G : forall c (l : list input), sum_len (fun _ => c) l = c * lenN l).
  { intros c l. induction l as [|a l IH]; [unfold lenN; cbn; lia|]. cbn [sum_len fold_right].
    fold (sum_len (fun _ : input => c) l). rewrite IH. unfold lenN. cbn [List.length]. lia. }
  rewrite !G, !(lenN_sort _ _ SL) in H.
  assert (0 < lenN (tx_inputs t)) by (unfold lenN; destruct (tx_inputs t); [congruence|cbn; lia]).
  lia.
Qed.

(** Whatever is accepted is sorted and bounded. *)
Lemma tx_read_sorted bs t rest : tx_read X bs = Ok (t, rest) ->
  lists_sorted X (tx_inputs t) (tx_outputs t) (tx_kernels t) /\
  lenN (tx_inputs t) <= 1000000 /\ lenN (tx_outputs t) <= 1000000 /\ lenN (tx_kernels t) <= 1000000.
Proof.
  intro H. unfold tx_read in H.
  apply pbind_inv in H as (off & m1 & _ & H). apply pbind_inv in H as (ni & m2 & _ & H).
  apply pbind_inv in H as (no & m3 & _ & H). apply pbind_inv in H as (nk & m4 & _ & H).
  destruct (N.ltb_spec max_items ni) as [|Hi]; [discriminate|]. destruct (N.ltb_spec max_items no) as [|Ho]; [discriminate|].
  destruct (N.ltb_spec max_items nk) as [|Hk]; [discriminate|].
  apply pbind_inv in H as (ls & m5 & H5 & H). unfold lists_read in H5.
  apply pbind_inv in H5 as (ins & n1 & L1 & H5). apply pbind_inv in H5 as (outs & n2 & L2 & H5).
  apply pbind_inv in H5 as (kers & n3 & L3 & H5). unfold rret in H5.
  assert (ls = (ins, outs, kers)) by congruence. subst. cbn [fst snd] in H.
  destruct (is_sorted (input_hash X) ins) eqn:E1; [|discriminate].
  destruct (is_sorted (output_hash X) outs) eqn:E2; [|discriminate].
  destruct (is_sorted (kernel_hash X) kers) eqn:E3; [|discriminate].
  cbn [negb] in H. unfold rret in H. assert (t = Transaction off ins outs kers) by congruence. subst t.
  cbn [tx_inputs tx_outputs tx_kernels]. split.
  - split; [apply (proj1 (is_sorted_iff (input_hash X) _)), E1|].
    split; [apply (proj1 (is_sorted_iff (output_hash X) _)), E2|apply (proj1 (is_sorted_iff (kernel_hash X) _)), E3].
  - apply read_n_length in L1, L2, L3. unfold max_items, lenN in *. lia.
Qed.

(** ** Compact blocks *)

Lemma ids_rt ids rest : Forall (fun i : bytes => List.length i = 6%nat) ids -> forall fuel,
  (List.length ids <= fuel)%nat -> ids_read fuel (lenN ids) (concat ids ++ rest) = Ok (ids, rest).
Proof.
  induction ids as [|i ids IH]; intros H fuel Hf.
  - destruct fuel; reflexivity.
  - inversion H as [|? ? H1 H2]; subst. destruct fuel as [|fuel]; [cbn in Hf; lia|].
    cbn [ids_read]. replace (lenN (i :: ids) =? 0) with false by (symmetry; apply N.eqb_neq; unfold lenN; cbn [List.length]; lia).
    cbn [concat]. rewrite <- app_assoc. unfold short_id_size. rewrite read_full_app' by (unfold lenN; rewrite H1; reflexivity).
    replace (lenN (i :: ids) - 1) with (lenN ids) by (unfold lenN; cbn [List.length]; lia).
    rewrite IH; [reflexivity|exact H2|cbn in Hf; lia].
Qed.

Lemma concat_len6 (ids : list bytes) : Forall (fun i : bytes => List.length i = 6%nat) ids ->
  List.length (concat ids) = (6 * List.length ids)%nat.
Proof. induction 1 as [|i l H1 H2 IH]; [reflexivity|]. cbn [concat List.length]. rewrite app_length, H1, IH. lia. Qed.

Lemma compact_roundtrip b rest : sort_laws X -> compact_wf X P Q b ->
  lenN (cb_outputs b) < 256 -> lenN (cb_kernels b) < 256 -> 24 * lenN (cb_ids b) <= 2 ^ 48 ->
  exists bs b', compact_bytes X b = Ok (bs, b') /\
    cb_header b' = cb_header b /\ Permutation (cb_outputs b') (cb_outputs b) /\
    Permutation (cb_kernels b') (cb_kernels b) /\ Permutation (cb_ids b') (cb_ids b) /\
    key_sorted (output_key X) (cb_outputs b') /\ key_sorted (kernel_key X) (cb_kernels b') /\
    key_sorted (fun i => i) (cb_ids b') /\
    compact_read X (bs ++ rest) =
      Ok (CompactBlock (wire_view (cb_header b)) (cb_outputs b') (cb_kernels b') (cb_ids b'), rest).
Proof.
  intros SL (Hh & Ho & Hk & Hid) Lo Lk Lid. unfold compact_bytes.
  destruct (header_roundtrip (cb_header b)
     (be 1 (lenN (cb_outputs b)) ++ be 1 (lenN (cb_kernels b)) ++ be 8 (lenN (cb_ids b)) ++
      flat_map (output_bytes X) (go_sort X (output_hash X) (cb_outputs b)) ++
      flat_map (kernel_bytes X) (go_sort X (kernel_hash X) (cb_kernels b)) ++
      concat (go_sort X (fun i => i) (cb_ids b)) ++ rest) Hh) as (hb & E & R).
  rewrite E. cbn [rbind].
  eexists. exists (compact_sort X b). split; [reflexivity|]. split; [reflexivity|].
  cbn [compact_sort cb_header cb_outputs cb_kernels cb_ids].
  do 3 (split; [apply SL|]). do 3 (split; [apply SL|]).
  rewrite <- !app_assoc. unfold compact_read.
  eapply step; [exact R|].
  eapply step; [apply (read_be_app 1); exact Lo|].
  eapply step; [apply (read_be_app 1); exact Lk|].
  eapply step; [apply (read_be_app 8); change (256 ^ N.of_nat 8) with (2 ^ 64); lia|].
  pose proof (Forall_sort (output_hash X) _ _ SL Ho) as Ho'.
  pose proof (Forall_sort (kernel_hash X) _ _ SL Hk) as Hk'.
  pose proof (Forall_sort (fun i => i) _ _ SL Hid) as Hid'.
  eapply step.
  { rewrite <- (lenN_sort (output_hash X) (cb_outputs b) SL). unfold lenN. rewrite Nat2N.id.
    apply read_n_app. intros a r Ha. apply output_rt. rewrite Forall_forall in Ho'. now apply Ho'. }
  eapply step.
  { rewrite <- (lenN_sort (kernel_hash X) (cb_kernels b) SL). unfold lenN. rewrite Nat2N.id.
    apply read_n_app. intros a r Ha. apply kernel_rt. rewrite Forall_forall in Hk'. now apply Hk'. }
  eapply step.
  { unfold lift. rewrite go_make_small; [reflexivity|lia|unfold max_alloc; lia]. }
  eapply step.
  { cbv beta. rewrite <- (lenN_sort (fun i => i) (cb_ids b) SL). apply ids_rt; [exact Hid'|].
    rewrite app_length, (concat_len6 _ Hid'). lia. }
  reflexivity.
Qed.

(** The counts on the wire are taken modulo 256. *)
Lemma compact_count_wrap b bs b' c rest rest' : sort_laws X -> header_wf (cb_header b) ->
  compact_bytes X b = Ok (bs, b') -> compact_read X (bs ++ rest) = Ok (c, rest') ->
  lenN (cb_outputs c) = lenN (cb_outputs b) mod 256 /\ lenN (cb_kernels c) = lenN (cb_kernels b) mod 256.
Proof.
  intros SL Hh E H. unfold compact_bytes in E.
  destruct (header_bytes (cb_header b)) as [hb| | |] eqn:Eh; cbn [rbind] in E; try discriminate.
  assert (Ebs : bs = hb ++ be 1 (lenN (cb_outputs b)) ++ be 1 (lenN (cb_kernels b)) ++ be 8 (lenN (cb_ids b)) ++
      flat_map (output_bytes X) (cb_outputs (compact_sort X b)) ++ flat_map (kernel_bytes X) (cb_kernels (compact_sort X b)) ++
      concat (cb_ids (compact_sort X b))) by congruence.
  rewrite Ebs in H. rewrite <- !app_assoc in H. clear E Ebs.
  unfold compact_read in H.
  match type of H with pbind _ _ (hb ++ ?r) = _ => set (tl := r) in H end.
  destruct (header_roundtrip (cb_header b) tl Hh) as (hb' & Eh' & R). rewrite Eh in Eh'. apply Ok_inj in Eh'. subst hb'.
  rewrite (pbind_ok _ _ _ _ _ R) in H. unfold tl in H. clear tl R.
  apply pbind_inv in H as (no & m1 & R1 & H). apply read_be_inv in R1 as [R1 T1].
  apply pbind_inv in H as (nk & m2 & R2 & H). apply read_be_inv in R2 as [R2 T2].
  apply pbind_inv in H as (nid & m3 & _ & H). apply pbind_inv in H as (outs & m4 & R4 & H).
  apply pbind_inv in H as (kers & m5 & R5 & H). apply pbind_inv in H as (u & m6 & _ & H).
  apply pbind_inv in H as (ids & m7 & _ & H). unfold rret in H.
  assert (c = CompactBlock (wire_view (cb_header b)) outs kers ids) by congruence. subst c. cbn [cb_outputs cb_kernels].
  apply read_n_length in R4, R5. unfold lenN at 1 3. rewrite R4, R5, !N2Nat.id.
  assert (B1 : forall x, be 1 x = [n2b x]) by reflexivity.
  rewrite R2, !B1 in R1. cbn [app] in R1.
  match type of R1 with ?a :: ?b :: _ = ?c :: ?d :: _ =>
    assert (A : a = c) by congruence; assert (B : b = d) by congruence end.
  assert (K : forall x, b2n (n2b x) = x mod 256) by apply b2n_n2b.
  apply (f_equal b2n) in A, B. rewrite !K in A, B. rewrite (N.mod_small no) in A by exact T1.
  rewrite (N.mod_small nk) in B by exact T2. auto.
Qed.

(** ** Safety *)

Lemma input_read_safe : safe input_read.
Proof. repeat (apply safe_bind; [first [apply safe_read_be|apply safe_read_full]|intro]). apply safe_ret. Qed.

Lemma output_read_safe : codec_safe X -> safe (output_read X).
Proof.
  intros [SP SR]. apply safe_bind; [apply safe_read_be|intro]. apply safe_bind; [exact SP|intro].
  apply safe_bind; [apply safe_read_be|intro n]. destruct (max_proof_size <? n); [apply safe_fail|].
  apply safe_bind; [|intro; apply safe_ret].
  intro bs. unfold rproof_read_limited. pose proof (safe_limit n _ SR bs) as S.
  destruct (limit_reader n (rproof_read X) bs); destruct S; split; congruence.
Qed.

Lemma kernel_read_safe : codec_safe X -> safe (kernel_read X).
Proof.
  intros [SP SR]. repeat (apply safe_bind; [first [apply safe_read_be|apply safe_read_full|exact SP]|intro]). apply safe_ret.
Qed.

Lemma lists_read_safe a b c : codec_safe X -> safe (lists_read X a b c).
Proof.
  intro S. apply safe_bind; [apply safe_read_n, input_read_safe|intro].
  apply safe_bind; [apply safe_read_n, output_read_safe, S|intro].
  apply safe_bind; [apply safe_read_n, kernel_read_safe, S|intro]. apply safe_ret.
Qed.

Lemma header_read_safe : safe header_read.
Proof.
  unfold header_read.
  repeat (apply safe_bind; [first [apply safe_read_be|apply safe_read_i64|apply safe_read_full|apply proof_read_safe]|intro]).
  apply safe_ret.
Qed.

Lemma block_read_safe : codec_safe X -> safe (block_read X).
Proof.
  intro S. apply safe_bind; [apply header_read_safe|intro h].
  do 3 (apply safe_bind; [apply safe_read_be|intro]).
  destruct (max_items <? _); [apply safe_fail|]. destruct (max_items <? _); [apply safe_fail|].
  destruct (max_items <? _); [apply safe_fail|].
  apply safe_bind; [apply lists_read_safe, S|intro; apply safe_ret].
Qed.

Lemma tx_read_safe : codec_safe X -> safe (tx_read X).
Proof.
  intro S. apply safe_bind; [apply safe_read_full|intro].
  do 3 (apply safe_bind; [apply safe_read_be|intro]).
  destruct (max_items <? _); [apply safe_fail|]. destruct (max_items <? _); [apply safe_fail|].
  destruct (max_items <? _); [apply safe_fail|].
  apply safe_bind; [apply lists_read_safe, S|intro l]. cbv zeta.
  destruct (negb _); [apply safe_fail|]. destruct (negb _); [apply safe_fail|].
  destruct (negb _); [apply safe_fail|apply safe_ret].
Qed.

End Codec.

(** ** Locators *)

Lemma concat_flat_map_id (hs : list bytes) : concat hs = flat_map (fun h => h) hs.
Proof. now rewrite flat_map_concat_map, map_id. Qed.

Lemma locator_roundtrip hs rest : lenN hs <= 14 -> Forall (fun h : bytes => List.length h = 32%nat) hs ->
  exists b, locator_bytes hs = Ok b /\ lenN b = 1 + 32 * lenN hs /\ locator_read (b ++ rest) = Ok (hs, rest).
Proof.
  intros Hl Hh. unfold locator_bytes, max_locators.
  replace (14 <? lenN hs) with false by (symmetry; apply N.ltb_ge; exact Hl).
  eexists. split; [reflexivity|]. split.
  - rewrite lenN_app. unfold lenN at 1. rewrite be_length, concat_flat_map_id. f_equal.
    clear Hl. induction Hh as [|h l H1 H2 IH]; [reflexivity|]. cbn [flat_map]. rewrite lenN_app, IH.
    unfold lenN. cbn [List.length]. rewrite H1. lia.
  - rewrite <- app_assoc. unfold locator_read, max_locators.
    eapply step; [apply (read_be_app 1); change (256 ^ N.of_nat 1) with 256; lia|].
    replace (14 <? lenN hs) with false by (symmetry; apply N.ltb_ge; exact Hl).
    unfold lenN. rewrite Nat2N.id, concat_flat_map_id. apply read_n_app. intros h r Hin.
    rewrite Forall_forall in Hh. unfold block_hash_size. apply read_full_32, Hh, Hin.
Qed.

Lemma locator_too_long b rest : 14 < b2n b -> locator_read (b :: rest) = Err (Msg "too big locator len from peer").
Proof.
  intro H. unfold locator_read.
  assert (E : read_be 1 (b :: rest) = Ok (b2n b, rest)).
  { change (b :: rest) with ([b] ++ rest). rewrite <- (n2b_b2n b) at 1. change [n2b (b2n b)] with (be 1 (b2n b)).
    apply read_be_app. apply b2n_lt. }
  rewrite (pbind_ok _ _ _ _ _ E). unfold max_locators.
  replace (14 <? b2n b) with true by (symmetry; apply N.ltb_lt; exact H). reflexivity.
Qed.

Lemma locator_read_bound bs hs rest : locator_read bs = Ok (hs, rest) ->
  lenN hs <= 14 /\ Forall (fun h : bytes => List.length h = 32%nat) hs.
Proof.
  unfold locator_read, max_locators. intro H. apply pbind_inv in H as (n & m & _ & H).
  destruct (N.ltb_spec 14 n) as [|Hn]; [discriminate|]. split.
  - apply read_n_length in H. unfold lenN. lia.
  - revert m hs H. generalize (N.to_nat n) as k. induction k as [|k IH]; intros m hs H; cbn [read_n] in H.
    + unfold rret in H. assert (hs = []) by congruence. subst. constructor.
    + apply pbind_inv in H as (a & m1 & H1 & H). apply pbind_inv in H as (l & m2 & H2 & H).
      unfold rret in H. assert (hs = a :: l) by congruence. assert (m2 = rest) by congruence. subst.
      constructor; [|eapply IH; exact H2].
      apply read_full_inv32 in H1. apply H1.
Qed.

Lemma locator_read_safe : safe locator_read.
Proof.
  apply safe_bind; [apply safe_read_be|intro n]. destruct (max_locators <? n); [apply safe_fail|].
  apply safe_read_n, safe_read_full.
Qed.

Lemma locator_fatal hs : 14 < lenN hs -> locator_bytes hs = Fatal.
Proof. intro H. unfold locator_bytes, max_locators. now replace (14 <? lenN hs) with true by (symmetry; now apply N.ltb_lt). Qed.

(** ** Hashes *)

Lemma proof_bytes_some p : canonical_any p -> exists b, proof_bytes p = Ok b.
Proof.
  intros (H1 & H2 & _). destruct (proof_bytes_spec p) as (b & E & _); [rewrite H2; constructor|exact H1|]. eauto.
Qed.

Lemma header_hash_inj X h1 h2 : canonical_any (h_pow h1) -> canonical_any (h_pow h2) ->
  header_hash X h1 = header_hash X h2 ->
  h_pow h1 = h_pow h2 \/
  exists m1 m2, proof_bytes (h_pow h1) = Ok m1 /\ proof_bytes (h_pow h2) = Ok m2 /\
    m1 <> m2 /\ blake2b X m1 = blake2b X m2.
Proof.
  intros C1 C2 E. destruct (proof_bytes_some _ C1) as [m1 E1]. destruct (proof_bytes_some _ C2) as [m2 E2].
  unfold header_hash in E. rewrite E1, E2 in E. cbn [rmap rbind] in E. apply Ok_inj in E.
  destruct (list_eq_dec Byte.byte_eq_dec m1 m2) as [->|D].
  - left. apply proof_bytes_inj; auto. now rewrite E1, E2.
  - right. eauto 6.
Qed.

Lemma header_hash_zero X h : p_bits (h_pow h) = 0 -> header_hash X h = Ok (blake2b X []).
Proof. intro H. unfold header_hash. destruct (h_pow h) as [b ns]. cbn in H. subst. now rewrite proof_bytes_zero. Qed.

(** ** The compact block decoder can panic: announcing more short ids than can be allocated. *)
Lemma compact_panics X h hb rest : header_wf h -> header_bytes h = Ok hb ->
  compact_read X (hb ++ be 1 0 ++ be 1 0 ++ be 8 (2 ^ 63) ++ rest) = Panic.
Proof.
  intros Hh E. unfold compact_read.
  destruct (header_roundtrip h (be 1 0 ++ be 1 0 ++ be 8 (2 ^ 63) ++ rest) Hh) as (hb' & E' & R).
  rewrite E in E'. apply Ok_inj in E'. subst hb'.
  rewrite (pbind_ok _ _ _ _ _ R).
  rewrite (pbind_ok _ _ _ _ _ (read_be_app 1 0 _ ltac:(reflexivity))).
  rewrite (pbind_ok _ _ _ _ _ (read_be_app 1 0 _ ltac:(reflexivity))).
  rewrite (pbind_ok _ _ _ _ _ (read_be_app 8 (2 ^ 63) _ ltac:(reflexivity))).
  reflexivity.
Qed.

(** Apart from that allocation, it never crashes. *)
Lemma ids_read_safe fuel : forall n bs, survives (ids_read fuel n bs).
Proof.
  induction fuel as [|fuel IH]; intros n bs; cbn [ids_read]; destruct (n =? 0); try (split; discriminate).
  destruct (safe_read_full short_id_size bs) as [A B].
  destruct (read_full short_id_size bs) as [[i r]|e| |]; try congruence; [|split; discriminate].
  destruct (IH (n - 1) r) as [C D]. destruct (ids_read fuel (n - 1) r) as [[l t]|e| |]; try congruence; split; discriminate.
Qed.

(** The fuel of [ids_read] is never what stops it: it is exactly what a loop that reads until the
    count or the bytes run out does. *)
Lemma ids_read_fuel f1 : forall f2 n bs, (List.length bs <= f1)%nat -> (List.length bs <= f2)%nat ->
  ids_read f1 n bs = ids_read f2 n bs.
Proof.
  induction f1 as [|f1 IH]; intros f2 n bs H1 H2.
  - destruct bs; [|cbn in H1; lia]. destruct f2; cbn [ids_read]; destruct (n =? 0); reflexivity.
  - destruct f2 as [|f2].
    + destruct bs; [|cbn in H2; lia]. cbn [ids_read]; destruct (n =? 0); reflexivity.
    + cbn [ids_read]. destruct (n =? 0); [reflexivity|].
      destruct (read_full short_id_size bs) as [[i r]|e| |] eqn:E; try reflexivity.
      apply read_full_inv in E as [-> L]. rewrite app_length in H1, H2. unfold lenN, short_id_size in L.
      rewrite (IH f2) by lia. reflexivity.
Qed.
