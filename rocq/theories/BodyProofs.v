(** Lemmas about what block validation does not connect. *)
From Verif Require Import Chain SpecCodec SpecConsensus SpecSchnorr SpecRules SpecBody SchnorrProofs CodecProofs BlockCodecProofs RulesProofs ChainProofs.

Section Body.
Context (X : Ext).

(** What validation asks of the contents, each list on its own. *)
Lemma validate_split now (b : block X) : block_validate X now b = Ok tt <->
  header_validate X now (b_header b) = Ok tt /\ is_sorted (input_hash X) (b_inputs b) = true /\
  (b_outputs b <> [] /\ is_sorted (output_hash X) (b_outputs b) = true /\ verify_coinbase_from X 0 (b_outputs b) = Ok tt /\
   verify_range_proofs X (b_outputs b) = Ok tt) /\
  (b_kernels b <> [] /\ is_sorted (kernel_hash X) (b_kernels b) = true /\ verify_kernels_from X 0 (b_kernels b) = Ok tt).
Proof.
  unfold block_validate, verify_sorted. destruct (header_validate X now (b_header b)) as [[]|e| |]; cbn [rbind];
    try (split; [discriminate|intros (H & _); discriminate H]).
  destruct (b_outputs b) as [|o os]; [split; [discriminate|intros (_ & _ & (H & _) & _); now destruct H]|].
  destruct (b_kernels b) as [|k ks]; [split; [discriminate|intros (_ & _ & _ & (H & _)); now destruct H]|].
  change (lenN (o :: os) =? 0) with false. change (lenN (k :: ks) =? 0) with false. cbn [orb].
  destruct (is_sorted (input_hash X) (b_inputs b)); cbn [negb rbind]; [|split; [discriminate|intros (_ & H & _); discriminate H]].
  destruct (is_sorted (output_hash X) (o :: os)); cbn [negb rbind]; [|split; [discriminate|intros (_ & _ & (_ & H & _) & _); discriminate H]].
  destruct (is_sorted (kernel_hash X) (k :: ks)); cbn [negb rbind]; [|split; [discriminate|intros (_ & _ & _ & _ & H & _); discriminate H]].
  destruct (verify_coinbase_from X 0 (o :: os)) as [[]|e| |]; cbn [rbind]; try (split; [discriminate|intros (_ & _ & (_ & _ & H & _) & _); discriminate H]).
  destruct (verify_range_proofs X (o :: os)) as [[]|e| |]; cbn [rbind]; try (split; [discriminate|intros (_ & _ & (_ & _ & _ & H) & _); discriminate H]).
  split; [intro H; repeat split; first [discriminate|exact H]|tauto].
Qed.

Lemma parts_independent now (b1 b2 b3 b4 : block X) :
  block_validate X now b1 = Ok tt -> block_validate X now b2 = Ok tt -> block_validate X now b3 = Ok tt -> block_validate X now b4 = Ok tt ->
  block_validate X now (Block (b_header b1) (b_inputs b2) (b_outputs b3) (b_kernels b4)) = Ok tt.
Proof. rewrite !validate_split. cbn [b_header b_inputs b_outputs b_kernels]. tauto. Qed.

Lemma body_exchanged S now (c : chain X S) (b b' : block X) :
  block_validate X now b = Ok tt -> block_validate X now b' = Ok tt ->
  process_block now c (with_body (b_inputs b') (b_outputs b') (b_kernels b') b) = process_block now c b.
Proof.
  intros H H'. pose proof (parts_independent now b b' b' b' H H' H' H') as M. unfold process_block.
  change (block_hash X (with_body (b_inputs b') (b_outputs b') (b_kernels b') b)) with (block_hash X b).
  change (Block (b_header b) (b_inputs b') (b_outputs b') (b_kernels b')) with (with_body (b_inputs b') (b_outputs b') (b_kernels b') b) in M.
  rewrite M, H. reflexivity.
Qed.

Lemma one_input now i (b : block X) : block_validate X now b = Ok tt ->
  block_validate X now (with_body [i] (b_outputs b) (b_kernels b) b) = Ok tt.
Proof. rewrite !validate_split. cbn [b_header b_inputs b_outputs b_kernels with_body is_sorted]. tauto. Qed.

Lemma point_sum_on On O neg l : curve_laws X On O neg -> Forall On l -> On (point_sum X O l).
Proof.
  intros C F. induction F as [|p l Hp F IH]; cbn [point_sum fold_right]; [exact (cl_O _ _ _ _ C)|].
  now apply (cl_add_on _ _ _ _ C).
Qed.

Lemma one_input_balance On O neg P Q t p (b : block X) : curve_laws X On O neg -> codec_laws X P Q -> P p -> On p ->
  balanced O t (with_body [Input 0 (point_enc X p)] (b_outputs b) (b_kernels b) b) ->
  point_sum X O (map out_commit (b_outputs b)) = c_add X p (c_add X (point_sum X O (map k_excess (b_kernels b))) t).
Proof.
  intros C L Hp Op (spent & F & E). cbn [with_body b_inputs b_outputs b_kernels] in *.
  inversion F as [|i q ? l (rest & R) F' E1 E2]; subst. inversion F'; subst. cbn [in_commit] in R.
  pose proof (point_rt _ _ _ L p [] Hp) as R'. rewrite app_nil_r, R in R'. apply Ok_inj in R'. injection R' as -> _.
  cbn [point_sum fold_right] in E. rewrite (cl_zero _ _ _ _ C p Op) in E. exact E.
Qed.

Lemma not_both_balanced On O neg P Q now t p q (b : block X) : curve_laws X On O neg -> codec_laws X P Q ->
  block_validate X now b = Ok tt -> Forall (fun k => On (k_excess k)) (b_kernels b) -> On t ->
  P p -> On p -> P q -> On q -> p <> q ->
  let spending r := with_body [Input 0 (point_enc X r)] (b_outputs b) (b_kernels b) b in
  block_validate X now (spending p) = Ok tt /\ block_validate X now (spending q) = Ok tt /\
  ~ (balanced O t (spending p) /\ balanced O t (spending q)).
Proof.
  intros C L V K Ot Pp Op Pq Oq N spending. split; [now apply one_input|]. split; [now apply one_input|].
  intros (B1 & B2). apply N. apply (one_input_balance On O neg P Q) in B1, B2; try assumption.
  rewrite B1 in B2.
  assert (OK : On (c_add X (point_sum X O (map k_excess (b_kernels b))) t)).
  { apply (cl_add_on _ _ _ _ C); [|exact Ot]. apply (point_sum_on On O neg _ C). now apply Forall_map. }
  apply (add_cancel X On O neg C (c_add X (point_sum X O (map k_excess (b_kernels b))) t)); try assumption.
  rewrite (cl_comm _ _ _ _ C _ p OK Op), (cl_comm _ _ _ _ C _ q OK Oq). exact B2.
Qed.

(** The declared difficulty. *)
Lemma difficulty_raised S now (c : chain X S) (b : block X) d :
  fst (process_block now c b) = Ok tt -> h_difficulty (b_header b) <= d ->
  fst (process_block now c (with_difficulty d b)) = Ok tt.
Proof.
  unfold process_block. cbn [fst]. change (block_hash X (with_difficulty d b)) with (block_hash X b).
  change (block_validate X now (with_difficulty d b)) with (block_validate X now b).
  destruct (block_hash X (c_head c)) as [hh|e| |]; cbn [rbind]; [|easy..].
  destruct (block_hash X b) as [bh|e| |]; cbn [rbind]; [|easy..]. destruct (bytes_eqb hh bh); [reflexivity|].
  destruct (block_validate X now b) as [[]|e| |]; cbn [rbind]; [|easy..].
  cbn [with_difficulty b_header h_height h_previous h_time h_total_difficulty h_difficulty].
  destruct (st_get S (c_store c) _) as [prev|]; [|reflexivity].
  destruct (negb _); [easy|]. destruct (to_difficulty X _) as [x|e| |]; cbn [rbind]; [|easy..].
  destruct (negb _); [easy|]. destruct (next_difficulty X _) as [avg|e| |]; cbn [rbind]; [|easy..].
  intros H L. destruct (N.ltb_spec (h_difficulty (b_header b)) avg) as [|G]; [discriminate H|].
  destruct (N.ltb_spec d avg); [lia|reflexivity].
Qed.
(** ** Kernels *)

Lemma kernel_resigned On O neg f fee lock p r s : curve_laws X On O neg -> On p ->
  On (Point r (c_sqrt X (r * r * r + 7))) -> s <= c_order X ->
  kernel_validate X (Kernel f fee lock p (be 32 r ++ be 32 (c_order X - s))) =
  kernel_validate X (Kernel f fee lock p (be 32 r ++ be 32 s)) /\
  be 32 r ++ be 32 (c_order X - s) <> be 32 r ++ be 32 s.
Proof.
  intros L Hp HR Hs. pose proof (cl_order _ _ _ _ L) as Hn. pose proof (cl_coord _ _ _ _ L _ HR) as Hr. cbn [px] in Hr.
  set (R := Point r (c_sqrt X (r * r * r + 7))) in *.
  assert (D : forall t, t < 2 ^ 256 -> decode_signature X (be 32 r ++ be 32 t) = Signature t R).
  { intros t Ht. exact (decode_encode X t R Hr Ht). }
  split.
  - unfold kernel_validate. cbn [k_excess k_fee k_lock k_sig]. rewrite !D by lia.
    rewrite (malleable X On O neg L) by assumption. reflexivity.
  - intro E. apply app_inv_head in E. apply be_inj in E; [| |]; [|change (256 ^ N.of_nat 32) with (2 ^ 256); lia..].
    pose proof (cl_odd _ _ _ _ L) as Od. assert (N : c_order X = 2 * s) by lia. rewrite N, N.odd_mul in Od. discriminate Od.
Qed.
End Body.

Lemma proof_difficulty_bound X p d : hash_laws X -> to_difficulty X p = Ok d -> d < 2 ^ 60.
Proof.
  intros HL H. unfold to_difficulty, proof_hash in H. destruct (proof_enc p) as [e|e| |] eqn:E; [|discriminate H..].
  pose proof (to_difficulty_eq X p e HL E) as T. unfold to_difficulty, proof_hash in T. rewrite E in T. rewrite T in H. clear T.
  destruct (N.eqb_spec (unbe (firstn 8 (blake2b X e))) 0) as [|N]; [discriminate H|]. apply Ok_inj in H. subst d.
  apply N.div_lt_upper_bound; [exact N|]. change (2 ^ 60) with (0x0fffffffffffffff + 1). lia.
Qed.

Lemma overdeclared X S now (c : chain X S) (b : block X) : hash_laws X -> fst (process_block now c b) = Ok tt ->
  exists d, fst (process_block now c (with_difficulty d b)) = Ok tt /\
    (forall w, to_difficulty X (h_pow (b_header (with_difficulty d b))) = Ok w -> w < h_difficulty (b_header (with_difficulty d b))).
Proof.
  intros HL A. exists (N.max (2 ^ 60) (h_difficulty (b_header b))). split; [apply difficulty_raised; [exact A|lia]|].
  intros w H. apply (proof_difficulty_bound X _ w HL) in H. cbn [with_difficulty b_header h_difficulty]. lia.
Qed.
