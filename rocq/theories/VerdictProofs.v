(** Lemmas for C115. *)
From Coq Require Import Permutation Sorted String.
From Verif Require Import Consensus Chain SpecPow SpecTrail SpecCodec SpecConsensus SpecSchnorr SpecRules SpecChain
  SpecVerdict SchnorrProofs BlockCodecProofs CodecProofs PowCodecProofs SipProofs CycleProofs PowProofs ContainProofs TrailProofs RulesProofs ChainProofs.

(** A table followed by more checks. *)
Lemma verdict_then l : Forall (fun p => snd p <> Ok tt) l -> forall t r r1,
  verdict l r1 -> (r1 = Ok tt -> verdict t r) -> (r1 <> Ok tt -> r = r1) -> verdict (l ++ t) r.
Proof.
  induction 1 as [|[p m] l Q F IH]; intros t r r1 V K1 K2; cbn [app verdict] in *.
  - apply K1. exact V.
  - destruct V as [[P V]|[P V]]; [left; split; [exact P|]; eapply IH; eassumption|].
    right. split; [exact P|]. rewrite K2; [exact V|]. rewrite V. exact Q.
Qed.

Lemma header_table_errors X now h : Forall (fun p => snd p <> Ok tt) (header_table X now h).
Proof. repeat constructor; discriminate. Qed.
Lemma block_table_errors X now b : Forall (fun p => snd p <> Ok tt) (block_table X now b).
Proof. unfold block_table. apply Forall_app. split; [apply header_table_errors|]. repeat constructor; discriminate. Qed.

Lemma pow_verdict X h : header_sized h -> (exists e, header_bytes h = Ok e) ->
  verdict [(pow_valid X h, refused "invalid pow verify")] (pow_validate X h).
Proof.
  intros Hs He. cbn [verdict]. rewrite <- pow_valid_iff by assumption.
  unfold pow_validate. rewrite header_bwp_ok by exact Hs. cbn [rbind].
  destruct (cuckaroo_verify _ _ _); [left; auto|right]. split; [discriminate|reflexivity].
Qed.

Lemma header_verdict X now h : clock_ok now -> header_typed h -> header_sized h ->
  List.length (p_nonces (h_pow h)) = 42%nat ->
  verdict (header_table X now h) (header_validate X now h).
Proof.
  intros Hc Ht Hs Hn. destruct (header_layout_ok h Ht Hs Hn) as (b & Eb & _).
  unfold header_validate, header_table, second_pow_edge_bits, default_min_edge_bits, refused.
  cbn [verdict]. cbv zeta.
  rewrite <- version_iff, <- far_future_iff by (try exact Hc; apply Ht).
  destruct (validate_block_version _ _); cbn [negb]; [left; split; [reflexivity|]|right; split; [discriminate|reflexivity]].
  destruct (_ <? _)%Z; [right; split; [discriminate|reflexivity]|left; split; [reflexivity|]].
  destruct (N.eqb_spec (p_bits (h_pow h)) 29) as [E|E]; cbn [negb andb].
  - left. split; [auto|]. left. split; [contradiction|]. rewrite andb_false_r. apply pow_verdict; eauto.
  - rewrite andb_true_r. destruct (N.ltb_spec (p_bits (h_pow h)) 30).
    + right. split; [|reflexivity]. lia.
    + left. split; [auto|]. destruct (N.eqb_spec (h_scaling h) 1); cbn [negb].
      * left. split; [auto|]. apply pow_verdict; eauto.
      * right. split; [|reflexivity]. auto.
Qed.

Section Blocks.
Context (X : Ext).

Lemma coinbase_verdict (l : list (output X)) : forall n, (n <= 1)%nat ->
  verdict [((n + count (fun o => coinbase (out_features o)) l <= 1)%nat, refused "invalid block with few coinbase outputs")]
    (verify_coinbase_from X n l).
Proof.
  induction l as [|o l IH]; intros n Hn; cbn [verify_coinbase_from].
  - left. split; [cbn; lia|reflexivity].
  - rewrite count_cons, is_coinbase_odd. destruct (coinbase (out_features o)); cbn [rbind output_validate].
    + unfold max_coinbase_outputs. destruct (Nat.ltb_spec 1 (S n)).
      * right. split; [lia|reflexivity].
      * destruct (IH (S n) ltac:(lia)) as [[P V]|[P V]]; [left|right]; (split; [lia|exact V]).
    + destruct (IH n Hn) as [[P V]|[P V]]; [left|right]; (split; [lia|exact V]).
Qed.

Lemma range_verdict (l : list (output X)) :
  verdict [(Forall (fun o => rp_verify X (out_commit o) (out_proof o) = true) l, refused "proof verification failed")]
    (verify_range_proofs X l).
Proof.
  induction l as [|o l IH]; cbn [verify_range_proofs]; [left; split; [constructor|reflexivity]|].
  destruct (rp_verify X (out_commit o) (out_proof o)) eqn:E; cbn [negb].
  - destruct IH as [[P V]|[P V]]; [left; split; [constructor; assumption|exact V]|].
    right. split; [|exact V]. intro F. apply P. now inversion F.
  - right. split; [|reflexivity]. intro F. inversion F; congruence.
Qed.

Lemma kernels_verdict1 (l : list kernel) :
  verdict [(count (fun k => coinbase (k_features k)) l = 0%nat, refused "invalid block with few coinbase kernels")]
    (verify_kernels_from X 1 l).
Proof.
  induction l as [|k l IH]; cbn [verify_kernels_from]; [left; split; reflexivity|].
  rewrite count_cons, is_coinbase_odd. destruct (coinbase (k_features k)).
  - right. split; [lia|reflexivity].
  - exact IH.
Qed.

Lemma kernel_verdict k : kernel_signed X k \/ ~ kernel_signed X k /\ kernel_validate X k = refused "signature isn't valid".
Proof.
  rewrite <- kernel_signed_iff. unfold kernel_validate, refused.
  destruct (verify_signature _ _ _ _); [left; reflexivity|right; split; [discriminate|reflexivity]].
Qed.

Lemma kernels_verdict (l : list kernel) :
  verdict [(first_coinbase k_features l (kernel_signed X), refused "signature isn't valid");
           ((count (fun k => coinbase (k_features k)) l <= 1)%nat, refused "invalid block with few coinbase kernels")]
    (verify_kernels_from X 0 l).
Proof.
  induction l as [|k l IH]; cbn [verify_kernels_from].
  - left. split; [intros a H; discriminate H|]. left. split; [cbn; lia|reflexivity].
  - cbn [verdict]. rewrite count_cons, is_coinbase_odd. unfold first_coinbase. cbn [filter].
    destruct (coinbase (k_features k)) eqn:E.
    + cbn [nth_error]. change (Nat.ltb max_coinbase_kernels 1) with false. cbv iota.
      destruct (kernel_verdict k) as [K|[K V]].
      * left. split; [intros a H; injection H as <-; exact K|].
        rewrite (proj2 (kernel_signed_iff X k) K). cbn [rbind].
        destruct (kernels_verdict1 l) as [[P V]|[P V]]; [left|right]; (split; [lia|exact V]).
      * right. split; [intro H; apply K; now apply H|]. now rewrite V.
    + exact IH.
Qed.

Lemma sorted_verdict (b : block X) :
  verdict [(key_sorted (input_key X) (b_inputs b), refused "block inputs are not sorted");
   (key_sorted (output_key X) (b_outputs b), refused "block outputs are not sorted");
   (key_sorted (kernel_key X) (b_kernels b), refused "block kernels are not sorted")] (verify_sorted X b).
Proof.
  cbn [verdict]. unfold verify_sorted, refused. rewrite <- !is_sorted_iff.
  change (input_key X) with (input_hash X). change (output_key X) with (output_hash X).
  change (kernel_key X) with (kernel_hash X).
  destruct (is_sorted (input_hash X) _); cbn [negb]; [left; split; [reflexivity|]|right; split; [discriminate|reflexivity]].
  destruct (is_sorted (output_hash X) _); cbn [negb]; [left; split; [reflexivity|]|right; split; [discriminate|reflexivity]].
  destruct (is_sorted (kernel_hash X) _); cbn [negb]; [left; split; [reflexivity|]|right; split; [discriminate|reflexivity]].
  reflexivity.
Qed.

(** Checks run one after the other. *)
Lemma verdict_bind l t (r : res unit) (f : unit -> res unit) : Forall (fun p => snd p <> Ok tt) l ->
  verdict l r -> (verdict t (f tt)) -> verdict (l ++ t) (rbind r f).
Proof.
  intros F V T. apply (verdict_then l F t _ r V).
  - intros ->. exact T.
  - destruct r as [[]|e| |]; cbn; congruence.
Qed.

Lemma block_verdict now (b : block X) : clock_ok now -> header_typed (b_header b) -> header_sized (b_header b) ->
  List.length (p_nonces (h_pow (b_header b))) = 42%nat ->
  verdict (block_table X now b) (block_validate X now b).
Proof.
  intros Hc Ht Hs Hn. unfold block_table, block_validate.
  apply verdict_bind; [apply header_table_errors|now apply header_verdict|].
  destruct (lenN (b_outputs b) =? 0) eqn:Eo; cbn [orb].
  { apply lenN_zero in Eo. right. split; [intros [E _]; contradiction|reflexivity]. }
  destruct (lenN (b_kernels b) =? 0) eqn:Ek.
  { apply lenN_zero in Ek. right. split; [intros [_ E]; contradiction|reflexivity]. }
  left. split; [split; intro E; apply lenN_zero in E; congruence|].
  match goal with |- verdict (?a :: ?b :: ?c :: ?d :: ?e :: ?t) ?r =>
    change (verdict ([a; b; c] ++ [d] ++ [e] ++ t) r) end.
  apply verdict_bind; [repeat constructor; discriminate|apply sorted_verdict|].
  apply verdict_bind; [repeat constructor; discriminate|apply (coinbase_verdict _ 0%nat); lia|].
  apply verdict_bind; [repeat constructor; discriminate|apply range_verdict|].
  apply kernels_verdict.
Qed.

Lemma child_verdict S (c : chain X S) (b : block X) now hh bh prev top :
  block_hash X (c_head c) = Ok hh -> block_hash X b = Ok bh -> hash_laws X ->
  clock_ok now -> header_typed (b_header b) -> header_sized (b_header b) ->
  List.length (p_nonces (h_pow (b_header b))) = 42%nat ->
  hh <> bh -> st_get S (c_store c) (parent_id (b_header b)) = Some prev ->
  time_wf (h_time (b_header prev)) -> proof_top X (h_pow (b_header prev)) top ->
  verdict (child_table now (c_store c) top prev b) (fst (process_block now c b)).
Proof.
  intros Hh Bh HL C T Z L N E W (e & Ee & Et).
  rewrite (process_other X S c b now hh bh Hh Bh N), E. unfold child_table.
  apply verdict_bind; [apply block_table_errors|now apply block_verdict|].
  cbn [verdict]. rewrite <- after_iff by (try exact W; apply T).
  destruct (time_after _ _); cbn [negb]; [left; split; [reflexivity|]|right; split; [discriminate|reflexivity]].
  rewrite (to_difficulty_eq X _ e HL Ee). cbv zeta. rewrite <- Et.
  destruct (N.eqb_spec top 0) as [T0|T0]; [right; split; [auto|reflexivity]|left; split; [exact T0|]].
  cbn [rbind]. rewrite w64_mod.
  match goal with |- context [if negb (?x =? ?y) then _ else _] => destruct (N.eqb_spec x y) as [D|D] end; cbn [negb].
  - left. split; [exact D|]. destruct (N.ltb_spec (h_difficulty (b_header b)) (required_difficulty X (window (c_store c) (b_header b)))).
    + right. split; [lia|reflexivity].
    + left. split; [lia|reflexivity].
  - right. split; [exact D|reflexivity].
Qed.
End Blocks.

(** A table has one answer. *)
Lemma verdict_unique l : forall r r', verdict l r -> verdict l r' -> r = r'.
Proof.
  induction l as [|[p m] l IH]; cbn [verdict]; intros r r'; [congruence|].
  intros [[P V]|[P V]] [[P' V']|[P' V']]; try contradiction; [now apply IH|congruence].
Qed.

(** ** The proof of work of a header, by the layout of its bytes *)

Lemma field_be k off b n : (off + k <= List.length b)%nat -> unbe (field off k b) = n -> field off k b = be k n.
Proof.
  intros L <-. assert (List.length (field off k b) = k) as E by (unfold field; rewrite firstn_length, skipn_length; lia).
  rewrite <- E at 2. now rewrite be_unbe.
Qed.

Lemma first_fields b : (246 <= List.length b)%nat -> firstn 246 b =
  field 0 2 b ++ field 2 8 b ++ field 10 8 b ++ field 18 32 b ++ field 50 32 b ++ field 82 32 b ++ field 114 32 b ++
  field 146 32 b ++ field 178 32 b ++ field 210 8 b ++ field 218 8 b ++ field 226 8 b ++ field 234 4 b ++ field 238 8 b.
Proof.
  intro L. unfold field.
  assert (J : forall n m o, firstn (n + m) (skipn o b) = firstn n (skipn o b) ++ firstn m (skipn (o + n) b)).
  { intros n m o. rewrite <- (firstn_skipn n (firstn (n + m) (skipn o b))) at 1.
    rewrite firstn_firstn, Nat.min_l by lia. f_equal. rewrite skipn_firstn_comm, skipn_skipn'.
    f_equal; [lia|]. f_equal. lia. }
  change (firstn 246 b) with (firstn (2 + (8 + (8 + (32 + (32 + (32 + (32 + (32 + (32 + (8 + (8 + (8 + (4 + 8)))))))))))))
    (skipn 0 b)).
  rewrite !J. reflexivity.
Qed.

Lemma layout_prefix h b b' : header_layout h b -> header_layout h b' -> firstn 246 b = firstn 246 b'.
Proof.
  intros (L & A1 & A2 & A3 & A4 & A5 & A6 & A7 & A8 & A9 & A10 & A11 & A12 & A13 & A14 & _)
         (L' & B1 & B2 & B3 & B4 & B5 & B6 & B7 & B8 & B9 & B10 & B11 & B12 & B13 & B14 & _).
  unfold lenN in L, L'.
  rewrite (first_fields b), (first_fields b') by lia.
  assert (A3' : unbe (field 10 8 b) = unbe (field 10 8 b')) by (apply N2Z.inj; congruence).
  apply field_be in A1, A2, A3', A10, A11, A12, A13, A14; try lia.
  apply field_be in B1, B2, B10, B11, B12, B13, B14; try lia.
  assert (A3'' : field 10 8 b' = be 8 (unbe (field 10 8 b'))) by (apply field_be; [lia|reflexivity]).
  congruence.
Qed.

Lemma sealed_necessary X now h b :
  clock_ok now -> header_typed h -> header_sized h -> List.length (p_nonces (h_pow h)) = 42%nat ->
  header_layout h b -> header_validate X now h = Ok tt ->
  cheap_rules now h /\ valid_nonces (2 ^ p_bits (h_pow h)) (p_nonces (h_pow h)) /\
  contains_cycle (header_edges X b h) /\ connected (header_edges X b h) /\ returning_trail (header_edges X b h).
Proof.
  intros Hc Ht Hs Hn Lb V. pose proof (accepted_nonces X now h Hc Ht Hs Hn V) as [N1 N2].
  apply header_iff in V; try assumption. destruct V as (V1 & V2 & V3 & b' & Eb & V).
  destruct (header_layout_ok h Ht Hs Hn) as (b2 & Eb2 & L2). rewrite Eb in Eb2. apply Ok_inj in Eb2. subst b2.
  rewrite (layout_prefix h b' b L2 Lb) in V.
  assert (U : Forall is_u32 (p_nonces (h_pow h))) by apply Ht.
  split; [repeat split; assumption|]. split.
  { split; [|split; assumption]. intro E. rewrite E in Hn. discriminate Hn. }
  unfold header_edges. destruct (cuckaroo_digest_shape _ _ _ U V) as [K1 K2].
  split; [exact K1|]. split; [exact K2|]. exact (cuckaroo_trail _ _ _ U V).
Qed.

Lemma sealed_sufficient X now h b :
  clock_ok now -> header_typed h -> header_sized h -> List.length (p_nonces (h_pow h)) = 42%nat ->
  header_layout h b -> cheap_rules now h -> valid_nonces (2 ^ p_bits (h_pow h)) (p_nonces (h_pow h)) ->
  simple_cycle (header_edges X b h) \/ lollipop (header_edges X b h) -> header_validate X now h = Ok tt.
Proof.
  intros Hc Ht Hs Hn Lb (V1 & V2 & V3) Vn K. apply header_iff; try assumption.
  destruct (header_layout_ok h Ht Hs Hn) as (b2 & Eb2 & L2).
  repeat (split; [assumption|]). exists b2. split; [exact Eb2|]. rewrite (layout_prefix h b2 b L2 Lb).
  assert (U : Forall is_u32 (p_nonces (h_pow h))) by apply Ht.
  destruct K as [K|K]; [now apply cuckaroo_digest_complete|now apply cuckaroo_lollipop].
Qed.
