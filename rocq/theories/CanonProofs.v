(** Proofs for C104-C106: encodings do not depend on the order of items, control messages have one
    encoding, streams of frames can be read in one way. *)
From Coq Require Import Permutation Sorted Lia.
From Verif Require Import Messages SpecCodec SpecConsensus SpecMessages SpecCanon CodecProofs BlockCodecProofs MessageProofs EndToEndProofs.

(** ** Sorting pairs of a key and a text *)
Lemma sorted_pairs (l l' : list (bytes * bytes)) :
  Permutation l l' -> key_sorted fst l -> key_sorted fst l' ->
  (forall a b, In a l -> In b l -> fst a = fst b -> snd a = snd b) -> l = l'.
Proof.
  revert l'. induction l as [|a l IH]; intros l' P S1 S2 C.
  - apply Permutation_nil in P. now subst.
  - destruct l' as [|b l']; [now apply Permutation_sym, Permutation_nil_cons in P|].
    assert (E : a = b).
    { assert (Ia : In a (b :: l')) by (apply (Permutation_in _ P); now left).
      assert (Ib : In b (a :: l)) by (apply (Permutation_in _ (Permutation_sym P)); now left).
      assert (K : fst a = fst b).
      { inversion S1 as [|? ? _ F1]; inversion S2 as [|? ? _ F2]; subst. rewrite Forall_forall in F1, F2.
        destruct Ia as [->|Ia]; [reflexivity|]. destruct Ib as [->|Ib]; [reflexivity|].
        apply bytes_lt_total; auto. }
      rewrite (surjective_pairing a), (surjective_pairing b), K, (C a b); auto. now left. }
    subst b. f_equal. apply IH.
    + now apply Permutation_cons_inv in P.
    + now inversion S1.
    + now inversion S2.
    + intros x y Hx Hy. apply C; now right.
Qed.

Lemma sorted_texts {A} (key text : A -> bytes) l l' :
  Permutation l l' -> key_sorted key l -> key_sorted key l' ->
  (forall a b, In a l -> In b l -> key a = key b -> text a = text b) ->
  flat_map text l = flat_map text l'.
Proof.
  intros P S1 S2 C. set (f a := (key a, text a)).
  assert (S : forall m, key_sorted key m -> key_sorted fst (map f m)).
  { intros m. unfold key_sorted. induction 1 as [|x m _ IH F]; cbn [map]; constructor; [exact IH|].
    rewrite Forall_map. exact F. }
  assert (E : map f l = map f l').
  { apply sorted_pairs; auto; [now apply Permutation_map|].
    intros a b Ha Hb. apply in_map_iff in Ha as (x & <- & Hx). apply in_map_iff in Hb as (y & <- & Hy). cbn. now apply C. }
  assert (M : forall m, map text m = map snd (map f m)) by (intro m; rewrite map_map; reflexivity).
  rewrite !flat_map_concat_map, !M, E. reflexivity.
Qed.
Lemma lenN_perm {A} (l l' : list A) : Permutation l l' -> lenN l = lenN l'.
Proof. intro P. unfold lenN. now rewrite (Permutation_length P). Qed.

Section Order.
Context (X : Ext) (SL : sort_laws X).

Lemma go_sort_texts {A} (key text : A -> bytes) l l' : Permutation l l' ->
  (forall a b, In a l -> In b l -> key a = key b -> text a = text b) ->
  flat_map text (go_sort X key l) = flat_map text (go_sort X key l').
Proof.
  intros P C. destruct (SL A key l) as [P1 S1], (SL A key l') as [P2 S2].
  apply (sorted_texts key); auto.
  - now rewrite P1, P2.
  - intros a b Ha Hb. apply C; now apply (Permutation_in _ P1).
Qed.

Lemma apart {A} (text : A -> bytes) l a b : ~ colliding X text l -> In a l -> In b l ->
  blake2b X (text a) = blake2b X (text b) -> text a = text b.
Proof.
  intros N Ha Hb E. destruct (bytes_eqb (text a) (text b)) eqn:K; [now apply bytes_eqb_eq|].
  exfalso. apply N. exists a, b. repeat split; auto. intro F. apply bytes_eqb_eq in F. congruence.
Qed.
Lemma apart_outputs l a b : ~ colliding X (output_name X) l -> ~ twins X l -> In a l -> In b l ->
  output_hash X a = output_hash X b -> output_bytes X a = output_bytes X b.
Proof.
  intros N T Ha Hb E. apply (apart (output_name X) l) in E; auto.
  destruct (bytes_eqb (output_bytes X a) (output_bytes X b)) eqn:K; [now apply bytes_eqb_eq|].
  exfalso. apply T. exists a, b. repeat split; auto. intro F.
  assert (bytes_eqb (output_bytes X a) (output_bytes X b) = true) by (apply bytes_eqb_eq; exact F). congruence.
Qed.

Lemma block_order b b' s s' c c' : same_block X b b' ->
  ~ colliding X input_wire (b_inputs b) -> ~ colliding X (output_name X) (b_outputs b) ->
  ~ colliding X (kernel_wire X) (b_kernels b) -> ~ twins X (b_outputs b) ->
  block_bytes X b = Ok (s, c) -> block_bytes X b' = Ok (s', c') -> s = s'.
Proof.
  intros (Eh & Pi & Po & Pk) Ni No Nk T. unfold block_bytes. rewrite <- Eh.
  destruct (header_bytes (b_header b)) as [hb|e| |]; cbn [rbind]; try discriminate.
  intros [= <- _] [= <- _]. unfold block_sort. cbn [b_inputs b_outputs b_kernels].
  rewrite (lenN_perm _ _ Pi), (lenN_perm _ _ Po), (lenN_perm _ _ Pk).
  rewrite (go_sort_texts (input_hash X) input_bytes _ _ Pi) by (intros; now apply (apart input_wire (b_inputs b))).
  rewrite (go_sort_texts (output_hash X) (output_bytes X) _ _ Po) by (intros; now apply (apart_outputs (b_outputs b))).
  now rewrite (go_sort_texts (kernel_hash X) (kernel_bytes X) _ _ Pk) by (intros; now apply (apart (kernel_wire X) (b_kernels b))).
Qed.
Lemma tx_order t t' : same_tx X t t' ->
  ~ colliding X input_wire (tx_inputs t) -> ~ colliding X (output_name X) (tx_outputs t) ->
  ~ colliding X (kernel_wire X) (tx_kernels t) -> ~ twins X (tx_outputs t) ->
  fst (tx_bytes X t) = fst (tx_bytes X t').
Proof.
  intros (Eh & Pi & Po & Pk) Ni No Nk T. unfold tx_bytes, tx_sort. cbn [fst tx_inputs tx_outputs tx_kernels tx_offset].
  rewrite Eh, (lenN_perm _ _ Pi), (lenN_perm _ _ Po), (lenN_perm _ _ Pk).
  rewrite (go_sort_texts (input_hash X) in_commit _ _ Pi).
  2:{ intros a b Ha Hb E. apply (apart input_wire (tx_inputs t)) in E; auto. unfold input_wire in E. congruence. }
  rewrite (go_sort_texts (output_hash X) (output_bytes X) _ _ Po) by (intros; now apply (apart_outputs (tx_outputs t))).
  now rewrite (go_sort_texts (kernel_hash X) (kernel_bytes X) _ _ Pk) by (intros; now apply (apart (kernel_wire X) (tx_kernels t))).
Qed.
Lemma compact_order b b' s s' c c' : same_compact X b b' ->
  ~ colliding X (output_name X) (cb_outputs b) ->
  ~ colliding X (kernel_wire X) (cb_kernels b) -> ~ twins X (cb_outputs b) ->
  compact_bytes X b = Ok (s, c) -> compact_bytes X b' = Ok (s', c') -> s = s'.
Proof.
  intros (Eh & Po & Pk & Pi) No Nk T. unfold compact_bytes. rewrite <- Eh.
  destruct (header_bytes (cb_header b)) as [hb|e| |]; cbn [rbind]; try discriminate.
  intros [= <- _] [= <- _]. unfold compact_sort. cbn [cb_ids cb_outputs cb_kernels].
  rewrite (lenN_perm _ _ Pi), (lenN_perm _ _ Po), (lenN_perm _ _ Pk).
  rewrite (go_sort_texts (output_hash X) (output_bytes X) _ _ Po) by (intros; now apply (apart_outputs (cb_outputs b))).
  rewrite (go_sort_texts (kernel_hash X) (kernel_bytes X) _ _ Pk) by (intros; now apply (apart (kernel_wire X) (cb_kernels b))).
  pose proof (go_sort_texts (fun i : bytes => i) (fun i : bytes => i) _ _ Pi (fun _ _ _ _ e => e)) as G.
  rewrite <- !concat_flat_map_id in G. now rewrite G.
Qed.

(** Two outputs that differ in their proofs only, kept in place by the sort: both orders are written. *)
Definition keeps : Prop := forall A (key : A -> bytes) l, key_sorted key l -> go_sort X key l = l.
Lemma twins_order h o o' hb : keeps -> header_bytes h = Ok hb -> output_name X o = output_name X o' ->
  output_wire X o <> output_wire X o' -> lenN (output_wire X o) = lenN (output_wire X o') ->
  exists s s' c c', block_bytes X (Block h [] [o; o'] []) = Ok (s, c) /\ block_bytes X (Block h [] [o'; o] []) = Ok (s', c') /\ s <> s'.
Proof.
  intros K Eh En D L.
  assert (Ks : forall a b, output_name X a = output_name X b -> go_sort X (output_hash X) [a; b] = [a; b]).
  { intros a b E. apply K. unfold key_sorted. constructor; [repeat constructor|]. constructor; [|constructor].
    unfold output_hash. change (output_bytes_without_proof X a) with (output_name X a).
    change (output_bytes_without_proof X b) with (output_name X b). rewrite E. apply bytes_lt_irrefl. }
  unfold block_bytes. cbn [b_header]. rewrite Eh. cbn [rbind]. do 4 eexists. split; [reflexivity|]. split; [reflexivity|].
  unfold block_sort. cbn [b_inputs b_outputs b_kernels]. rewrite !Ks by congruence.
  intro E. apply app_inv_head in E. change (lenN [o'; o]) with (lenN [o; o']) in E. do 4 (apply app_inv_head in E).
  cbn [flat_map] in E. rewrite !app_nil_r in E.
  change (output_bytes X o) with (output_wire X o) in E. change (output_bytes X o') with (output_wire X o') in E.
  apply app_inv_tail in E. destruct (app_inj_len _ _ _ _ E) as [F _]; [apply Nat2N.inj; exact L|exact (D F)].
Qed.
End Order.

(** ** One encoding *)
Definition exact_for {A} (p : reader A) (enc : A -> res bytes) : Prop :=
  forall bs a rest, p bs = Ok (a, rest) -> exists b, enc a = Ok b /\ bs = b ++ rest.

Lemma full_exact n : forall bs l rest, read_full n bs = Ok (l, rest) -> bs = l ++ rest /\ lenN l = n.
Proof. apply read_full_inv. Qed.
Lemma unchecked_exact bs t rest : read_unchecked bs = Ok (t, rest) -> bs = be 8 (lenN t) ++ t ++ rest.
Proof.
  unfold read_unchecked. intro H. apply pbind_inv in H as (n & m & Hn & H). apply pbind_inv in H as (u & m' & Hu & H).
  unfold lift in Hu. destruct (go_make 1 n) as [v|e| |]; cbn in Hu; try discriminate. assert (m' = m) by congruence. subst m'.
  apply read_full_inv in H as [-> Ln]. apply read_be_inv in Hn as [-> _]. now rewrite Ln.
Qed.
Lemma ping_exact : exact_for ping_read (fun p => Ok (ping_bytes p)).
Proof.
  intros bs p rest H. unfold ping_read in H. apply pbind_inv in H as (d & m & H1 & H). apply pbind_inv in H as (h & m' & H2 & H).
  unfold rret in H. assert (p = PingMsg d h /\ m' = rest) as [-> ->] by (split; congruence).
  apply read_be_inv in H1 as [-> _]. apply read_be_inv in H2 as [-> _].
  eexists. split; [reflexivity|]. unfold ping_bytes. cbn [pg_difficulty pg_height]. now rewrite <- app_assoc.
Qed.
Lemma error_exact : exact_for peer_error_read (fun p => Ok (peer_error_bytes p)).
Proof.
  intros bs p rest H. unfold peer_error_read in H. apply pbind_inv in H as (d & m & H1 & H). apply pbind_inv in H as (t & m' & H2 & H).
  unfold rret in H. assert (p = PeerError d t /\ m' = rest) as [-> ->] by (split; congruence).
  apply read_be_inv in H1 as [-> _]. apply unchecked_exact in H2 as ->.
  eexists. split; [reflexivity|]. unfold peer_error_bytes. cbn [pe_code pe_text]. now rewrite <- !app_assoc.
Qed.
Lemma shake_exact : exact_for shake_read (fun p => Ok (shake_bytes p)).
Proof.
  intros bs p rest H. unfold shake_read in H. apply pbind_inv in H as (v & m & H1 & H).
  destruct (negb (v =? protocol_version)); [discriminate|].
  apply pbind_inv in H as (c & m2 & H2 & H). apply pbind_inv in H as (d & m3 & H3 & H).
  apply pbind_inv in H as (u & m4 & H4 & H). apply pbind_inv in H as (g & m5 & H5 & H).
  unfold rret in H. assert (p = Shake v c d u g /\ m5 = rest) as [-> ->] by (split; congruence).
  apply read_be_inv in H1 as [-> _]. apply read_be_inv in H2 as [-> _]. apply read_be_inv in H3 as [-> _].
  apply unchecked_exact in H4 as ->. apply read_full_inv in H5 as [-> _].
  eexists. split; [reflexivity|]. unfold shake_bytes. cbn [sk_version sk_caps sk_difficulty sk_agent sk_genesis]. now rewrite <- !app_assoc.
Qed.
Lemma fulls_exact n k bs l rest : read_n k (read_full n) bs = Ok (l, rest) -> bs = concat l ++ rest /\ List.length l = k.
Proof.
  revert bs l. induction k as [|k IH]; intros bs l H; cbn [read_n] in H.
  - unfold rret in H. assert (l = [] /\ bs = rest) as [-> ->] by (split; congruence). split; reflexivity.
  - apply pbind_inv in H as (a & m & H1 & H). apply pbind_inv in H as (t & m' & H2 & H).
    unfold rret in H. assert (l = a :: t /\ m' = rest) as [-> ->] by (split; congruence).
    apply read_full_inv in H1 as [-> _]. apply IH in H2 as [-> <-]. split; [cbn [concat]; now rewrite <- app_assoc|reflexivity].
Qed.
Lemma locator_exact : exact_for locator_read locator_bytes.
Proof.
  intros bs l rest H. destruct (locator_read_bound _ _ _ H) as [L _]. unfold locator_read in H.
  apply pbind_inv in H as (n & m & H1 & H). destruct (max_locators <? n); [discriminate|].
  apply fulls_exact in H as [-> Ln]. apply read_be_inv in H1 as [-> _]. unfold locator_bytes, max_locators.
  replace (14 <? lenN l) with false by (symmetry; now apply N.ltb_ge). eexists. split; [reflexivity|].
  replace (lenN l) with n by (unfold lenN; lia). now rewrite <- app_assoc.
Qed.
Lemma get_block_exact : exact_for get_block_read get_block_bytes.
Proof.
  intros bs h rest H. apply read_full_inv in H as [-> L]. unfold get_block_bytes. rewrite L, N.eqb_refl. eauto.
Qed.

(** Addresses: an accepted IPv6 address has lost its bytes. *)
Lemma addr_exact lenient bs a rest : addr_read lenient bs = Ok (a, rest) ->
  (List.length (ip a) = 4%nat /\ exists b, addr_bytes a = Ok b /\ bs = b ++ rest) \/
  (lenient = true /\ ip a = brepeat x00 16 /\
   exists six b, lenN six = 8 /\ bs = x01 :: six ++ be 2 (Z.to_N (port a)) ++ rest /\
     addr_bytes a = Ok b /\ b = x01 :: brepeat x00 8 ++ be 2 (Z.to_N (port a))).
Proof.
  unfold addr_read. intro H. apply pbind_inv in H as (fl & m & H1 & H). apply read_be_inv in H1 as [-> Hf].
  apply pbind_inv in H as (i & m2 & H2 & H). apply pbind_inv in H as (q & m3 & H3 & H).
  unfold rret in H. assert (a = Addr i (Z.of_N q) /\ m3 = rest) as [-> ->] by (split; congruence). cbn [ip port].
  apply read_be_inv in H3 as [-> Hq]. change (256 ^ N.of_nat 2) with 65536 in Hq.
  assert (Eq : Z.to_N (Z.of_N q mod 65536) = q) by (rewrite Z.mod_small by lia; now rewrite N2Z.id).
  destruct (N.eqb_spec fl 0) as [->|F0].
  - left. apply read_full_inv in H2 as [-> L4]. split; [unfold lenN in L4; lia|].
    unfold addr_bytes, to4. cbn [ip port]. rewrite L4. change (4 =? 4) with true. cbv iota. rewrite L4. change (4 =? 4) with true. cbn [rbind].
    eexists. split; [reflexivity|]. rewrite Eq. change (be 1 0) with [x00]. cbn [app]. now rewrite <- app_assoc.
  - destruct (N.eqb_spec fl 1) as [->|F1]; [|discriminate]. right.
    assert (Seg : forall s u r, read_segment lenient s = Ok (u, r) -> lenient = true /\ exists two, lenN two = 2 /\ s = two ++ r).
    { intros s u r E. unfold read_segment in E. apply pbind_inv in E as (two & r' & E1 & E). destruct lenient; [|discriminate].
      unfold rret in E. assert (r' = r) by congruence. subst r'. apply read_full_inv in E1 as [-> L2]. split; [reflexivity|]. eauto. }
    apply pbind_inv in H2 as (u1 & s1 & E1 & H2). apply pbind_inv in H2 as (u2 & s2 & E2 & H2).
    apply pbind_inv in H2 as (u3 & s3 & E3 & H2). apply pbind_inv in H2 as (u4 & s4 & E4 & H2).
    apply Seg in E1 as (Le & t1 & L1 & ->). apply Seg in E2 as (_ & t2 & L2 & ->).
    apply Seg in E3 as (_ & t3 & L3 & ->). apply Seg in E4 as (_ & t4 & L4 & ->).
    unfold rret in H2. assert (i = brepeat x00 16 /\ s4 = be 2 q ++ rest) as [-> ->] by (split; congruence).
    split; [exact Le|]. split; [reflexivity|]. rewrite N2Z.id.
    exists (t1 ++ t2 ++ t3 ++ t4), (x01 :: brepeat x00 8 ++ be 2 q). split; [rewrite !lenN_app; lia|]. split.
    { change (be 1 1) with [x01]. cbn [app]. now rewrite <- !app_assoc. }
    split; [|reflexivity]. unfold addr_bytes. cbn [ip port]. change (to4 (brepeat x00 16)) with (@None bytes).
    cbn [rbind]. change (lenN (brepeat x00 16) =? 4) with false. change (lenN (brepeat x00 16) =? 16) with true. cbn [rbind].
    rewrite Eq. reflexivity.
Qed.
Lemma addr_exact4 lenient bs a rest : lenient = false \/ List.length (ip a) = 4%nat -> addr_read lenient bs = Ok (a, rest) ->
  exists b, addr_bytes a = Ok b /\ bs = b ++ rest.
Proof.
  intros V H. destruct (addr_exact _ _ _ _ H) as [[_ K]|(K & I & _)]; [exact K|].
  destruct V as [V|V]; [congruence|]. rewrite I in V. discriminate V.
Qed.
Lemma addrs_exact lenient k bs l rest : lenient = false \/ Forall (fun a => List.length (ip a) = 4%nat) l ->
  read_n k (addr_read lenient) bs = Ok (l, rest) -> exists b, addrs_bytes l = Ok b /\ bs = b ++ rest.
Proof.
  intros V. revert bs l V. induction k as [|k IH]; intros bs l V H; cbn [read_n] in H.
  - unfold rret in H. assert (l = [] /\ bs = rest) as [-> ->] by (split; congruence). exists []. split; reflexivity.
  - apply pbind_inv in H as (a & m & H1 & H). apply pbind_inv in H as (t & m' & H2 & H).
    unfold rret in H. assert (l = a :: t /\ m' = rest) as [-> ->] by (split; congruence).
    destruct (IH m t) as (b & E & ->); [destruct V as [V|V]; [now left|right; now inversion V]|exact H2|].
    destruct (addr_exact4 lenient bs a (b ++ rest)) as (b1 & E1 & ->); [destruct V as [V|V]; [now left|right; now inversion V]|exact H1|].
    exists (b1 ++ b). cbn [addrs_bytes]. rewrite E1, E. split; [reflexivity|]. now rewrite <- app_assoc.
Qed.
Lemma peer_addrs_exact lenient bs l rest : lenient = false \/ Forall (fun a => List.length (ip a) = 4%nat) l ->
  peer_addrs_read lenient bs = Ok (l, rest) -> exists b, peer_addrs_bytes l = Ok b /\ bs = b ++ rest.
Proof.
  intros V H. unfold peer_addrs_read in H. apply pbind_inv in H as (n & m & H1 & H).
  destruct (N.ltb_spec max_peer_addrs n) as [|Hn]; [discriminate|].
  pose proof (read_n_length _ _ _ _ _ H) as Ln. destruct (addrs_exact _ _ _ _ _ V H) as (b & E & ->).
  apply read_be_inv in H1 as [-> _]. unfold peer_addrs_bytes. replace (lenN l) with n by (unfold lenN; lia).
  replace (max_peer_addrs <? n) with false by (symmetry; now apply N.ltb_ge). rewrite E. cbn [rbind].
  eexists. split; [reflexivity|]. now rewrite <- app_assoc.
Qed.
Lemma hand_exact X lenient bs h rest : lenient = false \/ Forall (fun a => List.length (ip a) = 4%nat) (addresses (@MHand X h)) ->
  hand_read lenient bs = Ok (h, rest) -> exists b, hand_bytes h = Ok b /\ bs = b ++ rest.
Proof.
  intros V H. unfold hand_read in H. apply pbind_inv in H as (v & m & H1 & H).
  destruct (negb (v =? protocol_version)); [discriminate|].
  apply pbind_inv in H as (c & m2 & H2 & H). apply pbind_inv in H as (n & m3 & H3 & H).
  apply pbind_inv in H as (d & m4 & H4 & H). apply pbind_inv in H as (s & m5 & H5 & H).
  apply pbind_inv in H as (r & m6 & H6 & H). apply pbind_inv in H as (u & m7 & H7 & H).
  apply pbind_inv in H as (g & m8 & H8 & H).
  unfold rret in H. assert (h = Hand v c n g d (Some s) (Some r) u /\ m8 = rest) as [-> ->] by (split; congruence).
  cbn [addresses hd_sender hd_receiver app] in V.
  apply addr_exact4 in H5 as (sb & Es & ->); [|destruct V as [V|V]; [now left|right; now inversion V]].
  apply addr_exact4 in H6 as (rb & Er & ->); [|destruct V as [V|V]; [now left|right; inversion V as [|? ? _ W]; now inversion W]].
  apply read_be_inv in H1 as [-> _]. apply read_be_inv in H2 as [-> _]. apply read_be_inv in H3 as [-> _]. apply read_be_inv in H4 as [-> _].
  apply unchecked_exact in H7 as ->. apply read_full_inv in H8 as [-> _].
  unfold hand_bytes. cbn [hd_version hd_caps hd_nonce hd_difficulty hd_sender hd_receiver hd_agent hd_genesis]. rewrite Es, Er. cbn [rbind].
  eexists. split; [reflexivity|]. now rewrite <- !app_assoc.
Qed.

Section Control.
Context (X : Ext) (lenient : bool).
Lemma lift_msg {A} (p : reader A) (mk : A -> message X) bs m rest : (do a <- p; rret (mk a)) bs = Ok (m, rest) ->
  exists a, p bs = Ok (a, rest) /\ m = mk a.
Proof.
  intro H. apply pbind_inv in H as (a & r & H1 & H). unfold rret in H.
  assert (m = mk a /\ r = rest) as [-> ->] by (split; congruence). eauto.
Qed.
Lemma control_exact t bs m rest : In t control_types -> msg_read X lenient t bs = Ok (m, rest) ->
  exists b, msg_bytes X m = Ok b /\ bs = b ++ rest.
Proof.
  unfold control_types. cbn [In]. intros I H.
  repeat destruct I as [<-|I]; try contradiction.
  - apply (lift_msg peer_error_read MError) in H as (a & H & ->). now apply error_exact in H.
  - apply (lift_msg shake_read MShake) in H as (a & H & ->). now apply shake_exact in H.
  - apply (lift_msg ping_read MPing) in H as (a & H & ->). now apply ping_exact in H.
  - apply (lift_msg ping_read MPong) in H as (a & H & ->). now apply ping_exact in H.
  - apply (lift_msg get_peers_read MGetPeerAddrs) in H as (a & H & ->). apply read_be_inv in H as [-> _]. cbn [msg_bytes]. unfold get_peers_bytes. eauto.
  - apply (lift_msg locator_read MGetHeaders) in H as (a & H & ->). now apply locator_exact in H.
  - apply (lift_msg get_block_read MGetBlock) in H as (a & H & ->). now apply get_block_exact in H.
Qed.
Lemma address_exact t bs m rest : t = 1 \/ t = 6 -> lenient = false \/ Forall (fun a => List.length (ip a) = 4%nat) (addresses m) ->
  msg_read X lenient t bs = Ok (m, rest) -> exists b, msg_bytes X m = Ok b /\ bs = b ++ rest.
Proof.
  intros [->| ->] V H.
  - apply (lift_msg (hand_read lenient) MHand) in H as (a & H & ->). now apply (hand_exact X) in H.
  - apply (lift_msg (peer_addrs_read lenient) MPeerAddrs) in H as (a & H & ->). now apply peer_addrs_exact in H.
Qed.
End Control.

(** ** Streams *)
Lemma whole_inj f g r s : frame_ok f -> frame_ok g -> whole f ++ r = whole g ++ s -> f = g /\ r = s.
Proof.
  destruct f as [t b], g as [t' b']. unfold whole, frame_of, frame_ok. cbn [fst snd]. intros [Ht Lb] [Ht' Lb'] E.
  rewrite <- !app_assoc in E. apply app_inv_head in E.
  apply app_inj_len in E as [E1 E]; [|now rewrite !be_length].
  apply app_inj_len in E as [E2 E]; [|now rewrite !be_length].
  apply be_inj in E1; [|assumption|assumption].
  apply be_inj in E2; [|change (256 ^ N.of_nat 8) with 18446744073709551616; lia|change (256 ^ N.of_nat 8) with 18446744073709551616; lia].
  apply app_inj_len in E as [-> ->]; [|apply Nat2N.inj; exact E2]. subst t'. split; reflexivity.
Qed.
Lemma stream_inj l l' : Forall frame_ok l -> Forall frame_ok l' -> flat_map whole l = flat_map whole l' -> l = l'.
Proof.
  revert l'. induction l as [|f l IH]; intros [|g l'] F F' E; [reflexivity|discriminate E|discriminate E|].
  inversion F; inversion F'; subst. cbn [flat_map] in E. apply whole_inj in E as [-> E]; auto. f_equal. now apply IH.
Qed.
Lemma stream_prefix l l' r : Forall frame_ok l -> Forall frame_ok l' -> flat_map whole l ++ r = flat_map whole l' ->
  exists k, l' = l ++ k /\ r = flat_map whole k.
Proof.
  revert l'. induction l as [|f l IH]; intros l' F F' E.
  - exists l'. split; [reflexivity|exact E].
  - destruct l' as [|g l']; [discriminate E|]. inversion F; inversion F'; subst. cbn [flat_map] in E. rewrite <- app_assoc in E.
    apply whole_inj in E as [-> E]; auto. destruct (IH l') as (k & -> & ->); auto. exists k. split; reflexivity.
Qed.

Lemma frames_of X ms frs :
  Forall2 (fun m fr => exists n, write_message X m = Ok (fr, n) /\ lenN fr <= 20000011) ms frs ->
  exists bs, Forall2 (fun m b => msg_bytes X m = Ok b /\ lenN b <= 20000000) ms bs /\
    concat frs = flat_map whole (combine (map (type_number X) ms) bs) /\
    Forall frame_ok (combine (map (type_number X) ms) bs).
Proof.
  induction 1 as [|m fr ms frs (n & E & L) _ (bs & F & C & O)].
  - exists []. repeat constructor.
  - unfold write_message in E. destruct (msg_bytes X m) as [b|e| |] eqn:Eb; cbn [rbind] in E; try discriminate E.
    assert (Ef : fr = frame_of (type_number X m) b).
    { assert (E1 : fr = frame_header (msg_type m) (lenN b) ++ b) by congruence. rewrite E1, type_number_eq.
      unfold frame_header, frame_of, magic_code. now rewrite <- !app_assoc. }
    assert (Lb : lenN b <= 20000000).
    { rewrite Ef in L. unfold frame_of in L. rewrite !lenN_app in L. unfold lenN at 2 3 in L. rewrite !be_length in L.
      change (lenN [x54; x34]) with 2 in L. lia. }
    exists (b :: bs). split; [constructor; auto|]. cbn [map combine flat_map concat]. split.
    + rewrite C, Ef. reflexivity.
    + constructor; [|exact O]. split; [|exact Lb]. cbn [fst]. destruct m; reflexivity.
Qed.
Lemma forall2_len {A B} (R : A -> B -> Prop) l k : Forall2 R l k -> List.length l = List.length k.
Proof. induction 1; cbn [List.length]; congruence. Qed.
Lemma combine_split {A B} (l l' : list A) (k k' : list B) : List.length l = List.length k -> List.length l' = List.length k' ->
  combine l k = combine l' k' -> l = l' /\ k = k'.
Proof.
  revert l' k k'. induction l as [|a l IH]; intros [|a' l'] [|b k] [|b' k'] E E'; try discriminate; cbn [combine]; intro F; try discriminate F; [auto|].
  injection F as -> -> F. destruct (IH l' k k') as [-> ->]; auto.
Qed.
Lemma messages_inj X P Q : codec_laws X P Q -> sort_laws X -> forall ms ms' frs frs',
  Forall (sendable X P Q) ms -> Forall (sendable X P Q) ms' ->
  Forall2 (fun m fr => exists n, write_message X m = Ok (fr, n) /\ lenN fr <= 20000011) ms frs ->
  Forall2 (fun m fr => exists n, write_message X m = Ok (fr, n) /\ lenN fr <= 20000011) ms' frs' ->
  concat frs = concat frs' ->
  Forall2 (fun m m' => exists g, received_as X m g /\ received_as X m' g) ms ms'.
Proof.
  intros CL SL ms ms' frs frs' W W' F F' E.
  destruct (frames_of _ _ _ F) as (bs & B & C & O), (frames_of _ _ _ F') as (bs' & B' & C' & O').
  rewrite C, C' in E. apply stream_inj in E; auto.
  apply combine_split in E as [Et Eb]; [|rewrite map_length; now apply (forall2_len _ _ _ B)|rewrite map_length; now apply (forall2_len _ _ _ B')].
  subst bs'. clear - CL SL W W' B B' Et. revert ms' W W' B' Et.
  induction B as [|m b ms bs [Em _] _ IH]; intros [|m' ms'] W W' B' Et; try discriminate Et; constructor.
  - inversion W; inversion W'; inversion B' as [|? ? ? ? [Em' _] _]; subst. injection Et as Et _.
    destruct (msg_rt X P Q true CL SL m) as (b1 & g & E1 & R & D); [assumption|]. rewrite Em in E1. apply Ok_inj in E1. subst b1.
    destruct (msg_rt X P Q true CL SL m') as (b1 & g' & E1 & R' & D'); [assumption|]. rewrite Em' in E1. apply Ok_inj in E1. subst b1.
    specialize (D []). specialize (D' []). rewrite !type_number_eq in D, D'. rewrite Et in D. rewrite D in D'. apply Ok_inj in D'.
    assert (g = g') by congruence. subst g'. eauto.
  - inversion W; inversion W'; inversion B'; subst. injection Et as _ Et. apply IH; auto.
Qed.
