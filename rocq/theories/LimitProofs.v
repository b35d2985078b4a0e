(** Proofs for C93 and C94. *)
From Verif Require Import Messages SpecCodec SpecConsensus SpecMessages SpecLimits CodecProofs BlockCodecProofs MessageProofs
  LoopProofs.

Lemma unknown_decode X lenient t body : ~ known_type t ->
  exists e, decode_frame X lenient t body = Err e.
Proof.
  intro K. unfold decode_frame.
  assert (T : forall k, known_type k -> t =? k = false).
  { intros k Hk. apply N.eqb_neq. intros ->. exact (K Hk). }
  cbn [existsb]. unfold known_type in T.
  rewrite !T by (unfold type_ping, type_pong, type_get_peer_addrs, type_peer_addrs, type_get_headers, type_header, type_headers,
    type_get_block, type_transaction, type_block, type_get_compact_block, type_compact_block; lia).
  cbn [orb]. eexists. reflexivity.
Qed.

Lemma stop_at X lenient fuel acc c bs : bad_start bs ->
  exists e rest, read_loop X lenient read_full (S fuel) acc c bs = (acc, c, Failed e, rest).
Proof.
  intros [a b more M|t n more Ht L Hn|t body more Ht K L]; cbn [read_loop].
  - unfold src_header. change (a :: b :: more) with ([a; b] ++ more). rewrite (read_full_app' 2 [a; b]) by reflexivity. cbn [rbind].
    destruct (bytes_eqb [a; b] magic_code) eqn:E; [apply bytes_eqb_eq in E; contradiction|].
    cbn [negb]. eauto.
  - rewrite src_header_frame by assumption. unfold max_msg_len. apply N.ltb_lt in L. rewrite L. eauto.
  - unfold frame_of. rewrite <- !app_assoc. rewrite src_header_frame by (first [exact Ht|unfold is_u64; lia]).
    unfold max_msg_len. rewrite (ltb_false 20000000) by exact L. rewrite read_full_app.
    destruct (unknown_decode X lenient t body K) as [e ->]. eauto.
Qed.

Lemma stops X P Q lenient ms frs bad chunks fuel : codec_laws X P Q -> sort_laws X ->
  Forall (sendable X P Q) ms -> Forall (in_loop X) ms ->
  Forall2 (fun m fr => exists n, write_message X m = Ok (fr, n) /\ lenN fr <= 20000011) ms frs -> bad_start bad ->
  Forall (fun c : bytes => c <> []) chunks -> concat chunks = concat frs ++ bad -> (List.length ms < fuel)%nat ->
  exists got e s, read_loop X lenient buf_read_full fuel [] 0 (BufSrc [] chunks) =
      (got, lenN (concat frs) mod 2 ^ 64, Failed e, s) /\
    Forall2 (received_as X) (filter (dispatched X) ms) got.
Proof.
  intros CL SL S I F B NE C L. destruct (sent_frames X P Q lenient ms frs CL SL S I F) as (frames & outs & E1 & E2 & E3 & E4 & E5 & E6).
  pose proof (loop_sim X lenient fuel [] 0 (BufSrc [] chunks) NE) as H.
  unfold src_bytes in H. cbn [bs_buf bs_chunks app] in H. rewrite C, E1 in H.
  destruct (stop_at X lenient (fuel - List.length frames - 1) ([] ++ flat_map some_list outs) (w64 (0 + frames_size frames)) bad B) as (e & rest & St).
  assert (Pure : read_loop X lenient read_full fuel [] 0 (flat_map whole frames ++ bad) =
    ([] ++ flat_map some_list outs, w64 (0 + frames_size frames), Failed e, rest)).
  { replace fuel with (List.length frames + Datatypes.S (fuel - List.length frames - 1))%nat at 1 by lia.
    rewrite (loop_frames X lenient frames outs) by (first [assumption|reflexivity]). exact St. }
  rewrite Pure in H.
  destruct (read_loop X lenient buf_read_full fuel [] 0 (BufSrc [] chunks)) as [[[got n] ex] s].
  destruct H as (-> & -> & -> & _). exists (flat_map some_list outs), e, s. split; [|exact E6].
  cbn [app]. now rewrite w64_mod, N.add_0_l, E5.
Qed.

Lemma over (m n : N) : (m <? n) = false -> n <= m.
Proof. apply N.ltb_ge. Qed.
Lemma read_n_lenN {A} (p : reader A) n bs l rest : read_n (N.to_nat n) p bs = Ok (l, rest) -> lenN l = n.
Proof. intro H. apply read_n_length in H. unfold lenN. rewrite H. apply N2Nat.id. Qed.
Lemma ret_inv {A} (x y : A) (bs rest : bytes) : rret x bs = Ok (y, rest) -> x = y.
Proof. unfold rret. intro H. apply Ok_inj in H. congruence. Qed.
Lemma fail_inv {A} e bs (z : A * bytes) : rfail e bs = Ok z -> False.
Proof. discriminate. Qed.

Section Lists.
Context (X : Ext).

Lemma lists_inv a b c bs l rest : lists_read X a b c bs = Ok (l, rest) ->
  lenN (fst (fst l)) = a /\ lenN (snd (fst l)) = b /\ lenN (snd l) = c.
Proof.
  intro H. unfold lists_read in H. apply pbind_inv in H as (i & r1 & H1 & H). apply pbind_inv in H as (o & r2 & H2 & H).
  apply pbind_inv in H as (k & r3 & H3 & H). apply ret_inv in H. subst l. cbn [fst snd].
  apply read_n_lenN in H1, H2, H3. auto.
Qed.

Lemma read_bounded lenient t bs m rest : msg_read X lenient t bs = Ok (m, rest) -> lists_bounded m.
Proof.
  unfold msg_read.
  repeat (match goal with |- (if ?c then _ else _) _ = _ -> _ => destruct c end; [intro H; apply pbind_inv in H as (v & r & H & H'); apply ret_inv in H'; subst m; cbn [lists_bounded]; try exact I|]).
  - unfold peer_addrs_read in H. apply pbind_inv in H as (n & r1 & _ & H).
    destruct (max_peer_addrs <? n) eqn:E; [now apply fail_inv in H|]. apply read_n_lenN in H. apply over in E. subst n. exact E.
  - unfold locator_read in H. apply pbind_inv in H as (n & r1 & _ & H).
    destruct (max_locators <? n) eqn:E; [now apply fail_inv in H|]. apply read_n_lenN in H. apply over in E. subst n. exact E.
  - unfold headers_read in H. apply pbind_inv in H as (n & r1 & _ & H).
    destruct (max_block_headers <? n) eqn:E; [now apply fail_inv in H|]. apply read_n_lenN in H. apply over in E. subst n. exact E.
  - unfold block_read in H. apply pbind_inv in H as (h & r1 & _ & H). apply pbind_inv in H as (ni & r2 & _ & H).
    apply pbind_inv in H as (no & r3 & _ & H). apply pbind_inv in H as (nk & r4 & _ & H).
    destruct (max_items <? ni) eqn:E1; [now apply fail_inv in H|]. destruct (max_items <? no) eqn:E2; [now apply fail_inv in H|].
    destruct (max_items <? nk) eqn:E3; [now apply fail_inv in H|]. apply over in E1, E2, E3.
    apply pbind_inv in H as (l & r5 & H & H'). apply ret_inv in H'. subst v. cbn [b_inputs b_outputs b_kernels].
    apply lists_inv in H as (-> & -> & ->). auto.
  - unfold compact_read in H. apply pbind_inv in H as (h & r1 & _ & H). apply pbind_inv in H as (no & r2 & N1 & H).
    apply pbind_inv in H as (nk & r3 & N2 & H). apply pbind_inv in H as (ni & r4 & _ & H).
    apply pbind_inv in H as (o & r5 & H1 & H). apply pbind_inv in H as (k & r6 & H2 & H).
    apply pbind_inv in H as (u & r7 & _ & H). apply pbind_inv in H as (ids & r8 & _ & H). apply ret_inv in H. subst v.
    cbn [cb_outputs cb_kernels]. apply read_n_lenN in H1, H2. apply read_be_inv in N1, N2.
    change (2 ^ (8 * N.of_nat 1)) with 256 in *. subst. lia.
  - intro H. apply pbind_inv in H as (v & r & H & H'). apply ret_inv in H'. subst m. cbn [lists_bounded].
    unfold tx_read in H. apply pbind_inv in H as (h & r1 & _ & H). apply pbind_inv in H as (ni & r2 & _ & H).
    apply pbind_inv in H as (no & r3 & _ & H). apply pbind_inv in H as (nk & r4 & _ & H).
    destruct (max_items <? ni) eqn:E1; [now apply fail_inv in H|]. destruct (max_items <? no) eqn:E2; [now apply fail_inv in H|].
    destruct (max_items <? nk) eqn:E3; [now apply fail_inv in H|]. apply over in E1, E2, E3.
    apply pbind_inv in H as (l & r5 & H & H'). cbv zeta in H'.
    destruct (negb (is_sorted (input_hash X) _)); [now apply fail_inv in H'|].
    destruct (negb (is_sorted (output_hash X) _)); [now apply fail_inv in H'|].
    destruct (negb (is_sorted (kernel_hash X) _)); [now apply fail_inv in H'|].
    apply ret_inv in H'. subst v. cbn [tx_inputs tx_outputs tx_kernels].
    apply lists_inv in H as (-> & -> & ->). auto.
Qed.

Lemma decode_bounded lenient t body m : decode_frame X lenient t body = Ok (Some m) -> lists_bounded m.
Proof.
  unfold decode_frame. destruct (existsb _ _).
  - destruct (msg_read X lenient t body) as [[m' r]|e| |] eqn:E; try discriminate. cbn [rbind fst].
    intro H. apply Ok_inj in H. assert (m' = m) as -> by congruence. exact (read_bounded _ _ _ _ _ E).
  - destruct (t =? type_block).
    + destruct (block_read X body) as [[b r]|e| |] eqn:E; try discriminate. cbn [rbind fst].
      destruct (header_hash X (b_header b)); try discriminate. cbn [rbind]. intro H. apply Ok_inj in H.
      assert (MBlock b = m) as <- by congruence.
      apply (read_bounded lenient type_block body _ r). change (msg_read X lenient type_block) with (pbind (block_read X) (fun b => rret (MBlock b))).
      unfold pbind. rewrite E. reflexivity.
    + destruct (t =? type_get_compact_block); [discriminate|]. destruct (t =? type_compact_block); [|discriminate].
      destruct (compact_read X body) as [[b r]|e| |]; try discriminate. cbn [rbind fst].
      destruct (header_hash X (cb_header b)); discriminate.
Qed.

Lemma loop_bounded lenient fuel chunks ms n ex s : Forall (fun c : bytes => c <> []) chunks ->
  read_loop X lenient buf_read_full fuel [] 0 (BufSrc [] chunks) = (ms, n, ex, s) -> Forall lists_bounded ms.
Proof.
  intros NE H. destruct (loop_parses_chunks X lenient fuel chunks ms n ex s NE H) as (frames & outs & tail & _ & _ & D & -> & _).
  clear H. induction D as [|f o frames outs D _ IH]; cbn [flat_map]; [constructor|].
  apply Forall_app. split; [|exact IH]. destruct o as [m|]; cbn [some_list]; constructor; [|constructor].
  exact (decode_bounded _ _ _ _ D).
Qed.
End Lists.
