(** Proofs about how the read loop ends (C111). *)
From Verif Require Import GoRT Ext Consensus Messages SpecPow SpecCodec SpecConsensus SpecMessages SpecShaken SpecEnding
  CodecProofs BlockCodecProofs RulesProofs MessageProofs LoopProofs ShakenProofs.

Section WithExt.
Context (X : Ext) (lenient : bool).
Local Notation loop := (read_loop X lenient read_full).

(** ** Compact blocks *)
Lemma make24 n : is_u64 n -> (go_make 24 n = Panic <-> 2 ^ 48 < 24 * n) /\ go_make 24 n <> Fatal /\ (forall e, go_make 24 n <> Err e).
Proof.
  intros U. unfold go_make, max_alloc. rewrite (N.mul_comm n 24).
  destruct (N.leb_spec (2 ^ 63) n) as [A|A]; cbn [orb].
  - split; [split; [lia|reflexivity]|split; discriminate].
  - destruct (N.ltb_spec (2 ^ 48) (24 * n)) as [B|B]; (split; [split; [auto; discriminate|]|split; discriminate]);
      try reflexivity; try lia; auto.
Qed.
Lemma read_n_length {A} k (p : reader A) bs l r : read_n k p bs = Ok (l, r) -> List.length l = k.
Proof.
  revert bs l r. induction k as [|k IH]; intros bs l r H; cbn [read_n] in H.
  - unfold rret in H. assert (l = []) as -> by congruence. reflexivity.
  - apply pbind_inv in H as (a & m & _ & H). apply pbind_inv in H as (l' & m' & K & H). unfold rret in H.
    assert (l = a :: l') as -> by congruence. cbn. now rewrite (IH _ _ _ K).
Qed.
Lemma compact_panic body : codec_safe X -> (compact_read X body = Panic <-> compact_bomb X body).
Proof.
  intro CS. assert (So : safe (output_read X)) by (apply output_read_safe, CS).
  assert (Sk : safe (kernel_read X)) by (apply kernel_read_safe, CS).
  unfold compact_read. split.
  - intro H. apply pbind_panics in H as [H|(h & r1 & Hh & H)]; [now apply (header_read_safe body) in H|].
    apply pbind_panics in H as [H|(no & r2 & Ho & H)]; [now apply be_panic in H|]. apply read_be_inv in Ho as [Eo Ho].
    apply pbind_panics in H as [H|(nk & r3 & Hk & H)]; [now apply be_panic in H|]. apply read_be_inv in Hk as [Ek Hk].
    apply pbind_panics in H as [H|(n & r4 & Hn & H)]; [now apply be_panic in H|]. apply read_be_inv in Hn as [En Hn].
    apply pbind_panics in H as [H|(outs & r5 & Hou & H)]; [now apply (safe_read_n _ _ So r4) in H|].
    apply pbind_panics in H as [H|(kers & r6 & Hke & H)]; [now apply (safe_read_n _ _ Sk r5) in H|].
    apply pbind_panics in H as [H|(u & r7 & _ & H)].
    + pose proof (read_n_length _ _ _ _ _ Hou) as L1. pose proof (read_n_length _ _ _ _ _ Hke) as L2.
      exists h, outs, kers, n, r1, r4, r6. split; [exact Hh|].
      assert (Q1 : lenN outs = no) by (unfold lenN; rewrite L1; lia).
      assert (Q2 : lenN kers = nk) by (unfold lenN; rewrite L2; lia).
      rewrite Q1, Q2. split; [now rewrite Eo, Ek, En|]. split; [exact Ho|]. split; [exact Hk|]. split; [exact Hn|].
      split; [exists r5; rewrite L1, L2; auto|]. apply make24; [exact Hn|].
      unfold lift in H. destruct (go_make 24 n); try discriminate; reflexivity.
    + exfalso. apply pbind_panics in H as [H|(ids & r8 & _ & H)]; [|discriminate].
      now apply (ids_read_safe (List.length r7) n r7) in H.
  - intros (h & outs & kers & n & r1 & r2 & r3 & Hh & -> & Lo & Lk & U & (r & Ro & Rk) & B).
    rewrite (pbind_ok _ _ _ _ _ Hh), (pbind_ok _ _ _ _ _ (read_be_app 1 (lenN outs) _ Lo)),
      (pbind_ok _ _ _ _ _ (read_be_app 1 (lenN kers) _ Lk)), (pbind_ok _ _ _ _ _ (read_be_app 8 n _ U)).
    assert (Q1 : N.to_nat (lenN outs) = List.length outs) by (unfold lenN; lia).
    assert (Q2 : N.to_nat (lenN kers) = List.length kers) by (unfold lenN; lia).
    rewrite Q1, Q2, (pbind_ok _ _ _ _ _ Ro), (pbind_ok _ _ _ _ _ Rk). apply pbind_panic1.
    unfold lift. apply (make24 n U) in B. now rewrite B.
Qed.
Lemma compact_fatal body : codec_safe X -> compact_read X body <> Fatal.
Proof.
  intros CS H. assert (So : safe (output_read X)) by (apply output_read_safe, CS).
  assert (Sk : safe (kernel_read X)) by (apply kernel_read_safe, CS).
  unfold compact_read in H. apply pbind_fatal in H as [H|(h & r1 & Hh & H)]; [now apply (header_read_safe body) in H|].
  apply pbind_fatal in H as [H|(no & r2 & Ho & H)]; [now apply be_fatal in H|].
  apply pbind_fatal in H as [H|(nk & r3 & Hk & H)]; [now apply be_fatal in H|].
  apply pbind_fatal in H as [H|(n & r4 & Hn & H)]; [now apply be_fatal in H|]. apply read_be_inv in Hn as [_ Hn].
  apply pbind_fatal in H as [H|(outs & r5 & Hou & H)]; [now apply (safe_read_n _ _ So r4) in H|].
  apply pbind_fatal in H as [H|(kers & r6 & Hke & H)]; [now apply (safe_read_n _ _ Sk r5) in H|].
  apply pbind_fatal in H as [H|(u & r7 & _ & H)].
  - unfold lift in H. pose proof (make24 n Hn) as (_ & F & _). destruct (go_make 24 n); try discriminate. congruence.
  - apply pbind_fatal in H as [H|(ids & r8 & _ & H)]; [|discriminate]. now apply (ids_read_safe (List.length r7) n r7) in H.
Qed.
Lemma frame13 body : decode_frame X lenient 13 body =
  let! r := compact_read X body in let! _ := header_hash X (cb_header (fst r)) in Ok None.
Proof. reflexivity. Qed.
Lemma compact_hash body b r : compact_read X body = Ok (b, r) -> exists d, header_hash X (cb_header b) = Ok d.
Proof.
  unfold compact_read. intro H. apply pbind_inv in H as (h & r1 & Hh & H). do 7 (apply pbind_inv in H as (? & ? & _ & H)).
  unfold rret in H. assert (cb_header b = h) as -> by (assert (K : Ok (b, r) = Ok (b, r)) by reflexivity; clear K;
    match type of H with Ok (?b', _) = _ => assert (b = b') as -> by congruence end; reflexivity).
  exact (proj1 (wire_header_safe X (GoTime 0 0) _ _ _ Hh)).
Qed.
Lemma decode_panic t body : codec_safe X ->
  (decode_frame X lenient t body = Panic <-> t = 13 /\ compact_bomb X body) /\ decode_frame X lenient t body <> Fatal.
Proof.
  intro CS. destruct (N.eq_dec t 13) as [->|D].
  - rewrite frame13. pose proof (compact_panic body CS) as P. pose proof (compact_fatal body CS) as F.
    destruct (compact_read X body) as [[b r]|e| |] eqn:R; cbn [rbind fst].
    + destruct (compact_hash _ _ _ R) as (d & ->). cbn [rbind]. split; [|discriminate].
      split; [discriminate|]. intros [_ B]. apply P in B. discriminate.
    + split; [|discriminate]. split; [discriminate|]. intros [_ B]. apply P in B. discriminate.
    + split; [|discriminate]. split; [|reflexivity]. intros _. split; [reflexivity|]. now apply P.
    + congruence.
  - destruct (decode_safe X lenient t body CS D) as [A B]. split; [|exact B]. split; [contradiction|]. intros [E _]. contradiction.
Qed.

(** ** One round of the loop *)
Lemma opening_body t n r : opening t n ++ r = [x54; x34] ++ be 1 t ++ be 8 n ++ r.
Proof. unfold opening. now rewrite <- !app_assoc. Qed.
Lemma opening_len t n : lenN (opening t n) = 11.
Proof. unfold opening, lenN. rewrite !app_length, !be_length. reflexivity. Qed.
Lemma frame_opening t body more : frame_of t body ++ more = opening t (lenN body) ++ body ++ more.
Proof. unfold frame_of, opening. now rewrite <- !app_assoc. Qed.

Lemma short_header bs : lenN bs < 11 -> (lenN bs < 2 \/ exists more, bs = [x54; x34] ++ more) ->
  src_header read_full bs = Err (if existsb (N.eqb (lenN bs)) [0; 2; 3] then EOF else UnexpectedEOF).
Proof.
  intros L M. destruct bs as [|c0 [|c1 [|c2 [|c3 [|c4 [|c5 [|c6 [|c7 [|c8 [|c9 [|c10 bs]]]]]]]]]]];
    try (unfold lenN in L; cbn [List.length] in L; lia).
  1,2: reflexivity.
  all: destruct M as [M|(more & M)]; [unfold lenN in M; cbn [List.length] in M; lia|].
  all: injection M; intros; subst; reflexivity.
Qed.
Lemma bad_header a b more : [a; b] <> [x54; x34] -> src_header read_full (a :: b :: more) = Err (Msg "invalid magic code").
Proof.
  intro D. unfold src_header. change (a :: b :: more) with ([a; b] ++ more). rewrite (read_full_app' 2 [a; b]) by reflexivity.
  cbn [rbind]. destruct (bytes_eqb [a; b] magic_code) eqn:E; [|reflexivity]. apply bytes_eqb_eq in E. now elim D.
Qed.

Lemma ends fuel acc c tail ex : codec_safe X -> ending X lenient tail ex -> exists s, loop (S fuel) acc c tail = (acc, c, ex, s).
Proof.
  intros CS H. destruct H as [tail L M|a b more D|t n more T U L|t n part T L S|t body more e T L D|body more L B]; cbn [read_loop].
  - rewrite short_header by assumption. eauto.
  - rewrite bad_header by assumption. eauto.
  - rewrite opening_body, src_header_frame by assumption. unfold max_msg_len. apply N.ltb_lt in L. rewrite L. eauto.
  - rewrite opening_body, src_header_frame by (auto; unfold is_u64; lia). unfold max_msg_len.
    rewrite (ltb_false 20000000) by exact L. destruct (read_full_short n part S) as (e & ->). eauto.
  - rewrite frame_opening, opening_body, src_header_frame by (auto; unfold is_u64; lia). unfold max_msg_len.
    rewrite (ltb_false 20000000) by exact L. rewrite read_full_app, D. eauto.
  - rewrite frame_opening, opening_body, src_header_frame by (reflexivity || (unfold is_u64; lia)). unfold max_msg_len.
    rewrite (ltb_false 20000000) by exact L. rewrite read_full_app.
    rewrite (proj2 (proj1 (decode_panic 13 body CS))) by auto. eauto.
Qed.

(** Every stream has an ending, or starts with a frame that is understood. *)
Lemma split_stream bs : codec_safe X -> (exists ex, ending X lenient bs ex) \/
  exists f m more, bs = whole f ++ more /\ frame_ok f /\ decode_frame X lenient (fst f) (snd f) = Ok m.
Proof.
  intro CS.
  destruct bs as [|a [|b r]].
  { left. eexists. apply end_short; [reflexivity|left; reflexivity]. }
  { left. eexists. apply end_short; [reflexivity|left; reflexivity]. }
  destruct (list_eq_dec Byte.byte_eq_dec [a; b] [x54; x34]) as [E|D]; [|left; eexists; now apply end_magic].
  injection E as -> ->. destruct (N.lt_ge_cases (lenN (x54 :: x34 :: r)) 11) as [L|L].
  { left. eexists. apply end_short; [exact L|right]. now exists r. }
  assert (O : exists t n body, t < 256 /\ is_u64 n /\ x54 :: x34 :: r = opening t n ++ body).
  { assert (L9 : (9 <= List.length r)%nat) by (unfold lenN in L; cbn [List.length] in L; lia).
    exists (unbe (firstn 1 r)), (unbe (firstn 8 (skipn 1 r))), (skipn 8 (skipn 1 r)). split; [|split].
    - pose proof (unbe_lt (firstn 1 r)) as K. rewrite firstn_length_le in K by lia. exact K.
    - pose proof (unbe_lt (firstn 8 (skipn 1 r))) as K. rewrite firstn_length_le in K by (rewrite skipn_length; lia). exact K.
    - rewrite opening_body. cbn [app]. do 2 f_equal.
      assert (E1 : be 1 (unbe (firstn 1 r)) = firstn 1 r).
      { transitivity (be (List.length (firstn 1 r)) (unbe (firstn 1 r))); [now rewrite firstn_length_le by lia|apply be_unbe]. }
      assert (E8 : be 8 (unbe (firstn 8 (skipn 1 r))) = firstn 8 (skipn 1 r)).
      { transitivity (be (List.length (firstn 8 (skipn 1 r))) (unbe (firstn 8 (skipn 1 r))));
          [now rewrite firstn_length_le by (rewrite skipn_length; lia)|apply be_unbe]. }
      now rewrite E1, E8, firstn_skipn, firstn_skipn. }
  destruct O as (t & n & body & T & U & ->).
  destruct (N.lt_ge_cases 20000000 n) as [B|B]; [left; eexists; now apply end_long|].
  destruct (N.lt_ge_cases (lenN body) n) as [S|S]; [left; eexists; now apply end_body|].
  assert (F : exists d more, body = d ++ more /\ lenN d = n).
  { exists (takeN n body), (dropN n body). split; [symmetry; apply takeN_dropN|]. unfold takeN, lenN in *. rewrite firstn_length. lia. }
  destruct F as (d & more & -> & <-). rewrite <- frame_opening.
  destruct (decode_frame X lenient t d) as [m|e| |] eqn:D.
  - right. exists (t, d), m, more. split; [reflexivity|]. split; [split; assumption|exact D].
  - left. eexists. eapply end_refused; eassumption.
  - apply (decode_panic t d CS) in D as [-> D]. left. eexists. apply end_bomb; assumption.
  - now apply (decode_panic t d CS) in D.
Qed.
Lemma split_all k : forall bs, codec_safe X -> (List.length bs < k)%nat ->
  exists frames outs tail ex, bs = flat_map whole frames ++ tail /\ Forall frame_ok frames /\
    Forall2 (fun f m => decode_frame X lenient (fst f) (snd f) = Ok m) frames outs /\ ending X lenient tail ex.
Proof.
  induction k as [|k IH]; intros bs CS L; [lia|].
  destruct (split_stream bs CS) as [(ex & E)|(f & m & more & -> & Fo & D)].
  - exists [], [], bs, ex. split; [reflexivity|]. split; [constructor|]. split; [constructor|exact E].
  - destruct (IH more CS) as (fr & outs & tail & ex & -> & F1 & F2 & E).
    { unfold whole, frame_of in L. rewrite !app_length, !be_length in L. cbn [List.length] in L. lia. }
    exists (f :: fr), (m :: outs), tail, ex. split; [cbn [flat_map]; now rewrite <- app_assoc|].
    split; [now constructor|]. split; [now constructor|exact E].
Qed.

Lemma read_ends chunks fuel frames outs tail ex : codec_safe X -> Forall (fun c : bytes => c <> []) chunks ->
  concat chunks = flat_map whole frames ++ tail -> Forall frame_ok frames ->
  Forall2 (fun f m => decode_frame X lenient (fst f) (snd f) = Ok m) frames outs -> ending X lenient tail ex ->
  (List.length frames < fuel)%nat ->
  exists s, read_loop X lenient buf_read_full fuel [] 0 (BufSrc [] chunks) =
    (flat_map some_list outs, frames_size frames mod 2 ^ 64, ex, s).
Proof.
  intros CS NE E Fo D En L. pose proof (loop_sim X lenient fuel [] 0 (BufSrc [] chunks) NE) as S.
  unfold src_bytes in S at 1. cbn [bs_buf bs_chunks app] in S. rewrite E in S.
  destruct (ends (fuel - List.length frames - 1) ([] ++ flat_map some_list outs) (w64 (0 + frames_size frames)) tail ex CS En) as (s' & K).
  assert (Q : fuel = (List.length frames + Datatypes.S (fuel - List.length frames - 1))%nat) by lia.
  rewrite <- (loop_frames X lenient frames outs) in K by (assumption || reflexivity). rewrite <- Q in K.
  rewrite K in S. destruct (read_loop X lenient buf_read_full fuel [] 0 (BufSrc [] chunks)) as [[[ms n] ex'] s].
  destruct S as (-> & -> & -> & _). exists s. cbn [app]. now rewrite w64_mod, N.add_0_l.
Qed.
Lemma stream_splits stream : codec_safe X ->
  exists frames outs tail ex, stream = flat_map whole frames ++ tail /\ Forall frame_ok frames /\
    Forall2 (fun f m => decode_frame X lenient (fst f) (snd f) = Ok m) frames outs /\ ending X lenient tail ex.
Proof. intro CS. eapply split_all; [exact CS|apply Nat.lt_succ_diag_r]. Qed.

(** The process ends exactly for a bomb after frames that are understood. *)
Lemma crash_exactly chunks fuel ms n s : codec_safe X -> Forall (fun c : bytes => c <> []) chunks ->
  (List.length (concat chunks) < fuel)%nat ->
  forall ex, read_loop X lenient buf_read_full fuel [] 0 (BufSrc [] chunks) = (ms, n, ex, s) ->
  ex <> Terminated /\ ex <> Cont /\
  (ex = Crashed <-> exists frames outs body more, concat chunks = flat_map whole frames ++ frame_of 13 body ++ more /\
     Forall frame_ok frames /\ Forall2 (fun f m => decode_frame X lenient (fst f) (snd f) = Ok m) frames outs /\
     lenN body <= 20000000 /\ compact_bomb X body).
Proof.
  intros CS NE Lf ex H.
  assert (Short : forall fr tail, concat chunks = flat_map whole fr ++ tail -> (List.length fr < fuel)%nat).
  { intros fr tail E. assert (K : (List.length fr <= List.length (flat_map whole fr))%nat).
    { clear. induction fr as [|f fr IH]; cbn [flat_map List.length]; [lia|]. rewrite app_length.
      unfold whole at 1, frame_of. rewrite app_length. cbn [List.length]. lia. }
    rewrite E, app_length in Lf. lia. }
  destruct (stream_splits (concat chunks) CS) as (fr & outs & tail & ex' & E & Fo & D & En).
  destruct (read_ends chunks fuel fr outs tail ex' CS NE E Fo D En (Short _ _ E)) as (s' & R). rewrite R in H.
  assert (ex = ex') as -> by congruence. split; [destruct En; discriminate|]. split; [destruct En; discriminate|]. split.
  - intros ->. inversion En; subst. eauto 10.
  - intros (fr' & outs' & body & more & E' & Fo' & D' & L & B).
    destruct (read_ends chunks fuel fr' outs' (frame_of 13 body ++ more) Crashed CS NE E' Fo' D' (end_bomb X lenient body more L B) (Short _ _ E'))
      as (s2 & R'). rewrite R' in R. congruence.
Qed.

Lemma one_ending tail ex ex' : codec_safe X -> ending X lenient tail ex -> ending X lenient tail ex' -> ex = ex'.
Proof.
  intros CS A B. destruct (ends 0 [] 0 tail ex CS A) as (s & K). destruct (ends 0 [] 0 tail ex' CS B) as (s' & K'). congruence.
Qed.
(** ** Which frames are understood *)
Lemma reads_iff {A} (r : reader A) (f : A -> message X) body m :
  (let! x := (do x <- r; rret (f x)) body in Ok (Some (fst x))) = Ok m <-> exists x rest, r body = Ok (x, rest) /\ m = Some (f x).
Proof.
  unfold pbind. split.
  - destruct (r body) as [[x rest]|e| |]; intro H; try discriminate H. exists x, rest. split; [reflexivity|]. symmetry. exact (Ok_inj _ _ H).
  - intros (x & rest & -> & ->). reflexivity.
Qed.
Lemma understood_iff t body m : codec_safe X -> decode_frame X lenient t body = Ok m <-> understood X lenient t body m.
Proof.
  intro CS. unfold understood.
  assert (E11 : decode_frame X lenient 11 body = Ok m <-> exists x rest, block_read X body = Ok (x, rest) /\ m = Some (MBlock x)).
  { change (decode_frame X lenient 11 body) with (let! r := block_read X body in let! _ := header_hash X (b_header (fst r)) in Ok (Some (@MBlock X (fst r)))).
    destruct (block_read X body) as [[b r]|e| |] eqn:R; cbn [rbind fst].
    - destruct (block_read_header X body b r R) as (r' & Rh). destruct (wire_header_safe X (GoTime 0 0) _ _ _ Rh) as [[d ->] _]. cbn [rbind]. split.
      + intro H. exists b, r. split; [reflexivity|]. symmetry. exact (Ok_inj _ _ H).
      + intros (x & rest & H & ->). apply Ok_inj in H. injection H as <- _. reflexivity.
    - split; [discriminate|]. intros (x & rest & H & _). discriminate H.
    - split; [discriminate|]. intros (x & rest & H & _). discriminate H.
    - split; [discriminate|]. intros (x & rest & H & _). discriminate H. }
  assert (E13 : decode_frame X lenient 13 body = Ok m <-> m = None /\ exists b rest, compact_read X body = Ok (b, rest)).
  { rewrite frame13. destruct (compact_read X body) as [[b r]|e| |] eqn:R; cbn [rbind fst].
    - destruct (compact_hash body b r R) as (d & ->). cbn [rbind]. split.
      + intro H. split; [symmetry; exact (Ok_inj _ _ H)|]. now exists b, r.
      + intros (-> & _). reflexivity.
    - split; [discriminate|]. intros (_ & x & rest & H). discriminate H.
    - split; [discriminate|]. intros (_ & x & rest & H). discriminate H.
    - split; [discriminate|]. intros (_ & x & rest & H). discriminate H. }
  destruct t as [|t]; [split; [discriminate|intros []]|].
  do 4 (destruct t as [t|t|]; try exact E11; try exact E13; try (split; [discriminate|intros []]); try exact (reads_iff _ _ body m);
    try (split; [intro H; symmetry; exact (Ok_inj _ _ H)|intros ->; reflexivity])).
Qed.
Lemma refused_else t body : codec_safe X -> (forall m, ~ understood X lenient t body m) -> ~ (t = 13 /\ compact_bomb X body) ->
  exists e, decode_frame X lenient t body = Err e.
Proof.
  intros CS N B. destruct (decode_panic t body CS) as ((P & _) & F). destruct (decode_frame X lenient t body) as [m|e| |] eqn:E.
  - exfalso. apply (N m). now apply understood_iff.
  - now exists e.
  - exfalso. now apply B, P.
  - now elim F.
Qed.
End WithExt.
