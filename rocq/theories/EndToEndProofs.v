(** Proofs for C99. *)
From Verif Require Import Messages SpecCodec SpecConsensus SpecMessages CodecProofs BlockCodecProofs MessageProofs
  LoopProofs Peer SpecPeer PeerProofs.

(** ** A prefix of a list of frames *)

Lemma app_inj_len {A} (a b c d : list A) : a ++ b = c ++ d -> List.length a = List.length c -> a = c /\ b = d.
Proof.
  revert c. induction a as [|x a IH]; intros [|y c] E L; cbn in *; try discriminate; [auto|].
  injection E as -> E. destruct (IH c E) as [-> ->]; auto.
Qed.

Lemma prefix_cut (fs : list bytes) : forall pr more, concat fs = pr ++ more ->
  exists fs1 fs2 part, fs = fs1 ++ fs2 /\ pr = concat fs1 ++ part /\
    (fs2 = [] /\ part = [] \/ exists f fs' q, fs2 = f :: fs' /\ f = part ++ q /\ q <> []).
Proof.
  induction fs as [|f fs IH]; intros pr more E; cbn [concat] in E.
  - symmetry in E. apply app_eq_nil in E as [-> ->]. exists [], [], []. cbn. auto.
  - destruct (Nat.le_gt_cases (List.length f) (List.length pr)) as [L|L].
    + assert (pr = f ++ skipn (List.length f) pr) as K.
      { rewrite <- (firstn_skipn (List.length f) pr) at 1. f_equal.
        assert (firstn (List.length f) (f ++ concat fs) = firstn (List.length f) (pr ++ more)) as H by now rewrite E.
        rewrite !firstn_app, Nat.sub_diag, firstn_all, !firstn_O in H.
        replace (List.length f - List.length pr)%nat with 0%nat in H by lia. rewrite firstn_O, !app_nil_r in H. now symmetry. }
      rewrite K, <- app_assoc in E. apply app_inv_head in E.
      destruct (IH _ _ E) as (fs1 & fs2 & part & A & B & C).
      exists (f :: fs1), fs2, part. cbn [concat app]. split; [now rewrite A|]. split; [|exact C].
      rewrite K, B. now rewrite app_assoc.
    + exists [], (f :: fs), pr. split; [reflexivity|]. split; [reflexivity|]. right.
      exists f, fs, (skipn (List.length pr) f). split; [reflexivity|]. split.
      * rewrite <- (firstn_skipn (List.length pr) f) at 1. f_equal.
        assert (firstn (List.length pr) (f ++ concat fs) = firstn (List.length pr) (pr ++ more)) as H by now rewrite E.
        rewrite !firstn_app, Nat.sub_diag, firstn_all, !firstn_O in H.
        replace (List.length pr - List.length f)%nat with 0%nat in H by lia. now rewrite firstn_O, !app_nil_r in H.
      * intro K. apply (f_equal (@List.length byte)) in K. rewrite skipn_length in K. cbn in K. lia.
Qed.

(** ** The loop at a frame that is cut off *)

Lemma cut_off X lenient fuel acc c t body part q : t < 256 -> lenN body <= 20000000 -> frame_of t body = part ++ q -> q <> [] ->
  exists ex rest, read_loop X lenient read_full (S fuel) acc c part = (acc, c, ex, rest) /\
    (ex = Quiet /\ 11 <= lenN part \/ (exists e, ex = Failed e) /\ lenN part < 11).
Proof.
  intros Ht L E Nq. cbn [read_loop]. pose proof (src_header_safe part) as [A B].
  destruct (src_header read_full part) as [[[t' n'] rest]|e| |] eqn:H; try congruence.
  - apply src_header_inv in H as (-> & Ht' & Hn').
    unfold frame_of in E. rewrite <- !app_assoc in E. apply app_inv_head in E.
    apply app_inj_len in E as [_ E]; [|now rewrite !be_length].
    apply app_inj_len in E as [En Eb]; [|now rewrite !be_length].
    assert (n' = lenN body) as ->.
    { apply (f_equal unbe) in En. rewrite !unbe_be in En by (first [exact Hn'|cbn; lia]). now symmetry. }
    unfold max_msg_len. rewrite (ltb_false 20000000) by exact L.
    assert (lenN rest < lenN body) as K.
    { rewrite Eb, lenN_app. destruct q; [congruence|]. unfold lenN. cbn [List.length]. lia. }
    assert (R : exists e, read_full (lenN body) rest = Err e).
    { unfold read_full. rewrite ltb_true by exact K. destruct (N.eqb_spec (lenN body) 0); [lia|].
      destruct (_ =? 0); eauto. }
    destruct R as [e R]. rewrite R. exists Quiet, rest. split; [reflexivity|]. left. split; [reflexivity|].
    unfold lenN. rewrite !app_length, !be_length. cbn [List.length]. lia.
  - exists (Failed e), part. split; [reflexivity|]. right. split; [eauto|].
    destruct (N.lt_ge_cases (lenN part) 11) as [?|K]; [assumption|]. exfalso.
    unfold frame_of in E.
    assert (M : exists r, part = [x54; x34] ++ be 1 t ++ be 8 (lenN body) ++ r).
    { assert (P : firstn 11 (([x54; x34] ++ be 1 t ++ be 8 (lenN body)) ++ body) = firstn 11 part).
      { rewrite <- !app_assoc, E, firstn_app. replace (11 - List.length part)%nat with 0%nat by (unfold lenN in K; lia).
        now rewrite firstn_O, app_nil_r. }
      rewrite firstn_app in P. replace (11 - List.length ([x54; x34] ++ be 1 t ++ be 8 (lenN body)))%nat with 0%nat in P
        by (rewrite !app_length, !be_length; reflexivity).
      rewrite firstn_O, app_nil_r, firstn_all2 in P by (rewrite !app_length, !be_length; cbn; lia).
      exists (skipn 11 part). rewrite <- (firstn_skipn 11 part) at 1. rewrite <- P. now rewrite <- !app_assoc. }
    destruct M as [r ->]. rewrite src_header_frame in H by (first [exact Ht|unfold is_u64; lia]). discriminate.
Qed.

(** ** From the send queue of one peer to the read loop of the other *)

Lemma frames_of_fun {X} (ms : list (message X)) fs fs' : frames_of ms fs -> frames_of ms fs' -> fs = fs'.
Proof.
  intro F. revert fs'. induction F as [|m f ms fs (n & E) _ IH]; intros fs' F'; inversion F' as [|? f' ? fs'' (n' & E') F'']; subst; [reflexivity|].
  f_equal; [congruence|now apply IH].
Qed.

Lemma frame_size {X} (m : message X) f n : write_message X m = Ok (f, n) -> exists b, f = frame_of (type_number X m) b /\ lenN f = 11 + lenN b.
Proof.
  unfold write_message. destruct (msg_bytes X m) as [b|e| |]; try discriminate. cbn [rbind]. intro E. apply Ok_inj in E.
  exists b. assert (f = frame_of (type_number X m) b) as ->.
  { unfold frame_of. rewrite <- type_number_eq. unfold frame_header, magic_code in E. rewrite <- !app_assoc in E. congruence. }
  split; [reflexivity|]. unfold frame_of, lenN. rewrite !app_length, !be_length. cbn [List.length]. lia.
Qed.

Lemma wire_is_cut X bans s : psteps (p_start X bans) s ->
  exists ms fs later more, p_taken s = ms ++ later /\ frames_of ms fs /\ concat fs = p_wire s ++ more.
Proof.
  intro R. destruct (wire_frames X bans s R) as (wr & fs & later & tail & A & _ & F & W & _ & T).
  destruct tail as [|x tail].
  - exists wr, fs, later, []. rewrite W, !app_nil_r. auto.
  - destruct T as (_ & m & f & n & more & -> & E & K); [discriminate|].
    exists (wr ++ [m]), (fs ++ [f]), [], more. split; [now rewrite app_nil_r|]. split.
    + apply Forall2_app; [exact F|]. constructor; [eauto|constructor].
    + rewrite W, concat_app, K. cbn [concat]. rewrite app_nil_r. now rewrite !app_assoc.
Qed.

Lemma end_to_end X P Q lenient bans s chunks more fuel : codec_laws X P Q -> sort_laws X ->
  psteps (p_start X bans) s ->
  Forall (fun m => sendable X P Q m /\ in_loop X m /\ (forall f n, write_message X m = Ok (f, n) -> lenN f <= 20000011)) (p_taken s) ->
  Forall (fun c : bytes => c <> []) chunks -> p_wire s = concat chunks ++ more -> (List.length (p_taken s) < fuel)%nat ->
  exists ms later fs got ex src, p_taken s = ms ++ later /\ frames_of ms fs /\
    read_loop X lenient buf_read_full fuel [] 0 (BufSrc [] chunks) = (got, lenN (concat fs) mod 2 ^ 64, ex, src) /\
    Forall2 (received_as X) (filter (dispatched X) ms) got /\
    (forall m rest f n, later = m :: rest -> write_message X m = Ok (f, n) -> lenN (concat chunks) < lenN (concat fs) + lenN f) /\
    (more = [] -> (List.length later <= 1)%nat) /\
    (ex = Quiet /\ lenN (concat fs) + 11 <= lenN (concat chunks) \/
     (exists e, ex = Failed e) /\ lenN (concat chunks) < lenN (concat fs) + 11).
Proof.
  intros CL SL R Ok NE W Lf. destruct (wire_is_cut X bans s R) as (ms0 & fs0 & later0 & more0 & A & F & C).
  rewrite W, <- app_assoc in C. destruct (prefix_cut _ _ _ C) as (fs & fs2 & part & -> & Ec & Cut).
  apply Forall2_app_inv_r in F as (ms & ms2 & F1 & F2 & ->).
  assert (Ok1 : Forall (fun m => sendable X P Q m /\ in_loop X m /\ (forall f n, write_message X m = GoRT.Ok (f, n) -> lenN f <= 20000011)) ms).
  { rewrite A in Ok. rewrite !Forall_app in Ok. apply Ok. }
  assert (S1 : Forall (sendable X P Q) ms) by (eapply Forall_impl; [|exact Ok1]; cbn; tauto).
  assert (I1 : Forall (in_loop X) ms) by (eapply Forall_impl; [|exact Ok1]; cbn; tauto).
  assert (Fr : Forall2 (fun m fr => exists n, write_message X m = GoRT.Ok (fr, n) /\ lenN fr <= 20000011) ms fs).
  { clear - F1 Ok1. induction F1 as [|m f ms fs (n & E) _ IH]; inversion Ok1; subst; constructor; [|auto].
    exists n. split; [exact E|]. now apply (proj2 (proj2 H1) f n). }
  destruct (sent_frames X P Q lenient ms fs CL SL S1 I1 Fr) as (frames & outs & E1 & E2 & E3 & E4 & E5 & E6).
  assert (Max : forall m rest f n, ms2 ++ later0 = m :: rest -> write_message X m = GoRT.Ok (f, n) ->
    lenN (concat chunks) < lenN (concat fs) + lenN f).
  { intros m rest f n K E. rewrite Ec, lenN_app. destruct Cut as [[-> ->]|(f' & fs' & q & -> & -> & Nq)].
    - destruct (frame_size m f n E) as (b & _ & ->). change (lenN []) with 0. lia.
    - inversion F2 as [|m' ? ms' ? (n' & E') F']; subst. cbn [app] in K. assert (m' = m) as -> by congruence.
      assert (f = part ++ q) as -> by congruence. rewrite lenN_app. destruct q; [congruence|]. unfold lenN. cbn [List.length]. lia. }
  assert (St : exists ex rest, read_loop X lenient read_full (S (fuel - List.length frames - 1)) ([] ++ flat_map some_list outs)
      (w64 (0 + frames_size frames)) part = ([] ++ flat_map some_list outs, w64 (0 + frames_size frames), ex, rest) /\
      (ex = Quiet /\ 11 <= lenN part \/ (exists e, ex = Failed e) /\ lenN part < 11)).
  { destruct Cut as [[-> ->]|(f' & fs' & q & -> & -> & Nq)].
    - exists (Failed EOF), []. split; [apply loop_end|]. right. split; [eauto|reflexivity].
    - inversion F2 as [|m' ? ms' ? (n' & E') F']; subst.
      assert (lenN (part ++ q) <= 20000011) as Lq.
      { rewrite A in Ok. rewrite !Forall_app in Ok. destruct Ok as [[_ Ok] _]. inversion Ok as [|? ? (_ & _ & H)]; subst. exact (H _ _ E'). }
      destruct (frame_size m' _ _ E') as (b & Eb & Lb). apply (cut_off X lenient _ _ _ (type_number X m') b part q);
        [apply type_small|lia|now symmetry|exact Nq]. }
  destruct St as (ex & rest & St & Ex).
  exists ms, (ms2 ++ later0), fs.
  pose proof (loop_sim X lenient fuel [] 0 (BufSrc [] chunks) NE) as H.
  unfold src_bytes in H. cbn [bs_buf bs_chunks app] in H. rewrite Ec, E1 in H.
  assert (Lm : (List.length frames < fuel)%nat).
  { rewrite E4. apply (f_equal (@List.length _)) in A. rewrite !app_length in A. lia. }
  assert (Pure : read_loop X lenient read_full fuel [] 0 (flat_map whole frames ++ part) =
    ([] ++ flat_map some_list outs, w64 (0 + frames_size frames), ex, rest)).
  { replace fuel with (List.length frames + Datatypes.S (fuel - List.length frames - 1))%nat at 1 by lia.
    rewrite (loop_frames X lenient frames outs) by (first [assumption|reflexivity]). exact St. }
  rewrite Pure in H.
  destruct (read_loop X lenient buf_read_full fuel [] 0 (BufSrc [] chunks)) as [[[got n] ex'] src].
  destruct H as (-> & -> & -> & _). exists (flat_map some_list outs), ex, src.
  split; [now rewrite A, app_assoc|]. split; [exact F1|].
  split; [cbn [app]; now rewrite w64_mod, N.add_0_l, E5|]. split; [exact E6|]. split; [exact Max|].
  split.
  - intros ->. rewrite app_nil_r in W.
    destruct (ms2 ++ later0) as [|m1 [|m2 later]] eqn:El; [cbn; lia|cbn; lia|exfalso].
    destruct (wire_frames X bans s R) as (wr & fsw & laterw & tail & Aw & Lw & Fw & Ww & _).
    assert (exists w2, wr = ms ++ m1 :: w2) as [w2 ->].
    { assert (K : ms ++ m1 :: m2 :: later = wr ++ laterw) by now rewrite <- Aw, A, <- app_assoc, El.
      clear - K Lw. revert wr K. induction ms as [|m ms IH]; intros wr K.
      - destruct wr as [|w wr]; cbn [app] in K; [rewrite <- K in Lw; cbn in Lw; lia|]. exists wr. cbn. congruence.
      - destruct wr as [|w wr]; cbn [app] in K; [rewrite <- K in Lw; cbn in Lw; rewrite app_length in Lw; cbn in Lw; lia|].
        injection K as -> K. destruct (IH wr K) as [w2 ->]. now exists w2. }
    apply Forall2_app_inv_l in Fw as (g1 & g2 & G1 & G2 & ->). inversion G2 as [|? f1 ? g2' (n1 & En) G3]; subst.
    pose proof (Max m1 _ f1 n1 eq_refl En) as K. rewrite <- W, Ww, (frames_of_fun _ _ _ F1 G1) in K.
    rewrite concat_app in K. cbn [concat] in K. rewrite !lenN_app in K. lia.
  - rewrite Ec, lenN_app. destruct Ex as [[-> K]|[K1 K2]]; [left|right]; split; auto; lia.
Qed.

(** ** A peer can send any messages that can be encoded *)
Lemma run_send X (s : pstate X) m f n : write_message X m = Ok (f, n) ->
  p_writer s = WSelect /\ p_crash s = None /\ p_flag s = false /\ p_closed s = false ->
  exists t, psteps s t /\ (p_writer t = WSelect /\ p_crash t = None /\ p_flag t = false /\ p_closed t = false) /\
    p_taken t = p_taken s ++ [m] /\ p_wire t = p_wire s ++ f.
Proof.
  intros E (A & B & C & D). destruct s as [fl q cl wg w r o cr tk wi se ba]. cbn in A, B, C, D. subst.
  eexists. split; [|split].
  - eapply psteps_cons. { apply PsSpawn; [reflexivity|]. apply (OsNew X _ (OSend m)). eauto. } cbn.
    eapply psteps_cons. { apply PsOther; [reflexivity|]. apply (OsSend X _ o m []); reflexivity. } cbn.
    eapply psteps_cons. { apply PsWriter; [reflexivity|]. apply (WsLive X _ m); reflexivity. } cbn.
    eapply psteps_cons. { apply PsWriter; [reflexivity|]. apply (WsWritten X _ m f n); [reflexivity|reflexivity|exact E]. } cbn -[w64].
    apply PsNone.
  - cbn -[w64]. auto.
  - cbn -[w64]. auto.
Qed.

Lemma run_sends X bans ms fs : frames_of ms fs ->
  exists s, psteps (p_start X bans) s /\ p_taken s = ms /\ p_wire s = concat fs.
Proof.
  intro F.
  assert (K : forall s : pstate X, p_writer s = WSelect /\ p_crash s = None /\ p_flag s = false /\ p_closed s = false ->
    exists t, psteps s t /\ p_taken t = p_taken s ++ ms /\ p_wire t = p_wire s ++ concat fs).
  { induction F as [|m f ms fs (n & E) _ IH]; intros s H.
    - exists s. cbn. rewrite !app_nil_r. split; [apply PsNone|auto].
    - destruct (run_send X s m f n E H) as (t & R & H' & T & W). destruct (IH t H') as (u & R' & T' & W').
      exists u. split; [exact (psteps_app X _ _ _ R R')|]. rewrite T', W', T, W, <- !app_assoc. auto. }
  destruct (K (p_start X bans)) as (t & R & T & W); [repeat split; reflexivity|]. eauto.
Qed.
