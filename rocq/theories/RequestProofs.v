(** Lemmas about requests and their answers: C102. *)
From Verif Require Import Send SpecServe SpecSend SpecCodec SpecConsensus SpecMessages SpecChain SpecPool SpecSync CodecProofs
  BlockCodecProofs MessageProofs LoopProofs ChainProofs SyncProofs ServeProofs SendProofs EndToEndProofs.

Section Run.
Context (X : Ext) (P : point -> Prop) (Q : rproof X -> Prop) (S : storage X) (lenient : bool).
Hypothesis CL : codec_laws X P Q.
Hypothesis SL : sort_laws X.

(** ** What is sent is read *)
Lemma sent_arrives m b : sendable X P Q m -> in_loop X m -> dispatched X m = true -> msg_bytes X m = Ok b -> lenN b <= 20000000 ->
  exists m', arrives X lenient m m' /\ received_as X m m'.
Proof.
  intros W I D E L. destruct (decode_sent X P Q lenient m CL SL W I) as (b' & m' & E' & R & F). rewrite D in F.
  rewrite E in E'. apply Ok_inj in E'. subst b'. exists m'. split; [|exact R].
  exists b, (11 + lenN b). split; [now apply write_frame|]. split; [exact L|exact F].
Qed.

(** One request, whatever chunks its frame arrives in. *)
Lemma one_request w fuel p (n : node X S) chunks m e k o : pe_sync p = true -> Forall (fun c : bytes => c <> []) chunks ->
  arrives X lenient m m -> write_message X m = Ok (e, k) -> concat chunks = e ->
  process_message (ar_context w 0) (met w 0 n) m = o -> o_end o = HDone -> (1 < fuel)%nat ->
  let r := run_peer lenient w fuel p n chunks in sv_node r = o_node o /\ sv_answers r = o_answers o /\ sv_stop r = Leave (Failed EOF).
Proof.
  intros Hs F (body & k' & W & Lb & D) We E Eo He L. rewrite W in We. apply Ok_inj in We. apply (f_equal fst) in We. cbn [fst] in We.
  apply (run_all X S lenient w [(type_number X m, body)] [m] fuel p n chunks (o_answers o) (o_node o) Hs F).
  - rewrite E, <- We. cbn [flat_map]. now rewrite app_nil_r.
  - constructor; [|constructor]. split; [apply type_small|exact Lb].
  - constructor; [exact D|constructor].
  - cbn [handled]. rewrite Eo. exists []. rewrite app_nil_r. auto.
  - exact L.
Qed.

(** ** Blocks *)
Lemma block_sent b : block_wf X P Q b -> (forall bs, msg_bytes X (MBlock b) = Ok bs -> lenN bs <= 20000000) ->
  exists b', arrives X lenient (MBlock b) (MBlock b') /\ received_as X (MBlock b) (MBlock b') /\ block_hash X b' = block_hash X b.
Proof.
  intros W L. destruct (decode_sent X P Q lenient (MBlock b) CL SL W) as (bs & m' & E & R & _); [discriminate|].
  pose proof (L bs E) as Lb.
  destruct (sent_arrives (MBlock b) bs W) as (m2 & A & R2); [discriminate|reflexivity|exact E|exact Lb|].
  destruct m2; cbn [received_as] in R2; try contradiction. eexists. split; [exact A|]. split; [exact R2|].
  destruct R2 as [Eh _]. unfold block_hash, header_hash. now rewrite Eh.
Qed.

Lemma block_answered w fuel p (n : node X S) h i x : List.length h = 32%nat -> pe_sync p = true ->
  sender (ar_context w 0) (met w 0 n) i x -> (1 < fuel)%nat ->
  exists m e k, send_block_request X h = Ok m /\ write_message X m = Ok (e, k) /\
    forall chunks, Forall (fun c : bytes => c <> []) chunks -> concat chunks = e ->
    let r := run_peer lenient w fuel p n chunks in sv_stop r = Leave (Failed EOF) /\ nd_chain (sv_node r) = nd_chain n /\
    match st_get S (c_store (nd_chain n)) (by_hash h) with
    | None => sv_answers r = []
    | Some b => sv_answers r = [MBlock b] /\
        (block_wf X P Q b -> (forall bs, msg_bytes X (MBlock b) = Ok bs -> lenN bs <= 20000000) ->
         exists b', arrives X lenient (MBlock b) (MBlock b') /\ received_as X (MBlock b) (MBlock b') /\ block_hash X b' = block_hash X b)
    end.
Proof.
  intros Lh Hs Sd L. exists (MGetBlock h). eexists. eexists.
  assert (W : sendable X P Q (MGetBlock h)) by exact Lh.
  assert (Eb : msg_bytes X (MGetBlock h) = Ok h) by (cbn [msg_bytes]; unfold get_block_bytes, lenN; now rewrite Lh).
  assert (Lb : lenN h <= 20000000) by (unfold lenN; rewrite Lh; discriminate).
  split; [unfold send_block_request, lenN; now rewrite Lh|]. split; [apply write_frame; [exact Eb|exact Lb]|].
  intros chunks F E. cbv zeta.
  destruct (sent_arrives (MGetBlock h) h W) as (m' & A & R); [discriminate|reflexivity|exact Eb|exact Lb|].
  cbn [received_as] in R. destruct m'; try contradiction. subst.
  destruct (one_request w fuel p n chunks (MGetBlock h) _ _ _ Hs F ltac:(rewrite R in A; exact A) (write_frame X (MGetBlock h) h Eb Lb) E
    (get_block_answered X S (ar_context w 0) (met w 0 n) i x h Sd ltac:(intros ->; discriminate Lh)) eq_refl L) as (E1 & E2 & E3).
  rewrite E1, E2, E3. cbn [o_node o_answers]. split; [reflexivity|]. split; [reflexivity|].
  change (c_store (nd_chain (met w 0 n))) with (c_store (nd_chain n)). change (BlockId (Some h) None) with (by_hash h).
  destruct (st_get S (c_store (nd_chain n)) (by_hash h)); [|reflexivity]. split; [reflexivity|]. apply block_sent.
Qed.

(** ** Headers *)
Lemma located_or (st : st_state S) hh hs : Forall (unknown st hh) hs \/ exists pre h post, hs = pre ++ h :: post /\ Forall (unknown st hh) pre /\
  (h = hh \/ h <> hh /\ exists b bl, st_from S st (by_hash h) 513 = b :: bl).
Proof.
  induction hs as [|h hs IH]; [left; constructor|].
  destruct (list_eq_dec Byte.byte_eq_dec h hh) as [->|N].
  - right. exists [], hh, hs. auto.
  - destruct (st_from S st (by_hash h) 513) as [|b bl] eqn:E.
    + destruct IH as [U|(pre & h' & post & -> & U & K)]; [left; constructor; [now split|exact U]|].
      right. exists (h :: pre), h', post. split; [reflexivity|]. split; [constructor; [now split|exact U]|exact K].
    + right. exists [], h, hs. split; [reflexivity|]. split; [constructor|]. right. eauto.
Qed.
Lemma header_short h b : header_wf h -> header_bytes h = Ok b -> lenN b <= 583.
Proof.
  intros (T & Z & (B & N & _)) E. destruct (header_layout_ok h T Z N) as (b' & E' & K & _). rewrite E in E'. apply Ok_inj in E'. subst b'.
  rewrite K. unfold bytes_for. assert ((42 * p_bits (h_pow h) + 7) / 8 <= (42 * 64 + 7) / 8) by (apply N.div_le_mono; lia).
  change ((42 * 64 + 7) / 8) with 336 in H. lia.
Qed.
Lemma headers_short l : Forall header_wf l -> forall b, headers_concat l = Ok b -> lenN b <= 583 * lenN l.
Proof.
  induction 1 as [|h l W _ IH]; intros b E; cbn [headers_concat] in E; [apply Ok_inj in E; subst; discriminate|].
  destruct (header_bytes h) as [hb| | |] eqn:Eh; try discriminate. cbn [rbind] in E.
  destruct (headers_concat l) as [t| | |]; try discriminate. cbn [rbind] in E. apply Ok_inj in E. subst b.
  pose proof (header_short h hb W Eh). pose proof (IH t eq_refl). rewrite lenN_app. unfold lenN in *. cbn [List.length]. lia.
Qed.
Lemma headers_sent l : lenN l <= 512 -> Forall header_wf l -> arrives X lenient (MHeaders l) (MHeaders (map wire_view l)).
Proof.
  intros L F. destruct (decode_sent X P Q lenient (MHeaders l) CL SL (conj L F)) as (bs & m' & E & R & _); [discriminate|].
  destruct (sent_arrives (MHeaders l) bs (conj L F)) as (m2 & A & R2); [discriminate|reflexivity|exact E| |].
  - cbn [msg_bytes] in E. unfold headers_bytes in E. destruct (max_block_headers <? lenN l); [discriminate|].
    destruct (headers_concat l) as [t| | |] eqn:Et; try discriminate. cbn [rbind] in E. apply Ok_inj in E. subst bs.
    pose proof (headers_short l F t Et). rewrite lenN_app. unfold lenN at 1. rewrite be_length. lia.
  - destruct m2; cbn [received_as] in R2; try contradiction. now subst.
Qed.

Lemma headers_answered w fuel p (n : node X S) hs hh i x : lenN hs <= 14 -> Forall (fun h : bytes => List.length h = 32%nat) hs ->
  pe_sync p = true -> sender (ar_context w 0) (met w 0 n) i x -> block_hash X (c_head (nd_chain n)) = Ok hh -> (1 < fuel)%nat ->
  exists m e k, send_header_request X hs = Ok m /\ write_message X m = Ok (e, k) /\
    forall chunks, Forall (fun c : bytes => c <> []) chunks -> concat chunks = e ->
    let r := run_peer lenient w fuel p n chunks in sv_stop r = Leave (Failed EOF) /\ nd_chain (sv_node r) = nd_chain n /\
    exists l, sv_answers r = [MHeaders l] /\ located (c_store (nd_chain n)) hh hs l /\
      (lenN l <= 512 -> Forall header_wf l -> arrives X lenient (MHeaders l) (MHeaders (map wire_view l))).
Proof.
  intros Lh Fh Hs Sd Hh L. assert (W : sendable X P Q (MGetHeaders hs)) by (split; assumption).
  destruct (decode_sent X P Q lenient (MGetHeaders hs) CL SL W) as (b & m' & Eb & _); [discriminate|].
  assert (Lb : lenN b <= 20000000).
  { destruct (locator_roundtrip hs [] Lh Fh) as (b' & Eb' & Lb & _). cbn [msg_bytes] in Eb. rewrite Eb' in Eb. apply Ok_inj in Eb. subst b'. lia. }
  exists (MGetHeaders hs). eexists. eexists. split; [unfold send_header_request, max_locators; now rewrite ltb_false|].
  split; [apply write_frame; [exact Eb|exact Lb]|]. intros chunks F E. cbv zeta.
  destruct (sent_arrives (MGetHeaders hs) b W) as (m2 & A & R); [discriminate|reflexivity|exact Eb|exact Lb|].
  destruct m2; cbn [received_as] in R; try contradiction. rewrite R in A.
  assert (K : exists l, get_block_headers (nd_chain n) hs = Ok l /\ located (c_store (nd_chain n)) hh hs l).
  { destruct (headers_cases X S (nd_chain n) hs hh Hh) as (N1 & N2).
    assert (F14 : firstn 14 hs = hs) by (apply firstn_all2; unfold lenN in Lh; lia). rewrite F14 in N1, N2.
    destruct (located_or (c_store (nd_chain n)) hh hs) as [U|(pre & h & post & -> & U & [->|(Nh & b0 & bl & Eb0)])].
    - exists []. split; [auto|now left].
    - exists []. split; [now apply (N2 pre hh post)|]. right. exists pre, hh, post. auto.
    - exists (map b_header bl). split; [now apply (proj2 (N2 pre h post eq_refl U) b0)|]. right. exists pre, h, post.
      split; [reflexivity|]. split; [exact U|]. right. eauto. }
  destruct K as (l & El & Kl).
  destruct (one_request w fuel p n chunks (MGetHeaders hs) _ _ _ Hs F A (write_frame X (MGetHeaders hs) b Eb Lb) E
    (get_headers_handled X S (ar_context w 0) (met w 0 n) i x hs l Sd El) eq_refl L) as (E1 & E2 & E3).
  rewrite E1, E2, E3. cbn [o_node o_answers]. split; [reflexivity|]. split; [reflexivity|].
  exists l. split; [reflexivity|]. split; [exact Kl|]. exact (headers_sent l).
Qed.
End Run.

(** More locators than a peer reads: the sender gives up. *)
Lemma header_limit X hs : lenN hs < 256 -> Forall (fun h : bytes => List.length h = 32%nat) hs ->
  (send_header_request X hs = Fatal <-> exists e, forall rest, locator_read (be 1 (lenN hs) ++ concat hs ++ rest) = Err e).
Proof.
  intros L F. unfold send_header_request, max_locators. destruct (N.ltb_spec 14 (lenN hs)) as [K|K].
  - split; [intros _|reflexivity]. eexists. intro rest. unfold locator_read.
    rewrite (pbind_ok _ _ _ _ _ (read_be_app 1 (lenN hs) (concat hs ++ rest) L)). unfold max_locators. now rewrite ltb_true.
  - split; [discriminate|]. intros (e & H). destruct (locator_roundtrip hs [] K F) as (b & E & _ & R).
    unfold locator_bytes, max_locators in E. rewrite ltb_false in E by exact K. apply Ok_inj in E. subst b.
    rewrite <- app_assoc, H in R. discriminate R.
Qed.

(** The log line of a message shows the first bytes of its frame. *)
Lemma logged X (m : message X) b : msg_bytes X m = Ok b -> lenN b <= 20000000 ->
  exists fr k, write_message X m = Ok (fr, k) /\ fr = header_log (type_number X m) (lenN b) ++ b.
Proof. intros E L. eexists. eexists. split; [exact (write_frame X m b E L)|]. unfold frame_of, header_log. now rewrite <- !app_assoc. Qed.

(** A hash of another length ends the process, in one way or the other. *)
Lemma block_request_length X h :
  (send_block_request X h = Panic <-> (List.length h <= 5)%nat) /\
  (forall m, send_block_request X h = Ok m -> write_message X m = Fatal <-> List.length h <> 32%nat) /\
  (send_block_request X h <> Panic -> exists m, send_block_request X h = Ok m).
Proof.
  unfold send_block_request. split; [|split].
  - destruct (N.ltb_spec (lenN h) 6) as [K|K]; unfold lenN in K; split; intro H; try reflexivity; try discriminate; lia.
  - intros m E. destruct (lenN h <? 6); [discriminate|]. apply Ok_inj in E. subst m. unfold write_message. cbn [msg_bytes].
    unfold get_block_bytes, block_hash_size. destruct (N.eqb_spec (lenN h) 32) as [K|K]; unfold lenN in K; split; intro H; try reflexivity; try discriminate; lia.
  - destruct (lenN h <? 6); [congruence|]. eauto.
Qed.
