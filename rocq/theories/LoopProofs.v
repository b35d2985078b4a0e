(** The read loop: it parses exactly the frames of the stream, however the stream is chunked. *)
From Coq Require Import Permutation Sorted.
From Verif Require Import Messages SpecCodec SpecConsensus SpecMessages SipProofs PowCodecProofs CodecProofs
  BlockCodecProofs RulesProofs MessageProofs.

(** ** bufio over chunks delivers the concatenation *)

Definition src_bytes (s : bufsrc) : bytes := bs_buf s ++ concat (bs_chunks s).
Definition src_ok (s : bufsrc) : Prop := Forall (fun c : bytes => c <> []) (bs_chunks s).

Lemma takeN_nonempty {A} c (l : list A) : 0 < c -> l <> [] -> takeN c l <> [].
Proof.
  intros Hc Hl E. apply (f_equal (@List.length A)) in E. unfold takeN in E. rewrite firstn_length in E.
  destruct l; [contradiction|]. unfold lenN in E. cbn [List.length] in E. lia.
Qed.
Lemma lenN_takeN {A} c (l : list A) : lenN (takeN c l) = N.min c (lenN l).
Proof. unfold takeN, lenN. rewrite firstn_length. lia. Qed.
Lemma dropN_nonempty {A} c (l : list A) : c < lenN l -> dropN c l <> [].
Proof.
  intros H E. pose proof (takeN_dropN c l) as T. rewrite E, app_nil_r in T.
  apply (f_equal lenN) in T. rewrite lenN_takeN in T. lia.
Qed.
Lemma dropN_all {A} c (l : list A) : lenN l <= c -> dropN c l = [].
Proof.
  intro H. pose proof (takeN_dropN c l) as T. apply (f_equal lenN) in T. rewrite lenN_app, lenN_takeN in T.
  destruct (dropN c l); [reflexivity|]. exfalso. unfold lenN in *. cbn [List.length] in T. lia.
Qed.

Lemma conn_read_spec c chunks : 0 < c -> Forall (fun x : bytes => x <> []) chunks ->
  match conn_read c chunks with
  | None => chunks = []
  | Some (d, rest) => d <> [] /\ lenN d <= c /\ concat chunks = d ++ concat rest /\ Forall (fun x : bytes => x <> []) rest
  end.
Proof.
  intros Hc F. destruct F as [|ch rest Hn F]; cbn [conn_read]; [reflexivity|].
  split; [now apply takeN_nonempty|]. split; [rewrite lenN_takeN; lia|].
  destruct (N.leb_spec (lenN ch) c) as [L|L].
  - split; [|exact F]. cbn [concat]. rewrite <- (takeN_dropN c ch) at 1. now rewrite (dropN_all c ch L), app_nil_r.
  - split; [|constructor; [now apply dropN_nonempty|exact F]]. cbn [concat]. rewrite app_assoc, takeN_dropN. reflexivity.
Qed.

Lemma buf_read_spec c s : 0 < c -> src_ok s ->
  match buf_read c s with
  | None => src_bytes s = []
  | Some (d, s') => d <> [] /\ lenN d <= c /\ src_bytes s = d ++ src_bytes s' /\ src_ok s'
  end.
Proof.
  intros Hc F. destruct s as [buf chunks]. unfold src_ok, src_bytes in *. cbn [bs_buf bs_chunks] in *. unfold buf_read.
  cbn [bs_buf bs_chunks]. destruct buf as [|x buf].
  - destruct (bufio_size <=? c).
    + pose proof (conn_read_spec c chunks Hc F) as H. destruct (conn_read c chunks) as [[d rest]|].
      * destruct H as (A & B & C & D). cbn [bs_buf bs_chunks app]. auto.
      * now subst chunks.
    + pose proof (conn_read_spec bufio_size chunks eq_refl F) as H. destruct (conn_read bufio_size chunks) as [[d rest]|].
      * destruct H as (A & B & C & D). cbn [bs_buf bs_chunks app]. split; [now apply takeN_nonempty|].
        split; [rewrite lenN_takeN; lia|]. split; [|exact D]. rewrite C, app_assoc, takeN_dropN. reflexivity.
      * now subst chunks.
  - cbn [bs_buf bs_chunks]. split; [now apply takeN_nonempty|]. split; [rewrite lenN_takeN; lia|].
    split; [|exact F]. rewrite app_assoc, takeN_dropN. reflexivity.
Qed.

(** io.ReadFull on the buffered connection is io.ReadFull on the whole stream. *)
Lemma buf_collect_spec fuel : forall got n s, src_ok s -> lenN got <= n -> (N.to_nat n - List.length got <= fuel)%nat ->
  match buf_collect fuel got n s with
  | Ok (l, s') => exists d, l = got ++ d /\ lenN l = n /\ src_bytes s = d ++ src_bytes s' /\ src_ok s'
  | Err e => lenN got + lenN (src_bytes s) < n /\ e = (if lenN got + lenN (src_bytes s) =? 0 then EOF else UnexpectedEOF)
  | _ => False
  end.
Proof.
  induction fuel as [|fuel IH]; intros got n s F L G; cbn [buf_collect].
  - destruct (N.leb_spec n (lenN got)); [|unfold lenN in *; lia].
    exists []. rewrite app_nil_r. repeat split; [lia|exact F].
  - destruct (N.leb_spec n (lenN got)) as [H|H].
    + exists []. rewrite app_nil_r. repeat split; [lia|exact F].
    + pose proof (buf_read_spec (n - lenN got) s ltac:(lia) F) as B.
      destruct (buf_read (n - lenN got) s) as [[d s']|].
      * destruct B as (Dn & Dl & E & F').
        assert (1 <= lenN d) by (destruct d; [contradiction|unfold lenN; cbn [List.length]; lia]).
        specialize (IH (got ++ d) n s' F').
        assert (lenN (got ++ d) <= n) as L1 by (rewrite lenN_app; lia).
        assert (N.to_nat n - List.length (got ++ d) <= fuel)%nat as G1 by (rewrite app_length; unfold lenN in *; lia).
        specialize (IH L1 G1). destruct (buf_collect fuel (got ++ d) n s') as [[l s2]|e| |]; try contradiction.
        -- destruct IH as (d2 & -> & Ll & E2 & F2). exists (d ++ d2). rewrite app_assoc. split; [reflexivity|].
           split; [exact Ll|]. split; [|exact F2]. now rewrite E, E2, app_assoc.
        -- destruct IH as [I1 I2]. rewrite lenN_app in I1, I2. rewrite E, lenN_app.
           replace (lenN got + (lenN d + lenN (src_bytes s'))) with (lenN got + lenN d + lenN (src_bytes s')) by lia. auto.
      * assert (Q : forall x, lenN got + lenN (src_bytes s) < n /\ x = (if lenN got + lenN (src_bytes s) =? 0 then EOF else UnexpectedEOF)
          <-> x = (if lenN got =? 0 then EOF else UnexpectedEOF)).
        { intro x. rewrite B. unfold lenN at 2 4. cbn [List.length N.of_nat]. rewrite N.add_0_r. split; [tauto|]. intro; split; [lia|assumption]. }
        destruct (lenN got =? 0); apply Q; reflexivity.
Qed.

Lemma buf_read_full_spec n s : src_ok s ->
  match buf_read_full n s, read_full n (src_bytes s) with
  | Ok (l, s'), Ok (l', rest) => l = l' /\ src_bytes s' = rest /\ src_ok s'
  | Err e, Err e' => e = e'
  | _, _ => False
  end.
Proof.
  intro F. unfold buf_read_full.
  pose proof (buf_collect_spec (N.to_nat n) [] n s F ltac:(unfold lenN; cbn; lia) ltac:(lia)) as H.
  destruct (buf_collect (N.to_nat n) [] n s) as [[l s']|e| |]; try contradiction.
  - destruct H as (d & -> & L & E & F'). cbn [app] in *. rewrite E, (read_full_app' n d _ L). auto.
  - destruct H as [H1 H2]. change (lenN (@nil byte)) with 0 in H1, H2. rewrite N.add_0_l in H1, H2.
    unfold read_full. destruct (N.eqb_spec n 0); [lia|]. rewrite ltb_true by exact H1. subst e.
    destruct (_ =? 0); reflexivity.
Qed.

Section Sim.
Context (X : Ext) (lenient : bool).

Lemma src_header_sim s : src_ok s ->
  match src_header buf_read_full s, src_header read_full (src_bytes s) with
  | Ok (tn, s'), Ok (tn', rest) => tn = tn' /\ src_bytes s' = rest /\ src_ok s'
  | Err e, Err e' => e = e'
  | _, _ => False
  end.
Proof.
  intro F. unfold src_header. pose proof (buf_read_full_spec 2 s F) as H.
  destruct (buf_read_full 2 s) as [[m s1]|e| |], (read_full 2 (src_bytes s)) as [[m' r1]|e'| |]; try contradiction; cbn [rbind]; [|assumption].
  destruct H as (-> & <- & F1). destruct (negb _); [reflexivity|].
  pose proof (buf_read_full_spec 1 s1 F1) as H.
  destruct (buf_read_full 1 s1) as [[t s2]|e| |], (read_full 1 (src_bytes s1)) as [[t' r2]|e'| |]; try contradiction; cbn [rbind]; [|assumption].
  destruct H as (-> & <- & F2).
  pose proof (buf_read_full_spec 8 s2 F2) as H.
  destruct (buf_read_full 8 s2) as [[n s3]|e| |], (read_full 8 (src_bytes s2)) as [[n' r3]|e'| |]; try contradiction; cbn [rbind]; [|assumption].
  destruct H as (-> & <- & F3). auto.
Qed.

(** The loop on a chunked connection is the loop on the plain byte stream. *)
Lemma loop_sim fuel : forall acc c s, src_ok s ->
  let '(ms, n, ex, s') := read_loop X lenient buf_read_full fuel acc c s in
  let '(ms', n', ex', rest) := read_loop X lenient read_full fuel acc c (src_bytes s) in
  ms = ms' /\ n = n' /\ ex = ex' /\ src_bytes s' = rest.
Proof.
  induction fuel as [|fuel IH]; intros acc c s F; cbn [read_loop]; [auto|].
  pose proof (src_header_sim s F) as H.
  destruct (src_header buf_read_full s) as [[[t n] s1]|e| |], (src_header read_full (src_bytes s)) as [[[t' n'] r1]|e'| |];
    try contradiction; [|subst; auto].
  destruct H as (E & <- & F1). assert (t = t' /\ n = n') as [<- <-] by (split; congruence).
  destruct (max_msg_len <? n); [auto|].
  pose proof (buf_read_full_spec n s1 F1) as H.
  destruct (buf_read_full n s1) as [[b s2]|e| |], (read_full n (src_bytes s1)) as [[b' r2]|e'| |]; try contradiction; [|auto].
  destruct H as (<- & <- & F2).
  destruct (decode_frame X lenient t b) as [m|e| |]; [apply IH, F2| | |]; auto.
Qed.
End Sim.

(** ** The loop on frames *)

Lemma w64_add_l a b : w64 (w64 a + b) = w64 (a + b).
Proof. rewrite !w64_mod. now rewrite N.add_mod_idemp_l by discriminate. Qed.

Section OnFrames.
Context (X : Ext) (lenient : bool).
Local Notation loop := (read_loop X lenient read_full).
Local Notation decode := (decode_frame X lenient).

Lemma src_header_frame t n rest : t < 256 -> is_u64 n ->
  src_header read_full ([x54; x34] ++ be 1 t ++ be 8 n ++ rest) = Ok ((t, n), rest).
Proof.
  intros Ht Hn. unfold src_header. rewrite (read_full_app' 2 [x54; x34]) by reflexivity. cbn [rbind].
  change (bytes_eqb [x54; x34] magic_code) with true. cbn [negb].
  rewrite (read_full_app' 1 (be 1 t)) by (unfold lenN; now rewrite be_length). cbn [rbind].
  rewrite (read_full_app' 8 (be 8 n)) by (unfold lenN; now rewrite be_length). cbn [rbind].
  now rewrite !unbe_be by assumption.
Qed.

Lemma src_header_safe bs : survives (src_header read_full bs).
Proof.
  unfold src_header. pose proof (safe_read_full 2 bs) as [A B].
  destruct (read_full 2 bs) as [[m r]|e| |]; try congruence; cbn [rbind]; [|split; discriminate].
  destruct (negb _); [split; discriminate|]. pose proof (safe_read_full 1 r) as [A1 B1].
  destruct (read_full 1 r) as [[t r1]|e| |]; try congruence; cbn [rbind]; [|split; discriminate].
  pose proof (safe_read_full 8 r1) as [A2 B2].
  destruct (read_full 8 r1) as [[n r2]|e| |]; try congruence; cbn [rbind]; split; discriminate.
Qed.

Lemma src_header_inv bs t n rest : src_header read_full bs = Ok ((t, n), rest) ->
  bs = [x54; x34] ++ be 1 t ++ be 8 n ++ rest /\ t < 256 /\ is_u64 n.
Proof.
  unfold src_header. destruct (read_full 2 bs) as [[m r1]|e| |] eqn:E1; try discriminate. cbn [rbind].
  destruct (bytes_eqb m magic_code) eqn:M; [|discriminate]. cbn [negb].
  destruct (read_full 1 r1) as [[t' r2]|e| |] eqn:E2; try discriminate. cbn [rbind].
  destruct (read_full 8 r2) as [[n' r3]|e| |] eqn:E3; try discriminate. cbn [rbind].
  intro H. apply Ok_inj in H. assert (unbe t' = t /\ unbe n' = n /\ r3 = rest) as (<- & <- & <-) by (repeat split; congruence).
  apply bytes_eqb_eq in M. subst m. apply read_full_inv in E1 as [-> _], E2 as [-> L2], E3 as [-> L3].
  assert (List.length t' = 1%nat) as K2 by (unfold lenN in L2; lia). assert (List.length n' = 8%nat) as K3 by (unfold lenN in L3; lia).
  split.
  - rewrite <- K2 at 1. rewrite be_unbe. rewrite <- K3 at 1. rewrite be_unbe. reflexivity.
  - pose proof (unbe_lt t') as A. pose proof (unbe_lt n') as B. rewrite K2 in A. rewrite K3 in B. split; assumption.
Qed.

Lemma loop_frame fuel acc c f m rest : frame_ok f -> decode (fst f) (snd f) = Ok m ->
  loop (S fuel) acc c (whole f ++ rest) = loop fuel (acc ++ some_list m) (w64 (c + (lenN (snd f) + 11))) rest.
Proof.
  intros [Ht L] E. destruct f as [t body]. cbn [fst snd] in *. unfold whole, frame_of. cbn [fst snd]. rewrite <- !app_assoc.
  cbn [read_loop]. rewrite src_header_frame by (first [exact Ht|unfold is_u64; lia]).
  unfold max_msg_len. rewrite (ltb_false 20000000) by exact L. rewrite read_full_app, E. reflexivity.
Qed.

Lemma loop_frames frames : forall outs acc c fuel rest,
  Forall frame_ok frames -> Forall2 (fun f m => decode (fst f) (snd f) = Ok m) frames outs ->
  c < 2 ^ 64 ->
  loop (List.length frames + fuel) acc c (flat_map whole frames ++ rest) =
  loop fuel (acc ++ flat_map some_list outs) (w64 (c + frames_size frames)) rest.
Proof.
  induction frames as [|f frames IH]; intros outs acc c fuel rest Fo D Hc; inversion D as [|? m ? outs' D1 D2]; subst; cbn [flat_map List.length frames_size fold_right Nat.add].
  - rewrite app_nil_r, N.add_0_r, w64_mod, N.mod_small by exact Hc. reflexivity.
  - inversion Fo; subst. rewrite <- app_assoc, (loop_frame _ _ _ f m) by assumption.
    rewrite (IH outs') by (first [assumption|rewrite w64_mod; now apply N.mod_lt]).
    rewrite w64_add_l, <- app_assoc. fold (frames_size frames).
    now rewrite <- (N.add_assoc c).
Qed.

(** The loop parses a sequence of whole frames, and stops only at something that is not one. *)
Lemma loop_parses fuel : forall acc c bs ms n ex rest, c < 2 ^ 64 ->
  loop fuel acc c bs = (ms, n, ex, rest) ->
  exists frames outs tail,
    bs = flat_map whole frames ++ tail /\ Forall frame_ok frames /\
    Forall2 (fun f m => decode (fst f) (snd f) = Ok m) frames outs /\
    ms = acc ++ flat_map some_list outs /\ n = w64 (c + frames_size frames) /\
    (ex = Cont -> rest = tail /\ List.length frames = fuel) /\
    (ex <> Cont -> (List.length frames < fuel)%nat /\ forall f more m, tail = whole f ++ more -> frame_ok f -> decode (fst f) (snd f) <> Ok m) /\
    (ex = Crashed \/ ex = Terminated -> exists f more, tail = whole f ++ more /\ frame_ok f /\
       (decode (fst f) (snd f) = Panic \/ decode (fst f) (snd f) = Fatal)).
Proof.
  induction fuel as [|fuel IH]; intros acc c bs ms n ex rest Hc H; cbn [read_loop] in H.
  - assert (acc = ms /\ c = n /\ Cont = ex /\ bs = rest) as (<- & <- & <- & <-) by (repeat split; congruence).
    exists [], [], bs. split; [reflexivity|]. split; [constructor|]. split; [constructor|].
    split; [cbn; now rewrite app_nil_r|]. split; [cbn; rewrite N.add_0_r, w64_mod, N.mod_small by exact Hc; reflexivity|].
    split; [auto|]. split; [congruence|]. intros [E|E]; discriminate E.
  - assert (Stop : forall ms' n' ex' rest', (acc, c, ex', rest') = (ms, n, ex, rest) -> ms' = acc -> n' = c ->
      ex' <> Cont ->
      (forall f more m, bs = whole f ++ more -> frame_ok f -> decode (fst f) (snd f) <> Ok m) ->
      (ex' = Crashed \/ ex' = Terminated -> exists f more, bs = whole f ++ more /\ frame_ok f /\
        (decode (fst f) (snd f) = Panic \/ decode (fst f) (snd f) = Fatal)) ->
      exists frames outs tail,
        bs = flat_map whole frames ++ tail /\ Forall frame_ok frames /\
        Forall2 (fun f m => decode (fst f) (snd f) = Ok m) frames outs /\
        ms = acc ++ flat_map some_list outs /\ n = w64 (c + frames_size frames) /\
        (ex = Cont -> rest = tail /\ List.length frames = S fuel) /\
        (ex <> Cont -> (List.length frames < S fuel)%nat /\ forall f more m, tail = whole f ++ more -> frame_ok f -> decode (fst f) (snd f) <> Ok m) /\
        (ex = Crashed \/ ex = Terminated -> exists f more, tail = whole f ++ more /\ frame_ok f /\
           (decode (fst f) (snd f) = Panic \/ decode (fst f) (snd f) = Fatal))).
    { intros ms' n' ex' rest' E _ _ NC NF CR.
      assert (acc = ms /\ c = n /\ ex' = ex /\ rest' = rest) as (<- & <- & <- & <-) by (repeat split; congruence).
      exists [], [], bs. split; [reflexivity|]. split; [constructor|]. split; [constructor|].
      split; [cbn; now rewrite app_nil_r|]. split; [cbn; rewrite N.add_0_r, w64_mod, N.mod_small by exact Hc; reflexivity|].
      split; [congruence|]. split; [intros _; split; [cbn; lia|exact NF]|exact CR]. }
    (* a frame at the front determines the header and body that are read *)
    assert (Front : forall f more, bs = whole f ++ more -> frame_ok f ->
      src_header read_full bs = Ok ((fst f, lenN (snd f)), snd f ++ more)).
    { intros [t b] more -> [Ht L]. cbn [fst snd] in *. unfold whole, frame_of. cbn [fst snd]. rewrite <- !app_assoc.
      apply src_header_frame; [exact Ht|unfold is_u64; lia]. }
    destruct (src_header read_full bs) as [[[t k] r1]|e| |] eqn:Eh.
    2: { refine (Stop acc c _ _ H eq_refl eq_refl _ _ _); [discriminate| |].
      - intros f more m E Fo. discriminate (Front f more E Fo).
      - intros [E|E]; discriminate E. }
    2: { exfalso. exact (proj1 (src_header_safe bs) Eh). }
    2: { exfalso. exact (proj2 (src_header_safe bs) Eh). }
    pose proof (src_header_inv _ _ _ _ Eh) as (Ebs & Ht & Hk).
    destruct (N.ltb_spec max_msg_len k) as [Lk|Lk].
    { refine (Stop acc c _ _ H eq_refl eq_refl _ _ _); [discriminate| |].
      - intros f more m E Fo. exfalso. specialize (Front f more E Fo). apply Ok_inj in Front.
        assert (lenN (snd f) = k) as K by congruence. destruct Fo as [_ Fo]. unfold max_msg_len in Lk. lia.
      - intros [E|E]; discriminate E. }
    unfold max_msg_len in Lk.
    destruct (read_full k r1) as [[b r2]|e| |] eqn:Eb.
    + apply read_full_inv in Eb as [-> Lb].
      assert (Eb2 : bs = whole (t, b) ++ r2).
      { rewrite Ebs. unfold whole, frame_of. cbn [fst snd]. rewrite Lb, <- !app_assoc. reflexivity. }
      assert (Fb : frame_ok (t, b)) by (split; cbn [fst snd]; [exact Ht|lia]).
      assert (Only : forall f more, bs = whole f ++ more -> frame_ok f -> f = (t, b)).
      { intros [t' b'] more E Fo. specialize (Front _ more E Fo). cbn [fst snd] in Front. apply Ok_inj in Front.
        assert (t' = t /\ lenN b' = k /\ b' ++ more = b ++ r2) as (-> & L' & E') by (repeat split; congruence).
        assert (takeN k (b' ++ more) = takeN k (b ++ r2)) as T by now rewrite E'.
        rewrite !takeN_app_len in T by assumption. now subst b'. }
      destruct (decode t b) as [m|e| |] eqn:Ed.
      * destruct (IH _ (w64 (c + (k + msg_header_len))) _ _ _ _ _ ltac:(rewrite w64_mod; now apply N.mod_lt) H) as (fr & outs & tail & E1 & E2 & E3 & E4 & E5 & E6 & E7 & E8).
        exists ((t, b) :: fr), (m :: outs), tail. cbn [flat_map List.length frames_size fold_right fst snd].
        split; [rewrite <- app_assoc, <- E1; exact Eb2|]. split; [constructor; assumption|].
        split; [constructor; assumption|]. split; [rewrite E4, <- app_assoc; reflexivity|].
        split; [rewrite E5, w64_add_l; f_equal; fold (frames_size fr); rewrite Lb; unfold msg_header_len; lia|].
        split; [intro E; destruct (E6 E); auto|]. split; [|exact E8].
        intro E. destruct (E7 E) as [A B]. split; [lia|exact B].
      * refine (Stop acc c _ _ H eq_refl eq_refl _ _ _); [discriminate| |].
        -- intros f more m E Fo. rewrite (Only f more E Fo). cbn [fst snd]. congruence.
        -- intros [E|E]; discriminate E.
      * refine (Stop acc c _ _ H eq_refl eq_refl _ _ _); [discriminate| |].
        -- intros f more m E Fo. rewrite (Only f more E Fo). cbn [fst snd]. congruence.
        -- intros _. exists (t, b), r2. auto.
      * refine (Stop acc c _ _ H eq_refl eq_refl _ _ _); [discriminate| |].
        -- intros f more m E Fo. rewrite (Only f more E Fo). cbn [fst snd]. congruence.
        -- intros _. exists (t, b), r2. auto.
    + refine (Stop acc c _ _ H eq_refl eq_refl _ _ _); [discriminate| |].
      * intros f more m E Fo. exfalso. specialize (Front f more E Fo). apply Ok_inj in Front.
        assert (r1 = snd f ++ more /\ lenN (snd f) = k) as [-> <-] by (split; congruence).
        rewrite read_full_app in Eb. discriminate Eb.
      * intros [E|E]; discriminate E.
    + exfalso. exact (proj1 (safe_read_full k r1) Eb).
    + exfalso. exact (proj2 (safe_read_full k r1) Eb).
Qed.
End OnFrames.

(** ** Delivery *)

Section Delivery.
Context (X : Ext) (P : point -> Prop) (Q : rproof X -> Prop) (lenient : bool).


Lemma wire_hash h : header_wf h -> exists d, header_hash X (wire_view h) = Ok d.
Proof.
  intro W. destruct (header_roundtrip h [] W) as (b & _ & R).
  exact (proj1 (wire_header_safe X (GoTime 0 0) _ _ _ R)).
Qed.

Lemma decode_sent m : codec_laws X P Q -> sort_laws X -> sendable X P Q m -> in_loop X m ->
  exists b m', msg_bytes X m = Ok b /\ received_as X m m' /\
    decode_frame X lenient (type_number X m) b = Ok (if dispatched X m then Some m' else None).
Proof.
  intros CL SL W I. destruct (msg_rt X P Q lenient CL SL m W) as (b & m' & E & R & D).
  exists b, m'. split; [exact E|]. split; [exact R|]. specialize (D []). rewrite app_nil_r in D.
  unfold in_loop in I. unfold decode_frame.
  destruct m; cbn [type_number dispatched msg_type] in *; try lia;
    try (match goal with |- context [existsb ?f ?l] => change (existsb f l) with true end; cbv iota;
         match type of D with msg_read _ _ ?t _ = _ => match goal with |- context [msg_read _ _ ?t' _] => change t' with t end end;
         rewrite D; reflexivity).
  - change (existsb _ _) with false. cbv iota. change (11 =? type_block) with true. cbv iota.
    destruct m'; cbn [received_as] in R; try contradiction.
    unfold msg_read in D. change (type_block =? type_error) with false in D. change (type_block =? type_hand) with false in D.
    change (type_block =? type_shake) with false in D. change (type_block =? type_ping) with false in D.
    change (type_block =? type_pong) with false in D. change (type_block =? type_get_peer_addrs) with false in D.
    change (type_block =? type_peer_addrs) with false in D. change (type_block =? type_get_headers) with false in D.
    change (type_block =? type_header) with false in D. change (type_block =? type_headers) with false in D.
    change (type_block =? type_get_block) with false in D. change (type_block =? type_block) with true in D. cbv iota in D.
    apply pbind_inv in D as (b2 & r & D & D'). unfold rret in D'. apply Ok_inj in D'.
    assert (b2 = b1 /\ r = []) as [-> ->] by (split; congruence). rewrite D. cbn [rbind fst].
    destruct R as [-> _]. destruct (wire_hash (b_header b0)) as [d ->]; [apply W|]. reflexivity.
  - change (existsb _ _) with false. cbv iota. change (13 =? type_block) with false. change (13 =? type_get_compact_block) with false.
    change (13 =? type_compact_block) with true. cbv iota.
    destruct m'; cbn [received_as] in R; try contradiction.
    unfold msg_read in D. change (type_compact_block =? type_error) with false in D. change (type_compact_block =? type_hand) with false in D.
    change (type_compact_block =? type_shake) with false in D. change (type_compact_block =? type_ping) with false in D.
    change (type_compact_block =? type_pong) with false in D. change (type_compact_block =? type_get_peer_addrs) with false in D.
    change (type_compact_block =? type_peer_addrs) with false in D. change (type_compact_block =? type_get_headers) with false in D.
    change (type_compact_block =? type_header) with false in D. change (type_compact_block =? type_headers) with false in D.
    change (type_compact_block =? type_get_block) with false in D. change (type_compact_block =? type_block) with false in D.
    change (type_compact_block =? type_compact_block) with true in D. cbv iota in D.
    apply pbind_inv in D as (b2 & r & D & D'). unfold rret in D'. apply Ok_inj in D'.
    assert (b2 = b1 /\ r = []) as [-> ->] by (split; congruence). rewrite D. cbn [rbind fst].
    destruct R as [-> _]. destruct (wire_hash (cb_header b0)) as [d ->]; [apply W|]. reflexivity.
Qed.

Lemma type_small (m : message X) : type_number X m < 256.
Proof. destruct m; reflexivity. Qed.

Lemma sent_frames ms frs : codec_laws X P Q -> sort_laws X ->
  Forall (sendable X P Q) ms -> Forall (in_loop X) ms ->
  Forall2 (fun m fr => exists n, write_message X m = Ok (fr, n) /\ lenN fr <= 20000011) ms frs ->
  exists frames outs, concat frs = flat_map whole frames /\ Forall frame_ok frames /\
    Forall2 (fun f o => decode_frame X lenient (fst f) (snd f) = Ok o) frames outs /\
    List.length frames = List.length ms /\ frames_size frames = lenN (concat frs) /\
    Forall2 (received_as X) (filter (dispatched X) ms) (flat_map some_list outs).
Proof.
  intros CL SL S I F. revert S I. induction F as [|m fr ms frs (n & Ew & Lf) _ IH]; intros S I.
  - exists [], []. repeat split; constructor.
  - inversion S as [|? ? S1 S2]; inversion I as [|? ? I1 I2]; subst.
    destruct (IH S2 I2) as (frames & outs & E1 & E2 & E3 & E4 & E5 & E6).
    destruct (decode_sent m CL SL S1 I1) as (b & m' & Eb & R & D).
    assert (fr = frame_of (type_number X m) b) as ->.
    { unfold write_message in Ew. rewrite Eb in Ew. cbn [rbind] in Ew. apply Ok_inj in Ew.
      unfold frame_of. rewrite <- type_number_eq. unfold frame_header, magic_code in Ew. rewrite <- !app_assoc in Ew. congruence. }
    assert (Lb : lenN (frame_of (type_number X m) b) = 11 + lenN b).
    { unfold frame_of. unfold lenN. rewrite !app_length, !be_length. cbn [List.length]. lia. }
    exists ((type_number X m, b) :: frames), ((if dispatched X m then Some m' else None) :: outs).
    cbn [concat flat_map List.length frames_size fold_right fst snd].
    split; [unfold whole at 1; cbn [fst snd]; now rewrite E1|].
    split; [constructor; [split; cbn [fst snd]; [apply type_small|lia]|exact E2]|].
    split; [constructor; [exact D|exact E3]|]. split; [now rewrite E4|].
    split; [fold (frames_size frames); rewrite lenN_app, Lb, E5; lia|].
    cbn [filter]. destruct (dispatched X m); cbn [some_list app]; [constructor; assumption|exact E6].
Qed.

Lemma loop_end fuel acc c : read_loop X lenient read_full (S fuel) acc c [] = (acc, c, Failed EOF, []).
Proof. reflexivity. Qed.

Lemma delivery ms frs chunks fuel : codec_laws X P Q -> sort_laws X ->
  Forall (sendable X P Q) ms -> Forall (in_loop X) ms ->
  Forall2 (fun m fr => exists n, write_message X m = Ok (fr, n) /\ lenN fr <= 20000011) ms frs ->
  Forall (fun c : bytes => c <> []) chunks -> concat chunks = concat frs -> (List.length ms < fuel)%nat ->
  exists got s, read_loop X lenient buf_read_full fuel [] 0 (BufSrc [] chunks) =
      (got, lenN (concat frs) mod 2 ^ 64, Failed EOF, s) /\
    Forall2 (received_as X) (filter (dispatched X) ms) got.
Proof.
  intros CL SL S I F NE C L. destruct (sent_frames ms frs CL SL S I F) as (frames & outs & E1 & E2 & E3 & E4 & E5 & E6).
  pose proof (loop_sim X lenient fuel [] 0 (BufSrc [] chunks) NE) as H.
  unfold src_bytes in H. cbn [bs_buf bs_chunks app] in H. rewrite C, E1 in H.
  assert (Pure : read_loop X lenient read_full fuel [] 0 (flat_map whole frames) =
    ([] ++ flat_map some_list outs, w64 (0 + frames_size frames), Failed EOF, [])).
  { replace fuel with (List.length frames + Datatypes.S (fuel - List.length frames - 1))%nat by lia.
    rewrite <- (app_nil_r (flat_map whole frames)). rewrite (loop_frames X lenient frames outs) by (first [assumption|reflexivity]).
    apply loop_end. }
  rewrite Pure in H.
  destruct (read_loop X lenient buf_read_full fuel [] 0 (BufSrc [] chunks)) as [[[got n] ex] s].
  destruct H as (-> & -> & -> & _). exists (flat_map some_list outs), s. split; [|exact E6].
  cbn [app]. now rewrite w64_mod, N.add_0_l, E5.
Qed.

(** ** Safety *)

Lemma decode_safe t b : codec_safe X -> t <> 13 -> survives (decode_frame X lenient t b).
Proof.
  intros CS N. unfold decode_frame. destruct (existsb _ _) eqn:E.
  - apply existsb_exists in E as (t' & I & E). apply N.eqb_eq in E. subst t'.
    assert (S : safe (msg_read X lenient t)).
    { apply listed_safe; [exact CS|]. cbn [In] in I. cbv [type_ping type_pong type_get_peer_addrs type_peer_addrs
        type_get_headers type_header type_headers type_get_block type_transaction] in I. intuition lia. }
    destruct (S b) as [A B]. destruct (msg_read X lenient t b) as [[m r]|e| |]; try congruence; split; discriminate.
  - destruct (t =? type_block).
    + destruct (block_read_safe X CS b) as [A B]. destruct (block_read X b) as [[k r]|e| |] eqn:R; try congruence;
        cbn [rbind fst]; [|split; discriminate].
      destruct (block_read_header X b k r R) as (r' & Rh). destruct (wire_header_safe X (GoTime 0 0) _ _ _ Rh) as [[d ->] _].
      split; discriminate.
    + destruct (t =? type_get_compact_block); [split; discriminate|].
      destruct (N.eqb_spec t type_compact_block); [contradiction|]. split; discriminate.
Qed.

Lemma loop_crash_needs_compact fuel bs ms n ex rest : codec_safe X ->
  read_loop X lenient read_full fuel [] 0 bs = (ms, n, ex, rest) -> ex = Crashed \/ ex = Terminated ->
  exists front body more, bs = front ++ frame_of 13 body ++ more.
Proof.
  intros CS H C. destruct (loop_parses X lenient fuel [] 0 bs ms n ex rest eq_refl H) as
    (frames & outs & tail & E & _ & _ & _ & _ & _ & _ & Cr).
  destruct (Cr C) as ([t b] & more & Et & _ & D). cbn [fst snd] in D.
  destruct (N.eq_dec t 13) as [->|N].
  - exists (flat_map whole frames), b, more. now rewrite E, Et.
  - exfalso. destruct (decode_safe t b CS N) as [A B]. destruct D; contradiction.
Qed.

(** A compact block that announces 2^63 short ids crashes the loop. *)
Lemma loop_crash h hb acc c fuel rest : header_wf h -> header_bytes h = Ok hb ->
  exists s, read_loop X lenient read_full (S fuel) acc c (frame_of 13 (hb ++ be 1 0 ++ be 1 0 ++ be 8 (2 ^ 63)) ++ rest) =
    (acc, c, Crashed, s).
Proof.
  intros W E. set (body := hb ++ be 1 0 ++ be 1 0 ++ be 8 (2 ^ 63)).
  destruct (header_layout_ok h) as (hb' & E' & (L & _)); [apply W|apply W|apply W|].
  rewrite E in E'. apply Ok_inj in E'. subst hb'.
  assert (LB : lenN body <= 20000000).
  { unfold body. rewrite !lenN_app, L. unfold lenN. rewrite !be_length.
    destruct W as ((_ & _ & _ & _ & _ & _ & _ & _ & B & _) & _). unfold is_u8 in B. unfold bytes_for.
    assert ((42 * p_bits (h_pow h) + 7) / 8 <= (42 * 256 + 7) / 8) by (apply N.div_le_mono; lia).
    change ((42 * 256 + 7) / 8) with 1344 in *. lia. }
  exists rest. unfold frame_of. rewrite <- !app_assoc. cbn [read_loop].
  rewrite src_header_frame by (first [reflexivity|unfold is_u64; lia]).
  unfold max_msg_len. rewrite (ltb_false 20000000) by exact LB. rewrite read_full_app.
  assert (D : decode_frame X lenient 13 body = Panic); [|now rewrite D].
  unfold decode_frame. change (existsb _ _) with false. change (13 =? type_block) with false.
  change (13 =? type_get_compact_block) with false. change (13 =? type_compact_block) with true. cbv iota.
  pose proof (compact_panics X h hb [] W E) as CP. rewrite app_nil_r in CP. fold body in CP. now rewrite CP.
Qed.
End Delivery.

(** [loop_parses] for a chunked connection. *)
Lemma loop_parses_chunks X lenient fuel chunks ms n ex s :
  Forall (fun c : bytes => c <> []) chunks ->
  read_loop X lenient buf_read_full fuel [] 0 (BufSrc [] chunks) = (ms, n, ex, s) ->
  exists frames outs tail,
    concat chunks = flat_map whole frames ++ tail /\ Forall frame_ok frames /\
    Forall2 (fun f m => decode_frame X lenient (fst f) (snd f) = Ok m) frames outs /\
    ms = flat_map some_list outs /\ n = frames_size frames mod 2 ^ 64 /\
    (ex = Cont -> bs_buf s ++ concat (bs_chunks s) = tail /\ List.length frames = fuel) /\
    (ex <> Cont -> (List.length frames < fuel)%nat /\
       forall f more m, tail = whole f ++ more -> frame_ok f -> decode_frame X lenient (fst f) (snd f) <> Ok m).
Proof.
  intros NE H. pose proof (loop_sim X lenient fuel [] 0 (BufSrc [] chunks) NE) as S. rewrite H in S.
  unfold src_bytes at 1 in S. cbn [bs_buf bs_chunks app] in S.
  destruct (read_loop X lenient read_full fuel [] 0 (concat chunks)) as [[[ms' n'] ex'] rest] eqn:E.
  destruct S as (-> & -> & -> & S).
  destruct (loop_parses X lenient fuel [] 0 _ _ _ _ _ eq_refl E) as (frames & outs & tail & E1 & E2 & E3 & E4 & E5 & E6 & E7 & _).
  exists frames, outs, tail. rewrite N.add_0_l, w64_mod in E5.
  refine (conj E1 (conj E2 (conj E3 (conj E4 (conj E5 (conj _ E7)))))).
  intro C. destruct (E6 C) as [-> ->]. split; [exact S|reflexivity].
Qed.

Lemma chunks_crash_needs_compact X lenient fuel chunks ms n ex s : codec_safe X ->
  Forall (fun c : bytes => c <> []) chunks ->
  read_loop X lenient buf_read_full fuel [] 0 (BufSrc [] chunks) = (ms, n, ex, s) -> ex = Crashed \/ ex = Terminated ->
  exists front body more, concat chunks = front ++ frame_of 13 body ++ more.
Proof.
  intros CS NE H C. pose proof (loop_sim X lenient fuel [] 0 (BufSrc [] chunks) NE) as S. rewrite H in S.
  unfold src_bytes at 1 in S. cbn [bs_buf bs_chunks app] in S.
  destruct (read_loop X lenient read_full fuel [] 0 (concat chunks)) as [[[ms' n'] ex'] rest] eqn:E.
  destruct S as (-> & -> & -> & S). exact (loop_crash_needs_compact X lenient fuel _ _ _ _ _ CS E C).
Qed.
