(** Lemmas about a served connection. *)
From Coq Require Import Permutation.
From Verif Require Import Serve SpecServe SpecCodec SpecConsensus SpecMessages SpecPool SpecSync SpecHandshake SipProofs PowCodecProofs CodecProofs
  MessageProofs LoopProofs HandshakeProofs PoolProofs SyncProofs.

Section Served.
Context (X : Ext) (S : storage X) (lenient : bool) (w : around).
Local Notation plain := (serve (X := X) (S := S) lenient w read_full).
Local Notation decode := (decode_frame X lenient).
Local Notation ended := (ended lenient w).
Local Notation svc := (service X S).

(** ** Chunks *)
Definition same_service {A B} (r : svc A) (q : svc B) : Prop :=
  sv_node r = sv_node q /\ sv_answers r = sv_answers q /\ sv_count r = sv_count q /\ sv_stop r = sv_stop q.

Lemma serve_sim synced fuel : forall i n ans c s, src_ok s ->
  same_service (serve lenient w buf_read_full synced fuel i n ans c s) (plain synced fuel i n ans c (src_bytes s)).
Proof.
  induction fuel as [|fuel IH]; intros i n ans c s F; cbn [serve]; [repeat split|].
  pose proof (src_header_sim s F) as H.
  destruct (src_header buf_read_full s) as [[[t k] s1]|e| |], (src_header read_full (src_bytes s)) as [[[t' k'] r1]|e'| |];
    try contradiction; [|subst; repeat split].
  destruct H as (E & <- & F1). assert (t = t' /\ k = k') as [<- <-] by (split; congruence).
  destruct (max_msg_len <? k); [repeat split|].
  pose proof (buf_read_full_spec k s1 F1) as H.
  destruct (buf_read_full k s1) as [[b s2]|e| |], (read_full k (src_bytes s1)) as [[b' r2]|e'| |]; try contradiction; [|repeat split].
  destruct H as (<- & <- & F2).
  destruct (decode t b) as [[m|]|e| |]; [|apply IH, F2| | |]; try (repeat split; fail).
  destruct synced; [|repeat split]. cbv zeta. destruct (o_end _); [apply IH, F2| | |]; repeat split.
Qed.

Lemma src_of_chunks chunks : Forall (fun c : bytes => c <> []) chunks ->
  src_ok (BufSrc [] chunks) /\ src_bytes (BufSrc [] chunks) = concat chunks.
Proof. intro F. split; [exact F|reflexivity]. Qed.

(** ** Frames *)
Lemma serve_frame synced fuel i n ans c f m rest : frame_ok f -> decode (fst f) (snd f) = Ok m ->
  plain synced (Datatypes.S fuel) i n ans c (whole f ++ rest) =
  match m with
  | None => plain synced fuel i n ans (w64 (c + (lenN (snd f) + 11))) rest
  | Some m =>
      if synced then
        let o := process_message (ar_context w i) (met w i n) m in
        match o_end o with
        | HDone => plain synced fuel (Datatypes.S i) (o_node o) (ans ++ o_answers o) (w64 (c + (lenN (snd f) + 11))) rest
        | e => Service (o_node o) (ans ++ o_answers o) c (Stuck e) rest
        end
      else Service n ans c (Stuck HPanic) rest
  end.
Proof.
  intros [Ht L] E. destruct f as [t body]. cbn [fst snd] in *. unfold whole, frame_of. cbn [fst snd]. rewrite <- !app_assoc.
  cbn [serve]. rewrite src_header_frame by (first [exact Ht|unfold is_u64; lia]).
  unfold max_msg_len. rewrite (ltb_false 20000000) by exact L. rewrite read_full_app, E. reflexivity.
Qed.

(** Where the loop would stop, it stops. *)
Lemma serve_stop synced fuel i n ans c bs ms k ex rest : read_loop X lenient read_full 1 [] 0 bs = (ms, k, ex, rest) -> ex <> Cont ->
  plain synced (Datatypes.S fuel) i n ans c bs = Service n ans c (Leave ex) rest.
Proof.
  cbn [read_loop serve]. destruct (src_header read_full bs) as [[[t len] s1]|e| |].
  - destruct (max_msg_len <? len); [|destruct (read_full len s1) as [[b s2]|e| |]].
    + intros E N. injection E as _ _ <- <-. reflexivity.
    + destruct (decode t b) as [m|e| |]; intros E N; injection E as _ _ <- <-; [contradiction| | |]; reflexivity.
    + intros E N. injection E as _ _ <- <-. reflexivity.
    + intros E N. injection E as _ _ <- <-. reflexivity.
    + intros E N. injection E as _ _ <- <-. reflexivity.
  - intros E N. injection E as _ _ <- <-. reflexivity.
  - intros E N. injection E as _ _ <- <-. reflexivity.
  - intros E N. injection E as _ _ <- <-. reflexivity.
Qed.

(** The first thing in a stream: a frame that can be read, or the end of the loop. *)
Lemma one_step bs :
  (exists f m rest, bs = whole f ++ rest /\ frame_ok f /\ decode (fst f) (snd f) = Ok m) \/
  (exists ms k ex rest, read_loop X lenient read_full 1 [] 0 bs = (ms, k, ex, rest) /\ ex <> Cont /\
     (forall f more m, bs = whole f ++ more -> frame_ok f -> decode (fst f) (snd f) <> Ok m) /\
     (ex = Crashed \/ ex = Terminated -> exists f more, bs = whole f ++ more /\ frame_ok f /\
        (decode (fst f) (snd f) = Panic \/ decode (fst f) (snd f) = Fatal))).
Proof.
  destruct (read_loop X lenient read_full 1 [] 0 bs) as [[[ms k] ex] rest] eqn:E.
  destruct (loop_parses X lenient 1 [] 0 bs ms k ex rest eq_refl E) as (fr & outs & tail & -> & Fo & D & _ & _ & C & NC & Cr).
  assert (Dx : ex = Cont \/ ex <> Cont) by (destruct ex; auto; right; discriminate).
  destruct Dx as [->|N].
  - left. destruct (C eq_refl) as (-> & L). destruct fr as [|f [|? ?]]; try discriminate L.
    inversion D as [|? m ? ? D1 D2]; subst. inversion Fo; subst. exists f, m, tail. cbn [flat_map]. rewrite app_nil_r. auto.
  - right. destruct (NC N) as (L & H). destruct fr as [|f fr]; [|cbn in L; lia]. cbn [flat_map app] in *.
    exists ms, k, ex, rest. auto.
Qed.

(** ** The connection is served frame by frame *)
Lemma serve_parses fuel : forall i n ans c bs, c < 2 ^ 64 ->
  let r := plain true fuel i n ans c bs in
  exists frames outs tail new,
    bs = flat_map whole frames ++ tail /\ Forall frame_ok frames /\
    Forall2 (fun f m => decode (fst f) (snd f) = Ok m) frames outs /\
    sv_answers r = ans ++ new /\ (List.length frames <= fuel)%nat /\
    (sv_stop r = Leave Cont -> List.length frames = fuel) /\
    ended n i c outs frames tail new (sv_node r) (sv_count r) (sv_stop r).
Proof.
  induction fuel as [|fuel IH]; intros i n ans c bs Hc; cbv zeta.
  - cbn [serve sv_answers sv_stop sv_node sv_count]. exists [], [], bs, []. cbn [flat_map app List.length SpecServe.ended handled].
    rewrite app_nil_r. repeat split; auto; try (intros; congruence).
    + cbn. rewrite N.add_0_r, w64_mod, N.mod_small by exact Hc. reflexivity.
    + intros [E|E]; discriminate E.
  - destruct (one_step bs) as [(f & m & rest & -> & Fo & D)|(ms & k & ex & rest & E & NC & NF & Cr)].
    + rewrite (serve_frame true fuel i n ans c f m rest Fo D).
      assert (Hc' : w64 (c + (lenN (snd f) + 11)) < 2 ^ 64) by (rewrite w64_mod; now apply N.mod_lt).
      assert (Sz : forall fr, w64 (w64 (c + (lenN (snd f) + 11)) + frames_size fr) = w64 (c + frames_size (f :: fr))).
      { intro fr. rewrite w64_add_l. change (frames_size (f :: fr)) with (lenN (snd f) + 11 + frames_size fr). now rewrite <- (N.add_assoc c). }
      destruct m as [m|].
      * cbv zeta. set (o := process_message (ar_context w i) (met w i n) m).
        destruct (o_end o) eqn:Eo.
        1:{ destruct (IH (Datatypes.S i) (o_node o) (ans ++ o_answers o) _ rest Hc') as (fr & outs & tail & new & -> & F1 & F2 & Ea & Ln & Fu & En).
            cbv zeta in *. set (r := plain true fuel _ _ _ _ _) in *.
            exists (f :: fr), (Some m :: outs), tail, (o_answers o ++ new). cbn [flat_map List.length]. rewrite <- !app_assoc.
            split; [reflexivity|]. split; [constructor; assumption|]. split; [constructor; assumption|].
            split; [rewrite Ea, <- app_assoc; reflexivity|]. split; [lia|]. split; [intro Q; rewrite (Fu Q); reflexivity|].
            unfold SpecServe.ended in *. destruct (sv_stop r) as [ex|e].
            - destruct En as (H1 & H2 & H3 & H4). split; [|split; [|split; assumption]].
              + cbn [flat_map some_list app handled]. fold o. exists new. auto.
              + now rewrite H2, Sz.
            - destruct En as (before & m' & n1 & ans1 & -> & H1 & H2). exists (Some m :: before), m', n1, (o_answers o ++ ans1).
              split; [reflexivity|]. split.
              + cbn [flat_map some_list app handled]. fold o. exists ans1. auto.
              + cbn [flat_map some_list app List.length]. rewrite Nat.add_succ_r.
                cbn [Nat.add] in H2. cbv zeta in *. destruct H2 as (A & B & C & D').
                split; [exact A|]. split; [exact B|]. split; [rewrite C, app_assoc; reflexivity|exact D']. }
        all: exists [f], [Some m], rest, (o_answers o); cbn [sv_answers sv_stop sv_node sv_count flat_map List.length SpecServe.ended];
          rewrite app_nil_r; (split; [reflexivity|]); (split; [constructor; [exact Fo|constructor]|]); (split; [constructor; [exact D|constructor]|]);
          (split; [reflexivity|]); (split; [lia|]); (split; [discriminate|]);
          exists [], m, n, []; cbn [flat_map app List.length handled]; rewrite Nat.add_0_r; fold o;
          (split; [reflexivity|]); (split; [auto|]); cbv zeta; rewrite Eo; repeat split; discriminate.
      * destruct (IH i n ans _ rest Hc') as (fr & outs & tail & new & -> & F1 & F2 & Ea & Ln & Fu & En).
        cbv zeta in *. set (r := plain true fuel _ _ _ _ _) in *.
        exists (f :: fr), (None :: outs), tail, new. cbn [flat_map List.length]. rewrite <- !app_assoc.
        split; [reflexivity|]. split; [constructor; assumption|]. split; [constructor; assumption|].
        split; [exact Ea|]. split; [lia|]. split; [intro Q; rewrite (Fu Q); reflexivity|].
        unfold SpecServe.ended in *. destruct (sv_stop r) as [ex|e].
        -- destruct En as (H1 & H2 & H3 & H4). split; [exact H1|]. split; [now rewrite H2, Sz|]. split; assumption.
        -- destruct En as (before & m' & n1 & ans1 & -> & H1 & H2). exists (None :: before), m', n1, ans1. auto.
    + rewrite (serve_stop true fuel i n ans c bs ms k ex rest E NC). cbn [sv_answers sv_stop sv_node sv_count].
      exists [], [], bs, []. cbn [flat_map app List.length SpecServe.ended handled]. rewrite app_nil_r.
      split; [reflexivity|]. split; [constructor|]. split; [constructor|]. split; [reflexivity|]. split; [lia|].
      split; [intro Q; congruence|]. split; [auto|]. split; [cbn; rewrite N.add_0_r, w64_mod, N.mod_small by exact Hc; reflexivity|].
      split; [intros _; exact NF|exact Cr].
Qed.

Lemma run_parses fuel p (n : node X S) chunks : pe_sync p = true -> Forall (fun c : bytes => c <> []) chunks ->
  let r := run_peer lenient w fuel p n chunks in
  exists frames outs tail,
    concat chunks = flat_map whole frames ++ tail /\ Forall frame_ok frames /\
    Forall2 (fun f m => decode (fst f) (snd f) = Ok m) frames outs /\
    (List.length frames <= fuel)%nat /\ (sv_stop r = Leave Cont -> List.length frames = fuel) /\
    ended n 0 0 outs frames tail (sv_answers r) (sv_node r) (sv_count r) (sv_stop r).
Proof.
  intros Hs F. cbv zeta. unfold run_peer. rewrite Hs. destruct (src_of_chunks chunks F) as (So & Sb).
  destruct (serve_sim true fuel 0 n [] 0 _ So) as (E1 & E2 & E3 & E4). rewrite Sb in *. rewrite E1, E2, E3, E4.
  destruct (serve_parses fuel 0 n [] 0 (concat chunks) eq_refl) as (fr & outs & tail & new & H). cbv zeta in H.
  destruct H as (A & B & C & D & L & Fu & En). cbn [app] in D. subst new. exists fr, outs, tail. auto 10.
Qed.
End Served.

(** ** What the handling of one message leaves alone *)
Section Kept.
Context {X : Ext} {S : storage X}.

Lemma mempool_kept c (n : node X S) m : nd_mempool (o_node (process_message c n m)) = nd_mempool n.
Proof.
  assert (K : forall n k, (forall n', nd_mempool (o_node (k n')) = nd_mempool n') -> nd_mempool (o_node (banning (S := S) (X := X) c n k)) = nd_mempool n).
  { intros n0 k H. unfold banning. destruct (pool_ban _ _ _) as [[] p]; try reflexivity. now rewrite H. }
  unfold process_message. destruct (peer_info _ _) as [i|]; [|reflexivity].
  destruct m; try reflexivity.
  - destruct (get_block_headers _ _); reflexivity.
  - destruct (fst (process_headers _ _ _)); reflexivity.
  - destruct (fst (process_headers _ _ _)); try reflexivity. rewrite K; reflexivity.
  - destruct (get_block _ _); reflexivity.
  - destruct (fst (process_block _ _ _)); try reflexivity. rewrite K; reflexivity.
  - destruct (nd_mempool n) as [f|] eqn:E; [|exact E]. destruct (f t); try exact E. rewrite K; [exact E|reflexivity].
Qed.

Lemma entered_upd me p i f : entered me p -> entered me (upd p i f).
Proof.
  intros (N & B & j & x & I & E). unfold upd, entered. cbn [pl_table pl_bans pl_infos set_infos]. split; [exact N|]. split; [exact B|].
  exists j. rewrite update_nth, E. destruct (i =? j)%nat; eauto.
Qed.
Lemma entered_add me r a p : entered me p -> entered me (pool_add r a p).
Proof.
  intros (N & B & j & x & I & E). destruct (add_cases r a p) as [->|(_ & K & _ & ->)]; [split; [exact N|split; [exact B|eauto]]|].
  unfold entered. cbn [pl_table pl_bans pl_infos set_table set_infos map fst]. split; [now constructor|]. split; [exact B|].
  exists j, x. split; [now right|]. rewrite nth_error_app1; [exact E|]. apply nth_error_Some. congruence.
Qed.
Lemma entered_adds me (f : addr -> option addr) (g : addr -> bytes) l : forall p, entered me p ->
  entered me (fold_left (fun p a => pool_add (f a) (g a) p) l p).
Proof. induction l as [|a l IH]; intros p H; cbn [fold_left]; [exact H|]. apply IH. now apply entered_add. Qed.

Lemma entered_kept me c (n : node X S) m : entered me (nd_pool n) -> o_end (process_message c n m) = HDone ->
  entered me (nd_pool (o_node (process_message c n m))).
Proof.
  intro H.
  assert (Bn : forall (n0 : node X S) k, nd_pool n0 = nd_pool n -> o_end (banning c n0 k) = HDone ->
    (forall n', nd_pool n' = nd_pool n0 -> entered me (nd_pool (o_node (k n')))) -> entered me (nd_pool (o_node (banning c n0 k)))).
  { intros n0 k E0 E K. destruct (lookup (x_remote c) (pl_table (nd_pool n0))) as [j|] eqn:L.
    - exfalso. assert (R : remote_listed c n0) by (apply lookup_in in L; apply in_map_iff; now exists (x_remote c, j)).
      destruct H as (_ & B & _). rewrite <- E0 in B. destruct (ban_listed X S c n0 k R B); congruence.
    - apply lookup_none in L. rewrite (ban_unlisted X S c n0 k L). apply K. reflexivity. }
  assert (Af : forall i h (n' : node X S), nd_pool n' = nd_pool n -> entered me (nd_pool (o_node (after_block i h n')))).
  { intros i h n' E. unfold after_block. cbn [o_node nd_pool with_pool]. rewrite E. now apply entered_upd. }
  unfold process_message. destruct (peer_info _ _) as [i|]; [|discriminate].
  destruct m; cbn [o_node o_end nd_pool with_pool with_chain]; intro E; try exact H.
  - now apply entered_upd.
  - now apply entered_upd.
  - now apply entered_adds.
  - destruct (get_block_headers _ _); exact H.
  - destruct (fst (process_headers _ _ _)); exact H.
  - destruct (fst (process_headers _ _ _)); try exact H. apply Bn; [reflexivity|exact E|]. intros n' E'. cbn [o_node]. rewrite E'. exact H.
  - destruct (get_block _ _); exact H.
  - destruct (fst (process_block _ _ _)); try exact H.
    + now apply Af.
    + apply Bn; [reflexivity|exact E|]. intros n' E'. now apply Af.
  - destruct (nd_mempool n) as [f|]; [|exact H]. destruct (f t); try exact H. apply Bn; [reflexivity|exact E|]. intros n' E'. cbn [o_node]. rewrite E'. exact H.
Qed.

Lemma entered_sender c (n : node X S) : entered (x_me c) (nd_pool n) -> exists i x, sender c n i x.
Proof. intros (N & _ & i & x & I & E). exists i, x. repeat split; auto. Qed.

(** ** Along a connection *)
Lemma handled_kept w me ms : around_ok me w -> forall i (n : node X S) ans n', entered me (nd_pool n) -> handled w i n ms ans n' ->
  entered me (nd_pool n') /\ nd_chain n' = nd_chain n /\ nd_mempool n' = nd_mempool n.
Proof.
  intro A. induction ms as [|m ms IH]; intros i n ans n' H D.
  - destruct D as (_ & ->). auto.
  - destruct D as (more & Eo & _ & D). destruct (A i) as (_ & Ap).
    destruct (IH _ _ _ _ (entered_kept me _ (met w i n) m (Ap _ H) Eo) D) as (K1 & K2 & K3).
    rewrite K2, K3, (chain_kept X S), mempool_kept. auto.
Qed.
End Kept.

Section Crash.
Context (X : Ext) (S : storage X) (lenient : bool) (w : around).

Lemma decode_type t b m : decode_frame X lenient t b = Ok (Some m) -> t = type_number X m.
Proof.
  unfold decode_frame. destruct (existsb _ _) eqn:Ex.
  - destruct (msg_read X lenient t b) as [(m0, rest)|e| |] eqn:R; try discriminate. cbn. intro E. injection E as <-.
    apply existsb_exists in Ex. destruct Ex as (u & I & Eu). apply N.eqb_eq in Eu. subst u.
    destruct I as [<-|[<-|[<-|[<-|[<-|[<-|[<-|[<-|[<-|[]]]]]]]]]]; unfold msg_read in R;
      repeat match type of R with (if ?b then _ else _) _ = _ => let v := eval vm_compute in b in change b with v in R; cbv iota in R end;
      apply pbind_inv in R as (v & m1 & R1 & R); injection R as <- _; reflexivity.
  - destruct (N.eqb_spec t type_block) as [->|_].
    + destruct (block_read X b) as [(bl, rest)|e| |]; try discriminate. cbn [rbind fst].
      destruct (header_hash X (b_header bl)); try discriminate. cbn [rbind]. intro E. injection E as <-. reflexivity.
    + destruct (t =? type_get_compact_block); [discriminate|]. destruct (t =? type_compact_block); [|discriminate].
      destruct (compact_read X b) as [r|e| |]; try discriminate. cbn [rbind]. destruct (header_hash X _); discriminate.
Qed.

(** A connection that breaks something carried one of four kinds of messages. *)
Lemma breaks fuel p (n : node X S) chunks me : codec_safe X -> pe_sync p = true -> Forall (fun c : bytes => c <> []) chunks ->
  around_ok me w -> entered me (nd_pool n) -> sound_chain (nd_chain n) -> nd_mempool n = None ->
  broke (sv_stop (run_peer lenient w fuel p n chunks)) ->
  exists frames f rest, concat chunks = flat_map whole frames ++ whole f ++ rest /\ frame_ok f /\
    ((fst f = 13 /\ (decode_frame X lenient (fst f) (snd f) = Panic \/ decode_frame X lenient (fst f) (snd f) = Fatal)) \/ fst f = 15 \/
     ((fst f = 9 \/ fst f = 11) /\ exists m ms ans n', let k := List.length ms in
        decode_frame X lenient (fst f) (snd f) = Ok (Some m) /\
        handled w 0 n ms ans n' /\ refused (ar_context w k) (met w k n') m /\ remote_listed (ar_context w k) (met w k n'))).
Proof.
  intros Cs Hs F A En Sc Mp Br.
  destruct (run_parses X S lenient w fuel p n chunks Hs F) as (fr & outs & tail & Eb & Fo & D & _ & _ & E).
  cbv zeta in E. destruct (sv_stop (run_peer lenient w fuel p n chunks)) as [ex|e]; cbn [ended] in E.
  - destruct E as (_ & _ & _ & Cr). destruct Cr as (f & more & Et & Ff & Hd).
    { destruct Br as [B|[B|(e & B)]]; [left; congruence|right; congruence|discriminate B]. }
    exists fr, f, more. split; [rewrite Eb, Et; reflexivity|]. split; [exact Ff|]. left.
    destruct (N.eq_dec (fst f) 13) as [E13|N13]; [auto|]. exfalso. destruct (decode_safe X lenient (fst f) (snd f) Cs N13). destruct Hd; contradiction.
  - destruct E as (before & m & n1 & ans1 & -> & Hh & E). cbv zeta in E. cbn [Nat.add] in E.
    apply Forall2_app_inv_r in D. destruct D as (fr0 & fr1 & D0 & D1 & ->). inversion D1 as [|f ? ? ? Df Dn Ef]; subst. inversion Dn; subst.
    exists fr0, f, tail. rewrite flat_map_app in Eb. cbn [flat_map] in Eb. rewrite app_nil_r, <- app_assoc in Eb. split; [exact Eb|].
    apply Forall_app in Fo. destruct Fo as (_ & Fo). inversion Fo as [|? ? Ff _]; subst. split; [exact Ff|]. right.
    set (ms := flat_map some_list before) in *. set (k := List.length ms) in *. destruct E as (Eo & Ne & _).
    destruct (handled_kept w me ms A 0 n ans1 n1 En Hh) as (K1 & K2 & K3).
    destruct (A k) as (Ame & Ap). specialize (Ap _ K1). rewrite <- Ame in Ap.
    destruct (entered_sender (ar_context w k) (met w k n1) Ap) as (i & x & Sd).
    destruct (safe_otherwise X S lenient (ar_context w k) (met w k n1) m i x Sd) as [H|[(t & -> & _)|(Rf & Rl)]].
    + change (nd_chain (met w k n1)) with (nd_chain n1). now rewrite K2.
    + exists (fst f), (snd f). exact Df.
    + intros f0 t H. change (nd_mempool (met w k n1)) with (nd_mempool n1) in H. congruence.
    + exfalso. congruence.
    + left. exact (decode_type _ _ _ Df).
    + right. split.
      * pose proof (decode_type _ _ _ Df) as Et. destruct m; try contradiction; cbn [type_number] in Et; auto.
        destruct Rf as (f0 & e0 & H & _). change (nd_mempool (met w k n1)) with (nd_mempool n1) in H. congruence.
      * exists m, ms, ans1, n1. auto.
Qed.

Lemma chain_stays fuel p (n : node X S) chunks me : pe_sync p = true -> Forall (fun c : bytes => c <> []) chunks ->
  around_ok me w -> entered me (nd_pool n) -> nd_chain (sv_node (run_peer lenient w fuel p n chunks)) = nd_chain n.
Proof.
  intros Hs F A En. destruct (run_parses X S lenient w fuel p n chunks Hs F) as (fr & outs & tail & _ & _ & _ & _ & _ & E).
  cbv zeta in E. destruct (sv_stop (run_peer lenient w fuel p n chunks)) as [ex|e]; cbn [ended] in E.
  - destruct E as (Hh & _). exact (proj1 (proj2 (handled_kept w me _ A 0 n _ _ En Hh))).
  - destruct E as (before & m & n1 & ans1 & _ & Hh & E). cbv zeta in E. destruct E as (_ & _ & _ & ->).
    rewrite (chain_kept X S). exact (proj1 (proj2 (handled_kept w me _ A 0 n _ _ En Hh))).
Qed.
End Crash.

(** ** Answers *)
Section Answers.
Context (X : Ext) (lenient : bool) (w : around).
Local Notation S := (sql_storage X).

Lemma addrs_len l : forall b, addrs_bytes l = Ok b -> lenN b <= 11 * lenN l.
Proof.
  induction l as [|a l IH]; intros b E; cbn [addrs_bytes] in E.
  - apply Ok_inj in E. subst b. unfold lenN. cbn. lia.
  - destruct (addr_bytes a) as [x|e| |] eqn:Ea; try discriminate E. cbn [rbind] in E.
    destruct (addrs_bytes l) as [y|e| |]; try discriminate E. cbn [rbind] in E. apply Ok_inj in E. subst b.
    pose proof (addr_len _ _ Ea). specialize (IH y eq_refl). rewrite lenN_app. unfold lenN in *. cbn [List.length]. lia.
Qed.

Lemma read_be_need n bs v rest : read_be n bs = Ok (v, rest) -> N.of_nat n <= lenN bs.
Proof.
  unfold read_be, pbind. destruct (read_full (N.of_nat n) bs) as [[x r]|e| |] eqn:E; try discriminate. intros _.
  apply read_full_inv in E as [-> L]. rewrite lenN_app. lia.
Qed.
Lemma get_peers_need t b caps : decode_frame X lenient t b = Ok (Some (MGetPeerAddrs caps)) -> 4 <= lenN b.
Proof.
  intro E. pose proof (decode_type X lenient t b _ E) as Et. cbn [type_number] in Et. subst t.
  change (decode_frame X lenient 5 b) with (let! r := (do c <- get_peers_read; rret (@MGetPeerAddrs X c)) b in Ok (Some (fst r))) in E.
  unfold pbind in E. destruct (get_peers_read b) as [[c r]|e| |] eqn:R; try discriminate E. exact (read_be_need 4 b c r R).
Qed.
Lemma ping_need t b p : decode_frame X lenient t b = Ok (Some (MPing p)) -> 8 <= lenN b.
Proof.
  intro E. pose proof (decode_type X lenient t b _ E) as Et. cbn [type_number] in Et. subst t.
  change (decode_frame X lenient 3 b) with (let! r := (do c <- ping_read; rret (@MPing X c)) b in Ok (Some (fst r))) in E.
  unfold pbind at 1 in E. unfold ping_read, pbind at 1 in E.
  destruct (read_be 8 b) as [[d r]|e| |] eqn:R; try discriminate E. exact (read_be_need 8 b d r R).
Qed.

(** One answer at most, and its frame is at most 189 times as long as the question's. *)
Lemma one_answer c (n : node X S) t b m : decode_frame X lenient t b = Ok (Some m) ->
  (forall s r, x_resolve c s = Some r -> List.length (ip r) = 4%nat \/ List.length (ip r) = 16%nat) ->
  exists encs, Forall2 (fun a e => exists k, write_message X a = Ok (e, k)) (o_answers (process_message c n m)) encs /\
    (List.length (o_answers (process_message c n m)) <= 1)%nat /\ lenN (concat encs) <= 189 * (lenN b + 11).
Proof.
  intros D Rs.
  assert (Non : o_answers (process_message c n m) = [] -> exists encs, Forall2 (fun a e => exists k, write_message X a = Ok (e, k)) (o_answers (process_message c n m)) encs /\
    (List.length (o_answers (process_message c n m)) <= 1)%nat /\ lenN (concat encs) <= 189 * (lenN b + 11)).
  { intros ->. exists []. split; [constructor|]. split; [cbn; lia|]. unfold lenN at 1. cbn. lia. }
  assert (One : forall a e, o_answers (process_message c n m) = [a] -> msg_bytes X a = Ok e -> lenN e + 11 <= 189 * (lenN b + 11) ->
    exists encs, Forall2 (fun a e => exists k, write_message X a = Ok (e, k)) (o_answers (process_message c n m)) encs /\
    (List.length (o_answers (process_message c n m)) <= 1)%nat /\ lenN (concat encs) <= 189 * (lenN b + 11)).
  { intros a e -> Ee L. eexists [_]. split; [|split; [cbn; lia|]].
    - constructor; [|constructor]. unfold write_message. rewrite Ee. cbn [rbind]. eexists. reflexivity.
    - cbn [concat]. rewrite app_nil_r. unfold frame_header, magic_code. rewrite !lenN_app. unfold lenN at 1 2 3. rewrite !be_length. cbn [List.length].
      change (N.of_nat 2) with 2. change (N.of_nat 1) with 1. change (N.of_nat 8) with 8. lia. }
  destruct (match m with MPing _ | MGetPeerAddrs _ | MGetHeaders _ | MGetBlock _ => true | _ => false end) eqn:K.
  2:{ apply Non. apply silent. destruct m; auto; discriminate. }
  unfold process_message in *. destruct (peer_info _ _) as [i|]; [|now apply Non]. destruct m; try discriminate K; cbn [o_answers] in *.
  - eapply One; [reflexivity|reflexivity|]. pose proof (ping_need _ _ _ D). unfold ping_bytes. rewrite lenN_app. unfold lenN in *. rewrite !be_length. lia.
  - pose proof (get_peers_need _ _ _ D) as Nd.
    destruct (peers_prefix (x_resolve c) caps (pl_infos (nd_pool n)) (x_order c) []) as (k & A & L & _); [reflexivity|].
    fold (pool_peers (x_resolve c) caps (x_order c) (nd_pool n)) in *. set (l := pool_peers _ _ _ _) in *.
    destruct (addrs_encode l) as (e & Ee).
    { apply Forall_forall. intros r Ir. cbn [app] in A. rewrite A in Ir. apply in_firstn in Ir. unfold all_offers in Ir. apply in_flat_map in Ir.
      destruct Ir as ((s & j) & _ & Ir). cbn [fst snd] in Ir. destruct (nth_error _ j); [|destruct Ir]. destruct (offered _ _); [|destruct Ir].
      destruct (x_resolve c s) as [q|] eqn:Q; [|destruct Ir]. destruct Ir as [<-|[]]. exact (Rs _ _ Q). }
    pose proof (addrs_len _ _ Ee) as Le.
    eapply One; [reflexivity| |].
    + cbn [msg_bytes]. unfold peer_addrs_bytes. replace (max_peer_addrs <? lenN l) with false by (symmetry; apply N.ltb_ge; exact L).
      rewrite Ee. reflexivity.
    + rewrite lenN_app. unfold lenN at 1. rewrite be_length. change (N.of_nat 4) with 4. lia.
  - assert (Q : forall h, get_block_headers (nd_chain n) h = Ok [] \/ exists r, get_block_headers (nd_chain n) h = r /\ forall l, r <> Ok l).
    { intro h. unfold get_block_headers. generalize (if max_locators <? lenN h then takeN max_locators h else h). intro l.
      induction l as [|y l IH]; cbn; [auto|]. destruct (block_hash X (c_head (nd_chain n))) as [z|z| |]; cbn [rbind];
        try (right; eexists; split; [reflexivity|discriminate]).
      destruct (bytes_eqb y z); [auto|]. exact IH. }
    destruct (Q hs) as [Q1|(r & Q1 & Q2)]; rewrite Q1 in *.
    + eapply One; [reflexivity|reflexivity|]. match goal with |- lenN ?e + 11 <= _ => change (lenN e) with 2 end. lia.
    + destruct r as [l|e| |]; [elim (Q2 l); reflexivity| | |]; now apply Non.
  - assert (G : get_block (nd_chain n) h = None) by (unfold get_block; destruct h; reflexivity). rewrite G in *. now apply Non.
Qed.

Lemma answers_bound ms : forall i (n : node X S) ans n' frames outs,
  (forall i s r, x_resolve (ar_context w i) s = Some r -> List.length (ip r) = 4%nat \/ List.length (ip r) = 16%nat) ->
  Forall2 (fun f m => decode_frame X lenient (fst f) (snd f) = Ok m) frames outs -> flat_map some_list outs = ms ->
  handled w i n ms ans n' ->
  exists encs, Forall2 (fun a e => exists k, write_message X a = Ok (e, k)) ans encs /\
    (List.length ans <= List.length frames)%nat /\ lenN (concat encs) <= 189 * frames_size frames.
Proof.
  intros i n ans n' frames outs Rs D. revert ms i n ans n'. induction D as [|f o frames outs D1 D2 IH]; intros ms i n ans n' E H.
  - cbn in E. subst ms. destruct H as (-> & _). exists []. split; [constructor|]. split; [cbn; lia|vm_compute; discriminate].
  - change (frames_size (f :: frames)) with (lenN (snd f) + 11 + frames_size frames). cbn [List.length]. cbn [flat_map] in E. destruct o as [m|].
    + cbn [some_list app] in E. subst ms. destruct H as (more & _ & -> & H).
      destruct (one_answer (ar_context w i) (met w i n) _ _ m D1 (Rs i)) as (e1 & A1 & L1 & B1).
      destruct (IH _ _ _ _ _ eq_refl H) as (e2 & A2 & L2 & B2). exists (e1 ++ e2). split; [now apply Forall2_app|].
      rewrite app_length, concat_app, lenN_app. split; lia.
    + cbn [some_list app] in E. destruct (IH _ _ _ _ _ E H) as (e & A & L & B). exists e. split; [exact A|]. split; lia.
Qed.

Lemma frames_bytes frames : frames_size frames = lenN (flat_map whole frames).
Proof.
  induction frames as [|f frames IH]; [reflexivity|]. change (frames_size (f :: frames)) with (lenN (snd f) + 11 + frames_size frames).
  cbn [flat_map]. unfold whole at 1, frame_of. rewrite !lenN_app, IH. unfold lenN. rewrite !be_length. cbn [List.length].
  change (N.of_nat 2) with 2. change (N.of_nat 1) with 1. change (N.of_nat 8) with 8. lia.
Qed.
Lemma frames_split l f : frames_size (l ++ [f]) = frames_size l + (lenN (snd f) + 11).
Proof.
  rewrite !frames_bytes, flat_map_app. cbn [flat_map]. rewrite app_nil_r, lenN_app. f_equal.
  change (lenN (whole f)) with (lenN (frame_of (fst f) (snd f))). unfold frame_of. rewrite !lenN_app. unfold lenN. rewrite !be_length. cbn [List.length].
  change (N.of_nat 2) with 2. change (N.of_nat 1) with 1. change (N.of_nat 8) with 8. lia.
Qed.

Lemma run_bound fuel p (n : node X S) chunks : pe_sync p = true -> Forall (fun c : bytes => c <> []) chunks ->
  (forall i s r, x_resolve (ar_context w i) s = Some r -> List.length (ip r) = 4%nat \/ List.length (ip r) = 16%nat) ->
  exists encs, Forall2 (fun a e => exists k, write_message X a = Ok (e, k)) (sv_answers (run_peer lenient w fuel p n chunks)) encs /\
    lenN (concat encs) <= 189 * lenN (concat chunks) /\
    11 * lenN (sv_answers (run_peer lenient w fuel p n chunks)) <= lenN (concat chunks).
Proof.
  intros Hs F Rs. destruct (run_parses X S lenient w fuel p n chunks Hs F) as (fr & outs & tail & Eb & Fo & D & _ & _ & E).
  cbv zeta in E. rewrite Eb. rewrite lenN_app, <- frames_bytes.
  assert (M : 11 * lenN fr <= frames_size fr).
  { clear. induction fr as [|f fr IH]; [reflexivity|]. change (frames_size (f :: fr)) with (lenN (snd f) + 11 + frames_size fr). unfold lenN in *. cbn [List.length]. lia. }
  destruct (sv_stop (run_peer lenient w fuel p n chunks)) as [ex|e]; cbn [ended] in E.
  - destruct E as (Hh & _). destruct (answers_bound _ _ _ _ _ _ _ Rs D eq_refl Hh) as (encs & A & L & B).
    exists encs. split; [exact A|]. unfold lenN in *. split; lia.
  - destruct E as (before & m & n1 & ans1 & -> & Hh & E). cbv zeta in E. destruct E as (_ & _ & -> & _).
    apply Forall2_app_inv_r in D. destruct D as (fr0 & fr1 & D0 & D1 & ->). inversion D1 as [|f ? ? ? Df Dn Ef]; subst. inversion Dn; subst.
    destruct (answers_bound _ _ _ _ _ _ _ Rs D0 eq_refl Hh) as (e1 & A1 & L1 & B1).
    match goal with |- context [o_answers (process_message ?c ?n0 m)] => destruct (one_answer c n0 _ _ m Df (Rs _)) as (e2 & A2 & L2 & B2) end.
    exists (e1 ++ e2). split; [now apply Forall2_app|]. rewrite frames_split, concat_app, lenN_app in *. unfold lenN in *.
    rewrite app_length in *. cbn [List.length] in *. split; lia.
Qed.
End Answers.

(** ** Attacks *)
Section Attacks.
Context (X : Ext) (S : storage X) (lenient : bool) (w : around).

(** A shake whose claims do not matter, and a transaction without contents: 134 bytes in all. *)
Definition some_shake : shake := Shake 1 0 0 [] (brepeat x00 32).
Definition tx_frame : bytes := frame_of 15 (brepeat x00 56).

Lemma tx_kills fuel p (n : node X S) chunks me rest : pe_sync p = true -> Forall (fun c : bytes => c <> []) chunks ->
  concat chunks = tx_frame ++ rest -> around_ok me w -> entered me (nd_pool n) -> nd_mempool n = None ->
  sv_stop (run_peer lenient w (Datatypes.S fuel) p n chunks) = Stuck HPanic.
Proof.
  intros Hs F E A En Mp. unfold run_peer. rewrite Hs. destruct (src_of_chunks chunks F) as (So & Sb).
  destruct (serve_sim X S lenient w true (Datatypes.S fuel) 0 n [] 0 _ So) as (_ & _ & _ & E4). rewrite E4, Sb, E.
  assert (D : decode_frame X lenient 15 (brepeat x00 56) = Ok (Some (MTx (Transaction (brepeat x00 32) [] [] [])))) by (vm_compute; reflexivity).
  change tx_frame with (whole (15, brepeat x00 56)).
  rewrite (serve_frame X S lenient w true fuel 0 n [] 0 (15, brepeat x00 56) (Some (MTx (Transaction (brepeat x00 32) [] [] []))) rest); [|split; vm_compute; [reflexivity|discriminate]|exact D].
  cbv zeta. destruct (A 0%nat) as (Ame & Ap). specialize (Ap _ En). rewrite <- Ame in Ap.
  destruct (entered_sender (ar_context w 0) (met w 0 n) Ap) as (i & x & Sd).
  rewrite (tx_panics X S (ar_context w 0) (met w 0 n) i x _ Sd Mp). reflexivity.
Qed.

(** A peer without a syncer: nothing is handled. *)
Lemma unsynced fuel : forall i (n : node X S) ans c bs, let r := serve lenient w read_full false fuel i n ans c bs in
  sv_node r = n /\ sv_answers r = ans /\
  (forall frames f m rest outs, bs = flat_map whole frames ++ whole f ++ rest -> Forall frame_ok frames -> frame_ok f ->
     Forall2 (fun f o => decode_frame X lenient (fst f) (snd f) = Ok o) frames outs -> decode_frame X lenient (fst f) (snd f) = Ok (Some m) ->
     (List.length frames < fuel)%nat -> sv_stop r = Stuck HPanic).
Proof.
  induction fuel as [|fuel IH]; intros i n ans c bs; cbv zeta.
  - repeat split. intros. lia.
  - split; [|split].
    1-2: destruct (one_step X lenient bs) as [(f & m & rest & -> & Fo & D)|(ms & k & ex & rest & E & NC & _)];
      [rewrite (serve_frame X S lenient w false fuel i n ans c f m rest Fo D); destruct m; [reflexivity|apply IH]
      |rewrite (serve_stop X S lenient w false fuel i n ans c bs ms k ex rest E NC); reflexivity].
    intros frames f m rest outs E Fo Ff D Df L. destruct frames as [|g frames]; cbn [flat_map app] in E.
    + subst bs. now rewrite (serve_frame X S lenient w false fuel i n ans c f (Some m) rest Ff Df).
    + subst bs. inversion D as [|? o ? outs' D1 D2]; subst. inversion Fo; subst. rewrite <- app_assoc.
      rewrite (serve_frame X S lenient w false fuel i n ans c g o _) by assumption. destruct o as [m'|]; [reflexivity|].
      destruct (IH i n ans (w64 (c + (lenN (snd g) + 11))) (flat_map whole frames ++ whole f ++ rest)) as (_ & _ & K).
      apply (K frames f m rest outs'); auto. cbn [List.length] in L. lia.
Qed.
Lemma unsynced_run fuel p (n : node X S) chunks : pe_sync p = false -> Forall (fun c : bytes => c <> []) chunks ->
  let r := run_peer lenient w fuel p n chunks in
  sv_node r = n /\ sv_answers r = [] /\
  (forall frames f m rest outs, concat chunks = flat_map whole frames ++ whole f ++ rest -> Forall frame_ok frames -> frame_ok f ->
     Forall2 (fun f o => decode_frame X lenient (fst f) (snd f) = Ok o) frames outs -> decode_frame X lenient (fst f) (snd f) = Ok (Some m) ->
     (List.length frames < fuel)%nat -> sv_stop r = Stuck HPanic).
Proof.
  intros Hs F. cbv zeta. unfold run_peer. rewrite Hs. destruct (src_of_chunks chunks F) as (So & Sb).
  destruct (serve_sim X S lenient w false fuel 0 n [] 0 _ So) as (E1 & E2 & E3 & E4). rewrite E1, E2, E4, Sb.
  exact (unsynced fuel 0 n [] 0 (concat chunks)).
Qed.
Lemma accepted_unsynced nonces wr input p rest ops : accept_new_peer X lenient nonces wr input = (Ok (p, rest), ops) -> pe_sync p = false.
Proof.
  unfold accept_new_peer. destruct (hand_by_shake _ _ _ _ _) as [[[h r]|e| |] o]; try discriminate. intro E. injection E as <- _ _. reflexivity.
Qed.
Lemma dialled_synced name nonce a wr input p rest ops : new_peer X lenient name nonce a wr input = (Ok (p, rest), ops) -> pe_sync p = true.
Proof.
  unfold new_peer. destruct (shake_by_hand _ _ _ _ _) as [[[h r]|e| |] o]; try discriminate. intro E. injection E as <- _ _. reflexivity.
Qed.
End Attacks.
