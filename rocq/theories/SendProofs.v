(** Lemmas about what a node sends. *)
From Verif Require Import Send SpecServe SpecSend SpecCodec SpecConsensus SpecMessages SpecPool SpecSync SipProofs PowCodecProofs CodecProofs
  MessageProofs LoopProofs PoolProofs SyncProofs ServeProofs.

Section Run.
Context (X : Ext) (S : storage X) (lenient : bool) (w : around).

(** ** Frames that are handled are served *)
Lemma serve_all fs : forall ms fuel i (n : node X S) ans more n' c, Forall frame_ok fs ->
  Forall2 (fun f m => decode_frame X lenient (fst f) (snd f) = Ok (Some m)) fs ms -> handled w i n ms more n' ->
  (List.length fs < fuel)%nat ->
  let r := serve lenient w read_full true fuel i n ans c (flat_map whole fs) in
  sv_node r = n' /\ sv_answers r = ans ++ more /\ sv_stop r = Leave (Failed EOF).
Proof.
  induction fs as [|f fs IH]; intros ms fuel i n ans more n' c Fo D H L; (destruct fuel as [|fuel]; [cbn in L; lia|]).
  - inversion D; subst. destruct H as (-> & ->). cbn [flat_map]. rewrite app_nil_r. repeat split.
  - inversion D as [|? m ? ms' D1 D2]; subst. inversion Fo; subst. cbn [handled] in H. destruct H as (more' & He & -> & H).
    cbn [flat_map]. rewrite (serve_frame X S lenient w true fuel i n ans c f (Some m) (flat_map whole fs)) by assumption.
    cbv zeta. rewrite He. rewrite app_assoc. apply (IH ms'); auto. cbn in L. lia.
Qed.
Lemma run_all fs ms fuel p (n : node X S) chunks ans n' : pe_sync p = true -> Forall (fun c : bytes => c <> []) chunks ->
  concat chunks = flat_map whole fs -> Forall frame_ok fs ->
  Forall2 (fun f m => decode_frame X lenient (fst f) (snd f) = Ok (Some m)) fs ms -> handled w 0 n ms ans n' ->
  (List.length fs < fuel)%nat ->
  let r := run_peer lenient w fuel p n chunks in sv_node r = n' /\ sv_answers r = ans /\ sv_stop r = Leave (Failed EOF).
Proof.
  intros Hs F E Fo D H L. unfold run_peer. rewrite Hs. destruct (src_of_chunks chunks F) as (So & Sb).
  destruct (serve_sim X S lenient w true fuel 0 n [] 0 _ So) as (E1 & E2 & _ & E4). cbv zeta. rewrite E1, E2, E4, Sb, E.
  exact (serve_all fs ms fuel 0 n [] ans n' 0 Fo D H L).
Qed.

(** ** Frames of the messages at hand *)
Lemma decode_ping p : is_u64 (pg_difficulty p) -> is_u64 (pg_height p) -> decode_frame X lenient 3 (ping_bytes p) = Ok (Some (MPing p)).
Proof.
  intros A B. unfold decode_frame. change (existsb _ _) with true. cbv iota. unfold msg_read.
  change (3 =? type_error) with false. change (3 =? type_hand) with false. change (3 =? type_shake) with false. change (3 =? type_ping) with true.
  cbv iota. unfold pbind. rewrite <- (app_nil_r (ping_bytes p)), (ping_rt p [] A B). reflexivity.
Qed.
Lemma decode_pong p : is_u64 (pg_difficulty p) -> is_u64 (pg_height p) -> decode_frame X lenient 4 (ping_bytes p) = Ok (Some (MPong p)).
Proof.
  intros A B. unfold decode_frame. change (existsb _ _) with true. cbv iota. unfold msg_read.
  change (4 =? type_error) with false. change (4 =? type_hand) with false. change (4 =? type_shake) with false. change (4 =? type_ping) with false.
  change (4 =? type_pong) with true. cbv iota. unfold pbind. rewrite <- (app_nil_r (ping_bytes p)), (ping_rt p [] A B). reflexivity.
Qed.
Lemma decode_addrs b l : (forall rest, peer_addrs_read lenient (b ++ rest) = Ok (l, rest)) -> decode_frame X lenient 6 b = Ok (Some (MPeerAddrs l)).
Proof.
  intro R. unfold decode_frame. change (existsb _ _) with true. cbv iota. unfold msg_read.
  change (6 =? type_error) with false. change (6 =? type_hand) with false. change (6 =? type_shake) with false. change (6 =? type_ping) with false.
  change (6 =? type_pong) with false. change (6 =? type_get_peer_addrs) with false. change (6 =? type_peer_addrs) with true.
  cbv iota. unfold pbind. rewrite <- (app_nil_r b), R. reflexivity.
Qed.
Lemma decode_get_peers : decode_frame X lenient 5 (be 4 7) = Ok (Some (MGetPeerAddrs 7)).
Proof. vm_compute. reflexivity. Qed.

(** ** The greeting: C83 *)
Lemma recorded_sender c (n n' : node X S) i x td h : sender c n i x -> recorded i td h (nd_pool n) (nd_pool n') ->
  exists x', sender c n' i x'.
Proof.
  intros (I & Nd & _) (_ & _ & Et & _ & _ & _ & _ & y & _ & E). eexists. unfold sender. rewrite Et. repeat split; [exact I|exact Nd|exact E].
Qed.
Lemma greeted fuel p (n : node X S) chunks encs i x : pe_sync p = true -> Forall (fun c : bytes => c <> []) chunks ->
  Forall2 (fun m e => exists k, write_message X m = Ok (e, k)) (greeting X) encs -> concat chunks = concat encs ->
  sender (ar_context w 0) (met w 0 n) i x -> x_me (ar_context w 1) = x_me (ar_context w 0) -> (forall q, ar_pool w 1 q = q) -> (2 < fuel)%nat ->
  let r := run_peer lenient w fuel p n chunks in
  recorded i 1 1 (nd_pool (met w 0 n)) (nd_pool (sv_node r)) /\ nd_chain (sv_node r) = nd_chain n /\
  (exists l, sv_answers r = [MPong (PingMsg (c_td (nd_chain n)) (c_height (nd_chain n))); MPeerAddrs l]) /\ sv_stop r = Leave (Failed EOF).
Proof.
  intros Hs F W E Sd Me Ap L. cbv zeta.
  assert (Ee : concat encs = flat_map whole [(3, ping_bytes (PingMsg 1 1)); (5, be 4 7)]).
  { inversion W as [|? e1 ? l1 (k1 & W1) W']; subst. inversion W' as [|? e2 ? l2 (k2 & W2) W'']; subst. inversion W''; subst.
    apply Ok_inj in W1, W2. assert (E1 := f_equal fst W1). assert (E2 := f_equal fst W2). cbn [fst] in E1, E2. subst e1 e2. reflexivity. }
  destruct (ping_handled X S (ar_context w 0) (met w 0 n) i x (PingMsg 1 1) Sd) as (H1 & H2 & _ & H3). cbv zeta in H1, H2, H3.
  set (o := process_message (ar_context w 0) (met w 0 n) (MPing (PingMsg 1 1))) in *.
  assert (Pi : peer_info (x_me (ar_context w 1)) (nd_pool (met w 1 (o_node o))) = Some i).
  { unfold met. cbn [with_pool nd_pool]. rewrite Ap, Me.
    destruct (recorded_sender (ar_context w 0) (met w 0 n) (o_node o) i x 1 1 Sd H3) as (x' & Sd'). exact (sender_info X S _ _ _ _ Sd'). }
  destruct (run_all [(3, ping_bytes (PingMsg 1 1)); (5, be 4 7)] [MPing (PingMsg 1 1); MGetPeerAddrs 7] fuel p n chunks
    (o_answers o ++ [MPeerAddrs (pool_peers (x_resolve (ar_context w 1)) 7 (x_order (ar_context w 1)) (nd_pool (met w 1 (o_node o))))])
    (met w 1 (o_node o)) Hs F (eq_trans E Ee)) as (R1 & R2 & R3).
  - constructor; [|constructor; [|constructor]]; split; vm_compute; first [reflexivity|discriminate].
  - constructor; [exact (decode_ping (PingMsg 1 1) eq_refl eq_refl)|]. constructor; [exact decode_get_peers|constructor].
  - cbn [handled]. fold o. eexists. split; [exact H1|]. split; [reflexivity|].
    unfold process_message. rewrite Pi. exists []. split; [reflexivity|]. split; [reflexivity|]. split; reflexivity.
  - exact L.
  - rewrite R1, R2, R3, H2. split; [|split; [|split; [eexists; reflexivity|reflexivity]]].
    + unfold met at 2. cbn [with_pool nd_pool]. rewrite Ap. exact H3.
    + change (nd_chain (met w 1 (o_node o))) with (nd_chain (o_node o)). unfold o. rewrite chain_kept. reflexivity.
Qed.
Lemma pong_taken fuel p (n : node X S) chunks e k i x td h : pe_sync p = true -> Forall (fun c : bytes => c <> []) chunks ->
  is_u64 td -> is_u64 h -> write_message X (MPong (PingMsg td h)) = Ok (e, k) -> concat chunks = e ->
  sender (ar_context w 0) (met w 0 n) i x -> (1 < fuel)%nat ->
  let r := run_peer lenient w fuel p n chunks in
  recorded i td h (nd_pool (met w 0 n)) (nd_pool (sv_node r)) /\ sv_answers r = [] /\ sv_stop r = Leave (Failed EOF).
Proof.
  intros Hs F Ht Hh W E Sd L. cbv zeta.
  destruct (pong_handled X S (ar_context w 0) (met w 0 n) i x (PingMsg td h) Sd) as (H1 & H2 & _ & H3). cbv zeta in H1, H2, H3.
  destruct (run_all [(4, ping_bytes (PingMsg td h))] [MPong (PingMsg td h)] fuel p n chunks []
    (o_node (process_message (ar_context w 0) (met w 0 n) (MPong (PingMsg td h)))) Hs F) as (R1 & R2 & R3).
  - apply Ok_inj in W. assert (E1 := f_equal fst W). cbn [fst] in E1. rewrite E, <- E1. cbn [flat_map]. now rewrite app_nil_r.
  - constructor; [|constructor]. split; [reflexivity|]. cbn [snd]. unfold ping_bytes, lenN. rewrite app_length, !be_length. vm_compute. discriminate.
  - constructor; [exact (decode_pong (PingMsg td h) Ht Hh)|constructor].
  - cbn [handled]. exists []. rewrite H2. split; [exact H1|]. repeat split.
  - exact L.
  - rewrite R1, R2, R3. split; [exact H3|split; reflexivity].
Qed.

(** ** Requests: C84 *)
Lemma no_request c (n : node X S) m a : In a (o_answers (process_message c n m)) -> ~ request X a.
Proof.
  intros I R. destruct m; try (rewrite silent in I by exact Logic.I; exact I).
  all: unfold process_message in I; destruct (peer_info _ _); [|exact I].
  - destruct I as [<-|[]]. exact R.
  - destruct I as [<-|[]]. exact R.
  - destruct (get_block_headers _ _); cbn [o_answers] in I; try (now elim I). destruct I as [<-|[]]. exact R.
  - destruct (get_block _ _); cbn [o_answers] in I; try (now elim I). destruct I as [<-|[]]. exact R.
Qed.
Lemma serve_requests {B} (rf : N -> B -> res (bytes * B)) synced fuel : forall i (n : node X S) ans c s,
  (forall a, In a ans -> ~ request X a) -> forall a, In a (sv_answers (serve lenient w rf synced fuel i n ans c s)) -> ~ request X a.
Proof.
  induction fuel as [|fuel IH]; intros i n ans c s H; [exact H|]. cbn [serve].
  destruct (src_header rf s) as [[[t len] s1]| | |]; try exact H. destruct (max_msg_len <? len); [exact H|].
  destruct (rf len s1) as [[b s2]| | |]; try exact H. destruct (decode_frame X lenient t b) as [[m|]| | |]; try exact H; [|now apply IH].
  destruct synced; [|exact H]. cbv zeta.
  assert (H' : forall a, In a (ans ++ o_answers (process_message (ar_context w i) (met w i n) m)) -> ~ request X a).
  { intros a I. apply in_app_or in I as [I|I]; [now apply H|now apply no_request in I]. }
  destruct (o_end _); [now apply IH|exact H'|exact H'|exact H'].
Qed.
Lemma never_asks fuel p (n : node X S) chunks a : In a (outgoing X (run_peer lenient w fuel p n chunks)) -> ~ request X a.
Proof.
  intro I. apply in_app_or in I as [I|I].
  - destruct I as [<-|[<-|[]]]; exact (fun r => r).
  - revert I. apply serve_requests. intros ? [].
Qed.
End Run.

(** ** Addresses: C85 *)
Lemma table_grows r a p : lenN (pl_table (pool_add r a p)) <= lenN (pl_table p) + 1.
Proof. destruct (add_cases r a p) as [->|(_ & _ & _ & ->)]; [lia|]. cbn [pl_table set_table]. unfold lenN. cbn [List.length]. lia. Qed.
Lemma add_key r a p b : In b (map fst (pl_table p)) -> In b (map fst (pl_table (pool_add r a p))).
Proof. intro I. destruct (add_cases r a p) as [->|(_ & _ & _ & ->)]; [exact I|]. cbn [pl_table set_table map fst]. now right. Qed.
Lemma adds_key l : forall p b, In b (map fst (pl_table p)) -> In b (map fst (pl_table (adds l p))).
Proof. induction l as [|c l IH]; intros p b I; [exact I|]. apply (IH (pool_add (fst c) (snd c) p)). now apply add_key. Qed.
Lemma adds_in l : forall p r a, In (r, a) l -> usable r -> lenN (pl_table p) + lenN l <= 10001 -> In a (map fst (pl_table (adds l p))).
Proof.
  induction l as [|c l IH]; intros p r a I U L; [elim I|].
  assert (Lc : lenN (c :: l) = 1 + lenN l) by (unfold lenN; cbn [List.length]; lia).
  change (In a (map fst (pl_table (adds l (pool_add (fst c) (snd c) p))))). destruct I as [->|I].
  - apply adds_key. cbn [fst snd]. destruct (in_dec (list_eq_dec Byte.byte_eq_dec) a (map fst (pl_table p))) as [K|K]; [now apply add_key|].
    rewrite add_new; [now left|exact U|exact K|lia].
  - apply (IH _ r a I U). pose proof (table_grows (fst c) (snd c) p). lia.
Qed.
Lemma adds_from l : forall p b, In b (map fst (pl_table (adds l p))) -> In b (map fst (pl_table p)) \/ exists r, In (r, b) l /\ usable r.
Proof.
  induction l as [|c l IH]; intros p b H; [auto|]. destruct (IH (pool_add (fst c) (snd c) p) b H) as [H'|(r & I & U)].
  - apply in_map_iff in H'. destruct H' as ((b' & i) & E & I). cbn in E. subst b'. destruct (add_only _ _ _ _ _ I) as [I'|(-> & U & _)].
    + left. apply in_map_iff. now exists (b, i).
    + right. exists (fst c). split; [left; now destruct c|exact U].
  - right. exists r. split; [now right|exact U].
Qed.

Section Gossip.
Context (X : Ext) (S : storage X) (lenient : bool) (w : around).

Lemma Forall2_in_l {A B} (R : A -> B -> Prop) l l' a : Forall2 R l l' -> In a l -> exists b, In b l' /\ R a b.
Proof. induction 1 as [|x y l l' H _ IH]; intros []; [subst; exists y; split; [now left|exact H]|]. destruct IH as (b & I & Rb); [assumption|]. exists b. split; [now right|exact Rb]. Qed.
Lemma Forall2_in_r {A B} (R : A -> B -> Prop) l l' b : Forall2 R l l' -> In b l' -> exists a, In a l /\ R a b.
Proof. induction 1 as [|x y l l' H _ IH]; intros []; [subst; exists x; split; [now left|exact H]|]. destruct IH as (a & I & Ra); [assumption|]. exists a. split; [now right|exact Ra]. Qed.

Lemma Forall2_len {A B} (R : A -> B -> Prop) l l' : Forall2 R l l' -> List.length l = List.length l'.
Proof. induction 1; cbn; congruence. Qed.

Lemma gossip (c : context) (b : node X S) i x caps fuel p (a : node X S) j y :
  sender c b i x -> valid_table (nd_pool b) -> Permutation (x_order c) (pl_table (nd_pool b)) ->
  (forall s r, x_resolve c s = Some r -> ipv4 r /\ port_ok r) ->
  pe_sync p = true -> sender (ar_context w 0) (met w 0 a) j y -> (1 < fuel)%nat ->
  exists l e k, o_answers (process_message c b (MGetPeerAddrs caps)) = [MPeerAddrs l] /\ write_message X (MPeerAddrs l) = Ok (e, k) /\
  forall chunks, Forall (fun c : bytes => c <> []) chunks -> concat chunks = e ->
  let r := run_peer lenient w fuel p a chunks in let know q := In q (map fst (pl_table (nd_pool (sv_node r)))) in
  let had q := In q (map fst (pl_table (nd_pool (met w 0 a)))) in
  sv_answers r = [] /\ sv_stop r = Leave (Failed EOF) /\ (forall q, had q -> know q) /\
  (forall q, know q -> had q \/ exists s n z u u', In (s, n) (pl_table (nd_pool b)) /\ nth_error (pl_infos (nd_pool b)) n = Some z /\ eligible caps z /\
     x_resolve c s = Some u /\ same_endpoint u u' /\ q = x_string (ar_context w 0) u') /\
  (lenN l < 256 -> lenN (pl_table (nd_pool (met w 0 a))) + lenN l <= 10001 ->
   forall s n z u, In (s, n) (pl_table (nd_pool b)) -> nth_error (pl_infos (nd_pool b)) n = Some z -> eligible caps z -> x_resolve c s = Some u ->
     exists u', same_endpoint u u' /\
       (usable (x_resolve (ar_context w 0) (x_string (ar_context w 0) u')) -> know (x_string (ar_context w 0) u'))).
Proof.
  intros Sb V P Rs Hs Sa L.
  destruct (get_peers_handled X S c b i x caps Sb V P) as (l & El & Ll & Lo & La). exists l.
  destruct (peer_addrs_rt lenient l Ll) as (bs & l' & Eb & Se & Lb & Rd).
  { apply Forall_forall. intros u I. destruct (Lo u I) as (? & ? & ? & _ & _ & _ & R). exact (Rs _ _ R). }
  eexists _, _. split; [rewrite El; reflexivity|].
  split; [unfold write_message; cbn [msg_bytes]; rewrite Eb; cbn [rbind]; reflexivity|].
  intros chunks F E. cbv zeta.
  pose proof (peers_handled X S (ar_context w 0) (met w 0 a) j y l' Sa) as Hp.
  set (adding := map (fun u => (x_resolve (ar_context w 0) (x_string (ar_context w 0) u), x_string (ar_context w 0) u)) l') in *.
  destruct (run_all X S lenient w [(6, bs)] [MPeerAddrs l'] fuel p a chunks [] (o_node (process_message (ar_context w 0) (met w 0 a) (MPeerAddrs l'))) Hs F) as (R1 & R2 & R3).
  - rewrite E. cbn [flat_map]. now rewrite app_nil_r.
  - constructor; [|constructor]. split; [reflexivity|]. cbn [snd]. rewrite Lb. lia.
  - constructor; [exact (decode_addrs X lenient bs l' Rd)|constructor].
  - cbn [handled]. exists []. rewrite Hp. repeat split.
  - exact L.
  - rewrite R1, R2, R3, Hp. cbn [o_node nd_pool]. split; [reflexivity|]. split; [reflexivity|]. split; [intro q; apply adds_key|]. split.
    + intros q I. apply adds_from in I as [I|(r & I & _)]; [now left|]. right. apply in_map_iff in I as (u' & Eu & I).
      destruct (Forall2_in_r _ _ _ _ Se I) as (u & Iu & Su). destruct (Lo u Iu) as (s & n & z & A1 & A2 & A3 & A4).
      exists s, n, z, u, u'. repeat split; auto; try apply Su; try apply A3. congruence.
    + intros L1 L2 s n z u A1 A2 A3 A4. destruct (Forall2_in_l _ _ _ _ Se (La L1 s n z u A1 A2 A3 A4)) as (u' & Iu & Su).
      exists u'. split; [exact Su|]. intro U. apply (adds_in adding _ (x_resolve (ar_context w 0) (x_string (ar_context w 0) u'))).
      * apply in_map_iff. now exists u'.
      * exact U.
      * unfold adding. unfold lenN in *. rewrite map_length. rewrite <- (Forall2_len _ _ _ Se). exact L2.
Qed.
End Gossip.
