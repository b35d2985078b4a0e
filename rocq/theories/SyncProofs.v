(** Lemmas about the syncer. *)
From Verif Require Import Sync SpecPool SpecSync SpecCodec SpecConsensus SpecRules CodecProofs RulesProofs BlockCodecProofs MessageProofs LoopProofs ChainProofs PoolProofs.

Lemma lookup_unique {A} k (l : list (bytes * A)) v : NoDup (map fst l) -> In (k, v) l -> lookup k l = Some v.
Proof.
  induction l as [|(k', v') l IH]; cbn; [tauto|]. intros Nd I. inversion Nd as [|? ? N1 N2]; subst. destruct (bytes_eqb k k') eqn:E.
  - apply bytes_eqb_eq in E. subst k'. destruct I as [I|I]; [congruence|]. elim N1. apply in_map_iff. now exists (k, v).
  - destruct I as [I|I]; [|auto]. injection I as -> ->. rewrite bytes_eqb_refl in E. discriminate.
Qed.
Lemma upd_recorded i td h p x : nth_error (pl_infos p) i = Some x -> recorded i td h p (upd p i (with_record td h)).
Proof.
  intro N. unfold recorded, upd. cbn [set_infos pl_connected pl_slots pl_table pl_up pl_bans pl_infos]. do 5 (split; [reflexivity|]).
  split; [apply update_length|]. split.
  - intros j J. rewrite update_nth. destruct (Nat.eqb_spec i j); [congruence|reflexivity].
  - exists x. split; [exact N|]. rewrite update_nth, Nat.eqb_refl, N. reflexivity.
Qed.

Section Syncer.
Context (X : Ext) (S : storage X).
Implicit Types (n : node X S) (c : context) (m : message X).

Lemma sender_info c n i x : sender c n i x -> peer_info (x_me c) (nd_pool n) = Some i.
Proof. intros (I & Nd & _). unfold peer_info. now apply lookup_unique. Qed.

Lemma ping_handled c n i x p : sender c n i x ->
  let o := process_message c n (MPing p) in
  o_end o = HDone /\ o_answers o = [MPong (PingMsg (c_td (nd_chain n)) (c_height (nd_chain n)))] /\ o_relay o = [] /\
  recorded i (pg_difficulty p) (pg_height p) (nd_pool n) (nd_pool (o_node o)).
Proof.
  intros H. unfold process_message. rewrite (sender_info c n i x H). destruct H as (_ & _ & N).
  do 3 (split; [reflexivity|]). now apply upd_recorded with x.
Qed.
Lemma pong_handled c n i x p : sender c n i x ->
  let o := process_message c n (MPong p) in
  o_end o = HDone /\ o_answers o = [] /\ o_relay o = [] /\
  recorded i (pg_difficulty p) (pg_height p) (nd_pool n) (nd_pool (o_node o)).
Proof.
  intros H. unfold process_message. rewrite (sender_info c n i x H). destruct H as (_ & _ & N).
  do 3 (split; [reflexivity|]). now apply upd_recorded with x.
Qed.

Lemma get_headers_handled c n i x hs l : sender c n i x -> get_block_headers (nd_chain n) hs = Ok l ->
  process_message c n (MGetHeaders hs) = Outcome HDone n [MHeaders l] [].
Proof. intros H E. unfold process_message. now rewrite (sender_info c n i x H), E. Qed.
Lemma get_block_handled c n i x h : sender c n i x ->
  process_message c n (MGetBlock h) =
    Outcome HDone n (match get_block (nd_chain n) h with Some b => [MBlock b] | None => [] end) [].
Proof. intros H. unfold process_message. rewrite (sender_info c n i x H). now destruct (get_block (nd_chain n) h). Qed.
Lemma get_block_answered c n i x h : sender c n i x -> h <> [] ->
  process_message c n (MGetBlock h) =
    Outcome HDone n (match st_get S (c_store (nd_chain n)) (BlockId (Some h) None) with Some b => [MBlock b] | None => [] end) [].
Proof. intros H E. rewrite (get_block_handled c n i x h H). unfold get_block. now destruct h. Qed.
Lemma get_peers_handled c n i x caps : sender c n i x -> valid_table (nd_pool n) -> Permutation (x_order c) (pl_table (nd_pool n)) ->
  exists l, process_message c n (MGetPeerAddrs caps) = Outcome HDone n [MPeerAddrs l] [] /\ lenN l <= 256 /\
    (forall r, In r l -> exists a j y, In (a, j) (pl_table (nd_pool n)) /\ nth_error (pl_infos (nd_pool n)) j = Some y /\ eligible caps y /\
       x_resolve c a = Some r) /\
    (lenN l < 256 -> forall a j y r, In (a, j) (pl_table (nd_pool n)) -> nth_error (pl_infos (nd_pool n)) j = Some y -> eligible caps y ->
       x_resolve c a = Some r -> In r l).
Proof.
  intros H V P. unfold process_message. rewrite (sender_info c n i x H). eexists. split; [reflexivity|].
  exact (peers_ok (x_resolve c) caps (x_order c) (nd_pool n) V P).
Qed.
Lemma peers_handled c n i x l : sender c n i x ->
  process_message c n (MPeerAddrs l) =
    Outcome HDone (Node (nd_chain n) (adds (map (fun a => (x_resolve c (x_string c a), x_string c a)) l) (nd_pool n)) (nd_mempool n)) [] [].
Proof.
  intros H. unfold process_message. rewrite (sender_info c n i x H). unfold with_pool. do 2 f_equal. unfold adds.
  generalize (nd_pool n). induction l as [|a l IH]; intro p; [reflexivity|]. cbn. apply IH.
Qed.

Lemma banning_chain c n k : (forall n', nd_chain n' = nd_chain n -> nd_chain (o_node (k n')) = nd_chain n) ->
  nd_chain (o_node (banning c n k)) = nd_chain n.
Proof. intro H. unfold banning. destruct (pool_ban _ _ _) as [[] p]; try reflexivity. now apply H. Qed.
Lemma chain_kept c n m : nd_chain (o_node (process_message c n m)) = nd_chain n.
Proof.
  unfold process_message. destruct (peer_info _ _) as [i|]; [|reflexivity].
  destruct m; try reflexivity.
  - destruct (get_block_headers _ _); reflexivity.
  - destruct (fst (process_headers _ _ _)); reflexivity.
  - destruct (fst (process_headers _ _ _)); try reflexivity. apply banning_chain. auto.
  - destruct (get_block _ _); reflexivity.
  - destruct (fst (process_block _ _ _)); try reflexivity. apply banning_chain. auto.
  - destruct (nd_mempool n) as [f|]; [|reflexivity]. destruct (f t); try reflexivity. apply banning_chain. auto.
Qed.
Lemma banning_answers c n k : (forall n', o_answers (k n') = []) -> o_answers (banning c n k) = [].
Proof. intro H. unfold banning. destruct (pool_ban _ _ _) as [[] p]; auto. Qed.
Lemma silent c n m : match m with MPing _ | MGetPeerAddrs _ | MGetHeaders _ | MGetBlock _ => False | _ => True end ->
  o_answers (process_message c n m) = [].
Proof.
  intro K. unfold process_message. destruct (peer_info _ _) as [i|]; [|reflexivity].
  destruct m; try contradiction; try reflexivity.
  - destruct (fst (process_headers _ _ _)); reflexivity.
  - destruct (fst (process_headers _ _ _)); try reflexivity. now apply banning_answers.
  - destruct (fst (process_block _ _ _)); try reflexivity. now apply banning_answers.
  - destruct (nd_mempool n) as [f|]; [|reflexivity]. destruct (f t); try reflexivity. now apply banning_answers.
Qed.

(** ** Safety *)
Lemma ban_unlisted c n k : ~ remote_listed c n -> banning c n k = k (with_pool n (nd_pool n)).
Proof. intro H. unfold banning, pool_ban. now rewrite (proj2 (lookup_none _ _) H). Qed.
Lemma ban_listed c n k : remote_listed c n -> pl_bans (nd_pool n) = None ->
  o_end (banning c n k) = HPanic \/ o_end (banning c n k) = HHang.
Proof.
  intros H B. unfold banning, pool_ban. destruct (lookup _ _) as [j|] eqn:L; [|elim (proj1 (lookup_none _ _) L); exact H].
  destruct (nth_error _ j) as [y|]; [|auto]. destruct (i_peer y) as [k'|]; [|auto]. destruct (x_closes c k'); [|auto].
  unfold upd. cbn [pl_bans set_infos]. rewrite B. auto.
Qed.
Lemma ban_own c n k j y cn : In (x_remote c, j) (pl_table (nd_pool n)) -> NoDup (map fst (pl_table (nd_pool n))) ->
  nth_error (pl_infos (nd_pool n)) j = Some y -> i_peer y = Some cn -> x_closes c cn = false -> o_end (banning c n k) = HHang.
Proof.
  intros I Nd N P H. unfold banning, pool_ban. rewrite (lookup_unique _ _ _ Nd I). unfold upd. cbn [pl_infos set_infos].
  rewrite update_nth, Nat.eqb_refl, N. cbn [i_peer with_status]. rewrite P, H. reflexivity.
Qed.

Lemma refused_ends c n m i x : sender c n i x -> refused c n m -> exists k, process_message c n m = banning c n k /\
  (forall n', o_end (k n') = HDone).
Proof.
  intros H R. unfold process_message. rewrite (sender_info c n i x H). destruct m; try contradiction; cbn [refused] in R.
  - destruct R as (e & ->). eexists. split; [reflexivity|reflexivity].
  - destruct R as (e & ->). eexists. split; [reflexivity|reflexivity].
  - destruct R as (f & e & -> & E). rewrite E. eexists. split; [reflexivity|reflexivity].
Qed.
Lemma refused_listed c n m i x : sender c n i x -> refused c n m -> remote_listed c n -> pl_bans (nd_pool n) = None ->
  o_end (process_message c n m) = HPanic \/ o_end (process_message c n m) = HHang.
Proof. intros H R L B. destruct (refused_ends c n m i x H R) as (k & -> & _). now apply ban_listed. Qed.
Lemma refused_own c n m i x cn : sender c n i x -> refused c n m -> x_remote c = x_me c -> i_peer x = Some cn -> x_closes c cn = false ->
  o_end (process_message c n m) = HHang.
Proof.
  intros H R E P F. destruct (refused_ends c n m i x H R) as (k & -> & _). destruct H as (I & Nd & N). apply (ban_own c n k i x cn); auto. now rewrite E.
Qed.
Lemma tx_panics c n i x t : sender c n i x -> nd_mempool n = None -> o_end (process_message c n (MTx t)) = HPanic.
Proof. intros H E. unfold process_message. now rewrite (sender_info c n i x H), E. Qed.

(** What the read loop hands over. *)
Lemma read_n_forall {A} (p : reader A) (P : A -> Prop) : (forall bs a rest, p bs = Ok (a, rest) -> P a) ->
  forall k bs l rest, read_n k p bs = Ok (l, rest) -> Forall P l.
Proof.
  intro H. induction k as [|k IH]; cbn; intros bs l rest E.
  - injection E as <- _. constructor.
  - apply pbind_inv in E as (a & m1 & R1 & E). apply pbind_inv in E as (t & m2 & R2 & E). injection E as <- _.
    constructor; [exact (H _ _ _ R1)|exact (IH _ _ _ R2)].
Qed.
Definition wire_ok m : Prop :=
  match m with
  | MHeader h => header_sized h /\ exists d, header_hash X h = Ok d
  | MHeaders l => Forall header_sized l
  | MBlock b => header_sized (b_header b) /\ exists d, block_hash X b = Ok d
  | MError _ | MHand _ | MShake _ | MCompact _ => False
  | _ => True
  end.
Lemma received_ok lenient m : received lenient m -> wire_ok m.
Proof.
  intros (t & body & E). unfold decode_frame in E.
  destruct (existsb _ _) eqn:Ex.
  - destruct (msg_read X lenient t body) as [(m0, rest)|e| |] eqn:R; try discriminate E. cbn in E. injection E as <-.
    apply existsb_exists in Ex. destruct Ex as (u & I & Eu). apply N.eqb_eq in Eu. subst u.
    destruct I as [<-|[<-|[<-|[<-|[<-|[<-|[<-|[<-|[<-|[]]]]]]]]]]; unfold msg_read in R;
      repeat match type of R with (if ?b then _ else _) _ = _ => let v := eval vm_compute in b in change b with v in R; cbv iota in R end;
      apply pbind_inv in R as (v & m1 & R1 & R); injection R as <- _; cbn; auto.
    + destruct (header_read_inv _ _ _ R1) as ((_ & Hs & _) & _). split; [exact Hs|]. exact (proj1 (wire_header_safe X (GoTime 0 0) _ _ _ R1)).
    + unfold headers_read in R1. apply pbind_inv in R1 as (k & m2 & _ & R1). destruct (_ <? _); [discriminate|].
      apply (read_n_forall header_read header_sized) in R1; [exact R1|]. intros bs h r Rh. destruct (header_read_inv _ _ _ Rh) as ((_ & Hs & _) & _). exact Hs.
  - destruct (t =? type_block).
    + destruct (block_read X body) as [(b, rest)|e| |] eqn:R; try discriminate E. cbn [rbind fst] in E.
      destruct (header_hash X (b_header b)) eqn:Hh; try discriminate E. injection E as <-. cbn.
      destruct (block_read_header X _ _ _ R) as (rest' & Rh). destruct (header_read_inv _ _ _ Rh) as ((_ & Hs & _) & _). split; [exact Hs|].
      eexists. exact Hh.
    + destruct (t =? type_get_compact_block); [discriminate E|]. destruct (t =? type_compact_block); [|discriminate E].
      destruct (compact_read X body) as [r|e| |]; try discriminate E. cbn [rbind] in E. destruct (header_hash X _); discriminate E.
Qed.
Lemma headers_survive clock l : forall i, Forall header_sized l -> survives (process_headers_from X clock i l).
Proof.
  induction l as [|h l IH]; intros i F; [split; discriminate|]. inversion F; subst. cbn. apply rbind_safe; [now apply header_survives|]. intros []. auto.
Qed.
Lemma block_survives_chain now (ch : chain X S) b : sound_chain ch -> header_sized (b_header b) -> (exists d, block_hash X b = Ok d) ->
  survives (fst (process_block now ch b)).
Proof.
  intros ((hh & Eh) & Sd) Z (bh & Eb). unfold process_block. cbn [fst]. rewrite Eh, Eb. cbn [rbind]. destruct (bytes_eqb hh bh); [split; discriminate|].
  apply rbind_safe; [now apply block_survives|]. intros _. destruct (st_get S _ _) as [prev|] eqn:G; [|split; discriminate].
  destruct (negb _); [split; discriminate|]. destruct (Sd _ _ G) as (d & ->). cbn [rbind]. destruct (negb _); [split; discriminate|].
  rewrite next_difficulty_eq. destruct (List.length _) as [|k]; [|destruct (Nat.eqb _ _)]; cbn [rbind]; destruct (_ <? _); split; discriminate.
Qed.
Lemma headers_answer (ch : chain X S) hs : (exists d, block_hash X (c_head ch) = Ok d) -> exists l, get_block_headers ch hs = Ok l.
Proof.
  intros (d & E). unfold get_block_headers. generalize (if max_locators <? lenN hs then takeN max_locators hs else hs).
  intro l. induction l as [|h l IH]; cbn; [eauto|]. rewrite E. cbn [rbind]. destruct (bytes_eqb h d); [eauto|]. destruct (st_from S _ _ _); eauto.
Qed.

Lemma safe_otherwise lenient c n m i x : sender c n i x -> sound_chain (nd_chain n) -> received lenient m ->
  (forall f t, nd_mempool n = Some f -> survives (f t)) ->
  o_end (process_message c n m) = HDone \/ (exists t, m = MTx t /\ nd_mempool n = None) \/ (refused c n m /\ remote_listed c n).
Proof.
  intros H Sc R Mp. apply received_ok in R. 
  assert (Rf : refused c n m -> o_end (process_message c n m) = HDone \/ (refused c n m /\ remote_listed c n)).
  { intro Hr. destruct (lookup (x_remote c) (pl_table (nd_pool n))) as [j|] eqn:L.
    - right. split; [exact Hr|]. apply lookup_in in L. unfold remote_listed. apply in_map_iff. now exists (x_remote c, j).
    - left. destruct (refused_ends c n m i x H Hr) as (k & -> & K). rewrite ban_unlisted; [apply K|]. now apply lookup_none. }
  destruct m; cbn [wire_ok] in R; try contradiction;
    try (left; unfold process_message; rewrite (sender_info c n i x H); reflexivity).
  - left. destruct (headers_answer (nd_chain n) hs) as (l & E); [apply Sc|]. rewrite (get_headers_handled c n i x hs l H E). reflexivity.
  - left. destruct R as (Hs & d & Ed). unfold process_message. rewrite (sender_info c n i x H).
    pose proof (headers_survive (x_clock c) [h] 0 (Forall_cons _ Hs (Forall_nil _))) as (A & B).
    unfold process_headers. cbn [fst]. destruct (process_headers_from X (x_clock c) 0 [h]); try contradiction; now rewrite Ed.
  - pose proof (headers_survive (x_clock c) l 0 R) as (A & B). destruct (process_headers_from X (x_clock c) 0 l) as [u|e| |] eqn:E; try contradiction.
    + left. unfold process_message. rewrite (sender_info c n i x H). unfold process_headers. cbn [fst]. now rewrite E.
    + destruct Rf as [?|?]; auto. now exists e.
  - left. rewrite (get_block_handled c n i x h H). reflexivity.
  - destruct R as (Hs & Hd). pose proof (block_survives_chain (x_clock c 0%nat) (nd_chain n) b Sc Hs Hd) as (A & B).
    destruct (fst (process_block (x_clock c 0%nat) (nd_chain n) b)) as [u|e| |] eqn:E; try contradiction.
    + left. unfold process_message. rewrite (sender_info c n i x H), E. reflexivity.
    + destruct Rf as [?|?]; auto. now exists e.
  - destruct (nd_mempool n) as [f|] eqn:Em; [|right; left; eauto]. destruct (Mp f t eq_refl) as (A & B). destruct (f t) as [u|e| |] eqn:E; try contradiction.
    + left. unfold process_message. now rewrite (sender_info c n i x H), Em, E.
    + destruct Rf as [?|?]; auto. exists f, e. auto.
Qed.

(** ** Answers can be encoded *)
Lemma to4_length (i v : bytes) : to4 i = Some v -> lenN v = 4.
Proof.
  unfold to4. destruct (N.eqb_spec (lenN i) 4) as [L|L]; [intro E; now injection E as <-|]. destruct (_ && _) eqn:B; [|discriminate].
  intro E. injection E as <-. do 2 (apply Bool.andb_true_iff in B; destruct B as (B & _)). apply N.eqb_eq in B. unfold slice, takeN, dropN, lenN in *.
  rewrite firstn_length, skipn_length. lia.
Qed.
Lemma addrs_encode l : Forall (fun a => List.length (ip a) = 4%nat \/ List.length (ip a) = 16%nat) l -> exists b, addrs_bytes l = Ok b.
Proof.
  induction l as [|a l IH]; intro F; [eexists; reflexivity|]. inversion F as [|? ? F1 F2]; subst. destruct (IH F2) as (b & E). cbn.
  assert (A : exists y, addr_bytes a = Ok y).
  { destruct (addr_bytes a) as [y|e| |] eqn:Ea; [eauto| | |]; exfalso; revert Ea; unfold addr_bytes;
      (destruct (to4 (ip a)) as [v|] eqn:T;
       [assert (lenN v =? 4 = true) as -> by (apply N.eqb_eq; now apply to4_length in T); discriminate|]);
      unfold lenN; destruct F1 as [F1|F1]; rewrite F1; discriminate. }
  destruct A as (y & ->). rewrite E. cbn. eauto.
Qed.
Lemma headers_encode l : (forall h, In h l -> exists b, header_bytes h = Ok b) -> exists b, headers_concat l = Ok b.
Proof.
  induction l as [|h l IH]; intro F; [eexists; reflexivity|]. destruct (F h (or_introl eq_refl)) as (b & E). destruct IH as (b' & E').
  { intros h' I. apply F. now right. } cbn. rewrite E, E'. cbn. eauto.
Qed.
Lemma locate_in (ch : chain X S) hs l h : locate ch hs = Ok l -> In h l -> exists i (k : N) b, In b (st_from S (c_store ch) i k) /\ b_header b = h.
Proof.
  induction hs as [|h0 hs IH]; cbn; [intro E; injection E as <-; intros []|]. destruct (block_hash X (c_head ch)) as [d|e| |]; try discriminate. cbn [rbind].
  destruct (bytes_eqb h0 d); [intro E; injection E as <-; intros []|]. destruct (st_from S (c_store ch) _ _) as [|b0 bl] eqn:F; [exact IH|].
  intro E. injection E as <-. intro I. apply in_map_iff in I. destruct I as (b & Eb & I). eexists. eexists. exists b. rewrite F. split; [now right|exact Eb].
Qed.
Lemma answers_encode c n m a : sendable_store (c_store (nd_chain n)) -> valid_table (nd_pool n) -> Permutation (x_order c) (pl_table (nd_pool n)) ->
  (forall s r, x_resolve c s = Some r -> List.length (ip r) = 4%nat \/ List.length (ip r) = 16%nat) ->
  In a (o_answers (process_message c n m)) -> exists b, msg_bytes X a = Ok b.
Proof.
  intros (S1 & S2 & S3) V P Rs I.
  destruct (match m with MPing _ | MGetPeerAddrs _ | MGetHeaders _ | MGetBlock _ => true | _ => false end) eqn:K.
  2:{ rewrite silent in I; [destruct I|]. destruct m; auto; discriminate. }
  unfold process_message in I. destruct (peer_info _ _) as [i|]; [|destruct I]. destruct m; try discriminate K.
  - destruct I as [<-|[]]. eexists. reflexivity.
  - destruct I as [<-|[]]. cbn [msg_bytes]. unfold peer_addrs_bytes. destruct (peers_ok (x_resolve c) caps (x_order c) (nd_pool n) V P) as (L & Ok1 & _).
    replace (max_peer_addrs <? _) with false by (symmetry; apply N.ltb_ge; exact L).
    destruct (addrs_encode (pool_peers (x_resolve c) caps (x_order c) (nd_pool n))) as (b & E).
    { apply Forall_forall. intros r Ir. destruct (Ok1 r Ir) as (s & _ & _ & _ & _ & _ & Er). exact (Rs _ _ Er). }
    rewrite E. cbn. eauto.
  - destruct (get_block_headers (nd_chain n) hs) as [l|e| |] eqn:E; try (destruct I; fail). destruct I as [<-|[]]. cbn [msg_bytes]. unfold headers_bytes.
    pose proof (headers_bound X S (nd_chain n) hs l S1 E) as L.
    replace (max_block_headers <? lenN l) with false by (symmetry; apply N.ltb_ge; unfold max_block_headers, lenN; lia).
    destruct (headers_encode l) as (b & Eb); [|rewrite Eb; cbn; eauto]. intros h Ih. destruct (locate_in (nd_chain n) _ l h E Ih) as (i0 & k & b & Ib & <-). exact (S2 _ _ _ Ib).
  - destruct (get_block (nd_chain n) h) as [b|] eqn:E; [|destruct I]. destruct I as [<-|[]]. cbn [msg_bytes]. unfold get_block in E. destruct h; [discriminate|].
    destruct (S3 _ _ E) as (bs & ->). cbn. eauto.
Qed.

(** ** Blocks *)
Lemma relay_in (h : header) (p : pool) cn : In cn (propagate (h_height h) (h_total_difficulty h) p) <->
  exists a j y, In (a, j) (pl_up p) /\ nth_error (pl_infos p) j = Some y /\ behind h y /\ i_peer y = Some cn.
Proof.
  unfold propagate, behind. rewrite in_flat_map. split.
  - intros ((a & j) & I & Ic). cbn [snd] in Ic. destruct (nth_error (pl_infos p) j) as [y|] eqn:N; [|destruct Ic].
    destruct ((_ <? _) || (_ <? _)) eqn:B; [|destruct Ic]. destruct (i_peer y) as [k|] eqn:Py; [|destruct Ic]. destruct Ic as [<-|[]].
    exists a, j, y. apply Bool.orb_true_iff in B. rewrite !N.ltb_lt in B. auto.
  - intros (a & j & y & I & N & B & P). exists (a, j). split; [exact I|]. cbn [snd]. rewrite N.
    assert (E : (i_height y <? h_height h) || (i_td y <? h_total_difficulty h) = true) by (apply Bool.orb_true_iff; rewrite !N.ltb_lt; exact B).
    rewrite E, P. now left.
Qed.
Definition newer (h : header) (x : info) : info :=
  if (i_td x <? h_total_difficulty h) || (i_height x <? h_height h) then with_record (h_total_difficulty h) (h_height h) x else x.
Lemma newer_not_behind h x : ~ behind h (newer h x).
Proof.
  unfold newer, behind. destruct (_ || _) eqn:B; cbn [with_record i_height i_td]; [lia|]. apply Bool.orb_false_iff in B. rewrite !N.ltb_ge in B. lia.
Qed.
Lemma after_relay i h n cn : h_height h = c_height (nd_chain n) ->
  In cn (o_relay (after_block i h n)) <->
  exists a j y, j <> i /\ In (a, j) (pl_up (nd_pool n)) /\ nth_error (pl_infos (nd_pool n)) j = Some y /\ behind h y /\ i_peer y = Some cn.
Proof.
  intro E. unfold after_block. cbn [o_relay]. rewrite E, N.eqb_refl, <- E, relay_in. fold (newer h). unfold upd. cbn [pl_up pl_infos set_infos]. split.
  - intros (a & j & y & I & Ny & B & P). rewrite update_nth in Ny. exists a, j, y. destruct (Nat.eqb_spec i j) as [<-|J]; [|auto].
    destruct (nth_error (pl_infos (nd_pool n)) i) as [x|]; [|discriminate]. injection Ny as <-. elim (newer_not_behind h x B).
  - intros (a & j & y & J & I & Ny & B & P). exists a, j, y. rewrite update_nth. destruct (Nat.eqb_spec i j); [congruence|auto].
Qed.
Lemma after_other i h n : h_height h <> c_height (nd_chain n) -> o_relay (after_block i h n) = [].
Proof. intro E. unfold after_block. cbn [o_relay]. apply N.eqb_neq in E. now rewrite E. Qed.

Lemma accepted_relay c n i x b cn : sender c n i x -> fst (process_block (x_clock c 0%nat) (nd_chain n) b) = Ok tt ->
  h_height (b_header b) = c_height (nd_chain n) ->
  In cn (o_relay (process_message c n (MBlock b))) <->
  exists a j y, j <> i /\ In (a, j) (pl_up (nd_pool n)) /\ nth_error (pl_infos (nd_pool n)) j = Some y /\ behind (b_header b) y /\ i_peer y = Some cn.
Proof. intros H E Eh. unfold process_message. rewrite (sender_info c n i x H), E. now apply after_relay. Qed.
Lemma banning_relay c n k : o_relay (banning c n k) <> [] -> exists p, o_relay (k (with_pool n p)) <> [].
Proof. unfold banning. destruct (pool_ban _ _ _) as [e p]; destruct e; intro H; [now exists p| | |]; now elim H. Qed.
Lemma relay_height c n m : o_relay (process_message c n m) <> [] ->
  exists b, m = MBlock b /\ h_height (b_header b) = c_height (nd_chain n).
Proof.
  unfold process_message. destruct (peer_info _ _) as [i|]; [|intro H; now elim H].
  destruct m; try (intro H; now elim H).
  - destruct (get_block_headers _ _); intro H; now elim H.
  - destruct (fst (process_headers _ _ _)); intro H; now elim H.
  - destruct (fst (process_headers _ _ _)); try (intro H; now elim H). intro H. apply banning_relay in H. destruct H as (p & H). now elim H.
  - destruct (get_block _ _); intro H; now elim H.
  - intro H. exists b. split; [reflexivity|]. destruct (N.eq_dec (h_height (b_header b)) (c_height (nd_chain n))) as [|Ne]; [assumption|]. exfalso.
    destruct (fst (process_block _ _ _)); try (now elim H).
    + rewrite after_other in H by exact Ne. now elim H.
    + apply banning_relay in H. destruct H as (p & H). rewrite after_other in H by exact Ne. now elim H.
  - destruct (nd_mempool n) as [f|]; [|intro H; now elim H]. destruct (f t); try (intro H; now elim H).
    intro H. apply banning_relay in H. destruct H as (p & H). now elim H.
Qed.
Lemma history_chain n t : history n t -> nd_chain t = nd_chain n.
Proof. intro H. induction H as [|c m t H IH|p t H IH]; [reflexivity|rewrite <- IH; apply chain_kept|exact IH]. Qed.
Lemma history_relay n t c m : history n t -> o_relay (process_message c t m) <> [] ->
  exists b, m = MBlock b /\ h_height (b_header b) = c_height (nd_chain n).
Proof. intros H R. apply relay_height in R. now rewrite (history_chain n t H) in R. Qed.

Lemma relayed_accepted c n b i x : sender c n i x -> pl_bans (nd_pool n) = None -> remote_listed c n ->
  o_relay (process_message c n (MBlock b)) <> [] -> fst (process_block (x_clock c 0%nat) (nd_chain n) b) = Ok tt.
Proof.
  intros H B L R. destruct (fst (process_block (x_clock c 0%nat) (nd_chain n) b)) as [[]|e| |] eqn:E; [reflexivity| | |];
    exfalso; apply R; unfold process_message; rewrite (sender_info c n i x H), E; try reflexivity.
  unfold banning, pool_ban. destruct (lookup _ _) as [j|] eqn:Lk; [|elim (proj1 (lookup_none _ _) Lk); exact L].
  destruct (nth_error _ j) as [y|]; [|reflexivity]. destruct (i_peer y) as [k'|]; [|reflexivity]. destruct (x_closes c k'); [|reflexivity].
  unfold upd. cbn [pl_bans set_infos with_chain nd_pool]. now rewrite B.
Qed.
Lemma refused_relayed c n b i x e cn : sender c n i x -> ~ remote_listed c n -> fst (process_block (x_clock c 0%nat) (nd_chain n) b) = Err e ->
  h_height (b_header b) = c_height (nd_chain n) ->
  In cn (o_relay (process_message c n (MBlock b))) <->
  exists a j y, j <> i /\ In (a, j) (pl_up (nd_pool n)) /\ nth_error (pl_infos (nd_pool n)) j = Some y /\ behind (b_header b) y /\ i_peer y = Some cn.
Proof.
  intros H L E Eh. unfold process_message. rewrite (sender_info c n i x H), E, ban_unlisted by exact L. destruct n. now apply after_relay.
Qed.

Lemma block_recorded c n i x b : sender c n i x -> fst (process_block (x_clock c 0%nat) (nd_chain n) b) = Ok tt ->
  exists y, nth_error (pl_infos (nd_pool (o_node (process_message c n (MBlock b))))) i = Some y /\
    ((behind (b_header b) x /\ i_td y = h_total_difficulty (b_header b) /\ i_height y = h_height (b_header b)) \/
     (~ behind (b_header b) x /\ i_td y = i_td x /\ i_height y = i_height x)).
Proof.
  intros H E. unfold process_message. rewrite (sender_info c n i x H), E. destruct H as (_ & _ & N). unfold after_block. cbn [o_node with_pool with_chain nd_pool].
  unfold upd. cbn [pl_infos set_infos]. rewrite update_nth, Nat.eqb_refl, N. cbn. eexists. split; [reflexivity|]. unfold behind.
  destruct (_ || _) eqn:B; [left|right]; cbn [with_record i_td i_height].
  - apply Bool.orb_true_iff in B. rewrite !N.ltb_lt in B. split; [lia|auto].
  - apply Bool.orb_false_iff in B. rewrite !N.ltb_ge in B. split; [lia|auto].
Qed.
End Syncer.
