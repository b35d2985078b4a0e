(** Proofs for C139: what follows for bans and for the addresses that nodes tell each other. *)
From Verif Require Import Names Sync Send SpecNames SpecMessages SpecConsensus SpecPool SpecSync SpecSend SpecServe PoolProofs SyncProofs SendProofs NamesProofs.

Lemma multicast_same (d : bytes) : List.length d = 4%nat -> multicast (brepeat x00 10 ++ [xff; xff] ++ d) -> multicast d.
Proof.
  intros L [(b & r & [(E & K)|(E & K)] & B)|(_ & r & E)].
  - apply (f_equal (@List.length _)) in E. rewrite !app_length, L, K in E. discriminate E.
  - apply app_inv_head in E. apply app_inv_head in E. subst d. left. exists b, r. split; [left; auto|exact B].
  - discriminate E.
Qed.

Section Use.
Variables (other : addr -> bytes) (strict : bool) (dns : bytes -> option addr).
Notation text := (tcp_text other).
Notation resolve := (resolve_text strict dns).

Lemma ban_reaches closes p s i u : resolve s = Some u -> ipv4 u -> port_ok u ->
  NoDup (map fst (pl_table p)) -> valid_table p -> In (s, i) (pl_table p) ->
  ((exists e, spelled s e) -> status_of (snd (pool_ban closes (text u) p)) i = Some StBanned) /\
  (~ In (text u) (map fst (pl_table p)) -> pool_ban closes (text u) p = (HDone, p)).
Proof.
  intros R I P N V H. split.
  - intro Sp. rewrite (proj2 (remote_name other strict dns s u R I P) Sp). unfold pool_ban. rewrite (in_lookup _ _ _ N H).
    assert (Q : status_of (upd p i (with_status StBanned)) i = Some StBanned).
    { rewrite PoolProofs.status_upd, Nat.eqb_refl. unfold status_of. pose proof (V _ _ H) as L. apply nth_error_Some in L.
      destruct (nth_error (pl_infos p) i); [reflexivity|now destruct L]. }
    destruct (nth_error (pl_infos (upd p i (with_status StBanned))) i) as [x|] eqn:E; [|exact Q].
    destruct (i_peer x) as [c|]; [|exact Q]. destruct (closes c); [|exact Q].
    destruct (pl_bans (upd p i (with_status StBanned))) as [l|] eqn:B; [|exact Q]. cbn [snd]. exact Q.
  - intro M. unfold pool_ban. now rewrite (proj2 (lookup_none _ _) M).
Qed.

Context (X : Ext) (S : storage X).
Lemma refused_named c (n : node X S) m i x u : sender c n i x -> pl_bans (nd_pool n) = None -> refused c n m ->
  resolve (x_me c) = Some u -> ipv4 u -> port_ok u -> x_remote c = text u -> (exists a, spelled (x_me c) a) ->
  o_end (process_message c n m) = HPanic \/ o_end (process_message c n m) = HHang.
Proof.
  intros Sn B Rf R I P Re Sp. apply (refused_listed X S c n m i x Sn Rf); [|exact B].
  unfold remote_listed. rewrite Re, (proj2 (remote_name other strict dns _ _ R I P) Sp). exact (in_map fst _ _ (proj1 Sn)).
Qed.
Lemma refused_unnamed c (n : node X S) i x u l e : sender c n i x -> x_remote c = text u ->
  fst (process_headers (x_clock c) (nd_chain n) l) = Err e -> ~ In (text u) (map fst (pl_table (nd_pool n))) ->
  o_end (process_message c n (MHeaders l)) = HDone /\ nd_pool (o_node (process_message c n (MHeaders l))) = nd_pool n.
Proof.
  intros (H & N & E) Re Er M. unfold process_message, peer_info. rewrite (in_lookup _ _ _ N H), Er. unfold banning.
  cbn [with_chain nd_pool]. rewrite Re. unfold pool_ban. rewrite (proj2 (lookup_none _ _) M). split; reflexivity.
Qed.

Lemma gossip_named lenient w (c : context) (b : node X S) i x caps fuel p (a : node X S) j y :
  x_string (ar_context w 0) = text -> x_resolve (ar_context w 0) = resolve ->
  sender c b i x -> valid_table (nd_pool b) -> Permutation (x_order c) (pl_table (nd_pool b)) ->
  (forall s r, x_resolve c s = Some r -> ipv4 r /\ port_ok r) ->
  pe_sync p = true -> sender (ar_context w 0) (met w 0 a) j y -> (1 < fuel)%nat ->
  exists l e k, o_answers (process_message c b (MGetPeerAddrs caps)) = [MPeerAddrs l] /\ write_message X (MPeerAddrs l) = Ok (e, k) /\
  forall chunks, Forall (fun c : bytes => c <> []) chunks -> concat chunks = e ->
  let r := run_peer lenient w fuel p a chunks in let know q := In q (map fst (pl_table (nd_pool (sv_node r)))) in
  let had q := In q (map fst (pl_table (nd_pool (met w 0 a)))) in
  let tells u := exists s n z, In (s, n) (pl_table (nd_pool b)) /\ nth_error (pl_infos (nd_pool b)) n = Some z /\ eligible caps z /\ x_resolve c s = Some u in
  (forall q, had q -> know q) /\
  (forall q, know q -> had q \/ exists u, tells u /\ spelled q u) /\
  (lenN l < 256 -> lenN (pl_table (nd_pool (met w 0 a))) + lenN l <= 10001 ->
   forall u, tells u -> ~ multicast (ip u) -> port u <> 0%Z -> exists q, spelled q u /\ know q).
Proof.
  intros St Rs Sb V O R4 Ps Sa F.
  destruct (gossip X S lenient w c b i x caps fuel p a j y Sb V O R4 Ps Sa F) as (l & e & k & A & W & G).
  exists l, e, k. split; [exact A|]. split; [exact W|]. intros chunks C Ce. specialize (G chunks C Ce). cbn zeta in G |- *.
  destruct G as (_ & _ & G1 & G2 & G3). rewrite St, ?Rs in *. split; [exact G1|]. split.
  - intros q K. destruct (G2 q K) as [K'|(s & n & z & u & u' & I1 & I2 & I3 & I4 & Sm & ->)]; [now left|right].
    exists u. split; [now exists s, n, z|]. destruct (R4 _ _ I4) as (I4u & Pu).
    assert (E : text u' = text u).
    { apply (text_same other strict dns); auto.
      - now apply (ipv4_same u); [|exact (proj1 Sm)].
      - unfold port_ok. rewrite <- (proj2 Sm). exact Pu.
      - destruct Sm. split; congruence. }
    rewrite E. now apply text_spelled.
  - intros Fl Ro u (s & n & z & I1 & I2 & I3 & I4) M Po. destruct (R4 _ _ I4) as (I4u & Pu).
    destruct (G3 Fl Ro s n z u I1 I2 I3 I4) as (u' & Sm & K).
    assert (E : text u' = text u).
    { apply (text_same other strict dns); auto.
      - now apply (ipv4_same u); [|exact (proj1 Sm)].
      - unfold port_ok. rewrite <- (proj2 Sm). exact Pu.
      - destruct Sm. split; congruence. }
    rewrite E in K. exists (text u). split; [now apply text_spelled|]. apply K.
    rewrite (text_resolve other strict dns u I4u Pu). eexists. split; [reflexivity|]. cbn [ip port]. split; [|exact Po].
    intro Mc. apply M. clear - Mc I4u. destruct I4u as (d & L & [E|E]); rewrite E in Mc |- *.
    + rewrite (as16_four d L) in Mc. now apply (multicast_same d).
    + rewrite as16_other in Mc; [exact Mc|]. rewrite !app_length, L. cbn. lia.
Qed.
End Use.
