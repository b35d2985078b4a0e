(** Proofs about the memory asked for while decoding. *)
From Verif Require Import SpecCodec SpecConsensus SpecMessages CodecProofs BlockCodecProofs MessageProofs LoopProofs
  Instance Real CodecExamples.
From Verif Require Export SpecAlloc.

(** ** The instrumented readers are the readers *)

Definition erases {A} (p : areader A) (q : reader A) : Prop := forall bs, fst (p bs) = q bs.

Lemma erase_plain {A} (q : reader A) : erases (plain q) q.
Proof. intros bs. reflexivity. Qed.

Lemma erase_bind {A B} (p : areader A) q (f : A -> areader B) g :
  erases p q -> (forall a, erases (f a) (g a)) -> erases (abind p f) (pbind q g).
Proof.
  intros Hp Hf bs. unfold abind, pbind. rewrite <- (Hp bs).
  destruct (p bs) as [[[a rest]|e| |] l]; cbn [fst]; try reflexivity. apply Hf.
Qed.

Lemma erase_make elem n : erases (make_slice elem n) (lift (go_make elem n)).
Proof. intros bs. unfold make_slice, lift. destruct (go_make elem n) as [[]|e| |]; reflexivity. Qed.

Lemma make_small n : n <= 1000000 -> forall bs, make_slice 1 n bs = (Ok (tt, bs), [n]).
Proof.
  intros H bs. unfold make_slice. rewrite go_make_small; [reflexivity|lia|unfold max_alloc; lia].
Qed.

Lemma erase_small {A} n (k : areader A) q : n <= 1000000 -> erases k q ->
  erases (abind (make_slice 1 n) (fun _ => k)) q.
Proof. intros H E bs. unfold abind. rewrite (make_small n H). cbn [fst]. apply E. Qed.

Ltac erase :=
  repeat first [apply erase_plain | apply erase_bind; [|intros ?] | apply erase_make].

Lemma erase_unchecked : erases unchecked_alloc read_unchecked.
Proof. unfold unchecked_alloc, read_unchecked. erase. Qed.

Lemma erase_peer_error : erases peer_error_alloc peer_error_read.
Proof. unfold peer_error_alloc, peer_error_read. erase. Qed.

Lemma erase_hand l : erases (hand_alloc l) (hand_read l).
Proof.
  unfold hand_alloc, hand_read. apply erase_bind; [erase|intros v].
  destruct (negb _); erase.
Qed.

Lemma erase_shake : erases shake_alloc shake_read.
Proof.
  unfold shake_alloc, shake_read. apply erase_bind; [erase|intros v].
  destruct (negb _); erase.
Qed.

Lemma erase_headers : erases headers_alloc headers_read.
Proof.
  unfold headers_alloc, headers_read. apply erase_bind; [erase|intros n].
  destruct (max_block_headers <? n) eqn:E; [erase|]. apply N.ltb_ge in E. unfold max_block_headers in E.
  apply erase_small; [lia|erase].
Qed.

Lemma erase_locator : erases locator_alloc locator_read.
Proof.
  unfold locator_alloc, locator_read. apply erase_bind; [erase|intros n].
  destruct (max_locators <? n) eqn:E; [erase|]. apply N.ltb_ge in E. unfold max_locators in E.
  apply erase_small; [lia|erase].
Qed.

Section WithExt.
Context (X : Ext) (lenient : bool).

Lemma erase_lists a b c : a <= 1000000 -> b <= 1000000 -> c <= 1000000 ->
  erases (lists_alloc X a b c) (lists_read X a b c).
Proof.
  intros Ha Hb Hc. unfold lists_alloc, lists_read. apply erase_small; [exact Ha|].
  apply erase_bind; [erase|intros i]. apply erase_small; [exact Hb|].
  apply erase_bind; [erase|intros o]. apply erase_small; [exact Hc|]. erase.
Qed.

Lemma erase_block : erases (block_alloc X) (block_read X).
Proof.
  unfold block_alloc, block_read.
  apply erase_bind; [erase|intros h]. apply erase_bind; [erase|intros ni].
  apply erase_bind; [erase|intros no]. apply erase_bind; [erase|intros nk].
  destruct (max_items <? ni) eqn:E1; [erase|]. destruct (max_items <? no) eqn:E2; [erase|].
  destruct (max_items <? nk) eqn:E3; [erase|].
  apply N.ltb_ge in E1, E2, E3. unfold max_items in *.
  apply erase_bind; [apply erase_lists; assumption|intros l; erase].
Qed.

Lemma erase_tx : erases (tx_alloc X) (tx_read X).
Proof.
  unfold tx_alloc, tx_read.
  apply erase_bind; [erase|intros h]. apply erase_bind; [erase|intros ni].
  apply erase_bind; [erase|intros no]. apply erase_bind; [erase|intros nk].
  destruct (max_items <? ni) eqn:E1; [erase|]. destruct (max_items <? no) eqn:E2; [erase|].
  destruct (max_items <? nk) eqn:E3; [erase|].
  apply N.ltb_ge in E1, E2, E3. unfold max_items in *.
  apply erase_bind; [apply erase_lists; assumption|intros l].
  cbv zeta. repeat (destruct (negb _); [erase|]). erase.
Qed.

Lemma erase_bind_in {A B} (p : areader A) q (f : A -> areader B) g :
  erases p q -> (forall bs a rest, q bs = Ok (a, rest) -> erases (f a) (g a)) ->
  erases (abind p f) (pbind q g).
Proof.
  intros Hp Hf bs. unfold abind, pbind. rewrite <- (Hp bs).
  destruct (p bs) as [[[a rest]|e| |] l] eqn:E; cbn [fst]; try reflexivity.
  apply (Hf bs a rest). rewrite <- (Hp bs), E. reflexivity.
Qed.

Lemma erase_compact : erases (compact_alloc X) (compact_read X).
Proof.
  unfold compact_alloc, compact_read.
  apply erase_bind; [erase|intros h].
  apply erase_bind_in; [erase|intros b1 no r1 E1]. apply read_be_inv in E1 as [_ E1].
  apply erase_bind_in; [erase|intros b2 nk r2 E2]. apply read_be_inv in E2 as [_ E2].
  change (256 ^ N.of_nat 1) with 256 in *.
  apply erase_bind; [erase|intros nid].
  apply erase_small; [lia|]. apply erase_bind; [erase|intros outs].
  apply erase_small; [lia|]. erase.
Qed.

Lemma erase_msg t : erases (msg_alloc X lenient t) (msg_read X lenient t).
Proof.
  unfold msg_alloc.
  destruct (t =? type_error) eqn:E0.
  { unfold msg_read. rewrite E0. apply erase_bind; [apply erase_peer_error|intros; erase]. }
  destruct (t =? type_hand) eqn:E1.
  { unfold msg_read. rewrite E0, E1. apply erase_bind; [apply erase_hand|intros; erase]. }
  destruct (t =? type_shake) eqn:E2.
  { unfold msg_read. rewrite E0, E1, E2. apply erase_bind; [apply erase_shake|intros; erase]. }
  destruct (t =? type_get_headers) eqn:E3.
  { apply N.eqb_eq in E3. subst t. apply erase_bind; [apply erase_locator|intros; erase]. }
  destruct (t =? type_headers) eqn:E4.
  { apply N.eqb_eq in E4. subst t. apply erase_bind; [apply erase_headers|intros; erase]. }
  destruct (t =? type_block) eqn:E5.
  { apply N.eqb_eq in E5. subst t. apply erase_bind; [apply erase_block|intros; erase]. }
  destruct (t =? type_compact_block) eqn:E6.
  { apply N.eqb_eq in E6. subst t. apply erase_bind; [apply erase_compact|intros; erase]. }
  destruct (existsb _ _) eqn:E7; [erase|].
  cbn [existsb] in E7. rewrite !Bool.orb_false_iff in E7.
  destruct E7 as (A1 & A2 & A3 & A4 & A5 & A6 & _).
  unfold msg_read. rewrite E0, E1, E2, A1, A2, A3, A4, E3, A5, E4, A6, E5, E6.
  apply erase_bind; [apply erase_tx|intros; erase].
Qed.

(** ** Bounds *)

Lemma total_app a b : total (a ++ b) = total a + total b.
Proof. unfold total. induction a as [|x a IH]; cbn [fold_right app]; [lia|rewrite IH; lia]. Qed.

Lemma prop_plain {A} c (p : reader A) : shrinks p -> proportionate c (plain p).
Proof.
  intros H bs. cbn [plain fst snd total fold_right]. split; [lia|].
  intros a rest E. apply H in E. lia.
Qed.

Lemma prop_bind {A B} c (p : areader A) (f : A -> areader B) :
  proportionate c p -> (forall a, proportionate c (f a)) -> proportionate c (abind p f).
Proof.
  intros Hp Hf bs. specialize (Hp bs). destruct Hp as [H1 H2]. unfold abind.
  destruct (p bs) as [[[a rest]|e| |] l]; cbn [fst snd] in *;
    try (split; [exact H1|intros ? ? E; discriminate E]).
  specialize (H2 a rest eq_refl). destruct (Hf a rest) as [H3 H4]. rewrite total_app.
  split; [lia|]. intros b r E. specialize (H4 b r E). lia.
Qed.

(** A reader that takes at least one byte. *)
Definition bites {A} (p : reader A) : Prop := forall bs a rest, p bs = Ok (a, rest) -> lenN rest + 1 <= lenN bs.

Lemma bites_shrinks {A} (p : reader A) : bites p -> shrinks p.
Proof. intros H bs a rest E. apply H in E. lia. Qed.

Lemma shrinks_bind {A B} (p : reader A) (f : A -> reader B) :
  shrinks p -> (forall a, shrinks (f a)) -> shrinks (pbind p f).
Proof.
  intros Hp Hf bs b rest E. apply pbind_inv in E as (a & mid & E1 & E2).
  apply Hp in E1. apply Hf in E2. lia.
Qed.

Lemma bites_bind {A B} (p : reader A) (f : A -> reader B) :
  bites p -> (forall a, shrinks (f a)) -> bites (pbind p f).
Proof.
  intros Hp Hf bs b rest E. apply pbind_inv in E as (a & mid & E1 & E2).
  apply Hp in E1. apply Hf in E2. lia.
Qed.

Lemma shrinks_ret {A} (a : A) : shrinks (rret a).
Proof. intros bs b rest E. apply Ok_inj in E. injection E as _ <-. lia. Qed.

Lemma shrinks_fail {A} e : shrinks (@rfail A e).
Proof. intros bs b rest E. discriminate E. Qed.

Lemma shrinks_full n : shrinks (read_full n).
Proof. intros bs l rest E. apply read_full_inv in E as [-> _]. rewrite lenN_app. lia. Qed.

Lemma bites_full n : 1 <= n -> bites (read_full n).
Proof. intros H bs l rest E. apply read_full_inv in E as [-> E]. rewrite lenN_app. lia. Qed.

Lemma bites_be k : bites (read_be (S k)).
Proof.
  unfold read_be. apply bites_bind; [apply bites_full; lia|intros; apply shrinks_ret].
Qed.

Lemma shrinks_be k : shrinks (read_be k).
Proof. unfold read_be. apply shrinks_bind; [apply shrinks_full|intros; apply shrinks_ret]. Qed.

Lemma shrinks_lift {A} (r : res A) : shrinks (lift r).
Proof.
  intros bs a rest E. unfold lift in E. destruct r as [x|e| |]; try discriminate E.
  apply Ok_inj in E. injection E as _ <-. lia.
Qed.

Lemma shrinks_limit {A} n (p : reader A) : shrinks p -> shrinks (limit_reader n p).
Proof.
  intros H bs a rest E. unfold limit_reader in E.
  destruct (p (takeN n bs)) as [[x r]|e| |] eqn:E1; try discriminate E.
  apply Ok_inj in E. injection E as _ <-. apply H in E1.
  rewrite lenN_app. rewrite <- (takeN_dropN n bs) at 2. rewrite lenN_app. lia.
Qed.

Lemma shrinks_n {A} n (p : reader A) : shrinks p -> shrinks (read_n n p).
Proof.
  intros H. induction n as [|n IH]; cbn [read_n]; [apply shrinks_ret|].
  apply shrinks_bind; [exact H|intros a]. apply shrinks_bind; [exact IH|intros; apply shrinks_ret].
Qed.

Lemma bites_n {A} n (p : reader A) : bites p ->
  forall bs l rest, read_n n p bs = Ok (l, rest) -> N.of_nat n + lenN rest <= lenN bs.
Proof.
  intros H. induction n as [|n IH]; cbn [read_n]; intros bs l rest E.
  - apply Ok_inj in E. injection E as _ <-. lia.
  - apply pbind_inv in E as (a & mid & E1 & E2). apply pbind_inv in E2 as (l' & mid' & E2 & E3).
    apply Ok_inj in E3. injection E3 as _ ->. apply H in E1. apply IH in E2. lia.
Qed.

Lemma make_then {A} n (k : areader A) bs : n <= 1000000 ->
  abind (make_slice 1 n) (fun _ => k) bs = (fst (k bs), n :: snd (k bs)).
Proof. intros H. unfold abind. rewrite (make_small n H). reflexivity. Qed.

Lemma prop_make {A B} c n (p : reader A) (f : list A -> areader B) :
  n <= 1000000 -> n <= c -> bites p -> (forall l, proportionate c (f l)) ->
  proportionate c (abind (make_slice 1 n) (fun _ => abind (plain (read_n (N.to_nat n) p)) f)).
Proof.
  intros H1 H2 Hp Hf bs. rewrite (make_then n _ bs H1). cbn [fst snd].
  change (total (n :: ?l)) with (n + total l).
  unfold abind, plain.
  destruct (read_n (N.to_nat n) p bs) as [[l rest]|e| |] eqn:E; cbn [fst snd app];
    try (split; [change (total []) with 0; lia|intros ? ? F; discriminate F]).
  pose proof (bites_n _ p Hp _ _ _ E) as G. rewrite N2Nat.id in G.
  destruct (Hf l rest) as [H3 H4]. split; [lia|].
  intros b r F. specialize (H4 b r F). lia.
Qed.

Ltac shrink :=
  repeat first [apply shrinks_ret | apply shrinks_fail | apply shrinks_be | apply shrinks_full | apply shrinks_lift
               | apply shrinks_n | apply shrinks_limit | apply shrinks_bind; [|intros ?]].

Lemma bites_input : bites input_read.
Proof. unfold input_read. apply bites_bind; [apply bites_be|intros]. shrink. Qed.

Lemma bites_output : codec_shrinks X -> bites (output_read X).
Proof.
  intros [Hp Hq]. unfold output_read. apply bites_bind; [apply bites_be|intros f].
  apply shrinks_bind; [exact Hp|intros c]. apply shrinks_bind; [shrink|intros n].
  destruct (_ <? _); shrink.
  intros bs a rest E. unfold rproof_read_limited in E.
  destruct (limit_reader n (rproof_read X) bs) as [[x r]|e| |] eqn:E1; try discriminate E.
  apply Ok_inj in E. injection E as _ <-.
  exact (shrinks_limit n _ Hq _ _ _ E1).
Qed.

Lemma bites_kernel : codec_shrinks X -> bites (kernel_read X).
Proof.
  intros [Hp _]. unfold kernel_read. apply bites_bind; [apply bites_be|intros f].
  apply shrinks_bind; [shrink|intros]. apply shrinks_bind; [shrink|intros].
  apply shrinks_bind; [exact Hp|intros]. shrink.
Qed.

Lemma bites_header : bites header_read.
Proof.
  unfold header_read, read_i64. apply bites_bind; [apply bites_be|intros].
  do 13 (apply shrinks_bind; [shrink|intros]).
  apply shrinks_bind; [|intros; shrink].
  unfold proof_read. apply shrinks_bind; [shrink|intros]. destruct (_ || _); shrink.
Qed.

Lemma shrinks_addr : shrinks (addr_read lenient).
Proof.
  unfold addr_read, read_segment. apply shrinks_bind; [shrink|intros f].
  apply shrinks_bind; [|intros; shrink].
  destruct (f =? 0); [shrink|]. destruct (f =? 1); [|shrink].
  destruct lenient; shrink.
Qed.

Ltac fail_prop := apply prop_plain; shrink.

Lemma prop_locator : proportionate 14 locator_alloc.
Proof.
  unfold locator_alloc. apply prop_bind; [apply prop_plain; shrink|intros n].
  destruct (max_locators <? n) eqn:E; [fail_prop|]. apply N.ltb_ge in E. unfold max_locators in E.
  intros bs. rewrite (make_then n) by lia. cbn [fst snd plain].
  change (total [n]) with (n + 0). split; [lia|].
  intros l rest F. apply bites_n in F; [lia|]. apply bites_full. unfold block_hash_size. lia.
Qed.

Lemma prop_headers : proportionate 512 headers_alloc.
Proof.
  unfold headers_alloc. apply prop_bind; [apply prop_plain; shrink|intros n].
  destruct (max_block_headers <? n) eqn:E; [fail_prop|]. apply N.ltb_ge in E. unfold max_block_headers in E.
  intros bs. rewrite (make_then n) by lia. cbn [fst snd plain].
  change (total [n]) with (n + 0). split; [lia|].
  intros l rest F. apply bites_n in F; [lia|apply bites_header].
Qed.

Lemma prop_lists a b c : codec_shrinks X -> a <= 1000000 -> b <= 1000000 -> c <= 1000000 ->
  proportionate 1000000 (lists_alloc X a b c).
Proof.
  intros HX Ha Hb Hc. unfold lists_alloc.
  apply prop_make; [exact Ha|exact Ha|apply bites_input|intros i].
  apply prop_make; [exact Hb|exact Hb|apply bites_output; exact HX|intros o].
  apply prop_make; [exact Hc|exact Hc|apply bites_kernel; exact HX|intros k]. fail_prop.
Qed.

Lemma prop_block : codec_shrinks X -> proportionate 1000000 (block_alloc X).
Proof.
  intros HX. unfold block_alloc.
  apply prop_bind; [apply prop_plain, bites_shrinks, bites_header|intros h].
  do 3 (apply prop_bind; [apply prop_plain; shrink|intros ?]).
  destruct (max_items <? a) eqn:E1; [fail_prop|]. destruct (max_items <? a0) eqn:E2; [fail_prop|].
  destruct (max_items <? a1) eqn:E3; [fail_prop|]. apply N.ltb_ge in E1, E2, E3. unfold max_items in *.
  apply prop_bind; [apply prop_lists; assumption|intros l; fail_prop].
Qed.

Lemma prop_tx : codec_shrinks X -> proportionate 1000000 (tx_alloc X).
Proof.
  intros HX. unfold tx_alloc.
  apply prop_bind; [apply prop_plain; shrink|intros h].
  do 3 (apply prop_bind; [apply prop_plain; shrink|intros ?]).
  destruct (max_items <? a) eqn:E1; [fail_prop|]. destruct (max_items <? a0) eqn:E2; [fail_prop|].
  destruct (max_items <? a1) eqn:E3; [fail_prop|]. apply N.ltb_ge in E1, E2, E3. unfold max_items in *.
  apply prop_bind; [apply prop_lists; assumption|intros l].
  cbv zeta. repeat (destruct (negb _); [fail_prop|]). fail_prop.
Qed.

Lemma prop_weaken {A} c d (p : areader A) : c <= d -> proportionate c p -> proportionate d p.
Proof. intros H P bs. destruct (P bs) as [H1 H2]. split; [lia|exact H2]. Qed.

Lemma prop_ret {A B} c (p : areader A) (f : A -> B) :
  proportionate c p -> proportionate c (abind p (fun a => plain (rret (f a)))).
Proof. intros H. apply prop_bind; [exact H|intros; fail_prop]. Qed.

(** Every type but errors, handshakes and compact blocks. *)
Lemma prop_msg t : codec_shrinks X ->
  t <> type_error -> t <> type_hand -> t <> type_shake -> t <> type_compact_block ->
  proportionate 1000000 (msg_alloc X lenient t).
Proof.
  intros HX N0 N1 N2 N3. unfold msg_alloc.
  rewrite (proj2 (N.eqb_neq _ _) N0), (proj2 (N.eqb_neq _ _) N1), (proj2 (N.eqb_neq _ _) N2), (proj2 (N.eqb_neq _ _) N3).
  destruct (t =? type_get_headers); [apply prop_ret, (prop_weaken 14); [lia|apply prop_locator]|].
  destruct (t =? type_headers); [apply prop_ret, (prop_weaken 512); [lia|apply prop_headers]|].
  destruct (t =? type_block); [apply prop_ret, prop_block, HX|].
  destruct (existsb _ _) eqn:E7; [|apply prop_ret, prop_tx, HX].
  apply prop_plain. cbn [existsb] in E7.
  destruct (N.eqb_spec t type_ping) as [->|A1]; [unfold msg_read; cbn -[pbind]; unfold ping_read; shrink|].
  destruct (N.eqb_spec t type_pong) as [->|A2]; [unfold msg_read; cbn -[pbind]; unfold ping_read; shrink|].
  destruct (N.eqb_spec t type_get_peer_addrs) as [->|A3]; [unfold msg_read; cbn -[pbind]; unfold get_peers_read; shrink|].
  destruct (N.eqb_spec t type_peer_addrs) as [->|A4].
  { unfold msg_read; cbn -[pbind]. unfold peer_addrs_read.
    apply shrinks_bind; [|intros; shrink]. apply shrinks_bind; [shrink|intros n].
    destruct (_ <? _); [shrink|]. apply shrinks_n, shrinks_addr. }
  destruct (N.eqb_spec t type_header) as [->|A5].
  { unfold msg_read; cbn -[pbind]. apply shrinks_bind; [apply bites_shrinks, bites_header|intros; shrink]. }
  destruct (N.eqb_spec t type_get_block) as [->|A6]; [unfold msg_read; cbn -[pbind]; unfold get_block_read; shrink|].
  discriminate E7.
Qed.

(** One frame. *)
Lemma frame_bound t body : codec_shrinks X -> t <> type_compact_block ->
  total (frame_alloc X lenient t body) <= lenN body + 1000000.
Proof.
  intros HX N3. unfold frame_alloc. destruct (existsb _ _) eqn:E.
  - assert (G : t <> type_error /\ t <> type_hand /\ t <> type_shake).
    { repeat split; intros ->; vm_compute in E; discriminate E. }
    destruct G as (N0 & N1 & N2). apply (prop_msg t HX N0 N1 N2 N3 body).
  - destruct (t =? type_get_compact_block); cbn [total fold_right]; lia.
Qed.

(** Which frames announce nothing, and which are only looked at. *)
Lemma frame_table t body :
  (In t [3; 4; 5; 6; 8; 10; 12] -> frame_alloc X lenient t body = []) /\
  (In t [7; 9; 11; 13; 15] -> frame_alloc X lenient t body = snd (msg_alloc X lenient t body)) /\
  (~ In t [3; 4; 5; 6; 7; 8; 9; 10; 11; 12; 13; 15] -> frame_alloc X lenient t body = [lenN body]).
Proof.
  split; [|split].
  - intros [<-|[<-|[<-|[<-|[<-|[<-|[<-|[]]]]]]]]; reflexivity.
  - intros [<-|[<-|[<-|[<-|[<-|[]]]]]]; reflexivity.
  - intro N. unfold frame_alloc.
    replace (existsb _ _) with false.
    2:{ symmetry. apply not_true_is_false. rewrite existsb_exists. intros (u & I & E). apply N.eqb_eq in E. subst u. apply N.
        destruct I as [<-|[<-|[<-|[<-|[<-|[<-|[<-|[<-|[<-|[<-|[<-|[]]]]]]]]]]]]; cbn; auto 20. }
    destruct (N.eqb_spec t type_get_compact_block) as [->|]; [elim N; cbn; auto 20|reflexivity].
Qed.

(** ** The loop *)

Lemma src_header_inv {S} (rf : N -> S -> res (bytes * S)) (inv : S -> Prop) :
  (forall n s l s', inv s -> rf n s = Ok (l, s') -> lenN l = n /\ inv s') ->
  forall s h s', inv s -> src_header rf s = Ok (h, s') -> inv s'.
Proof.
  intros H s h s' I E. unfold src_header in E.
  destruct (rf 2 s) as [[m s1]|e| |] eqn:E1; try discriminate E. cbn [rbind] in E.
  destruct (negb _); [discriminate E|].
  destruct (rf 1 s1) as [[t s2]|e| |] eqn:E2; try discriminate E. cbn [rbind] in E.
  destruct (rf 8 s2) as [[n s3]|e| |] eqn:E3; try discriminate E. cbn [rbind] in E.
  apply Ok_inj in E. injection E as _ <-.
  apply (H _ _ _ _ I) in E1 as [_ I1]. apply (H _ _ _ _ I1) in E2 as [_ I2]. apply (H _ _ _ _ I2) in E3 as [_ I3].
  exact I3.
Qed.

Lemma loop_bound {S} (rf : N -> S -> res (bytes * S)) (inv : S -> Prop) fuel : codec_shrinks X ->
  (forall n s l s', inv s -> rf n s = Ok (l, s') -> lenN l = n /\ inv s') ->
  forall s t n l, inv s -> In (t, n, l) (loop_alloc X lenient rf fuel s) ->
  n <= 20000000 /\ (t <> type_compact_block -> total l <= n + 1000000).
Proof.
  intros HX Hrf. induction fuel as [|fuel IH]; intros s t n l Hs I; cbn [loop_alloc] in I; [destruct I|].
  destruct (src_header rf s) as [[[t' n'] s1]|e| |] eqn:E; try (destruct I; fail).
  apply (src_header_inv rf inv Hrf _ _ _ Hs) in E.
  destruct (max_msg_len <? n') eqn:E1; [destruct I|]. apply N.ltb_ge in E1. unfold max_msg_len in E1.
  destruct (rf n' s1) as [[body s2]|e| |] eqn:E2;
    try (destruct I as [I|[]]; injection I as <- <- <-; split; [exact E1|intros _; cbn [total fold_right]; lia]).
  destruct (Hrf _ _ _ _ E E2) as [L2 I2].
  destruct I as [I|I].
  - injection I as <- <- <-. split; [exact E1|intros N3].
    rewrite <- L2. apply frame_bound; assumption.
  - destruct (decode_frame X lenient t' body) as [m|e| |]; try (destruct I; fail). exact (IH s2 t n l I2 I).
Qed.

Lemma loop_bound_chunks fuel chunks t n l : codec_shrinks X ->
  Forall (fun c : bytes => c <> []) chunks ->
  In (t, n, l) (loop_alloc X lenient buf_read_full fuel (BufSrc [] chunks)) ->
  n <= 20000000 /\ (t <> 13 -> total l <= n + 1000000).
Proof.
  intros HX F I. apply (loop_bound buf_read_full src_ok fuel HX) with (s := BufSrc [] chunks); [|exact F|exact I].
  intros m s d s' Hs E. pose proof (buf_read_full_spec m s Hs) as H. rewrite E in H.
  destruct (read_full m (src_bytes s)) as [[d' rest]|e| |] eqn:G; try contradiction.
  destruct H as (-> & _ & H). split; [|exact H]. apply read_full_inv in G as [_ G]. exact G.
Qed.

(** ** Unbounded requests *)

Lemma abind_plain {A B} (p : reader A) (f : A -> areader B) bs a rest :
  p bs = Ok (a, rest) -> abind (plain p) f bs = f a rest.
Proof. intros E. unfold abind, plain. rewrite E. cbn [app]. destruct (f a rest); reflexivity. Qed.

(** Asks for nothing. *)
Definition modest {A} (p : areader A) : Prop := forall bs, snd (p bs) = [].
Lemma modest_plain {A} (p : reader A) : modest (plain p).
Proof. intros bs. reflexivity. Qed.
Lemma modest_bind {A B} (p : areader A) (f : A -> areader B) :
  modest p -> (forall a, modest (f a)) -> modest (abind p f).
Proof.
  intros Hp Hf bs. specialize (Hp bs). unfold abind.
  destruct (p bs) as [[[a rest]|e| |] l]; cbn [snd] in *; subst; try reflexivity. apply Hf.
Qed.
Lemma then_modest {A B} (p : areader A) (f : A -> areader B) bs :
  (forall a, modest (f a)) -> snd (abind p f bs) = snd (p bs).
Proof.
  intros Hf. unfold abind. destruct (p bs) as [[[a rest]|e| |] l]; cbn [snd]; try reflexivity.
  rewrite (Hf a rest). apply app_nil_r.
Qed.
Lemma then_make {A} elem n (k : areader A) bs : n < 2 ^ 63 -> n * elem <= 2 ^ 48 -> modest k ->
  snd (abind (make_slice elem n) (fun _ => k) bs) = [n].
Proof.
  intros H1 H2 Hk. rewrite then_modest by (intros; exact Hk). unfold make_slice.
  rewrite go_make_small by assumption. reflexivity.
Qed.

Lemma u64_fits n : n <= 2 ^ 48 -> n < 256 ^ N.of_nat 8.
Proof. intros H. change (256 ^ N.of_nat 8) with (2 ^ 64). lia. Qed.

Lemma unchecked_asks n : n <= 2 ^ 48 -> snd (unchecked_alloc (be 8 n)) = [n].
Proof.
  intros Hn. unfold unchecked_alloc. rewrite <- (app_nil_r (be 8 n)).
  rewrite (abind_plain _ _ _ _ _ (read_be_app 8 n _ (u64_fits n Hn))).
  apply then_make; [lia|lia|apply modest_plain].
Qed.

Lemma shake_asks c d n : is_u32 c -> is_u64 d -> n <= 2 ^ 48 ->
  snd (shake_alloc (be 4 1 ++ be 4 c ++ be 8 d ++ be 8 n)) = [n].
Proof.
  intros Hc Hd Hn. unfold shake_alloc.
  rewrite (abind_plain _ _ _ _ _ (read_be_app 4 1 _ eq_refl)).
  change (negb (1 =? protocol_version)) with false. cbv iota.
  rewrite (abind_plain _ _ _ _ _ (read_be_app 4 c _ Hc)), (abind_plain _ _ _ _ _ (read_be_app 8 d _ Hd)).
  rewrite then_modest; [apply unchecked_asks; exact Hn|].
  intros ua. apply modest_bind; [apply modest_plain|intros; apply modest_plain].
Qed.

Lemma hand_asks c no d s r sb rb n : is_u32 c -> is_u64 no -> is_u64 d -> n <= 2 ^ 48 ->
  ipv4 s -> port_ok s -> ipv4 r -> port_ok r -> addr_bytes s = Ok sb -> addr_bytes r = Ok rb ->
  snd (hand_alloc lenient (be 4 1 ++ be 4 c ++ be 8 no ++ be 8 d ++ sb ++ rb ++ be 8 n)) = [n].
Proof.
  intros Hc Ho Hd Hn S4 Sp R4 Rp Es Er. unfold hand_alloc.
  rewrite (abind_plain _ _ _ _ _ (read_be_app 4 1 _ eq_refl)).
  change (negb (1 =? protocol_version)) with false. cbv iota.
  rewrite (abind_plain _ _ _ _ _ (read_be_app 4 c _ Hc)), (abind_plain _ _ _ _ _ (read_be_app 8 no _ Ho)),
    (abind_plain _ _ _ _ _ (read_be_app 8 d _ Hd)).
  destruct (addr_rt lenient s [] S4 Sp) as (sb' & s' & Es' & _ & _ & _ & _ & Rs). rewrite Es in Es'. apply Ok_inj in Es'. subst sb'.
  destruct (addr_rt lenient r [] R4 Rp) as (rb' & r' & Er' & _ & _ & _ & _ & Rr). rewrite Er in Er'. apply Ok_inj in Er'. subst rb'.
  rewrite (abind_plain _ _ _ _ _ (Rs _)), (abind_plain _ _ _ _ _ (Rr _)).
  rewrite then_modest; [apply unchecked_asks; exact Hn|].
  intros ua. apply modest_bind; [apply modest_plain|intros; apply modest_plain].
Qed.

Lemma error_asks c n : is_u32 c -> n <= 2 ^ 48 -> snd (peer_error_alloc (be 4 c ++ be 8 n)) = [n].
Proof.
  intros Hc Hn. unfold peer_error_alloc. rewrite (abind_plain _ _ _ _ _ (read_be_app 4 c _ Hc)).
  rewrite then_modest; [apply unchecked_asks; exact Hn|]. intros; apply modest_plain.
Qed.

Lemma compact_asks h hb n : header_wf h -> header_bytes h = Ok hb -> n * 24 <= 2 ^ 48 ->
  snd (compact_alloc X (hb ++ be 1 0 ++ be 1 0 ++ be 8 n)) = [0; 0; n].
Proof.
  intros W E Hn. unfold compact_alloc.
  destruct (header_roundtrip h (be 1 0 ++ be 1 0 ++ be 8 n) W) as (b & E' & R).
  rewrite E in E'. apply Ok_inj in E'. subst b.
  rewrite (abind_plain _ _ _ _ _ R).
  rewrite (abind_plain _ _ _ _ _ (read_be_app 1 0 _ eq_refl)), (abind_plain _ _ _ _ _ (read_be_app 1 0 _ eq_refl)).
  rewrite <- (app_nil_r (be 8 n)).
  rewrite (abind_plain _ _ _ _ _ (read_be_app 8 n _ (u64_fits n ltac:(lia)))).
  rewrite make_then by lia. cbn [snd]. f_equal.
  rewrite (abind_plain _ _ _ [] []) by reflexivity.
  rewrite make_then by lia. cbn [snd]. f_equal.
  rewrite (abind_plain _ _ _ [] []) by reflexivity.
  apply then_make; [lia|exact Hn|].
  apply modest_bind; [apply modest_plain|intros; apply modest_plain].
Qed.

Lemma block_asks h hb n : header_wf h -> header_bytes h = Ok hb -> 0 < n <= 1000000 ->
  snd (block_alloc X (hb ++ be 8 n ++ be 8 0 ++ be 8 0)) = [n].
Proof.
  intros W E Hn. unfold block_alloc.
  destruct (header_roundtrip h (be 8 n ++ be 8 0 ++ be 8 0) W) as (b & E' & R).
  rewrite E in E'. apply Ok_inj in E'. subst b.
  rewrite (abind_plain _ _ _ _ _ R).
  rewrite (abind_plain _ _ _ _ _ (read_be_app 8 n _ (u64_fits n ltac:(lia)))).
  rewrite (abind_plain _ _ _ _ _ (read_be_app 8 0 _ eq_refl)).
  rewrite <- (app_nil_r (be 8 0)).
  rewrite (abind_plain _ _ _ _ _ (read_be_app 8 0 _ eq_refl)).
  replace (max_items <? n) with false by (symmetry; apply N.ltb_ge; unfold max_items; lia).
  change (max_items <? 0) with false. cbv iota.
  rewrite then_modest by (intros; apply modest_plain).
  unfold lists_alloc. rewrite make_then by lia. cbn [snd]. f_equal.
  destruct (N.to_nat n) as [|k] eqn:K; [lia|].
  reflexivity.
Qed.

Lemma frame_asks t n fuel : t < 256 -> 0 < n <= 20000000 ->
  loop_alloc X lenient buf_read_full (S fuel) (BufSrc [] [frame_header t n]) = [(t, n, [])].
Proof.
  intros Ht Hn.
  assert (F : src_ok (BufSrc [] [frame_header t n])) by (constructor; [discriminate|constructor]).
  assert (B : src_bytes (BufSrc [] [frame_header t n]) = frame_header t n) by apply app_nil_r.
  cbn [loop_alloc].
  pose proof (src_header_sim _ F) as H. rewrite B in H.
  assert (G : src_header read_full (frame_header t n) = Ok ((t, n), [])).
  { unfold src_header, frame_header.
    change (read_full 2 (magic_code ++ ?r)) with (Ok (magic_code, r)). cbn [rbind].
    change (negb (bytes_eqb magic_code magic_code)) with false. cbv iota.
    change 1 with (lenN (be 1 t)) at 1.
    rewrite (read_full_app' 1 (be 1 t)) by reflexivity. cbn [rbind].
    rewrite <- (app_nil_r (be 8 n)), (read_full_app' 8 (be 8 n)) by reflexivity. cbn [rbind].
    rewrite !unbe_be; [reflexivity| |exact Ht]. change (256 ^ N.of_nat 8) with (2 ^ 64). lia. }
  rewrite G in H. destruct (src_header buf_read_full _) as [[[t' n'] s1]|e| |]; try contradiction.
  destruct H as (E & Es & F1). injection E as -> ->.
  replace (max_msg_len <? n) with false by (symmetry; apply N.ltb_ge; unfold max_msg_len; lia).
  pose proof (buf_read_full_spec n s1 F1) as H. rewrite Es in H.
  unfold read_full in H. replace (n =? 0) with false in H by (symmetry; apply N.eqb_neq; lia).
  change (lenN (@nil byte)) with 0 in H. replace (0 <? n) with true in H by (symmetry; apply N.ltb_lt; lia).
  change (0 =? 0) with true in H. cbv iota in H.
  destruct (buf_read_full n s1) as [[d s2]|e| |]; try contradiction. reflexivity.
Qed.
End WithExt.

Lemma messages_proportionate X lenient t : codec_shrinks X -> ~ In t [0; 1; 2; 13] ->
  proportionate 1000000 (msg_alloc X lenient t).
Proof.
  intros HX NI. apply prop_msg; [exact HX| | | |]; intros ->; apply NI; cbn; auto.
Qed.

Lemma frame_asks_11 X lenient t n fuel : t < 256 -> 0 < n <= 20000000 ->
  lenN (frame_header t n) = 11 /\
  loop_alloc X lenient buf_read_full (S fuel) (BufSrc [] [frame_header t n]) = [(t, n, [])].
Proof. intros Ht Hn. split; [reflexivity|]. apply frame_asks; assumption. Qed.

(** ** Cases *)
Ltac shrink :=
  repeat first [apply shrinks_ret | apply shrinks_fail | apply shrinks_be | apply shrinks_bind; [|intros ?]].

Lemma toy_shrinks : codec_shrinks toy.
Proof.
  split; cbn [point_read rproof_read toy rproof]; [unfold toy_point_read|]; shrink.
Qed.

Lemma real_shrinks : codec_shrinks real.
Proof.
  split; cbn [point_read rproof_read real rproof].
  - unfold secp_point_read. do 2 (apply shrinks_bind; [apply shrinks_be|intro]).
    destruct (negb _); [apply shrinks_fail|]. destruct (negb _); [apply shrinks_fail|]. apply shrinks_ret.
  - intros bs a rest E. apply Ok_inj in E. injection E as _ <-. unfold lenN. cbn. lia.
Qed.

Lemma alloc_case : codec_shrinks real /\ codec_shrinks toy /\
  lenN (be 4 1 ++ be 4 7 ++ be 8 1 ++ be 8 (2 ^ 48)) = 24 /\
  shake_alloc (be 4 1 ++ be 4 7 ++ be 8 1 ++ be 8 (2 ^ 48)) = (Err EOF, [2 ^ 48]) /\
  snd (locator_alloc (be 1 2 ++ brepeat x00 64)) = [2] /\
  is_ok (fst (locator_alloc (be 1 2 ++ brepeat x00 64))) = true /\
  locator_alloc (be 1 14 ++ brepeat x00 63) = (Err UnexpectedEOF, [14]) /\
  header_wf (ex_header 29) /\ (exists hb, header_bytes (ex_header 29) = Ok hb) /\
  ipv4 (Addr [x7f; x00; x00; x01] 3414) /\ port_ok (Addr [x7f; x00; x00; x01] 3414) /\
  addr_bytes (Addr [x7f; x00; x00; x01] 3414) = Ok [x00; x7f; x00; x00; x01; x0d; x56].
Proof.
  split; [exact real_shrinks|]. split; [exact toy_shrinks|].
  do 5 (split; [vm_compute; reflexivity|]).
  split; [apply ex_header_wf; cbn; auto 8|]. split; [eexists; vm_compute; reflexivity|].
  split; [eexists; split; [|left; reflexivity]; reflexivity|]. split; [unfold port_ok; cbn; lia|]. reflexivity.
Qed.
