(** Proofs for the outcomes of a handshake (C110). *)
From Verif Require Import GoRT Ext Messages Handshake SpecPow SpecCodec SpecConsensus SpecMessages SpecHandshake
  CodecProofs BlockCodecProofs MessageProofs CanonProofs HandshakeProofs
  SpecWrite WriteProofs SpecShaken.

Lemma pbind_panics {A B} (p : reader A) (f : A -> reader B) bs : pbind p f bs = Panic ->
  p bs = Panic \/ exists a mid, p bs = Ok (a, mid) /\ f a mid = Panic.
Proof. unfold pbind. destruct (p bs) as [[a mid]|e| |]; try discriminate; eauto. Qed.
Lemma pbind_fatal {A B} (p : reader A) (f : A -> reader B) bs : pbind p f bs = Fatal ->
  p bs = Fatal \/ exists a mid, p bs = Ok (a, mid) /\ f a mid = Fatal.
Proof. unfold pbind. destruct (p bs) as [[a mid]|e| |]; try discriminate; eauto. Qed.

Lemma pbind_panic1 {A B} (p : reader A) (f : A -> reader B) bs : p bs = Panic -> pbind p f bs = Panic.
Proof. unfold pbind. now intros ->. Qed.

Lemma be_panic k bs : read_be k bs <> Panic.
Proof. apply (safe_read_be k bs). Qed.
Lemma be_fatal k bs : read_be k bs <> Fatal.
Proof. apply (safe_read_be k bs). Qed.

(** ** Unchecked lengths *)
Lemma unchecked_ok bs t rest : read_unchecked bs = Ok (t, rest) <-> lenN t <= 2 ^ 48 /\ bs = be 8 (lenN t) ++ t ++ rest.
Proof.
  split.
  - intro H. pose proof (unchecked_exact _ _ _ H) as E. split; [|exact E].
    destruct (N.le_gt_cases (lenN t) (2 ^ 48)) as [L|L]; [exact L|]. exfalso.
    unfold read_unchecked in H. apply pbind_inv in H as (n & m & Hn & H). apply pbind_inv in H as (u & m' & Hu & H).
    unfold lift in Hu. destruct (go_make 1 n) as [v|e| |] eqn:G; cbn in Hu; try discriminate.
    assert (m' = m) by congruence. subst m'. apply read_full_inv in H as [_ Ln]. rewrite Ln in L.
    unfold go_make, max_alloc in G. rewrite N.mul_1_r in G.
    apply N.ltb_lt in L. rewrite L, Bool.orb_true_r in G. discriminate.
  - intros [L ->]. now apply unchecked_rt.
Qed.
Lemma unchecked_panic bs : read_unchecked bs = Panic <-> exists k rest, is_u64 k /\ 2 ^ 48 < k /\ bs = be 8 k ++ rest.
Proof.
  split.
  - intro H. destruct (pbind_panics _ _ _ H) as [K|(k & m & Hk & _)]; [now apply be_panic in K|].
    apply read_be_inv in Hk as [-> Hk]. exists k, m. assert (U : is_u64 k) by exact Hk.
    split; [exact U|]. split; [|reflexivity]. now apply (unchecked_panics k m U).
  - intros (k & rest & U & L & ->). now apply unchecked_panics.
Qed.
Lemma unchecked_fatal bs : read_unchecked bs <> Fatal.
Proof.
  intro H. destruct (pbind_fatal _ _ _ H) as [K|(k & m & _ & K)]; [now apply be_fatal in K|].
  destruct (pbind_fatal _ _ _ K) as [G|(u & m' & _ & G)].
  - unfold lift, go_make in G. destruct (_ || _); discriminate.
  - now apply (safe_read_full k m') in G.
Qed.

(** ** Shakes *)
Lemma shake_ok bs s rest : shake_read bs = Ok (s, rest) <->
  exists c d a g, is_u32 c /\ is_u64 d /\ lenN a <= 2 ^ 48 /\ List.length g = 32%nat /\
    bs = shake_text c d a g ++ rest /\ s = Shake 1 c d a g.
Proof.
  unfold shake_read, shake_text. split.
  - intro H. apply pbind_inv in H as (v & m & Hv & H). apply read_be_inv in Hv as [-> _].
    unfold protocol_version in H. destruct (N.eqb_spec v 1) as [->|]; [|discriminate]. cbn [negb] in H.
    apply pbind_inv in H as (c & m1 & Hc & H). apply read_be_inv in Hc as [-> Hc].
    apply pbind_inv in H as (d & m2 & Hd & H). apply read_be_inv in Hd as [-> Hd].
    apply pbind_inv in H as (a & m3 & Ha & H). apply unchecked_ok in Ha as [La ->].
    apply pbind_inv in H as (g & m4 & Hg & H). apply read_full_inv32 in Hg as [-> Lg].
    unfold rret in H. assert (s = Shake 1 c d a g /\ m4 = rest) as [-> ->] by (split; congruence).
    exists c, d, a, g. split; [exact Hc|]. split; [exact Hd|]. split; [exact La|]. split; [exact Lg|].
    split; [now rewrite <- !app_assoc|reflexivity].
  - intros (c & d & a & g & Hc & Hd & La & Lg & -> & ->). rewrite <- !app_assoc.
    rewrite (pbind_ok _ _ _ _ _ (read_be_app 4 1 _ eq_refl)). change (negb (1 =? protocol_version)) with false. cbv iota.
    rewrite (pbind_ok _ _ _ _ _ (read_be_app 4 c _ Hc)), (pbind_ok _ _ _ _ _ (read_be_app 8 d _ Hd)).
    rewrite (pbind_ok _ _ _ _ _ (unchecked_rt a _ La)).
    rewrite (pbind_ok _ _ _ _ _ (read_full_32 g rest Lg)). reflexivity.
Qed.
Lemma shake_panic bs : shake_read bs = Panic <->
  exists c d k rest, is_u32 c /\ is_u64 d /\ is_u64 k /\ 2 ^ 48 < k /\ bs = be 4 1 ++ be 4 c ++ be 8 d ++ be 8 k ++ rest.
Proof.
  unfold shake_read. split.
  - intro H. apply pbind_panics in H as [H|(v & m & Hv & H)]; [now apply be_panic in H|]. apply read_be_inv in Hv as [-> _].
    unfold protocol_version in H. destruct (N.eqb_spec v 1) as [->|]; [|discriminate]. cbn [negb] in H.
    apply pbind_panics in H as [H|(c & m1 & Hc & H)]; [now apply be_panic in H|]. apply read_be_inv in Hc as [-> Hc].
    apply pbind_panics in H as [H|(d & m2 & Hd & H)]; [now apply be_panic in H|]. apply read_be_inv in Hd as [-> Hd].
    apply pbind_panics in H as [H|(a & m3 & Ha & H)].
    + apply unchecked_panic in H as (k & rest & U & L & ->). exists c, d, k, rest. auto.
    + apply pbind_panics in H as [H|(g & m4 & _ & H)]; [now apply (safe_read_full 32 m3) in H|discriminate].
  - intros (c & d & k & rest & Hc & Hd & U & L & ->). now apply shake_panics.
Qed.
Lemma shake_fatal bs : shake_read bs <> Fatal.
Proof.
  unfold shake_read. intro H. apply pbind_fatal in H as [H|(v & m & Hv & H)]; [now apply be_fatal in H|].
  destruct (negb _); [discriminate|].
  apply pbind_fatal in H as [H|(c & m1 & Hc & H)]; [now apply be_fatal in H|].
  apply pbind_fatal in H as [H|(d & m2 & Hd & H)]; [now apply be_fatal in H|].
  apply pbind_fatal in H as [H|(a & m3 & Ha & H)]; [now apply unchecked_fatal in H|].
  apply pbind_fatal in H as [H|(g & m4 & _ & H)]; [now apply (safe_read_full 32 m3) in H|discriminate].
Qed.

(** ** Hands *)
Lemma addr_ok lenient bs rest : (exists a, addr_read lenient bs = Ok (a, rest)) <-> exists b, addr_text lenient b /\ bs = b ++ rest.
Proof.
  split.
  - intros (a & H). unfold addr_read in H. apply pbind_inv in H as (f & m & Hf & H). apply read_be_inv in Hf as [-> Hf].
    apply pbind_inv in H as (i & m2 & Hi & H). apply pbind_inv in H as (p & m3 & Hp & H).
    unfold rret in H. assert (m3 = rest) as -> by congruence. apply read_be_inv in Hp as [-> _].
    destruct (N.eqb_spec f 0) as [->|F0].
    + apply read_full_inv in Hi as [-> L4]. exists (x00 :: i ++ be 2 p). split; [|now rewrite app_comm_cons, <- app_assoc].
      left. exists (i ++ be 2 p). split; [|reflexivity]. rewrite app_length, be_length. unfold lenN in L4. lia.
    + destruct (N.eqb_spec f 1) as [->|F1]; [|discriminate].
      assert (Seg : forall s u r, read_segment lenient s = Ok (u, r) -> lenient = true /\ exists two, List.length two = 2%nat /\ s = two ++ r).
      { intros s u r E. unfold read_segment in E. apply pbind_inv in E as (two & r' & E1 & E). destruct lenient; [|discriminate].
        unfold rret in E. assert (r' = r) by congruence. subst r'. apply read_full_inv in E1 as [-> L2]. split; [reflexivity|].
        exists two. split; [unfold lenN in L2; lia|reflexivity]. }
      apply pbind_inv in Hi as (u1 & s1 & E1 & Hi). apply pbind_inv in Hi as (u2 & s2 & E2 & Hi).
      apply pbind_inv in Hi as (u3 & s3 & E3 & Hi). apply pbind_inv in Hi as (u4 & s4 & E4 & Hi).
      apply Seg in E1 as (Le & t1 & L1 & ->). apply Seg in E2 as (_ & t2 & L2 & ->).
      apply Seg in E3 as (_ & t3 & L3 & ->). apply Seg in E4 as (_ & t4 & L4 & ->).
      unfold rret in Hi. assert (s4 = be 2 p ++ rest) as -> by congruence.
      exists (x01 :: t1 ++ t2 ++ t3 ++ t4 ++ be 2 p). split.
      { right. split; [exact Le|]. eexists. split; [|reflexivity]. rewrite !app_length, be_length. lia. }
      change (be 1 1) with [x01]. cbn [app]. now rewrite <- !app_assoc.
  - intros (b & T & ->). destruct T as [(l & L & ->)|(-> & l & L & ->)].
    + do 6 (destruct l as [|? l]; [discriminate L|]). destruct l; [|discriminate L].
      unfold addr_read. rewrite <- app_comm_cons. change (x00 :: ?r) with (be 1 0 ++ r).
      rewrite (pbind_ok _ _ _ _ _ (read_be_app 1 0 _ eq_refl)). cbn [N.eqb].
      change ([b; b0; b1; b2; b3; b4] ++ rest) with ([b; b0; b1; b2] ++ [b3; b4] ++ rest).
      rewrite (pbind_ok _ _ _ _ _ (read_full_app' 4 [b; b0; b1; b2] _ eq_refl)).
      change (read_be 2) with (do l <- read_full 2; rret (unbe l)). unfold pbind at 1 2.
      rewrite (read_full_app' 2 [b3; b4] rest eq_refl). eexists. reflexivity.
    + do 10 (destruct l as [|? l]; [discriminate L|]). destruct l; [|discriminate L].
      unfold addr_read. rewrite <- app_comm_cons. change (x01 :: ?r) with (be 1 1 ++ r).
      rewrite (pbind_ok _ _ _ _ _ (read_be_app 1 1 _ eq_refl)). cbn [N.eqb Pos.eqb].
      assert (Seg : forall x y r, read_segment true (x :: y :: r) = Ok (tt, r)).
      { intros x y r. unfold read_segment. change (x :: y :: r) with ([x; y] ++ r).
        now rewrite (pbind_ok _ _ _ _ _ (read_full_app' 2 [x; y] r eq_refl)). }
      cbn [app]. rewrite (pbind_ok _ _ _ (brepeat x00 16) (b7 :: b8 :: rest)).
      2:{ change (1 =? 0) with false. change (1 =? 1) with true. cbv iota. now rewrite !(pbind_ok _ _ _ _ _ (Seg _ _ _)). }
      change (b7 :: b8 :: rest) with ([b7; b8] ++ rest).
      change (read_be 2) with (do l <- read_full 2; rret (unbe l)). unfold pbind at 1 2.
      rewrite (read_full_app' 2 [b7; b8] rest eq_refl). eexists. reflexivity.
Qed.
Lemma hand_start_read lenient c no d s r rest :
  is_u32 c -> is_u64 no -> is_u64 d -> addr_text lenient s -> addr_text lenient r ->
  exists a a', forall (k : N -> N -> N -> addr -> addr -> reader hand),
  (do v <- read_be 4;
   if negb (v =? protocol_version) then rfail (Msg "incompatibility protocol version")
   else do c <- read_be 4; do n <- read_be 8; do d <- read_be 8; do s <- addr_read lenient; do r <- addr_read lenient; k c n d s r)
    (hand_start c no d s r ++ rest) = k c no d a a' rest.
Proof.
  intros Hc Ho Hd Ts Tr. unfold hand_start. rewrite <- !app_assoc.
  destruct (proj2 (addr_ok lenient (s ++ r ++ rest) (r ++ rest))) as (a & Ra); [eauto|].
  destruct (proj2 (addr_ok lenient (r ++ rest) rest)) as (a' & Ra'); [eauto|].
  exists a, a'. intro k'. rewrite (pbind_ok _ _ _ _ _ (read_be_app 4 1 _ eq_refl)). change (negb (1 =? protocol_version)) with false. cbv iota.
  rewrite (pbind_ok _ _ _ _ _ (read_be_app 4 c _ Hc)), (pbind_ok _ _ _ _ _ (read_be_app 8 no _ Ho)),
    (pbind_ok _ _ _ _ _ (read_be_app 8 d _ Hd)), (pbind_ok _ _ _ _ _ Ra), (pbind_ok _ _ _ _ _ Ra'). reflexivity.
Qed.
Lemma hand_ok lenient bs rest c no d ua :
  (exists h, hand_read lenient bs = Ok (h, rest) /\ hd_version h = 1 /\ hd_caps h = c /\ hd_nonce h = no /\ hd_difficulty h = d /\ hd_agent h = ua) <->
  exists s r g, is_u32 c /\ is_u64 no /\ is_u64 d /\ addr_text lenient s /\ addr_text lenient r /\ lenN ua <= 2 ^ 48 /\ List.length g = 32%nat /\
    bs = hand_text c no d s r ua g ++ rest.
Proof.
  split.
  - intros (h & H & Ev & Ec & En & Ed & Ea). unfold hand_read in H.
    apply pbind_inv in H as (v & m & Hv & H). apply read_be_inv in Hv as [-> _].
    unfold protocol_version in H. destruct (N.eqb_spec v 1) as [->|]; [|discriminate]. cbn [negb] in H.
    apply pbind_inv in H as (c' & m1 & Hc & H). apply read_be_inv in Hc as [-> Hc].
    apply pbind_inv in H as (n' & m2 & Hn & H). apply read_be_inv in Hn as [-> Hn].
    apply pbind_inv in H as (d' & m3 & Hd & H). apply read_be_inv in Hd as [-> Hd].
    apply pbind_inv in H as (s & m4 & Hs & H). apply pbind_inv in H as (r & m5 & Hr & H).
    destruct (proj1 (addr_ok lenient m3 m4)) as (sb & Ts & ->); [eauto|].
    destruct (proj1 (addr_ok lenient m4 m5)) as (rb & Tr & ->); [eauto|].
    apply pbind_inv in H as (a & m6 & Ha & H). apply unchecked_ok in Ha as [La ->].
    apply pbind_inv in H as (g & m7 & Hg & H). apply read_full_inv32 in Hg as [-> Lg].
    unfold rret in H. assert (h = Hand 1 c' n' g d' (Some s) (Some r) a /\ m7 = rest) as [-> ->] by (split; congruence).
    cbn [hd_caps hd_nonce hd_difficulty hd_agent] in *. subst c' n' d' a.
    exists sb, rb, g. do 7 (split; [assumption|]). unfold hand_text, hand_start. now rewrite <- !app_assoc.
  - intros (s & r & g & Hc & Hn & Hd & Ts & Tr & La & Lg & ->).
    unfold hand_text. rewrite <- !app_assoc.
    destruct (hand_start_read lenient c no d s r (be 8 (lenN ua) ++ ua ++ g ++ rest) Hc Hn Hd Ts Tr) as (a & a' & K).
    exists (Hand 1 c no g d (Some a) (Some a') ua). split; [|now repeat split].
    specialize (K (fun c n d s r => do u <- read_unchecked; do g <- read_full 32; rret (Hand 1 c n g d (Some s) (Some r) u))).
    cbv beta in K. unfold hand_read. rewrite (pbind_ok _ _ _ _ _ (unchecked_rt ua _ La)) in K.
    rewrite (pbind_ok _ _ _ _ _ (read_full_32 g rest Lg)) in K. unfold rret at 2 in K. rewrite <- K.
    unfold hand_start. rewrite <- !app_assoc.
    rewrite !(pbind_ok _ _ _ _ _ (read_be_app 4 1 _ eq_refl)). reflexivity.
Qed.
Lemma hand_panic lenient bs : hand_read lenient bs = Panic <->
  exists c no d s r k rest, is_u32 c /\ is_u64 no /\ is_u64 d /\ addr_text lenient s /\ addr_text lenient r /\ is_u64 k /\ 2 ^ 48 < k /\
    bs = hand_start c no d s r ++ be 8 k ++ rest.
Proof.
  split.
  - intro H. unfold hand_read in H.
    apply pbind_panics in H as [H|(v & m & Hv & H)]; [now apply be_panic in H|]. apply read_be_inv in Hv as [-> _].
    unfold protocol_version in H. destruct (N.eqb_spec v 1) as [->|]; [|discriminate]. cbn [negb] in H.
    apply pbind_panics in H as [H|(c & m1 & Hc & H)]; [now apply be_panic in H|]. apply read_be_inv in Hc as [-> Hc].
    apply pbind_panics in H as [H|(n & m2 & Hn & H)]; [now apply be_panic in H|]. apply read_be_inv in Hn as [-> Hn].
    apply pbind_panics in H as [H|(d & m3 & Hd & H)]; [now apply be_panic in H|]. apply read_be_inv in Hd as [-> Hd].
    apply pbind_panics in H as [H|(s & m4 & Hs & H)]; [now apply (addr_read_safe lenient m3) in H|].
    apply pbind_panics in H as [H|(r & m5 & Hr & H)]; [now apply (addr_read_safe lenient m4) in H|].
    destruct (proj1 (addr_ok lenient m3 m4)) as (sb & Ts & ->); [eauto|].
    destruct (proj1 (addr_ok lenient m4 m5)) as (rb & Tr & ->); [eauto|].
    apply pbind_panics in H as [H|(a & m6 & Ha & H)].
    + apply unchecked_panic in H as (k & rest & U & L & ->). exists c, n, d, sb, rb, k, rest.
      do 7 (split; [assumption|]). unfold hand_start. now rewrite <- !app_assoc.
    + apply pbind_panics in H as [H|(g & m7 & _ & H)]; [now apply (safe_read_full 32 m6) in H|discriminate].
  - intros (c & no & d & s & r & k & rest & Hc & Hn & Hd & Ts & Tr & U & L & ->).
    destruct (hand_start_read lenient c no d s r (be 8 k ++ rest) Hc Hn Hd Ts Tr) as (a & a' & K).
    specialize (K (fun c n d s r => do u <- read_unchecked; do g <- read_full 32; rret (Hand 1 c n g d (Some s) (Some r) u))).
    cbv beta in K. rewrite (pbind_panic1 _ _ _ (proj2 (unchecked_panics k rest U) L)) in K.
    rewrite <- K. unfold hand_read, hand_start. rewrite <- !app_assoc.
    rewrite !(pbind_ok _ _ _ _ _ (read_be_app 4 1 _ eq_refl)). reflexivity.
Qed.
Lemma hand_fatal lenient bs : hand_read lenient bs <> Fatal.
Proof.
  unfold hand_read. intro H. apply pbind_fatal in H as [H|(v & m & Hv & H)]; [now apply be_fatal in H|].
  destruct (negb _); [discriminate|].
  apply pbind_fatal in H as [H|(c & m1 & Hc & H)]; [now apply be_fatal in H|].
  apply pbind_fatal in H as [H|(n & m2 & Hn & H)]; [now apply be_fatal in H|].
  apply pbind_fatal in H as [H|(d & m3 & Hd & H)]; [now apply be_fatal in H|].
  apply pbind_fatal in H as [H|(s & m4 & Hs & H)]; [now apply (addr_read_safe lenient m3) in H|].
  apply pbind_fatal in H as [H|(r & m5 & Hr & H)]; [now apply (addr_read_safe lenient m4) in H|].
  apply pbind_fatal in H as [H|(a & m6 & Ha & H)]; [now apply unchecked_fatal in H|].
  apply pbind_fatal in H as [H|(g & m7 & _ & H)]; [now apply (safe_read_full 32 m6) in H|discriminate].
Qed.
Lemma hand_version lenient bs h rest : hand_read lenient bs = Ok (h, rest) -> hd_version h = 1.
Proof.
  unfold hand_read. intro H. apply pbind_inv in H as (v & m & _ & H). unfold protocol_version in H.
  destruct (N.eqb_spec v 1) as [->|]; [|discriminate]. cbn [negb] in H.
  do 7 (apply pbind_inv in H as (? & ? & _ & H)). unfold rret in H.
  match type of H with Ok (?h', _) = _ => assert (h = h') as -> by congruence end. reflexivity.
Qed.

(** ** Frames *)
Section WithExt.
Context (X : Ext) (lenient : bool).

Lemma takeN_fits (a b : bytes) n : lenN a <= n -> exists b1 b2, b = b1 ++ b2 /\ takeN n (a ++ b) = a ++ b1 /\ dropN n (a ++ b) = b2.
Proof.
  intro L. exists (takeN (n - lenN a) b), (dropN (n - lenN a) b). split; [symmetry; apply takeN_dropN|].
  unfold takeN, dropN, lenN in *. rewrite app_length, !Nat2N.inj_add.
  replace (N.to_nat (N.min n (N.of_nat (List.length a) + N.of_nat (List.length b))))
    with (List.length a + N.to_nat (N.min (n - N.of_nat (List.length a)) (N.of_nat (List.length b))))%nat by lia.
  rewrite firstn_app_2, skipn_app, skipn_all2, app_nil_l by lia. split; [reflexivity|]. f_equal. lia.
Qed.

(** Reading a message of type [t]: the frame must start properly, and then its body decides. *)
Lemma read_split t input : t < 256 ->
  (exists e, snd (read_message X lenient t input) = Err e /\
     forall n body, n <= 20000000 -> input <> opening t n ++ body) \/
  exists n body, n <= 20000000 /\ input = opening t n ++ body /\
    (forall n' body', n' <= 20000000 -> input = opening t n' ++ body' -> n' = n /\ body' = body) /\
    snd (read_message X lenient t input) = limit_reader n (msg_read X lenient t) body.
Proof.
  intro T. assert (R : forall n body, n <= 20000000 -> input = opening t n ++ body ->
    limit_reader msg_header_len frame_header_read input = Ok ((t, n), body)).
  { intros n body L ->. unfold opening. rewrite <- !app_assoc. apply header_rt; [exact T|unfold is_u64; lia]. }
  unfold read_message. destruct (limit_reader msg_header_len frame_header_read input) as [[[t' n] rest]|e| |] eqn:E.
  - assert (I : input = opening t' n ++ rest).
    { unfold limit_reader in E. destruct (frame_header_read (takeN msg_header_len input)) as [[[t1 n1] r1]|e| |] eqn:F; try discriminate.
      assert (t1 = t' /\ n1 = n /\ rest = r1 ++ dropN msg_header_len input) as (-> & -> & ->) by (repeat split; congruence).
      unfold frame_header_read in F. apply pbind_inv in F as (m & m1 & Hm & F). apply read_full_inv in Hm as [Em _].
      destruct (bytes_eqb m magic_code) eqn:Q; [|discriminate]. cbn [negb] in F. apply bytes_eqb_eq in Q. subst m.
      apply pbind_inv in F as (a & m2 & Ha & F). apply read_be_inv in Ha as [-> _].
      apply pbind_inv in F as (b & m3 & Hb & F). apply read_be_inv in Hb as [-> _].
      unfold rret in F. assert (a = t' /\ b = n /\ m3 = r1) as (-> & -> & ->) by (repeat split; congruence).
      rewrite <- (takeN_dropN msg_header_len input) at 1. rewrite Em. unfold opening, magic_code. now rewrite <- !app_assoc. }
    destruct (N.eqb_spec t' t) as [->|D]; cbn [negb].
    + unfold max_msg_len. destruct (N.ltb_spec 20000000 n) as [B|B].
      * left. eexists. split; [reflexivity|]. intros n' body L I'. apply R in I'; [|exact L].
        assert (n = n') by congruence. lia.
      * right. exists n, rest. split; [exact B|]. split; [exact I|]. split; [|reflexivity].
        intros n' body' L I'. apply R in I'; [|exact L]. split; congruence.
    + left. eexists. split; [reflexivity|]. intros n' body L I'. apply R in I'; [|exact L]. congruence.
  - left. eexists. split; [reflexivity|]. intros n' body L I'. apply R in I'; [|exact L]. congruence.
  - exfalso. assert (S : safe frame_header_read).
    { apply safe_bind; [apply safe_read_full|intro m]. destruct (negb _); [apply safe_fail|].
      apply safe_bind; [apply safe_read_be|intro]. apply safe_bind; [apply safe_read_be|intro]. apply safe_ret. }
    now apply (safe_limit msg_header_len frame_header_read S input) in E.
  - exfalso. assert (S : safe frame_header_read).
    { apply safe_bind; [apply safe_read_full|intro m]. destruct (negb _); [apply safe_fail|].
      apply safe_bind; [apply safe_read_be|intro]. apply safe_bind; [apply safe_read_be|intro]. apply safe_ret. }
    now apply (safe_limit msg_header_len frame_header_read S input) in E.
Qed.
Lemma body_panic {A B} (p : reader A) (f : A -> B) n bs :
  limit_reader n (do x <- p; rret (f x)) bs = Panic <-> p (takeN n bs) = Panic.
Proof.
  unfold limit_reader, pbind. destruct (p (takeN n bs)) as [[a r]|e| |]; cbn; split; congruence.
Qed.
Lemma body_fatal {A B} (p : reader A) (f : A -> B) n bs :
  limit_reader n (do x <- p; rret (f x)) bs = Fatal <-> p (takeN n bs) = Fatal.
Proof.
  unfold limit_reader, pbind. destruct (p (takeN n bs)) as [[a r]|e| |]; cbn; split; congruence.
Qed.
Lemma body_ok {A B} (p : reader A) (f : A -> B) n bs b rest :
  limit_reader n (do x <- p; rret (f x)) bs = Ok (b, rest) <->
  exists a r, p (takeN n bs) = Ok (a, r) /\ b = f a /\ rest = r ++ dropN n bs.
Proof.
  unfold limit_reader, pbind. destruct (p (takeN n bs)) as [[a r]|e| |]; cbn; split.
  - intro E. exists a, r. split; [reflexivity|]. split; congruence.
  - intros (a' & r' & E & -> & ->). assert (a' = a /\ r' = r) as [-> ->] by (split; congruence). reflexivity.
  - discriminate.
  - intros (a' & r' & E & _). discriminate.
  - discriminate.
  - intros (a' & r' & E & _). discriminate.
  - discriminate.
  - intros (a' & r' & E & _). discriminate.
Qed.

Lemma takeN_le {A} n (l : list A) : lenN (takeN n l) <= n.
Proof. unfold takeN, lenN. rewrite firstn_length. lia. Qed.

(** ** What was read *)
Lemma read_shake input c d a rest :
  (exists s, snd (read_message X lenient 2 input) = Ok (MShake s, rest) /\
     sk_version s = 1 /\ sk_caps s = c /\ sk_difficulty s = d /\ sk_agent s = a) <-> shaken input c d a rest.
Proof.
  split.
  - intros (s & H & _ & Ec & Ed & Ea). destruct (read_split 2 input eq_refl) as [(e & E & _)|(n & body & L & I & _ & E)]; [congruence|].
    rewrite E in H. change (msg_read X lenient 2) with (do h <- shake_read; rret (@MShake X h)) in H.
    apply body_ok in H as (s' & r & H & Es & ->). injection Es as <-.
    apply shake_ok in H as (c' & d' & a' & g & Hc & Hd & La & Lg & T & ->).
    cbn [sk_caps sk_difficulty sk_agent] in *. subst c' d' a'.
    exists n, g. split.
    { split; [|exact L]. pose proof (takeN_le n body) as K. rewrite T, lenN_app in K. lia. }
    do 3 (split; [assumption|]). rewrite I. f_equal. rewrite <- (takeN_dropN n body) at 1. now rewrite T, <- app_assoc.
  - intros (n & g & [Lt L] & Lg & Hc & Hd & I).
    destruct (read_split 2 input eq_refl) as [(e & _ & K)|(n1 & body & _ & _ & U & E)]; [now apply K in I|].
    destruct (U _ _ L I) as [-> Eb]. exists (Shake 1 c d a g). split; [|now repeat split]. rewrite E.
    change (msg_read X lenient 2) with (do h <- shake_read; rret (@MShake X h)). apply body_ok.
    rewrite <- Eb. destruct (takeN_fits (shake_text c d a g) rest n1 Lt) as (r1 & r2 & -> & -> & ->).
    exists (Shake 1 c d a g), r1. split; [|split; reflexivity]. apply shake_ok. exists c, d, a, g.
    split; [exact Hc|]. split; [exact Hd|]. split; [|split; [exact Lg|split; reflexivity]].
    unfold shake_text in Lt. rewrite !lenN_app in Lt. lia.
Qed.
Lemma read_shake_panic input : snd (read_message X lenient 2 input) = Panic <-> shake_bomb input.
Proof.
  split.
  - intro H. destruct (read_split 2 input eq_refl) as [(e & E & _)|(n & body & L & I & _ & E)]; [congruence|].
    rewrite E in H. change (msg_read X lenient 2) with (do h <- shake_read; rret (@MShake X h)) in H.
    apply body_panic in H. apply shake_panic in H as (c & d & k & r & Hc & Hd & U & K & T).
    exists n, c, d, k, (r ++ dropN n body). split.
    { split; [|exact L]. pose proof (takeN_le n body) as Q. rewrite T in Q. rewrite !lenN_app in Q.
      unfold lenN in Q. rewrite !be_length in Q. lia. }
    do 4 (split; [assumption|]). rewrite I. f_equal. rewrite <- (takeN_dropN n body) at 1. now rewrite T, <- !app_assoc.
  - intros (n & c & d & k & rest & [Lt L] & Hc & Hd & U & K & I).
    destruct (read_split 2 input eq_refl) as [(e & _ & Z)|(n1 & body & _ & _ & Un & E)]; [now apply Z in I|].
    destruct (Un _ _ L I) as [-> Eb]. rewrite E.
    change (msg_read X lenient 2) with (do h <- shake_read; rret (@MShake X h)). apply body_panic.
    rewrite <- Eb. destruct (takeN_fits (be 4 1 ++ be 4 c ++ be 8 d ++ be 8 k) rest n1) as (r1 & r2 & -> & T & _).
    { rewrite !lenN_app. unfold lenN. rewrite !be_length. lia. }
    rewrite <- !app_assoc in T. rewrite T. apply shake_panic. exists c, d, k, r1. auto.
Qed.
Lemma read_shake_fatal input : snd (read_message X lenient 2 input) <> Fatal.
Proof.
  intro H. destruct (read_split 2 input eq_refl) as [(e & E & _)|(n & body & L & I & _ & E)]; [congruence|].
  rewrite E in H. change (msg_read X lenient 2) with (do h <- shake_read; rret (@MShake X h)) in H.
  apply body_fatal in H. now apply shake_fatal in H.
Qed.
Lemma read_shake_type input m rest : snd (read_message X lenient 2 input) = Ok (m, rest) -> exists s, m = MShake s /\ sk_version s = 1.
Proof.
  intro H. destruct (read_split 2 input eq_refl) as [(e & E & _)|(n & body & L & I & _ & E)]; [congruence|].
  rewrite E in H. change (msg_read X lenient 2) with (do h <- shake_read; rret (@MShake X h)) in H.
  apply body_ok in H as (s & r & H & -> & ->). exists s. split; [reflexivity|].
  apply shake_ok in H as (c & d & a & g & _ & _ & _ & _ & _ & ->). reflexivity.
Qed.

Lemma read_hand input c no d a rest :
  (exists h, snd (read_message X lenient 1 input) = Ok (MHand h, rest) /\ hd_version h = 1 /\
     hd_caps h = c /\ hd_nonce h = no /\ hd_difficulty h = d /\ hd_agent h = a) <-> handed lenient input c no d a rest.
Proof.
  split.
  - intros (h & H & F). destruct (read_split 1 input eq_refl) as [(e & E & _)|(n & body & L & I & _ & E)]; [congruence|].
    rewrite E in H. change (msg_read X lenient 1) with (do h <- hand_read lenient; rret (@MHand X h)) in H.
    apply body_ok in H as (h' & r & H & Es & ->). injection Es as <-.
    destruct (proj1 (hand_ok lenient (takeN n body) r c no d a)) as (s & rv & g & Hc & Hn & Hd & Ts & Tr & La & Lg & T); [eauto|].
    exists n, s, rv, g. split.
    { split; [|exact L]. pose proof (takeN_le n body) as K. rewrite T, lenN_app in K. lia. }
    do 6 (split; [assumption|]). rewrite I. f_equal. rewrite <- (takeN_dropN n body) at 1. now rewrite T, <- app_assoc.
  - intros (n & s & rv & g & [Lt L] & Lg & Hc & Hn & Hd & Ts & Tr & I).
    destruct (read_split 1 input eq_refl) as [(e & _ & K)|(n1 & body & _ & _ & U & E)]; [now apply K in I|].
    destruct (U _ _ L I) as [-> Eb]. rewrite E.
    change (msg_read X lenient 1) with (do h <- hand_read lenient; rret (@MHand X h)).
    rewrite <- Eb. destruct (takeN_fits (hand_text c no d s rv a g) rest n1 Lt) as (r1 & r2 & -> & T & D).
    destruct (proj2 (hand_ok lenient (hand_text c no d s rv a g ++ r1) r1 c no d a)) as (h & H & F).
    { exists s, rv, g. do 5 (split; [assumption|]). split; [|split; [exact Lg|reflexivity]].
      unfold hand_text in Lt. rewrite !lenN_app in Lt. lia. }
    exists h. split; [|exact F]. apply body_ok. exists h, r1. rewrite T, D. auto.
Qed.
Lemma read_hand_panic input : snd (read_message X lenient 1 input) = Panic <-> hand_bomb lenient input.
Proof.
  split.
  - intro H. destruct (read_split 1 input eq_refl) as [(e & E & _)|(n & body & L & I & _ & E)]; [congruence|].
    rewrite E in H. change (msg_read X lenient 1) with (do h <- hand_read lenient; rret (@MHand X h)) in H.
    apply body_panic in H. apply hand_panic in H as (c & no & d & s & rv & k & r & Hc & Hn & Hd & Ts & Tr & U & K & T).
    exists n, c, no, d, s, rv, k, (r ++ dropN n body). split.
    { split; [|exact L]. pose proof (takeN_le n body) as Q. rewrite T in Q. rewrite !lenN_app in Q.
      assert (E8 : lenN (be 8 k) = 8) by (unfold lenN; now rewrite be_length). lia. }
    do 7 (split; [assumption|]). rewrite I. f_equal. rewrite <- (takeN_dropN n body) at 1. now rewrite T, <- !app_assoc.
  - intros (n & c & no & d & s & rv & k & rest & [Lt L] & Hc & Hn & Hd & Ts & Tr & U & K & I).
    destruct (read_split 1 input eq_refl) as [(e & _ & Z)|(n1 & body & _ & _ & Un & E)]; [now apply Z in I|].
    destruct (Un _ _ L I) as [-> Eb]. rewrite E.
    change (msg_read X lenient 1) with (do h <- hand_read lenient; rret (@MHand X h)). apply body_panic.
    rewrite <- Eb. destruct (takeN_fits (hand_start c no d s rv ++ be 8 k) rest n1) as (r1 & r2 & -> & T & _).
    { rewrite lenN_app. assert (E8 : lenN (be 8 k) = 8) by (unfold lenN; now rewrite be_length). lia. }
    rewrite <- !app_assoc in T. rewrite T. apply hand_panic. exists c, no, d, s, rv, k, r1. auto 10.
Qed.
Lemma read_hand_fatal input : snd (read_message X lenient 1 input) <> Fatal.
Proof.
  intro H. destruct (read_split 1 input eq_refl) as [(e & E & _)|(n & body & L & I & _ & E)]; [congruence|].
  rewrite E in H. change (msg_read X lenient 1) with (do h <- hand_read lenient; rret (@MHand X h)) in H.
  apply body_fatal in H. now apply hand_fatal in H.
Qed.
Lemma read_hand_type input m rest : snd (read_message X lenient 1 input) = Ok (m, rest) -> exists h, m = MHand h /\ hd_version h = 1.
Proof.
  intro H. destruct (read_split 1 input eq_refl) as [(e & E & _)|(n & body & L & I & _ & E)]; [congruence|].
  rewrite E in H. change (msg_read X lenient 1) with (do h <- hand_read lenient; rret (@MHand X h)) in H.
  apply body_ok in H as (h & r & H & -> & ->). exists h. split; [reflexivity|]. now apply hand_version in H.
Qed.

(** ** Both sides *)
Lemma hand_sent nonce receiver : tcp_ip receiver ->
  exists f, (let! m := our_hand X nonce receiver in send X None m) = Ok [Sent f].
Proof.
  intro T. unfold our_hand. destruct (testnet4_hash X) as (g & Eg & _). rewrite Eg. cbn [rbind].
  unfold send, write_message. cbn [msg_bytes]. unfold hand_bytes. cbn [hd_sender hd_receiver].
  assert (A : exists sb, addr_bytes any_addr = Ok sb) by (eexists; vm_compute; reflexivity).
  destruct A as (sb & ->). cbn [rbind].
  destruct (addr_dec receiver) as [(_ & rb & ->)|(F & _)]; [|contradiction].
  cbn [rbind]. eexists. reflexivity.
Qed.
(** What is sent to an IPv4 address. *)
Lemma hand_text_sent name nonce receiver g input : hash_laws X -> List.length (ip receiver) = 4%nat -> (0 <= port receiver < 65536)%Z -> block_hash X (testnet4 X) = Ok g ->
  snd (new_peer X lenient name nonce receiver None input) =
    [Sent (opening 1 91 ++ hand_text 7 nonce 1 (brepeat x00 7) (x00 :: ip receiver ++ be 2 (Z.to_N (port receiver))) (String.list_byte_of_string "gringo v0.0.1") g)].
Proof.
  intros HL Li Hp Eg. destruct (testnet4_hash X) as (g' & Eg' & Lg). specialize (Lg HL). assert (g' = g) as -> by congruence.
  assert (E : (let! m := our_hand X nonce receiver in send X None m) = Ok [Sent (opening 1 91 ++
    hand_text 7 nonce 1 (brepeat x00 7) (x00 :: ip receiver ++ be 2 (Z.to_N (port receiver))) (String.list_byte_of_string "gringo v0.0.1") g)]).
  { unfold our_hand. rewrite Eg. cbn [rbind].
    set (b := hand_text 7 nonce 1 (brepeat x00 7) (x00 :: ip receiver ++ be 2 (Z.to_N (port receiver))) (String.list_byte_of_string "gringo v0.0.1") g).
    assert (Hb : msg_bytes X (MHand (Hand protocol_version cap_full_node nonce g 1 (Some any_addr) (Some receiver) user_agent)) = Ok b).
    { cbn [msg_bytes]. unfold hand_bytes. cbn [hd_sender hd_receiver hd_version hd_caps hd_nonce hd_difficulty hd_agent hd_genesis].
      replace (addr_bytes any_addr) with (Ok (brepeat x00 7)) by (vm_compute; reflexivity). cbn [rbind].
      unfold addr_bytes, to4. assert (L4 : (lenN (ip receiver) =? 4) = true) by (unfold lenN; rewrite Li; reflexivity). rewrite L4, L4.
      cbn [rbind]. rewrite Z.mod_small by exact Hp. unfold b, hand_text, hand_start. change user_agent with (String.list_byte_of_string "gringo v0.0.1").
      rewrite <- !app_assoc. cbn [app]. rewrite <- !app_assoc. reflexivity. }
    unfold send. rewrite (write_frame X _ b Hb); [|].
    - cbn [rbind fst]. do 3 f_equal. unfold frame_of, opening. rewrite <- !app_assoc. cbn [app]. do 3 f_equal.
      all: unfold b, hand_text, hand_start, lenN; rewrite ?app_length, ?be_length; cbn [List.length]; rewrite ?app_length, ?be_length, ?Li, ?Lg; try reflexivity.
    - unfold b, hand_text, hand_start, lenN. rewrite ?app_length, ?be_length. cbn [List.length]. rewrite ?app_length, ?be_length, ?Li, ?Lg. vm_compute. discriminate. }
  unfold new_peer, shake_by_hand. rewrite E. destruct (snd (read_message X lenient type_shake input)) as [[[] ?]|e| |]; reflexivity.
Qed.
Lemma dial_exactly name nonce receiver : tcp_ip receiver ->
  exists f, forall input, exists r, new_peer X lenient name nonce receiver None input = (r, [Sent f]) /\
    (forall p rest, r = Ok (p, rest) <-> exists c d a, shaken input c d a rest /\ p = PeerOf name true 1 c d a 0) /\
    (r = Panic <-> shake_bomb input) /\ r <> Fatal.
Proof.
  intro T. destruct (hand_sent nonce receiver T) as (f & E). exists f. intro input.
  unfold new_peer, shake_by_hand. rewrite E. change type_shake with 2.
  pose proof (read_shake_panic input) as P. pose proof (read_shake_fatal input) as F. pose proof (read_shake_type input) as Ty.
  destruct (snd (read_message X lenient 2 input)) as [[m rest0]|e| |] eqn:R.
  - destruct (Ty m rest0 eq_refl) as (s & -> & V). eexists. split; [reflexivity|]. split; [|split; [|discriminate]].
    + intros p rest. split.
      * intro Q. assert (rest0 = rest /\ p = PeerOf name true (sk_version s) (sk_caps s) (sk_difficulty s) (sk_agent s) 0) as [-> ->]
          by (split; congruence).
        exists (sk_caps s), (sk_difficulty s), (sk_agent s). rewrite V. split; [|reflexivity].
        apply read_shake. rewrite R. exists s. auto.
      * intros (c & d & a & S & ->). apply read_shake in S. rewrite R in S. destruct S as (s' & Q & V' & <- & <- & <-).
        assert (s = s' /\ rest0 = rest) as [-> ->] by (split; congruence). now rewrite V'.
    + rewrite <- P. split; discriminate.
  - eexists. split; [reflexivity|]. split; [|split; [|discriminate]].
    + intros p rest. split; [discriminate|]. intros (c & d & a & S & _). apply read_shake in S. rewrite R in S.
      destruct S as (? & S & _). discriminate.
    + rewrite <- P. split; discriminate.
  - eexists. split; [reflexivity|]. split; [|split; [|discriminate]].
    + intros p rest. split; [discriminate|]. intros (c & d & a & S & _). apply read_shake in S. rewrite R in S.
      destruct S as (? & S & _). discriminate.
    + rewrite <- P. split; reflexivity.
  - congruence.
Qed.
Lemma answer_eq : our_shake_frame = answer.
Proof. vm_compute. reflexivity. Qed.
Lemma listen_exactly nonces wr input : exists r ops, accept_new_peer X lenient nonces wr input = (r, ops) /\
  (forall p rest, r = Ok (p, rest) <->
     wr = None /\ exists c no d a, handed lenient input c no d a rest /\ ~ In no nonces /\ p = PeerOf [] false 1 c d a 0) /\
  (r = Panic <-> hand_bomb lenient input) /\ r <> Fatal /\
  ops = match r with Ok _ => [Sent answer] | _ => [] end.
Proof.
  unfold accept_new_peer, hand_by_shake. rewrite send_shake, answer_eq. change type_hand with 1.
  pose proof (read_hand_panic input) as P. pose proof (read_hand_fatal input) as F. pose proof (read_hand_type input) as Ty.
  destruct (snd (read_message X lenient 1 input)) as [[m rest0]|e| |] eqn:R.
  - destruct (Ty m rest0 eq_refl) as (h & -> & V). destruct (consist nonces (hd_nonce h)) eqn:K.
    + eexists. eexists. split; [reflexivity|]. split; [|split; [|split; [discriminate|reflexivity]]].
      * intros p rest. split; [discriminate|]. intros (_ & c & no & d & a & S & N & _). apply read_hand in S. rewrite R in S.
        destruct S as (h' & Q & _ & _ & <- & _). assert (h = h') by congruence. subst h'. apply consist_iff in K. contradiction.
      * rewrite <- P. split; discriminate.
    + destruct wr as [e|].
      * eexists. eexists. split; [reflexivity|]. split; [|split; [|split; [discriminate|reflexivity]]].
        -- intros p rest. split; [discriminate|]. intros (D & _). discriminate.
        -- rewrite <- P. split; discriminate.
      * eexists. eexists. split; [reflexivity|]. split; [|split; [|split; [discriminate|reflexivity]]].
        -- intros p rest. split.
           ++ intro Q. assert (rest0 = rest /\ p = PeerOf [] false (hd_version h) (hd_caps h) (hd_difficulty h) (hd_agent h) 0) as [-> ->]
                by (split; congruence).
              split; [reflexivity|]. exists (hd_caps h), (hd_nonce h), (hd_difficulty h), (hd_agent h). split; [|split; [|now rewrite V]].
              ** apply read_hand. rewrite R. exists h. auto 10.
              ** intro I. apply consist_iff in I. congruence.
           ++ intros (_ & c & no & d & a & S & N & ->). apply read_hand in S. rewrite R in S.
              destruct S as (h' & Q & V' & <- & <- & <- & <-). assert (h = h' /\ rest0 = rest) as [-> ->] by (split; congruence).
              now rewrite V'.
        -- rewrite <- P. split; discriminate.
  - eexists. eexists. split; [reflexivity|]. split; [|split; [|split; [discriminate|reflexivity]]].
    + intros p rest. split; [discriminate|]. intros (_ & c & no & d & a & S & _). apply read_hand in S. rewrite R in S.
      destruct S as (? & S & _). discriminate.
    + rewrite <- P. split; discriminate.
  - eexists. eexists. split; [reflexivity|]. split; [|split; [|split; [discriminate|reflexivity]]].
    + intros p rest. split; [discriminate|]. intros (_ & c & no & d & a & S & _). apply read_hand in S. rewrite R in S.
      destruct S as (? & S & _). discriminate.
    + rewrite <- P. split; reflexivity.
  - congruence.
Qed.
End WithExt.

Lemma bombs : lenN bomb2 = 35 /\ lenN bomb1 = 57 /\
  (forall X lenient name nonce receiver more, tcp_ip receiver ->
     fst (new_peer X lenient name nonce receiver None (bomb2 ++ more)) = Panic) /\
  (forall X lenient nonces wr more, fst (accept_new_peer X lenient nonces wr (bomb1 ++ more)) = Panic).
Proof.
  split; [reflexivity|]. split; [reflexivity|]. split.
  - intros X lenient name nonce receiver more T. destruct (dial_exactly X lenient name nonce receiver T) as (f & H).
    destruct (H (bomb2 ++ more)) as (r & -> & _ & P & _). apply P. exists 24, 0, 0, (2 ^ 48 + 1), more.
    split; [split; discriminate|]. split; [reflexivity|]. split; [reflexivity|]. split; [reflexivity|].
    split; [reflexivity|]. unfold bomb2. now rewrite <- !app_assoc.
  - intros X lenient nonces wr more. destruct (listen_exactly X lenient nonces wr (bomb1 ++ more)) as (r & ops & -> & _ & P & _).
    apply P. exists 46, 0, 0, 0, (brepeat x00 7), (brepeat x00 7), (2 ^ 48 + 1), more.
    split; [split; discriminate|]. do 3 (split; [reflexivity|]).
    assert (A : addr_text lenient (brepeat x00 7)) by (left; exists (brepeat x00 6); split; reflexivity).
    split; [exact A|]. split; [exact A|]. split; [reflexivity|]. split; [reflexivity|].
    unfold bomb1, hand_start. rewrite <- !app_assoc. reflexivity.
Qed.
