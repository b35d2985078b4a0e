(** Lemmas about secp256k1zkp/schnorr.go. *)
From Verif Require Import Schnorr SpecSchnorr.

Section Group.
Context (X : Ext) (On : point -> Prop) (O : point) (neg : point -> point).
Context (L : curve_laws X On O neg).
Local Notation "p +p q" := (c_add X p q) (at level 50, left associativity).
Local Notation "k *p p" := (c_smul X p k) (at level 40).
Local Notation n := (c_order X).

Let zero := cl_zero _ _ _ _ L.
Let comm := cl_comm _ _ _ _ L.
Let assoc := cl_assoc _ _ _ _ L.
Let add_on := cl_add_on _ _ _ _ L.
Let neg_on := cl_neg_on _ _ _ _ L.
Let O_on := cl_O _ _ _ _ L.
Let G_on := cl_G _ _ _ _ L.
Let H_on := cl_H _ _ _ _ L.
Let add_neg := cl_neg _ _ _ _ L.
Let smul_0 := cl_smul_0 _ _ _ _ L.
Let smul_S := cl_smul_S _ _ _ _ L.
Let smul_n := cl_smul_n _ _ _ _ L.

Lemma smul_on p k : On p -> On (k *p p).
Proof.
  intro H. induction k using N.peano_ind; [rewrite smul_0 by exact H; exact O_on|].
  rewrite smul_S by exact H. auto.
Qed.

Lemma zero_l p : On p -> O +p p = p.
Proof. intro H. rewrite comm by auto. auto. Qed.

Lemma add_cancel p q r : On p -> On q -> On r -> p +p q = p +p r -> q = r.
Proof.
  intros Hp Hq Hr E. apply (f_equal (fun t => c_add X (neg p) t)) in E.
  rewrite !assoc in E by auto. rewrite (comm (neg p) p), add_neg, !zero_l in E by auto. exact E.
Qed.

Lemma neg_unique p q : On p -> On q -> p +p q = O -> q = neg p.
Proof. intros Hp Hq E. apply (add_cancel p); auto. rewrite E. symmetry. auto. Qed.

Lemma neg_neg p : On p -> neg (neg p) = p.
Proof. intro H. symmetry. apply neg_unique; auto. rewrite comm by auto. auto. Qed.

Lemma neg_O : neg O = O.
Proof. symmetry. apply neg_unique; auto. Qed.

Lemma neg_add p q : On p -> On q -> neg (p +p q) = neg p +p neg q.
Proof.
  intros Hp Hq. symmetry. apply neg_unique; auto.
  rewrite assoc by auto. rewrite <- (assoc p q (neg p)) by auto. rewrite (comm q (neg p)) by auto.
  rewrite (assoc p (neg p) q) by auto. rewrite add_neg, zero_l by auto. auto.
Qed.

Lemma smul_add p a b : On p -> (a + b) *p p = a *p p +p b *p p.
Proof.
  intro H. induction b using N.peano_ind.
  - rewrite N.add_0_r, smul_0 by exact H. rewrite zero; auto using smul_on.
  - rewrite N.add_succ_r, !smul_S, IHb by exact H. rewrite assoc; auto using smul_on.
Qed.

Lemma smul_O k : k *p O = O.
Proof. induction k using N.peano_ind; [auto|]. rewrite smul_S, IHk by auto. auto. Qed.

Lemma smul_mul p a b : On p -> (a * b) *p p = a *p (b *p p).
Proof.
  intro H. induction a using N.peano_ind.
  - rewrite N.mul_0_l, !smul_0; auto using smul_on.
  - rewrite N.mul_succ_l, smul_add, IHa, smul_S; auto using smul_on.
Qed.

Lemma smul_mod p k : On p -> (k mod n) *p p = k *p p.
Proof.
  intro H. assert (Hn : n <> 0) by (pose proof (cl_order _ _ _ _ L); lia).
  rewrite (N.div_mod k n Hn) at 2. rewrite (N.mul_comm n), smul_add, smul_mul, smul_n, smul_O by exact H.
  rewrite zero_l; auto using smul_on.
Qed.

Lemma smul_neg p k : On p -> k <= n -> (n - k) *p p = neg (k *p p).
Proof.
  intros H Hk. apply neg_unique; auto using smul_on.
  rewrite <- smul_add by exact H. replace (k + (n - k)) with n by lia. auto.
Qed.

Lemma smul_distr p q k : On p -> On q -> k *p (p +p q) = k *p p +p k *p q.
Proof.
  intros Hp Hq. induction k using N.peano_ind.
  - rewrite !smul_0 by auto. rewrite zero; auto.
  - rewrite !smul_S, IHk by auto.
    pose proof (smul_on p k Hp). pose proof (smul_on q k Hq).
    rewrite <- !assoc by auto. f_equal. rewrite !assoc by auto. f_equal. apply comm; auto.
Qed.

(** The order being odd, only O is its own inverse. *)
Lemma double_O p : On p -> p +p p = O -> p = O.
Proof.
  intros H E. pose proof (cl_odd _ _ _ _ L) as Od. rewrite <- (smul_n p H) in E |- *.
  apply N.odd_spec in Od as [m Hm]. rewrite Hm. rewrite smul_add, smul_mul by exact H.
  assert (E2 : 2 *p p = O).
  { change 2 with (N.succ (N.succ 0)). rewrite !smul_S, smul_0, zero_l by auto. rewrite E. auto. }
  assert (E1 : 1 *p p = p).
  { change 1 with (N.succ 0). rewrite smul_S, smul_0, zero_l by auto. reflexivity. }
  replace (2 *p (m *p p)) with O.
  - rewrite E1, zero_l by auto. reflexivity.
  - rewrite <- smul_mul, N.mul_comm, smul_mul, E2, smul_O by exact H. reflexivity.
Qed.

Lemma neg_self p : On p -> p = neg p -> p = O.
Proof. intros H E. apply double_O; [exact H|]. rewrite E at 2. auto. Qed.

Lemma px_eq p q : On p -> On q -> (px p = px q <-> q = p \/ q = neg p).
Proof.
  intros Hp Hq. split; [apply (cl_x _ _ _ _ L); auto|].
  intros [-> | ->]; [reflexivity|]. symmetry. now apply (cl_x_neg _ _ _ _ L).
Qed.

(** ** Signatures *)

Lemma challenge_spec R P msg : challenge X R P msg = fiat_shamir X R P msg.
Proof.
  unfold challenge, fiat_shamir, compute_hash, compress_pubkey, get_b32, tag_even, tag_odd.
  cbn [concat app]. rewrite app_nil_r, <- N.negb_odd. now destruct (N.odd (py P)).
Qed.

Lemma verify_iff P msg s R : On P -> On R ->
  (verify_signature X P msg (Signature s R) = true <->
   schnorr_eq X P (fiat_shamir X R P msg) R s \/
   c_smul X (c_G X) s = neg (R +p (fiat_shamir X R P msg) *p P)).
Proof.
  intros HP HR. unfold verify_signature, schnorr_eq. cbn [sg_s sg_R]. rewrite challenge_spec.
  set (e := fiat_shamir X R P msg). rewrite N.eqb_eq.
  assert (H1 : On (s *p c_G X)) by auto using smul_on.
  assert (H2 : On (R +p e *p P)) by auto using smul_on.
  rewrite (px_eq _ _ H1 H2). split; (intros [E|E]; [left; now rewrite E|right]); rewrite E, neg_neg; auto.
Qed.

Lemma sign_eq k x msg : let P := x *p c_G X in let sg := sign_message X k P x msg in
  sg_R sg = k *p c_G X /\ sg_s sg < n /\ schnorr_eq X P (fiat_shamir X (sg_R sg) P msg) (sg_R sg) (sg_s sg).
Proof.
  intros P sg. unfold sg, sign_message, schnorr_eq. cbn [sg_s sg_R]. rewrite challenge_spec.
  set (e := fiat_shamir X (k *p c_G X) P msg).
  assert (Hn : n <> 0) by (pose proof (cl_order _ _ _ _ L); lia).
  split; [reflexivity|]. split; [now apply N.mod_lt|].
  rewrite smul_mod, smul_add, smul_mod, smul_mul by auto. reflexivity.
Qed.

Lemma sign_verifies k x msg :
  verify_signature X (x *p c_G X) msg (sign_message X k (x *p c_G X) x msg) = true.
Proof.
  destruct (sign_eq k x msg) as (ER & _ & E). destruct (sign_message _ _ _ _ _) as [s R]. cbn [sg_s sg_R] in *.
  apply verify_iff; [auto using smul_on|rewrite ER; auto using smul_on|]. now left.
Qed.

(** ** Serialised signatures *)

Lemma b32_lt m : m < 2 ^ 256 -> unbe (get_b32 m) = m.
Proof. intro H. unfold get_b32. apply unbe_be. exact H. Qed.

Lemma slice_app_l (a b : bytes) : List.length a = 32%nat -> slice 0 32 (a ++ b) = a.
Proof. intro H. unfold slice. cbn [skipn]. rewrite <- H at 1. rewrite firstn_app, Nat.sub_diag, firstn_all. apply app_nil_r. Qed.
Lemma slice_app_r (a b : bytes) : List.length a = 32%nat -> List.length b = 32%nat -> slice 32 32 (a ++ b) = b.
Proof.
  intros H H'. unfold slice. rewrite <- H at 2. rewrite skipn_app, Nat.sub_diag, skipn_all. cbn [skipn app].
  rewrite <- H'. apply firstn_all.
Qed.

Lemma decode_encode s R : px R < 2 ^ 256 -> s < 2 ^ 256 ->
  decode_signature X (sig_bytes (Signature s R)) =
  Signature s (Point (px R) (c_sqrt X (px R * px R * px R + 7))).
Proof.
  intros HR Hs. unfold decode_signature, sig_bytes, decompress_point. cbn [sg_s sg_R].
  rewrite slice_app_l, slice_app_r by apply be_length. now rewrite !b32_lt.
Qed.

Lemma decode_any b : List.length b = 64%nat ->
  sg_s (decode_signature X b) = unbe (skipn 32 b) /\ px (sg_R (decode_signature X b)) = unbe (firstn 32 b) /\
  sig_bytes (decode_signature X b) = b.
Proof.
  intro H. unfold decode_signature, sig_bytes. cbn [sg_s sg_R px]. unfold slice.
  change (skipn 0 b) with b.
  assert (H2 : List.length (skipn 32 b) = 32%nat) by (rewrite skipn_length, H; reflexivity).
  assert (H1 : List.length (firstn 32 b) = 32%nat) by (rewrite firstn_length, H; reflexivity).
  assert (F : firstn 32 (skipn 32 b) = skipn 32 b) by (apply firstn_all2; rewrite H2; auto).
  rewrite F. split; [reflexivity|]. split; [reflexivity|].
  unfold get_b32.
  pose proof (be_unbe (firstn 32 b)) as E1. rewrite H1 in E1.
  pose proof (be_unbe (skipn 32 b)) as E2. rewrite H2 in E2.
  rewrite E1, E2. apply firstn_skipn.
Qed.

Lemma sig_bytes_len s : List.length (sig_bytes s) = 64%nat.
Proof. unfold sig_bytes, get_b32. now rewrite app_length, !be_length. Qed.

Lemma gen_O k : k *p c_G X = O <-> k mod n = 0.
Proof.
  assert (Hn : n <> 0) by (pose proof (cl_order _ _ _ _ L); lia).
  split.
  - intro E. apply (cl_gen _ _ _ _ L) in E. now apply N.mod_divide.
  - intro E. rewrite <- smul_mod, E by auto. auto.
Qed.

Lemma serialised_verifies k x msg : k mod n <> 0 ->
  let P := x *p c_G X in let sg := sign_message X k P x msg in let e := fiat_shamir X (sg_R sg) P msg in
  (verify_signature X P msg (decode_signature X (sig_bytes sg)) = true <->
   canonical_root X (sg_R sg) \/ (e * x) mod n = 0).
Proof.
  intros Hk P sg e. destruct (sign_eq k x msg) as (ER & Hs & E). fold P in ER, Hs, E. fold sg in ER, Hs, E.
  assert (HR : On (sg_R sg)) by (rewrite ER; auto using smul_on).
  assert (HRO : sg_R sg <> O) by (rewrite ER; intro F; apply gen_O in F; contradiction).
  assert (HP : On P) by (apply smul_on; auto).
  pose proof (cl_order _ _ _ _ L) as Hn.
  set (R := sg_R sg) in *. set (s := sg_s sg) in *.
  replace sg with (Signature s R) by (unfold s, R; now destruct sg).
  rewrite decode_encode; [|now apply (cl_coord _ _ _ _ L)|lia].
  set (R' := Point (px R) (c_sqrt X (px R * px R * px R + 7))).
  assert (Ee : forall Q, fiat_shamir X R' Q msg = fiat_shamir X R Q msg) by reflexivity.
  assert (He : On (e *p P)) by auto using smul_on.
  assert (HsG : On (s *p c_G X)) by auto using smul_on.
  unfold schnorr_eq in E. fold e in E.
  destruct (cl_sqrt _ _ _ _ L R HR HRO) as [F|F]; fold R' in F.
  - assert (HC : canonical_root X R) by exact (eq_sym (f_equal py F)).
    split; [now left|]. intros _. rewrite F. apply verify_iff; [exact HP|exact HR|]. left. exact E.
  - assert (HC : ~ canonical_root X R).
    { intro C. apply HRO. apply neg_self; [exact HR|]. rewrite <- F. unfold R'. unfold canonical_root in C.
      rewrite <- C. now destruct R. }
    assert (HR' : On R') by (rewrite F; auto).
    rewrite (verify_iff P msg s R' HP HR'). unfold schnorr_eq. rewrite Ee. fold e. rewrite E, F.
    assert (EP : e *p P = O <-> (e * x) mod n = 0).
    { unfold P. rewrite <- smul_mul by auto. apply gen_O. }
    split.
    + intros [A|A].
      * exfalso. apply HRO, neg_self; [exact HR|]. rewrite !(comm _ (e *p P)) in A by auto.
        now apply add_cancel in A; auto.
      * right. rewrite neg_add, neg_neg in A by auto. apply add_cancel in A; auto.
        apply EP, neg_self; auto.
    + intros [C|C]; [contradiction|]. right. apply EP in C. rewrite C, !zero by auto. rewrite neg_neg; auto.
Qed.

(** ** Malleability *)

Lemma malleable P msg s R : On P -> On R -> s <= n ->
  verify_signature X P msg (Signature (n - s) R) = verify_signature X P msg (Signature s R).
Proof.
  intros HP HR Hs. unfold verify_signature. cbn [sg_s sg_R]. rewrite smul_neg by auto.
  rewrite (cl_x_neg _ _ _ _ L) by auto using smul_on. reflexivity.
Qed.

Lemma verify_scalars P msg s s' R : On P -> On R -> verify_signature X P msg (Signature s R) = true ->
  (verify_signature X P msg (Signature s' R) = true <->
   s' mod n = s mod n \/ (s + s') mod n = 0).
Proof.
  intros HP HR V. assert (Hn : n <> 0) by (pose proof (cl_order _ _ _ _ L); lia).
  unfold verify_signature in *. cbn [sg_s sg_R] in *. set (e := challenge X R P msg) in *.
  apply N.eqb_eq in V. rewrite N.eqb_eq, <- V.
  assert (H1 : On (s *p c_G X)) by auto using smul_on. assert (H2 : On (s' *p c_G X)) by auto using smul_on.
  rewrite (px_eq _ _ H2 H1).
  assert (D : forall a b, b <= a -> (a *p c_G X = b *p c_G X <-> (a - b) mod n = 0)).
  { intros a b Hab. rewrite <- gen_O. replace a with (b + (a - b)) at 1 by lia. rewrite smul_add by auto. split.
    - intro E. apply (add_cancel (b *p c_G X)); auto using smul_on. rewrite E. symmetry. apply zero. auto using smul_on.
    - intros ->. apply zero. auto using smul_on. }
  assert (M : forall a b, a *p c_G X = b *p c_G X <-> a mod n = b mod n).
  { intros a b. rewrite <- (smul_mod _ a), <- (smul_mod _ b) by auto.
    pose proof (N.mod_lt a n Hn). pose proof (N.mod_lt b n Hn).
    destruct (N.le_ge_cases (b mod n) (a mod n)) as [C|C].
    - rewrite (D _ _ C), (N.mod_small (a mod n - b mod n)) by lia. lia.
    - split; [intro E; symmetry in E; revert E|intro E; symmetry; revert E];
        rewrite (D _ _ C), (N.mod_small (b mod n - a mod n)) by lia; lia. }
  assert (NE : s *p c_G X = neg (s' *p c_G X) <-> (s + s') mod n = 0).
  { rewrite <- gen_O, N.add_comm, smul_add by auto. split.
    - intros ->. auto.
    - intro E. apply neg_unique; auto. }
  rewrite NE, M. intuition congruence.
Qed.

(** ** Commitments *)

Lemma commit_hom r1 v1 r2 v2 :
  commit_value X r1 v1 +p commit_value X r2 v2 = commit_value X (r1 + r2) (v1 + v2).
Proof.
  unfold commit_value. rewrite !smul_add by auto.
  pose proof (smul_on _ r1 G_on) as A1. pose proof (smul_on _ r2 G_on) as A2.
  pose proof (smul_on _ v1 H_on) as A3. pose proof (smul_on _ v2 H_on) as A4.
  rewrite <- !assoc by auto. f_equal. rewrite !assoc by auto. f_equal. apply comm; auto.
Qed.

Lemma commit_mod r v : commit_value X (r mod n) (v mod n) = commit_value X r v.
Proof. unfold commit_value. now rewrite !smul_mod by auto. Qed.

Lemma commit_zero r : commit_value X r 0 = r *p c_G X.
Proof. unfold commit_value. rewrite (smul_0 (c_H X)) by auto. apply zero. auto using smul_on. Qed.

Lemma commit_on r v : On (commit_value X r v).
Proof. unfold commit_value. auto using smul_on. Qed.

Lemma commit_neg r v : r <= n -> v <= n -> commit_value X (n - r) (n - v) = neg (commit_value X r v).
Proof.
  intros Hr Hv. unfold commit_value. rewrite !smul_neg by auto. symmetry. apply neg_add; auto using smul_on.
Qed.

End Group.

(** ** Encodings *)

Lemma message_len fee lock : List.length (compute_message fee lock) = 32%nat.
Proof. unfold compute_message. rewrite !app_length, !be_length. reflexivity. Qed.

Lemma message_inj f1 l1 f2 l2 : is_u64 f1 -> is_u64 l1 -> is_u64 f2 -> is_u64 l2 ->
  compute_message f1 l1 = compute_message f2 l2 -> f1 = f2 /\ l1 = l2.
Proof.
  intros H1 H2 H3 H4 E. unfold compute_message in E. apply app_inv_head in E.
  assert (A : be 8 f1 = be 8 f2).
  { apply (f_equal (firstn 8)) in E. rewrite !firstn_app, !firstn_all2 in E by (rewrite be_length; lia).
    rewrite !be_length, Nat.sub_diag in E. cbn [firstn] in E. now rewrite !app_nil_r in E. }
  rewrite A in E. apply app_inv_head in E. split; (eapply be_inj; [| |eassumption]); assumption.
Qed.

Lemma compress_inj p q : px p < 2 ^ 256 -> px q < 2 ^ 256 ->
  (compress_pubkey p = compress_pubkey q <-> px p = px q /\ N.odd (py p) = N.odd (py q)).
Proof.
  intros Hp Hq. unfold compress_pubkey. split.
  - intro E. assert (A : get_b32 (px p) = get_b32 (px q)) by congruence.
    split; [eapply be_inj; [| |exact A]; assumption|].
    unfold tag_odd, tag_even in E. destruct (N.odd (py p)), (N.odd (py q)); try reflexivity; discriminate.
  - intros [-> ->]. reflexivity.
Qed.

Lemma compress_layout p : px p < 2 ^ 256 ->
  List.length (compress_pubkey p) = 33%nat /\
  hd x00 (compress_pubkey p) = (if N.even (py p) then x02 else x03) /\ unbe (tl (compress_pubkey p)) = px p.
Proof.
  intro H. unfold compress_pubkey, get_b32, tag_odd, tag_even. cbn [List.length hd tl].
  rewrite be_length, unbe_be by exact H. split; [reflexivity|]. split; [|reflexivity].
  rewrite <- N.negb_odd. now destruct (N.odd (py p)).
Qed.

Lemma compress_len p : List.length (compress_pubkey p) = 33%nat.
Proof. unfold compress_pubkey, get_b32. cbn [List.length]. now rewrite be_length. Qed.

Lemma random_int_spec X draws k rest : random_int X draws = Some (k, rest) ->
  exists bad b, draws = bad ++ b :: rest /\ k = unbe b /\ k <= c_order X /\
    Forall (fun d => c_order X < unbe d) bad.
Proof.
  revert k rest. induction draws as [|d t IH]; intros k rest E; [discriminate|]. cbn [random_int] in E.
  destruct (N.ltb_spec (c_order X) (unbe d)) as [H|H].
  - destruct (IH _ _ E) as (bad & b & -> & -> & Hk & Hb). exists (d :: bad), b. auto.
  - exists [], d. assert (unbe d = k) by congruence. assert (t = rest) by congruence. subst. auto.
Qed.

Lemma random_int_total X draws : Exists (fun d => unbe d <= c_order X) draws ->
  exists k rest, random_int X draws = Some (k, rest).
Proof.
  induction 1 as [d t H|d t H IH]; cbn [random_int].
  - replace (c_order X <? unbe d) with false by (symmetry; now apply N.ltb_ge). eauto.
  - destruct (_ <? _); eauto.
Qed.

Lemma skipn_skipn' {A} a b (l : list A) : skipn a (skipn b l) = skipn (a + b) l.
Proof. revert l. induction b as [|b IH]; intro l; [now rewrite Nat.add_0_r|]. rewrite Nat.add_succ_r. destruct l; [now rewrite !skipn_nil|]. apply IH. Qed.

Lemma message_layout fee lock : is_u64 fee -> is_u64 lock ->
  let m := compute_message fee lock in
  List.length m = 32%nat /\ firstn 16 m = repeat x00 16 /\
  unbe (firstn 8 (skipn 16 m)) = fee /\ unbe (skipn 24 m) = lock.
Proof.
  intros Hf Hl m. split; [apply message_len|]. split; [reflexivity|].
  assert (E : skipn 16 m = be 8 fee ++ be 8 lock) by reflexivity.
  split.
  - rewrite E, firstn_app, firstn_all2 by (rewrite be_length; lia). rewrite be_length, Nat.sub_diag, app_nil_r.
    apply unbe_be. exact Hf.
  - change 24%nat with (8 + 16)%nat. rewrite <- skipn_skipn', E, skipn_app, skipn_all2 by (rewrite be_length; lia).
    rewrite be_length, Nat.sub_diag. apply unbe_be. exact Hl.
Qed.

Lemma random_int_order X rest : c_order X < 2 ^ 256 ->
  random_int X (be 32 (c_order X) :: rest) = Some (c_order X, rest).
Proof. intro H. cbn [random_int]. rewrite unbe_be by exact H. now rewrite N.ltb_irrefl. Qed.
