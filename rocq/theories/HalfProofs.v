(** Proofs for C118. *)
From Coq Require Import Lia.
From Verif Require Import Schnorr SpecSchnorr SchnorrProofs EC Real SpecSecp SecpGroup SecpProofs.

Section Half.
Context (X : Ext) (On : point -> Prop) (O : point) (neg : point -> point) (L : curve_laws X On O neg).
Notation n := (c_order X).
Notation G := (c_G X).

Lemma n_pos : n <> 0.
Proof. pose proof (cl_order _ _ _ _ L). lia. Qed.
Lemma one_root p : On p -> p <> O -> (canonical_root X (neg p) <-> ~ canonical_root X p).
Proof.
  intros P NO. unfold canonical_root. rewrite (cl_x_neg _ _ _ _ L p P). pose proof (cl_sqrt _ _ _ _ L p P NO) as S. cbv zeta in S.
  set (r := c_sqrt X (px p * px p * px p + 7)) in *.
  assert (Ne : p <> neg p) by (intro E; exact (NO (neg_self X On O neg L p P E))).
  assert (Ep : p = Point (px p) (py p)) by (now destruct p). assert (En : neg p = Point (px p) (py (neg p))).
  { rewrite <- (cl_x_neg _ _ _ _ L p P) at 1. now destruct (neg p). }
  split.
  - intros E E'. apply Ne. rewrite En, E, <- E'. exact Ep.
  - intro N. destruct S as [S|S]; [elim N; rewrite <- S at 1; reflexivity|]. rewrite <- S. reflexivity.
Qed.
Lemma nonce_on k : On (c_smul X G k).
Proof. exact (smul_on X On O neg L G k (cl_G _ _ _ _ L)). Qed.
Lemma nonce_neg k : k <= n -> c_smul X G (n - k) = neg (c_smul X G k).
Proof. intro H. exact (smul_neg X On O neg L G k (cl_G _ _ _ _ L) H). Qed.
Lemma nonce_O k : 0 < k < n -> c_smul X G k <> O.
Proof. intros H E. apply (gen_O X On O neg L) in E. rewrite N.mod_small in E by lia. lia. Qed.
Lemma one_nonce k : 0 < k < n -> (canonical_root X (c_smul X G (n - k)) <-> ~ canonical_root X (c_smul X G k)).
Proof. intro H. rewrite nonce_neg by lia. apply one_root; [apply nonce_on|now apply nonce_O]. Qed.

Lemma one_survives k x msg : 0 < k < n -> let P := c_smul X G x in
  (fiat_shamir X (c_smul X G k) P msg * x) mod n <> 0 ->
  (verify_signature X P msg (decode_signature X (sig_bytes (sign_message X (n - k) P x msg))) = true <->
   verify_signature X P msg (decode_signature X (sig_bytes (sign_message X k P x msg))) = false).
Proof.
  intros H P E.
  assert (Hk : k mod n <> 0) by (rewrite N.mod_small by lia; lia). assert (Hk' : (n - k) mod n <> 0) by (rewrite N.mod_small by lia; lia).
  assert (E' : (fiat_shamir X (c_smul X G (n - k)) P msg * x) mod n <> 0).
  { rewrite nonce_neg by lia. unfold fiat_shamir in *. rewrite (cl_x_neg _ _ _ _ L _ (nonce_on k)). exact E. }
  pose proof (serialised_verifies X On O neg L k x msg Hk) as S1. pose proof (serialised_verifies X On O neg L (n - k) x msg Hk') as S2.
  cbv zeta in S1, S2. fold P in S1, S2.
  change (sg_R (sign_message X k P x msg)) with (c_smul X G k) in S1. change (sg_R (sign_message X (n - k) P x msg)) with (c_smul X G (n - k)) in S2.
  pose proof (one_nonce k H) as One. rewrite <- Bool.not_true_iff_false. tauto.
Qed.

(** Half of the numbers below an odd one. *)
Lemma filter_split {A} (f : A -> bool) l : (List.length (filter f l) + List.length (filter (fun x => negb (f x)) l) = List.length l)%nat.
Proof. induction l as [|a l IH]; cbn; [reflexivity|]. destruct (f a); cbn; lia. Qed.
Lemma filter_map_len {A B} (f : B -> bool) (g : A -> B) l : List.length (filter f (map g l)) = List.length (filter (fun x => f (g x)) l).
Proof. induction l as [|a l IH]; cbn; [reflexivity|]. destruct (f (g a)); cbn; lia. Qed.
Lemma filter_rev_len {A} (f : A -> bool) l : List.length (filter f (rev l)) = List.length (filter f l).
Proof. induction l as [|a l IH]; cbn; [reflexivity|]. rewrite filter_app, app_length, IH. cbn. destruct (f a); cbn; lia. Qed.
Lemma mirror m : forall k, map (fun i => (k + m - i)%nat) (seq k m) = rev (seq 1 m).
Proof.
  induction m as [|m IH]; intro k; [reflexivity|]. change (seq k (S m)) with (k :: seq (S k) m). cbn [map]. rewrite <- (seq_shift m k), map_map.
  replace (rev (seq 1 (S m))) with (S m :: rev (seq 1 m)).
  - replace (k + S m - k)%nat with (S m) by lia. rewrite <- (IH k). f_equal. apply map_ext. intro i. lia.
  - replace (S m) with (m + 1)%nat by lia. rewrite seq_app, rev_app_distr. cbn. f_equal. lia.
Qed.
Lemma half (f : nat -> bool) m : (forall k, (0 < k <= m)%nat -> f (S m - k)%nat = negb (f k)) ->
  (2 * List.length (filter f (seq 1 m)) = m)%nat.
Proof.
  intro H. pose proof (filter_split f (seq 1 m)) as A. rewrite seq_length in A.
  assert (B : List.length (filter (fun x => negb (f x)) (seq 1 m)) = List.length (filter f (seq 1 m))).
  { rewrite <- (filter_rev_len f), <- (mirror m 1), filter_map_len. f_equal. apply filter_ext_in. intros k I. apply in_seq in I.
    change (1 + m - k)%nat with (S m - k)%nat. symmetry. apply H. lia. }
  lia.
Qed.
Definition canonical (k : N) : bool := py (c_smul X G k) =? c_sqrt X (px (c_smul X G k) * px (c_smul X G k) * px (c_smul X G k) + 7).
Lemma canonical_iff k : canonical k = true <-> canonical_root X (c_smul X G k).
Proof. apply N.eqb_eq. Qed.
Lemma half_nonces : exists l, NoDup l /\ (forall k, In k l <-> 0 < k < n /\ canonical_root X (c_smul X G k)) /\ 2 * lenN l + 1 = n.
Proof.
  pose proof (cl_order _ _ _ _ L) as Hn. set (m := N.to_nat (n - 1)).
  exists (map N.of_nat (filter (fun i => canonical (N.of_nat i)) (seq 1 m))). split; [|split].
  - apply FinFun.Injective_map_NoDup; [intros a b; apply Nat2N.inj|]. apply NoDup_filter, seq_NoDup.
  - intro k. rewrite in_map_iff. setoid_rewrite filter_In. setoid_rewrite in_seq. setoid_rewrite canonical_iff. split.
    + intros (i & <- & Hi & C). split; [unfold m in Hi; lia|exact C].
    + intros (Hk & C). exists (N.to_nat k). rewrite N2Nat.id. split; [reflexivity|]. split; [unfold m; lia|exact C].
  - unfold lenN. rewrite map_length. assert (H : (2 * List.length (filter (fun i => canonical (N.of_nat i)) (seq 1 m)) = m)%nat).
    { apply half. intros k Hk. assert (Hk' : 0 < N.of_nat k < n) by (unfold m in Hk; lia). pose proof (one_nonce (N.of_nat k) Hk') as One.
      replace (N.of_nat (S m - k)) with (n - N.of_nat k) by (unfold m; lia).
      rewrite <- !canonical_iff in One. destruct (canonical (N.of_nat k)), (canonical (n - N.of_nat k)); cbn; try reflexivity; exfalso; intuition congruence. }
    unfold m in *. lia.
Qed.
End Half.

(** On the curve itself. *)
Lemma challenge_1 : (fiat_shamir real secp_G secp_G [x01] * 1) mod secp_n <> 0.
Proof. vm_compute. discriminate. Qed.
Lemma secp_lost : exists k x msg, 0 < k < c_order real /\ 0 < x < c_order real /\ let P := c_smul real (c_G real) x in
  verify_signature real P msg (sign_message real k P x msg) = true /\
  verify_signature real P msg (decode_signature real (sig_bytes (sign_message real k P x msg))) = false.
Proof.
  pose proof (one_survives real secp_on (Point 0 0) secp_neg real_curve 1 1 [x01]) as H. cbv zeta in H.
  assert (R1 : 0 < 1 < c_order real) by (split; reflexivity). specialize (H R1). rewrite real_times_1 in H. specialize (H challenge_1).
  assert (P1 : 0 < c_order real - 1 < c_order real) by (split; reflexivity).
  destruct (verify_signature real (c_G real) [x01] (decode_signature real (sig_bytes (sign_message real 1 (c_G real) 1 [x01])))) eqn:E.
  - exists (c_order real - 1), 1, [x01]. split; [exact P1|]. split; [exact R1|]. cbv zeta. rewrite real_times_1. split.
    + rewrite <- real_times_1 at 1 2. exact (sign_verifies real secp_on (Point 0 0) secp_neg real_curve (c_order real - 1) 1 [x01]).
    + apply Bool.not_true_iff_false. intro T. apply H in T. discriminate T.
  - exists 1, 1, [x01]. split; [exact R1|]. split; [exact R1|]. cbv zeta. rewrite real_times_1. split.
    + rewrite <- real_times_1 at 1 2. exact (sign_verifies real secp_on (Point 0 0) secp_neg real_curve 1 1 [x01]).
    + exact E.
Qed.
