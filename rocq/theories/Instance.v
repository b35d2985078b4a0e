(** A concrete [Ext] that satisfies every law the theorems assume, so that their hypotheses are
    met: a real elliptic curve of prime order 31 over F_43, a toy hash, fixed-size codecs and
    insertion sort. *)
From Coq Require Import Permutation Sorted.
From Verif Require Import Ext EC SpecSchnorr SpecConsensus CodecProofs.

Definition toy_hash (seed : N) (m : bytes) : bytes :=
  be 32 (fold_left (fun h b => (h * 257 + b2n b + 1) mod 2 ^ 61) m seed * 2 ^ 192 + 1).

Fixpoint insert {A} (key : A -> bytes) (a : A) (l : list A) : list A :=
  match l with
  | [] => [a]
  | b :: r => if bytes_lt (key b) (key a) then b :: insert key a r else a :: l
  end.
Definition isort {A} (key : A -> bytes) (l : list A) : list A := fold_right (insert key) [] l.

Definition toy_point_read : reader point := do x <- read_be 17; do y <- read_be 16; rret (Point x y).

Definition toy_G : point := Point 2 12.

Definition toy : Ext := {|
  blake2b := toy_hash 0; sha256 := toy_hash 5; sip_lib := fun a b m => (a + 3 * b + unbe m) mod 2 ^ 64;
  c_order := 31; c_G := toy_G; c_H := ec_smul 43 toy_G 5;
  c_smul := fun p k => ec_smul 43 p (k mod 31); c_add := ec_add 43; c_sqrt := fsqrt 43;
  point_enc := fun p => be 17 (px p) ++ be 16 (py p); point_read := toy_point_read;
  rproof := N; rproof_enc := fun q => be 8 q; rproof_read := read_be 8;
  rp_verify := fun c q => q =? px c;
  go_sort := @isort
|}.

Definition toy_P (p : point) : Prop := px p < 256 ^ 17 /\ py p < 256 ^ 16.
Definition toy_Q (q : rproof toy) : Prop := (q : N) < 2 ^ 64.

Lemma toy_hash_laws : hash_laws toy.
Proof.
  split; [intro; apply be_length|]. split; [intro; apply be_length|].
  intros a b m. unfold is_u64. cbn [sip_lib toy]. now apply N.mod_lt.
Qed.

Lemma toy_codec : codec_laws toy toy_P toy_Q.
Proof.
  constructor; cbn [point_enc point_read rproof_enc rproof_read toy rproof].
  - intros p rest [H1 H2]. rewrite <- app_assoc. unfold toy_point_read.
    eapply step; [apply (read_be_app 17); exact H1|].
    eapply step; [apply (read_be_app 16); exact H2|]. now destruct p.
  - intros p _. rewrite app_length, !be_length. reflexivity.
  - intros q H. rewrite <- (app_nil_r (be 8 q)). apply (read_be_app 8). exact H.
  - intros q _. unfold lenN. rewrite be_length. cbv. discriminate.
Qed.

Lemma toy_exact : codec_exact toy.
Proof.
  split; cbn [point_enc point_read rproof_enc rproof_read toy rproof].
  - intros bs p rest H. unfold toy_point_read in H.
    apply pbind_inv in H as (x & m & H1 & H). apply pbind_inv in H as (y & m' & H2 & H).
    unfold rret in H. assert (m' = rest) by congruence. subst m'.
    apply read_be_inv in H1 as [-> _]. apply read_be_inv in H2 as [-> _].
    rewrite !lenN_app. unfold lenN at 1 2. rewrite !be_length. lia.
  - intros bs q rest H. apply read_be_inv in H as [-> _]. apply lenN_app.
Qed.

Lemma toy_safe : codec_safe toy.
Proof.
  split; cbn [point_read rproof_read toy rproof].
  - do 2 (apply safe_bind; [apply safe_read_be|intro]). apply safe_ret.
  - apply safe_read_be.
Qed.

Lemma insert_perm {A} (key : A -> bytes) a l : Permutation (insert key a l) (a :: l).
Proof.
  induction l as [|b l IH]; [reflexivity|]. cbn [insert]. destruct (bytes_lt _ _); [|reflexivity].
  rewrite IH. apply perm_swap.
Qed.

Lemma insert_sorted {A} (key : A -> bytes) a l : key_sorted key l -> key_sorted key (insert key a l).
Proof.
  unfold key_sorted. induction 1 as [|b l Hl IH Hb]; [repeat constructor|]. cbn [insert].
  destruct (bytes_lt (key b) (key a)) eqn:E.
  - constructor; [exact IH|].
    assert (N : bytes_lt (key a) (key b) = false).
    { destruct (bytes_lt (key a) (key b)) eqn:F; [|reflexivity].
      pose proof (bytes_lt_trans _ _ _ E F) as K. rewrite bytes_lt_irrefl in K. discriminate. }
    rewrite Forall_forall in *. intros c Hc. apply (Permutation_in _ (insert_perm key a l)) in Hc.
    destruct Hc as [<-|Hc]; auto.
  - constructor; [constructor; assumption|]. constructor; [exact E|].
    rewrite Forall_forall in *. intros c Hc. specialize (Hb c Hc).
    destruct (bytes_lt (key c) (key a)) eqn:F; [|reflexivity].
    destruct (bytes_lt (key a) (key b)) eqn:G.
    + rewrite (bytes_lt_trans _ _ _ F G) in Hb. discriminate.
    + rewrite (bytes_lt_total _ _ E G) in Hb. congruence.
Qed.

Lemma toy_sort : sort_laws toy.
Proof.
  intros A key l. cbn [go_sort toy]. induction l as [|a l [IH1 IH2]]; [split; constructor|]. cbn [isort fold_right].
  fold (isort key l). split.
  - rewrite insert_perm. now constructor.
  - now apply insert_sorted.
Qed.

(** ** The curve *)

Definition toy_tab : list point := map (fun k => ec_smul 43 toy_G (N.of_nat k)) (seq 0 31).
Definition tab (k : nat) : point := nth k toy_tab ec_O.
Definition toy_On (p : point) : Prop := exists k, (k < 31)%nat /\ p = tab k.

Definition point_eqb (p q : point) : bool := (px p =? px q) && (py p =? py q).
Lemma point_eqb_eq p q : point_eqb p q = true <-> p = q.
Proof.
  unfold point_eqb. rewrite andb_true_iff, !N.eqb_eq. destruct p, q; cbn. split; [intros [-> ->]; reflexivity|].
  intro H. injection H as -> ->. auto.
Qed.

Definition forall31 (f : nat -> bool) : bool := forallb f (seq 0 31).
Lemma forall31_spec f : forall31 f = true -> forall k, (k < 31)%nat -> f k = true.
Proof. unfold forall31. rewrite forallb_forall. intros H k Hk. apply H, in_seq. lia. Qed.

Lemma tab_add_check :
  forall31 (fun i => forall31 (fun j => point_eqb (ec_add 43 (tab i) (tab j)) (tab ((i + j) mod 31)))) = true.
Proof. vm_compute. reflexivity. Qed.
Lemma tab_add i j : (i < 31)%nat -> (j < 31)%nat -> ec_add 43 (tab i) (tab j) = tab ((i + j) mod 31).
Proof. intros Hi Hj. apply point_eqb_eq. exact (forall31_spec _ (forall31_spec _ tab_add_check i Hi) j Hj). Qed.

Lemma tab_x_check :
  forall31 (fun i => forall31 (fun j => implb (px (tab i) =? px (tab j))
     (Nat.eqb j i || Nat.eqb j ((31 - i) mod 31)))) = true.
Proof. vm_compute. reflexivity. Qed.

Lemma tab_misc_check :
  forall31 (fun i => point_eqb (ec_neg 43 (tab i)) (tab ((31 - i) mod 31)) && (px (tab i) <? 43) &&
    implb (negb (Nat.eqb i 0))
      (negb (point_eqb (tab i) ec_O) &&
       let q := Point (px (tab i)) (fsqrt 43 (px (tab i) * px (tab i) * px (tab i) + 7)) in
       point_eqb q (tab i) || point_eqb q (tab ((31 - i) mod 31)))) = true.
Proof. vm_compute. reflexivity. Qed.

Lemma tab_smul_check :
  forall31 (fun i => forall31 (fun k => point_eqb (ec_smul 43 (tab i) (N.of_nat k)) (tab ((i * k) mod 31)))) = true.
Proof. vm_compute. reflexivity. Qed.

Lemma tab_smul i k : (i < 31)%nat -> c_smul toy (tab i) k = tab ((i * N.to_nat (k mod 31)) mod 31).
Proof.
  intro Hi. cbn [c_smul toy]. assert (H : k mod 31 < 31) by (apply N.mod_lt; discriminate).
  apply point_eqb_eq. rewrite <- (N2Nat.id (k mod 31)) at 1.
  apply (forall31_spec _ (forall31_spec _ tab_smul_check i Hi)). lia.
Qed.

Lemma mod31 i : (i mod 31 < 31)%nat.
Proof. apply Nat.mod_upper_bound. discriminate. Qed.

Lemma toy_curve : curve_laws toy toy_On ec_O (ec_neg 43).
Proof.
  assert (T0 : tab 0 = ec_O) by reflexivity. assert (T1 : tab 1 = toy_G) by reflexivity.
  assert (T5 : tab 5 = c_H toy) by reflexivity.
  assert (NG : forall i, (i < 31)%nat -> ec_neg 43 (tab i) = tab ((31 - i) mod 31)).
  { intros i Hi. pose proof (forall31_spec _ tab_misc_check i Hi) as H. cbv beta zeta in H.
    rewrite !andb_true_iff in H. destruct H as [[H _] _]. now apply point_eqb_eq in H. }
  constructor.
  - cbn. lia.
  - reflexivity.
  - exists 1%nat. split; [lia|reflexivity].
  - exists 5%nat. split; [lia|reflexivity].
  - exists 0%nat. split; [lia|reflexivity].
  - intros p (i & Hi & ->). exists ((31 - i) mod 31)%nat. split; [apply mod31|auto].
  - intros p q (i & Hi & ->) (j & Hj & ->). exists ((i + j) mod 31)%nat. split; [apply mod31|]. now apply tab_add.
  - intros p q (i & Hi & ->) (j & Hj & ->). cbn [c_add toy]. rewrite !tab_add by assumption. now rewrite Nat.add_comm.
  - intros p q r (i & Hi & ->) (j & Hj & ->) (k & Hk & ->). cbn [c_add toy].
    rewrite !tab_add by first [assumption|apply mod31].
    rewrite Nat.add_mod_idemp_r, Nat.add_mod_idemp_l, Nat.add_assoc by discriminate. reflexivity.
  - intros p (i & Hi & ->). rewrite <- T0. cbn [c_add toy]. rewrite tab_add by (assumption || lia).
    rewrite Nat.add_0_r, Nat.mod_small by assumption. reflexivity.
  - intros p (i & Hi & ->). rewrite NG by assumption. cbn [c_add toy]. rewrite tab_add by (assumption || apply mod31).
    rewrite Nat.add_mod_idemp_r by discriminate. replace (i + (31 - i))%nat with 31%nat by lia. exact T0.
  - intros p (i & Hi & ->). rewrite tab_smul by assumption. cbn. rewrite Nat.mul_0_r. exact T0.
  - intros p k (i & Hi & ->). rewrite !tab_smul by assumption. cbn [c_add toy]. rewrite tab_add by (assumption || apply mod31).
    rewrite Nat.add_mod_idemp_l by discriminate. f_equal.
    rewrite <- N.add_1_l, N.add_mod by discriminate. assert (H : k mod 31 < 31) by (apply N.mod_lt; discriminate).
    change (1 mod 31) with 1. set (m := k mod 31) in *. clearbody m.
    destruct (N.eq_dec m 30) as [->|Hm].
    + change (N.to_nat ((1 + 30) mod 31)) with 0%nat. change (N.to_nat 30) with 30%nat.
      replace (i * 30 + i)%nat with (i * 31)%nat by lia. rewrite Nat.mod_mul by discriminate. now rewrite Nat.mul_0_r.
    + rewrite N.mod_small by lia. f_equal. lia.
  - intros p (i & Hi & ->). rewrite tab_smul by assumption. cbn. rewrite Nat.mul_0_r. exact T0.
  - intros k. change (c_G toy) with (tab 1). rewrite tab_smul by lia. rewrite Nat.mul_1_l.
    assert (H : k mod 31 < 31) by (apply N.mod_lt; discriminate). intro E. cbn [c_order toy].
    apply N.mod_divide; [discriminate|].
    rewrite Nat.mod_small in E by lia. set (m := N.to_nat (k mod 31)) in *.
    assert (Hm : (m < 31)%nat) by lia. pose proof (forall31_spec _ tab_misc_check m Hm) as C. cbv beta zeta in C.
    rewrite !andb_true_iff in C. destruct C as [_ C]. destruct (Nat.eqb m 0) eqn:Em.
    + apply Nat.eqb_eq in Em. unfold m in Em. lia.
    + cbn [negb implb] in C. rewrite andb_true_iff in C. destruct C as [C _]. rewrite E in C. discriminate.
  - intros p (i & Hi & ->). pose proof (forall31_spec _ tab_misc_check i Hi) as C. cbv beta zeta in C.
    rewrite !andb_true_iff, N.ltb_lt in C. destruct C as [[_ C] _]. lia.
  - intros p q (i & Hi & ->) (j & Hj & ->) E.
    pose proof (forall31_spec _ (forall31_spec _ tab_x_check i Hi) j Hj) as C. cbv beta in C.
    rewrite (proj2 (N.eqb_eq _ _) E) in C. cbn [implb] in C. apply orb_true_iff in C. rewrite !Nat.eqb_eq in C.
    rewrite NG by assumption. destruct C as [-> | ->]; auto.
  - intros p _. unfold ec_neg. now destruct (is_O p).
  - intros p (i & Hi & ->) HO. cbv zeta. rewrite NG by assumption.
    pose proof (forall31_spec _ tab_misc_check i Hi) as C. cbv beta zeta in C.
    rewrite !andb_true_iff in C. destruct C as [_ C]. destruct (Nat.eqb i 0) eqn:Em.
    + apply Nat.eqb_eq in Em. subst. contradiction.
    + cbn [negb implb] in C. rewrite andb_true_iff, orb_true_iff, !point_eqb_eq in C. cbn [c_sqrt toy]. tauto.
Qed.
