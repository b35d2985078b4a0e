(** A commutative group without elements of order 2 in which one element has the prime order n, and
    which has fewer than 3n elements, consists of the multiples of that element. *)
From Coq Require Import ZArith Znumtheory List Lia Arith.
Import ListNotations.
Open Scope nat_scope.

Section Cyclic.
Context {T : Type} (dec : forall a b : T, {a = b} + {a <> b}).
Context (on : T -> Prop) (O : T) (add : T -> T -> T) (neg : T -> T).
Context (on_O : on O) (on_add : forall a b, on a -> on b -> on (add a b)) (on_neg : forall a, on a -> on (neg a)).
Context (comm : forall a b, on a -> on b -> add a b = add b a).
Context (assoc : forall a b c, on a -> on b -> on c -> add a (add b c) = add (add a b) c).
Context (zero_r : forall a, on a -> add a O = a) (neg_r : forall a, on a -> add a (neg a) = O).

Fixpoint mul (k : nat) (a : T) : T := match k with 0 => O | S k => add (mul k a) a end.
Lemma zero_l a : on a -> add O a = a.
Proof. intro H. rewrite comm by auto. now apply zero_r. Qed.
Lemma mul_on k a : on a -> on (mul k a).
Proof. intro H. induction k as [|k IH]; cbn; auto. Qed.
Lemma mul_add j k a : on a -> mul (j + k) a = add (mul j a) (mul k a).
Proof.
  intro H. induction k as [|k IH]; [rewrite Nat.add_0_r; cbn; now rewrite zero_r by now apply mul_on|].
  rewrite Nat.add_succ_r. cbn [mul]. rewrite IH. symmetry. apply assoc; auto using mul_on.
Qed.
Lemma mul_O k : mul k O = O.
Proof. induction k as [|k IH]; [reflexivity|]. cbn. rewrite IH. now apply zero_r. Qed.
Lemma mul_mul j k a : on a -> mul (j * k) a = mul j (mul k a).
Proof.
  intro H. induction j as [|j IH]; [reflexivity|]. cbn [mul Nat.mul]. rewrite Nat.add_comm, mul_add by exact H. now rewrite IH.
Qed.
Lemma mul_dist k a b : on a -> on b -> mul k (add a b) = add (mul k a) (mul k b).
Proof.
  intros A B. induction k as [|k IH]; [cbn; symmetry; now apply zero_r|]. cbn [mul]. rewrite IH.
  pose proof (mul_on k a A). pose proof (mul_on k b B).
  rewrite <- (assoc (mul k a) (mul k b) (add a b)) by auto. rewrite (assoc (mul k b) a b) by auto. rewrite (comm (mul k b) a) by auto.
  rewrite <- (assoc a (mul k b) b) by auto. apply assoc; auto.
Qed.
Lemma cancel_r a b c : on a -> on b -> on c -> add a c = add b c -> a = b.
Proof.
  intros A B C E. rewrite <- (zero_r a A), <- (zero_r b B), <- (neg_r c C), !assoc, E by auto. reflexivity.
Qed.
Lemma cancel_l a b c : on a -> on b -> on c -> add c a = add c b -> a = b.
Proof. intros A B C E. apply (cancel_r a b c A B C). rewrite (comm a c), (comm b c) by auto. exact E. Qed.

Context (n : nat) (Hn : prime (Z.of_nat n)) (G : T) (on_G : on G) (nG : mul n G = O) (G_O : G <> O).
Lemma n_pos : 1 < n.
Proof. destruct Hn. lia. Qed.
Lemma mul_mod k : mul (k mod n) G = mul k G.
Proof.
  pose proof n_pos. rewrite (Nat.div_mod k n) at 2 by lia. rewrite mul_add, Nat.mul_comm, mul_mul, nG, mul_O by exact on_G. rewrite zero_l; auto using mul_on.
Qed.
Lemma order k : mul k G = O -> Nat.divide n k.
Proof.
  intro E. destruct (Zdivide_dec (Z.of_nat n) (Z.of_nat k)) as [(c & D)|D].
  - pose proof n_pos. exists (Z.to_nat c). assert (0 <= c)%Z by nia. apply Nat2Z.inj. rewrite Nat2Z.inj_mul, Z2Nat.id by assumption. exact D.
  - exfalso. apply G_O. pose proof (prime_rel_prime (Z.of_nat n) Hn (Z.of_nat k) D) as R. destruct (rel_prime_bezout _ _ R) as [u v B].
    pose proof n_pos. assert (K0 : k <> 0%nat) by (intros ->; apply D; exists 0%Z; reflexivity).
    set (N := Z.of_nat n) in *. set (K := Z.of_nat k) in *. assert (N1 : (1 < N)%Z) by lia. assert (K1 : (1 <= K)%Z) by lia.
    assert (Eh : exists h, (u <= h /\ - v <= h /\ 0 <= h)%Z) by (exists (Z.abs u + Z.abs v)%Z; lia). destruct Eh as (h & H1 & H2 & H3).
    assert (E' : ((v + h * N) * K = 1 + (h * K - u) * N)%Z).
    { transitivity ((u * N + v * K) + (h * K - u) * N)%Z; [ring|now rewrite B]. }
    assert (H4 : (h * 1 <= h * N)%Z) by (apply Z.mul_le_mono_nonneg_l; lia). assert (H5 : (h * 1 <= h * K)%Z) by (apply Z.mul_le_mono_nonneg_l; lia).
    assert (X : (Z.to_nat (v + h * N) * k = 1 + Z.to_nat (h * K - u) * n)%nat).
    { apply Nat2Z.inj. rewrite Nat2Z.inj_add, !Nat2Z.inj_mul, !Z2Nat.id by lia. exact E'. }
    pose proof (f_equal (fun j => mul j G) X) as M. cbn beta in M. rewrite mul_add, !mul_mul, E, nG, !mul_O in M by exact on_G.
    cbn in M. rewrite zero_l in M by exact on_G. rewrite zero_r in M by exact on_G. now symmetry.
Qed.
Lemma mul_inj a b : a < n -> b < n -> mul a G = mul b G -> a = b.
Proof.
  assert (W : forall a b, a <= b -> b < n -> mul a G = mul b G -> a = b).
  { clear a b. intros a b L B E. replace b with (a + (b - a)) in E by lia. rewrite mul_add in E by exact on_G.
    rewrite <- (zero_r (mul a G)) in E at 1 by now apply mul_on. apply cancel_l in E; auto using mul_on. symmetry in E. apply order in E.
    destruct (Nat.eq_dec (b - a) 0) as [Z0|Z0]; [lia|]. apply Nat.divide_pos_le in E; lia. }
  intros A B E. destruct (Nat.le_ge_cases a b) as [L|L]; [now apply W|symmetry; now apply W].
Qed.

Context (NoTwo : forall a, on a -> add a a = O -> a = O) (n_odd : Nat.odd n = true).
Context (bound : forall l, NoDup l -> (forall a, In a l -> on a) -> length l < 3 * n).

Definition multiples : list T := map (fun k => mul k G) (seq 0 n).
Lemma in_multiples k : In (mul k G) multiples.
Proof.
  pose proof n_pos. rewrite <- mul_mod. apply (in_map (fun k => mul k G)). apply in_seq. pose proof (Nat.mod_upper_bound k n). lia.
Qed.
Lemma multiples_inv a : In a multiples -> exists k, k < n /\ a = mul k G.
Proof. unfold multiples. rewrite in_map_iff. intros (k & <- & I). apply in_seq in I. exists k. split; [lia|reflexivity]. Qed.
Lemma map_nodup {A B} (f : A -> B) l : (forall x y, In x l -> In y l -> f x = f y -> x = y) -> NoDup l -> NoDup (map f l).
Proof.
  intros I N. induction N as [|x l H N IH]; [constructor|]. cbn. constructor.
  - rewrite in_map_iff. intros (y & E & Y). apply H. assert (y = x) by (apply I; cbn; auto). now subst.
  - apply IH. intros. apply I; cbn; auto.
Qed.
Lemma multiples_nodup : NoDup multiples.
Proof.
  apply map_nodup; [|apply seq_NoDup]. intros x y X Y. apply in_seq in X, Y. apply mul_inj; lia.
Qed.
Lemma multiples_on a : In a multiples -> on a.
Proof. intro I. apply multiples_inv in I as (k & _ & ->). now apply mul_on. Qed.
Lemma coset_nodup a : on a -> NoDup (map (add a) multiples).
Proof. intro A. apply map_nodup; [|exact multiples_nodup]. intros x y X Y. apply cancel_l; auto using multiples_on. Qed.
(** Differences of multiples are multiples. *)
Lemma difference a i j : on a -> add a (mul i G) = mul j G -> exists k, a = mul k G.
Proof.
  intros A E. pose proof n_pos. exists (j + (n - i mod n)). pose proof (Nat.mod_upper_bound i n).
  apply (cancel_r _ _ (mul i G)); auto using mul_on. rewrite E. rewrite <- (mul_mod i), <- mul_add by exact on_G.
  replace (j + (n - i mod n) + i mod n) with (j + n) by lia. rewrite mul_add, nG, zero_r; auto using mul_on.
Qed.
Lemma app_nodup {A} (l l' : list A) : NoDup l -> NoDup l' -> (forall x, In x l -> ~ In x l') -> NoDup (l ++ l').
Proof.
  intros N N' D. induction N as [|x l H N IH]; [exact N'|]. cbn. constructor.
  - rewrite in_app_iff. intros [I|I]; [now apply H|]. apply (D x); cbn; auto.
  - apply IH. intros y Y. apply D. now right.
Qed.
Theorem cyclic a : on a -> exists k, k < n /\ a = mul k G.
Proof.
  intro A. apply multiples_inv. destruct (in_dec dec a multiples) as [I|I]; [exact I|exfalso].
  assert (NM : forall k, a <> mul k G) by (intros k ->; apply I; apply in_multiples).
  pose proof n_pos as Np. destruct (in_dec dec (add a a) multiples) as [D|D].
  - (* 2a is a multiple, so a is, up to an element of order 2 *)
    apply multiples_inv in D as (k & _ & D).
    assert (Ej : exists j, add a a = mul (j + j) G).
    { destruct (Nat.Even_or_Odd k) as [(j & E)|(j & E)].
      - exists j. rewrite D. f_equal. lia.
      - apply Nat.odd_spec in n_odd as (i & En). exists (j + i + 1). replace (j + i + 1 + (j + i + 1)) with (k + n) by lia.
        rewrite mul_add, nG, zero_r; auto using mul_on. }
    destruct Ej as (j & Ej). rewrite mul_add in Ej by exact on_G.
    assert (Z : add a (neg (mul j G)) = O).
    { pose proof (mul_on j G on_G) as J. apply NoTwo; [auto|]. set (m := mul j G) in *. set (r := add a (neg m)).
      assert (R : on r) by (unfold r; auto). assert (Ra : add r m = a).
      { unfold r. rewrite <- assoc by auto. rewrite (comm (neg m) m) by auto. rewrite neg_r by auto. now apply zero_r. }
      apply (cancel_r _ _ (add m m)); auto. rewrite zero_l by auto. transitivity (add (add r m) (add r m)); [|now rewrite Ra].
      rewrite <- !assoc by auto. f_equal. rewrite (assoc m r m), (comm m r), <- assoc by auto. reflexivity. }
    apply (NM j). apply (cancel_r _ _ (neg (mul j G))); auto using mul_on. rewrite Z. symmetry. auto using mul_on.
  - (* three cosets *)
    set (l := multiples ++ map (add a) multiples ++ map (add (add a a)) multiples).
    assert (Ln : length l = 3 * n) by (unfold l, multiples; rewrite !app_length, !map_length, seq_length; lia).
    pose proof (bound l) as B. rewrite Ln in B. apply (Nat.lt_irrefl (3 * n)). apply B.
    + assert (H2 : forall x, In x (map (add a) multiples) -> ~ In x (map (add (add a a)) multiples)).
      { intros x X Y. apply in_map_iff in X as (u & <- & U), Y as (v & E & V). apply multiples_inv in U as (i & _ & ->), V as (j & _ & ->).
        rewrite <- assoc in E by auto using mul_on. apply cancel_l in E; auto using mul_on. apply difference in E; [|exact A]. destruct E as (k & E). now apply (NM k). }
      apply app_nodup; [exact multiples_nodup|apply app_nodup; [now apply coset_nodup|apply coset_nodup; auto|exact H2]|].
      intros x X Y. apply multiples_inv in X as (i & _ & ->). apply in_app_iff in Y as [Y|Y]; apply in_map_iff in Y as (v & E & V);
        apply multiples_inv in V as (j & _ & ->); apply difference in E; auto; destruct E as (k & E).
      * now apply (NM k).
      * apply D. rewrite E. apply in_multiples.
    + intros x X. unfold l in X. rewrite !in_app_iff in X. destruct X as [X|[X|X]]; [now apply multiples_on| |];
        apply in_map_iff in X as (v & <- & V); auto using multiples_on.
Qed.
End Cyclic.
