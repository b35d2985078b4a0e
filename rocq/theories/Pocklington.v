(** Proving that a number is prime from prime factors of its predecessor (Pocklington). *)
From Coq Require Import ZArith Znumtheory Zpow_facts List Lia Bool.
From Verif Require Import PrimeField.
Import ListNotations.
Open Scope Z_scope.

(** ** Small divisors *)
Lemma prime_divisor n : 1 < n -> exists l, prime l /\ (l | n).
Proof.
  intro H. assert (H0 : 0 <= n) by lia. revert H. pattern n. apply Zlt_0_ind; [|exact H0]. clear n H0. intros n IH _ H.
  destruct (prime_dec n) as [P|P]; [exists n; split; [exact P|apply Z.divide_refl]|].
  destruct (not_prime_divide n H P) as (d & (D1 & D2) & D). destruct (IH d) as (l & L1 & L2); [lia|lia|].
  exists l. split; [exact L1|]. now apply Z.divide_trans with d.
Qed.
Lemma prime_of_bound n : 1 < n -> (forall l, prime l -> (l | n) -> n < l * l) -> prime n.
Proof.
  intros H B. destruct (prime_dec n) as [P|P]; [exact P|exfalso]. destruct (not_prime_divide n H P) as (d & D1 & (e & E)).
  assert (He : 1 < e < n) by nia.
  assert (Small : forall u, 1 < u -> u * u <= n -> (u | n) -> False).
  { intros u U1 U2 U3. destruct (prime_divisor u U1) as (l & L1 & L2). pose proof (B l L1 (Z.divide_trans _ _ _ L2 U3)).
    assert (l <= u) by (apply Z.divide_pos_le; [lia|exact L2]). assert (0 < l) by (destruct L1; lia). nia. }
  destruct (Z.le_ge_cases d e) as [C|C].
  - apply (Small d); [lia|nia|]. exists e. lia.
  - apply (Small e); [lia|nia|]. exists d. lia.
Qed.
(** Trial division, for small numbers. *)
Fixpoint trial (fuel : nat) (d n : Z) : bool :=
  match fuel with
  | O => false
  | S fuel => if n <? d * d then true else if n mod d =? 0 then false else trial fuel (d + 1) n
  end.
Lemma trial_sound fuel : forall d n, 1 < d -> trial fuel d n = true -> (forall l, 1 < l < d -> ~ (l | n)) -> forall l, prime l -> (l | n) -> n < l * l.
Proof.
  induction fuel as [|fuel IH]; intros d n D; cbn [trial]; [discriminate|]. destruct (Z.ltb_spec n (d * d)) as [L|L].
  - intros _ Ss l Pl Dl. assert (1 < l) by (destruct Pl; assumption). destruct (Z.lt_ge_cases l d) as [C|C]; [now elim (Ss l)|nia].
  - destruct (Z.eqb_spec (n mod d) 0) as [E|E]; [discriminate|]. intros T Ss. apply (IH (d + 1)); [lia|exact T|].
    intros l Hl Dl. destruct (Z.eq_dec l d) as [->|Nd]; [apply E; apply Z.mod_divide; [lia|exact Dl]|]. apply (Ss l); [lia|exact Dl].
Qed.
Lemma trial_prime n : 1 < n -> trial 1000 2 n = true -> prime n.
Proof. intros H T. apply prime_of_bound; [exact H|]. apply (trial_sound 1000 2 n); [lia|exact T|]. intros l Hl. lia. Qed.

(** ** Large numbers *)
Lemma pow_1_mod m b k : 1 < m -> b mod m = 1 -> 0 <= k -> b ^ k mod m = 1.
Proof. intros H E K. rewrite Zpower_mod, E, Z.pow_1_l by lia. apply Z.mod_small. lia. Qed.
(** A prime [l] modulo which [b] has order [q]. *)
Lemma order_divides l q b : prime l -> prime q -> b ^ q mod l = 1 -> b mod l <> 1 -> (q | l - 1).
Proof.
  intros Hl Hq B1 B2. assert (L1 : 1 < l) by (destruct Hl; assumption). assert (Q1 : 1 < q) by (destruct Hq; assumption).
  destruct (Zdivide_dec q (l - 1)) as [D|D]; [exact D|exfalso].
  pose proof (prime_rel_prime q Hq (l - 1) D) as R.
  assert (Nb : ~ (l | b)).
  { intro Db. apply Z.mod_divide in Db; [|lia]. rewrite Zpower_mod, Db, Z.pow_0_l, Z.mod_0_l in B1 by lia. discriminate B1. }
  pose proof (fermat l b Hl Nb) as Fl.
  destruct (rel_prime_bezout q (l - 1) R) as [u v E].
  (* make both exponents non-negative *)
  assert (Ek : exists k, - u <= k /\ v <= k /\ 0 <= k) by (exists (Z.abs u + Z.abs v); lia). destruct Ek as (k & K1 & K2 & K3).
  assert (E' : (u + k * (l - 1)) * q = 1 + (k * q - v) * (l - 1)) by (transitivity (u * q + v * (l - 1) + (k * q - v) * (l - 1)); [ring|now rewrite E]).
  assert (K4 : k * 1 <= k * (l - 1)) by (apply Z.mul_le_mono_nonneg_l; lia). assert (K5 : k * 1 <= k * q) by (apply Z.mul_le_mono_nonneg_l; lia).
  assert (U : 0 <= u + k * (l - 1)) by lia. assert (W : 0 <= k * q - v) by lia.
  set (u' := u + k * (l - 1)) in *. set (w := k * q - v) in *. clearbody u' w.
  apply B2. assert (X1 : b ^ (u' * q) mod l = 1).
  { rewrite Z.mul_comm, Z.pow_mul_r by lia. now apply pow_1_mod. }
  rewrite E', Z.pow_add_r, Z.pow_1_r in X1 by (try apply Z.mul_nonneg_nonneg; lia). rewrite Zmult_mod in X1. rewrite (Z.mul_comm w (l - 1)) in X1. rewrite (Z.pow_mul_r b (l - 1) w) in X1 by lia.
  rewrite (pow_1_mod l (b ^ (l - 1)) w L1 Fl W) in X1. rewrite Z.mul_1_r, Zmod_mod in X1. exact X1.
Qed.
(** What has to be computed for one prime factor [q] of n-1, with [b] = a^((n-1)/q). *)
Record witness (n a q b : Z) : Prop := {
  w_div : exists r, n - 1 = q * r /\ 0 <= r /\ b mod n = a ^ r mod n;
  w_pow : b ^ q mod n = 1;
  w_gcd : Z.gcd (b - 1) n = 1 }.
Lemma witness_divides n a q b l : 1 < n -> prime q -> witness n a q b -> prime l -> (l | n) -> (q | l - 1).
Proof.
  intros Hn Hq [_ Wp Wg] Hl Dl. assert (L1 : 1 < l) by (destruct Hl; assumption). apply (order_divides l q b Hl Hq).
  - destruct Dl as (c & Dl). assert (E : b ^ q mod n mod l = b ^ q mod l) by (rewrite Dl, (Z.mul_comm c l); symmetry; apply Znumtheory.Zmod_div_mod; [lia|nia|exists c; ring]).
    rewrite <- E, Wp. apply Z.mod_small. lia.
  - intro E. assert (D : (l | b - 1)). { apply (mod_eq_divide l b 1); [lia|]. rewrite E. symmetry. apply Z.mod_small. lia. }
    pose proof (Z.gcd_greatest _ _ _ D Dl) as G. rewrite Wg in G. apply Z.divide_1_r_nonneg in G; lia.
Qed.
Lemma coprime_product qs m : NoDup qs -> Forall prime qs -> Forall (fun q => (q | m)) qs -> (product qs | m).
Proof.
  revert m. induction qs as [|q qs IH]; intros m N P D; cbn [product fold_right]; [apply Z.divide_1_l|]. fold (product qs).
  inversion N as [|? ? N1 N2]; subst. inversion P as [|? ? P1 P2]; subst. inversion D as [|? ? D1 D2]; subst.
  destruct (IH m N2 P2 D2) as (c & E). rewrite E in D1. apply prime_mult in D1; [|exact P1]. destruct D1 as [(e & D1)|D1].
  - exists e. rewrite E, D1. ring.
  - exfalso. revert D1. apply product_coprime; [exact P1|]. intros x I H. rewrite Forall_forall in P2. pose proof (P2 x I) as Px.
    apply N1. assert (q = x); [|congruence]. apply prime_div_prime; assumption.
Qed.
Theorem pocklington n qs : 1 < n -> NoDup qs -> Forall prime qs -> (forall q, In q qs -> exists a b, witness n a q b) -> n < product qs * product qs -> prime n.
Proof.
  intros Hn N P W B. apply prime_of_bound; [exact Hn|]. intros l Hl Dl.
  assert (D : (product qs | l - 1)).
  { apply coprime_product; [exact N|exact P|]. apply Forall_forall. intros q I. destruct (W q I) as (a & b & Wq). rewrite Forall_forall in P.
    exact (witness_divides n a q b l Hn (P q I) Wq Hl Dl). }
  assert (1 < l) by (destruct Hl; assumption). apply Z.divide_pos_le in D; [|lia].
  assert (0 <= product qs). { assert (G : forall l, Forall prime l -> 0 <= product l).
    { clear. induction l as [|x l IH]; intro P; cbn; [lia|]. inversion P; subst. assert (0 < x) by (destruct H1; lia). specialize (IH H2). fold (product l). nia. }
    now apply G. }
  nia.
Qed.

(** ** Computing *)

Lemma mul_cong m x x' y y' : x mod m = x' mod m -> y mod m = y' mod m -> (x * y) mod m = (x' * y') mod m.
Proof. intros E1 E2. now rewrite Zmult_mod, E1, E2, <- Zmult_mod. Qed.
(** Powers modulo [m]; [red] need not reduce fully. *)
Section Power.
Context (m : Z) (red : Z -> Z) (Hm : 0 < m) (Hred : forall x, 0 <= x -> red x mod m = x mod m /\ 0 <= red x).
Fixpoint mpow (a : Z) (e : positive) : Z :=
  match e with
  | xH => a
  | xO e => let r := mpow a e in red (r * r)
  | xI e => let r := mpow a e in red (red (r * r) * a)
  end.
Lemma mpow_spec a e : 0 <= a -> mpow a e mod m = a ^ Zpos e mod m /\ 0 <= mpow a e.
Proof.
  intro A. induction e as [e (IH & IH0)|e (IH & IH0)|]; cbn [mpow].
  - destruct (Hred (mpow a e * mpow a e) ltac:(nia)) as (R1 & R1'). destruct (Hred (red (mpow a e * mpow a e) * a) ltac:(nia)) as (R2 & R2').
    split; [|exact R2']. rewrite R2. transitivity ((a ^ Z.pos e * a ^ Z.pos e * a) mod m).
    + apply mul_cong; [|reflexivity]. rewrite R1. now apply mul_cong.
    + f_equal. rewrite Pos2Z.inj_xI, Z.pow_add_r, Z.pow_1_r by lia. replace (2 * Z.pos e) with (Z.pos e + Z.pos e) by lia. now rewrite Z.pow_add_r by lia.
  - destruct (Hred (mpow a e * mpow a e) ltac:(nia)) as (R1 & R1'). split; [|exact R1'].
    rewrite R1. transitivity ((a ^ Z.pos e * a ^ Z.pos e) mod m); [now apply mul_cong|]. f_equal. rewrite Pos2Z.inj_xO. replace (2 * Z.pos e) with (Z.pos e + Z.pos e) by lia. now rewrite Z.pow_add_r by lia.
  - now rewrite Z.pow_1_r.
Qed.
Definition check (a : Z) (q r : positive) : bool :=
  let b := mpow a r in
  (m - 1 =? Zpos q * Zpos r) && (mpow b q mod m =? 1) && (Z.gcd (b - 1) m =? 1).
Lemma check_sound a q r : 0 <= a -> check a q r = true -> witness m a (Zpos q) (mpow a r).
Proof.
  intros A C. unfold check in C. apply andb_true_iff in C as (C & C3). apply andb_true_iff in C as (C1 & C2).
  apply Z.eqb_eq in C1, C2, C3. destruct (mpow_spec a r A) as (M1 & M2). destruct (mpow_spec (mpow a r) q M2) as (M3 & _).
  constructor; [|now rewrite <- M3|exact C3]. exists (Zpos r). auto with zarith.
Qed.
End Power.
(** Reduction in general, and modulo 2^k - c. *)
Lemma red_mod m x : 0 < m -> 0 <= x -> x mod m mod m = x mod m /\ 0 <= x mod m.
Proof. intros H _. split; [apply Zmod_mod|]. apply Z.mod_pos_bound. exact H. Qed.
Definition fold (k c x : Z) : Z := Z.land x (Z.ones k) + c * Z.shiftr x k.
Lemma fold_spec k c m x : 0 <= k -> 0 <= c -> 0 < m -> m = 2 ^ k - c -> 0 <= x -> fold k c x mod m = x mod m /\ 0 <= fold k c x.
Proof.
  intros K C M E X. unfold fold. rewrite Z.land_ones, Z.shiftr_div_pow2 by exact K.
  assert (P : 0 < 2 ^ k) by (apply Z.pow_pos_nonneg; lia). pose proof (Z.mod_pos_bound x (2 ^ k) P). pose proof (Z.div_pos x (2 ^ k) X P).
  split; [|nia]. apply mod_eq_divide; [exact M|]. exists (- (x / 2 ^ k)). rewrite E. assert (P0 : 2 ^ k <> 0) by lia. pose proof (Z.div_mod x (2 ^ k) P0) as D.
  set (u := x / 2 ^ k) in *. set (v := x mod 2 ^ k) in *. clearbody u v. rewrite D. ring.
Qed.
