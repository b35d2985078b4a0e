(** Fermat's little theorem, and the field of a prime number of elements. Mathematics only; used for
    the instance in Real.v. *)
From Coq Require Import ZArith Znumtheory Zpow_facts List Permutation Lia Bool Eqdep_dec Ring Field.
Import ListNotations.
Open Scope Z_scope.

(** ** Fermat's little theorem *)

Definition product (l : list Z) : Z := fold_right Z.mul 1 l.
Lemma product_perm l l' : Permutation l l' -> product l = product l'.
Proof.
  unfold product. intro P. induction P as [|x l l' P IH|x y l|l l1 l2 P1 IH1 P2 IH2]; cbn [fold_right]; [reflexivity|now rewrite IH|ring|congruence].
Qed.
Lemma product_scaled p a l : 0 < p -> product (map (fun x => (a * x) mod p) l) mod p = (a ^ Z.of_nat (length l) * product l) mod p.
Proof.
  intro Hp. induction l as [|x l IH]; [reflexivity|]. cbn [map product fold_right length]. fold (product l).
  fold (product (map (fun x => (a * x) mod p) l)). rewrite Nat2Z.inj_succ, Z.pow_succ_r by lia.
  rewrite Zmult_mod, IH, Zmod_mod, <- Zmult_mod. f_equal. ring.
Qed.
Lemma product_coprime p l : prime p -> (forall x, In x l -> ~ (p | x)) -> ~ (p | product l).
Proof.
  intros Hp. induction l as [|x l IH]; cbn [product fold_right]; intros H D.
  - apply Z.divide_1_r_nonneg in D; [destruct Hp; lia|destruct Hp; lia].
  - apply prime_mult in D; [|exact Hp]. destruct D as [D|D]; [exact (H x (or_introl eq_refl) D)|].
    apply IH; [|exact D]. intros y I. apply H. now right.
Qed.

Lemma mod_eq_divide p a b : 0 < p -> (a mod p = b mod p <-> (p | a - b)).
Proof.
  intro Hp. split.
  - intro E. apply Z.mod_divide; [lia|]. rewrite Zminus_mod, E, Z.sub_diag. apply Z.mod_0_l. lia.
  - intros (k & E). replace a with (b + k * p) by lia. apply Z.mod_add. lia.
Qed.
Lemma cancel p a x y : prime p -> ~ (p | a) -> (a * x) mod p = (a * y) mod p -> x mod p = y mod p.
Proof.
  intros Hp Na E. assert (0 < p) by (destruct Hp; lia). apply mod_eq_divide in E; [|assumption]. apply mod_eq_divide; [assumption|].
  replace (a * x - a * y) with (a * (x - y)) in E by ring. apply prime_mult in E; [|exact Hp]. tauto.
Qed.

Definition residues (p : Z) : list Z := map Z.of_nat (seq 1 (Z.to_nat (p - 1))).
Lemma residues_in p x : In x (residues p) <-> 0 < x < p.
Proof.
  unfold residues. rewrite in_map_iff. split.
  - intros (n & <- & I). apply in_seq in I. lia.
  - intro H. exists (Z.to_nat x). split; [lia|]. apply in_seq. lia.
Qed.
Lemma NoDup_map_inj {A B} (f : A -> B) l : (forall x y, In x l -> In y l -> f x = f y -> x = y) -> NoDup l -> NoDup (map f l).
Proof.
  intros Inj N. induction N as [|x l Nx N IH]; cbn; constructor.
  - rewrite in_map_iff. intros (y & E & I). apply Nx. rewrite (Inj x y); [exact I|now left|now right|now symmetry].
  - apply IH. intros a b Ia Ib. apply Inj; now right.
Qed.
Lemma residues_nodup p : NoDup (residues p).
Proof. apply NoDup_map_inj; [intros x y _ _; apply Nat2Z.inj|apply seq_NoDup]. Qed.
Lemma small_not_divides p x : 0 < x < p -> ~ (p | x).
Proof. intros H D. apply Z.divide_pos_le in D; lia. Qed.

Theorem fermat p a : prime p -> ~ (p | a) -> a ^ (p - 1) mod p = 1.
Proof.
  intros Hp Na. assert (Hp1 : 1 < p) by (destruct Hp; assumption).
  assert (P : Permutation (map (fun x => (a * x) mod p) (residues p)) (residues p)).
  { apply NoDup_Permutation_bis.
    - apply NoDup_map_inj; [|apply residues_nodup]. intros x y Ix Iy E. apply residues_in in Ix, Iy.
      apply cancel in E; [|exact Hp|exact Na]. rewrite !Z.mod_small in E by lia. exact E.
    - now rewrite map_length.
    - intros y I. apply in_map_iff in I. destruct I as (x & <- & I). apply residues_in in I. apply residues_in.
      pose proof (Z.mod_pos_bound (a * x) p ltac:(lia)). destruct (Z.eq_dec ((a * x) mod p) 0) as [E|E]; [|lia].
      apply Z.mod_divide in E; [|lia]. apply prime_mult in E; [|exact Hp]. destruct E as [E|E]; [contradiction|].
      now elim (small_not_divides p x I). }
  pose proof (product_perm _ _ P) as E. assert (Hp0 : 0 < p) by lia.
  pose proof (product_scaled p a (residues p) Hp0) as S. rewrite E in S.
  assert (L : Z.of_nat (length (residues p)) = p - 1) by (unfold residues; rewrite map_length, seq_length; lia).
  rewrite L in S.
  assert (C : 1 mod p = (a ^ (p - 1)) mod p).
  { apply (cancel p (product (residues p))); [exact Hp| |].
    - apply product_coprime; [exact Hp|]. intros x I. apply residues_in in I. now apply small_not_divides.
    - rewrite Z.mul_1_r, S. f_equal. ring. }
  rewrite <- C. apply Z.mod_small. lia.
Qed.

(** ** The field *)
Section Field.
Context (p : Z) (Hp : prime p).

Definition below (x : Z) : bool := (0 <=? x) && (x <? p).
Definition F : Type := {x : Z | below x = true}.
Definition val (a : F) : Z := proj1_sig a.
Lemma p_pos : 1 < p.
Proof. destruct Hp; assumption. Qed.
Lemma below_mod x : below (x mod p) = true.
Proof. unfold below. pose proof p_pos. pose proof (Z.mod_pos_bound x p ltac:(lia)). apply andb_true_iff. rewrite Z.leb_le, Z.ltb_lt. lia. Qed.
Definition mk (x : Z) : F := exist _ (x mod p) (below_mod x).
Lemma val_range a : 0 <= val a < p.
Proof. destruct a as [x H]. cbn. unfold below in H. apply andb_true_iff in H. rewrite Z.leb_le, Z.ltb_lt in H. exact H. Qed.
Lemma val_inj a b : val a = val b -> a = b.
Proof.
  destruct a as [x H], b as [y K]. cbn. intro E. subst y. f_equal. apply UIP_dec. apply bool_dec.
Qed.
Lemma val_mk x : val (mk x) = x mod p.
Proof. reflexivity. Qed.
Lemma mk_val a : mk (val a) = a.
Proof. apply val_inj. rewrite val_mk. apply Z.mod_small. apply val_range. Qed.
Lemma mk_eq x y : mk x = mk y <-> x mod p = y mod p.
Proof. split; [intro E; exact (f_equal val E)|]. intro E. apply val_inj. exact E. Qed.

Definition fzero := mk 0. Definition fone := mk 1.
Definition fadd a b := mk (val a + val b). Definition fmul a b := mk (val a * val b).
Definition fsub a b := mk (val a - val b). Definition fopp a := mk (- val a).
Definition fpow a n := mk (val a ^ n).
Definition finv a := fpow a (p - 2).
Definition fdiv a b := fmul a (finv b).

Lemma mk_add x y : mk (x + y) = fadd (mk x) (mk y).
Proof. apply mk_eq. rewrite !val_mk. now rewrite <- Zplus_mod. Qed.
Lemma mk_mul x y : mk (x * y) = fmul (mk x) (mk y).
Proof. apply mk_eq. rewrite !val_mk. now rewrite <- Zmult_mod. Qed.
Lemma mk_sub x y : mk (x - y) = fsub (mk x) (mk y).
Proof. apply mk_eq. rewrite !val_mk. now rewrite <- Zminus_mod. Qed.
Lemma mk_opp x : mk (- x) = fopp (mk x).
Proof. change (- x) with (0 - x). rewrite mk_sub. apply mk_eq. rewrite !val_mk. rewrite Z.mod_0_l by (pose proof p_pos; lia). reflexivity. Qed.
Lemma mk_pow x n : 0 <= n -> mk (x ^ n) = fpow (mk x) n.
Proof. intro H. apply mk_eq. rewrite val_mk. rewrite (Zpower_mod x n p) by (pose proof p_pos; lia). reflexivity. Qed.

Ltac lift := repeat match goal with a : F |- _ => rewrite <- (mk_val a); generalize (val a); clear a; intro a end.
Lemma F_ring : ring_theory fzero fone fadd fmul fsub fopp (@eq F).
Proof.
  unfold fzero, fone. constructor; intros; lift; rewrite <- ?mk_opp, <- ?mk_add, <- ?mk_mul, <- ?mk_sub, <- ?mk_add, <- ?mk_mul, <- ?mk_add; f_equal; ring.
Qed.
Lemma nonzero a : a <> fzero -> ~ (p | val a).
Proof.
  intros N D. apply N. apply val_inj. pose proof (val_range a). unfold fzero. rewrite val_mk. rewrite Z.mod_0_l by (pose proof p_pos; lia).
  destruct (Z.eq_dec (val a) 0) as [E|E]; [exact E|]. apply Z.divide_pos_le in D; lia.
Qed.
Lemma finv_l a : a <> fzero -> fmul (finv a) a = fone.
Proof.
  intro N. unfold finv, fpow. rewrite <- (mk_val a) at 2. rewrite <- mk_mul. apply mk_eq.
  pose proof p_pos. rewrite Z.mul_comm, <- Z.pow_succ_r by lia. replace (Z.succ (p - 2)) with (p - 1) by lia.
  rewrite (fermat p (val a) Hp (nonzero a N)). symmetry. apply Z.mod_small. lia.
Qed.
Lemma F_field : field_theory fzero fone fadd fmul fsub fopp fdiv finv (@eq F).
Proof.
  constructor; [exact F_ring| |reflexivity|exact finv_l].
  intro E. apply mk_eq in E. pose proof p_pos. rewrite !Z.mod_small in E by lia. discriminate E.
Qed.
Lemma fmul_zero a b : fmul a b = fzero -> a = fzero \/ b = fzero.
Proof.
  intro E. unfold fmul, fzero in E. apply mk_eq in E. pose proof p_pos. rewrite (Z.mod_0_l p) in E by lia. apply Z.mod_divide in E; [|lia].
  apply prime_mult in E; [|exact Hp]. destruct E as [E|E]; [left|right]; apply val_inj; unfold fzero; rewrite val_mk; rewrite Z.mod_0_l by lia;
    (destruct (Z.eq_dec (val a) 0); destruct (Z.eq_dec (val b) 0); try assumption; apply Z.divide_pos_le in E; pose proof (val_range a); pose proof (val_range b); lia).
Qed.
Lemma F_dec (a b : F) : {a = b} + {a <> b}.
Proof. destruct (Z.eq_dec (val a) (val b)) as [E|E]; [left; now apply val_inj|right; congruence]. Qed.
Lemma fpow_add a m n : 0 <= m -> 0 <= n -> fpow a (m + n) = fmul (fpow a m) (fpow a n).
Proof. intros. unfold fpow. rewrite Z.pow_add_r by assumption. apply mk_mul. Qed.
Lemma fpow_mul a m n : 0 <= m -> 0 <= n -> fpow a (m * n) = fpow (fpow a m) n.
Proof. intros. unfold fpow at 1. rewrite Z.pow_mul_r by assumption. rewrite mk_pow by assumption. reflexivity. Qed.
Lemma fpow_1 a : fpow a 1 = a.
Proof. unfold fpow. rewrite Z.pow_1_r. apply mk_val. Qed.
Lemma fpow_fermat a : a <> fzero -> fpow a (p - 1) = fone.
Proof. intro N. apply mk_eq. pose proof p_pos. rewrite (fermat p _ Hp (nonzero a N)). symmetry. apply Z.mod_small. lia. Qed.
End Field.
