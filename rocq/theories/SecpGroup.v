(** The arithmetic of [real] (Real.v) is the group law of y^2 = x^3 + 7 over the field of secp_p
    elements (constants in secp256k1zkp/constants.go:48-98). *)
From Coq Require Import ZArith NArith Znumtheory Lia Bool List Ring Field Btauto.
From Verif Require Import PrimeField Pocklington SecpPrimes GroupLaw Cyclic Ext SpecSchnorr SpecConsensus EC CodecProofs Real SpecSecp.
Import ListNotations.
Open Scope N_scope.

(** ** The field *)
Local Notation pz := secp_pz.
Definition Fp : Type := F pz.
Definition fz (x : Z) : Fp := mk pz prime_p x.
Definition fn (x : N) : Fp := fz (Z.of_N x).
Definition f0 : Fp := PrimeField.fzero pz prime_p. Definition f1 : Fp := PrimeField.fone pz prime_p.
Definition add_ : Fp -> Fp -> Fp := PrimeField.fadd pz prime_p. Definition mul_ : Fp -> Fp -> Fp := PrimeField.fmul pz prime_p.
Definition sub_ : Fp -> Fp -> Fp := PrimeField.fsub pz prime_p. Definition opp_ : Fp -> Fp := PrimeField.fopp pz prime_p.
Definition inv_ : Fp -> Fp := PrimeField.finv pz prime_p. Definition div_ : Fp -> Fp -> Fp := PrimeField.fdiv pz prime_p.
Definition pow_ : Fp -> Z -> Fp := PrimeField.fpow pz prime_p.
Definition Fth : field_theory f0 f1 add_ mul_ sub_ opp_ div_ inv_ (@eq Fp) := F_field pz prime_p.
Definition Fdec : forall a b : Fp, {a = b} + {a <> b} := F_dec pz.
Add Field Fpf : Fth.
Declare Scope F_scope. Delimit Scope F_scope with F.
Local Infix "+" := add_ : F_scope. Local Infix "*" := mul_ : F_scope. Local Infix "-" := sub_ : F_scope.
Local Infix "/" := div_ : F_scope. Local Notation "- a" := (opp_ a) : F_scope.
Lemma p_z : Z.of_N secp_p = pz. Proof. vm_compute. reflexivity. Qed.
Lemma pz_big : (2 ^ 255 < pz < 2 ^ 256)%Z. Proof. split; vm_compute; reflexivity. Qed.
Lemma prime_odd : exists h, (pz = 2 * h + 1)%Z. Proof. exists (pz / 2)%Z. vm_compute. reflexivity. Qed.
Opaque secp_pz.

Lemma fz_eq x y : fz x = fz y <-> (x mod pz = y mod pz)%Z.
Proof. apply mk_eq. Qed.
Lemma fz_add x y : fz (x + y) = (fz x + fz y)%F. Proof. apply mk_add. Qed.
Lemma fz_mul x y : fz (x * y) = (fz x * fz y)%F. Proof. apply mk_mul. Qed.
Lemma fz_sub x y : fz (x - y) = (fz x - fz y)%F. Proof. apply mk_sub. Qed.
Lemma fz_p x : fz (x + pz) = fz x.
Proof. apply fz_eq. pose proof pz_big. rewrite <- (Z.mul_1_l pz) at 1. apply Z_mod_plus_full. Qed.
Lemma fn_add x y : fn (x + y) = (fn x + fn y)%F. Proof. unfold fn. rewrite N2Z.inj_add. apply fz_add. Qed.
Lemma fn_mul x y : fn (x * y) = (fn x * fn y)%F. Proof. unfold fn. rewrite N2Z.inj_mul. apply fz_mul. Qed.
Lemma fn_0 : fn 0 = f0. Proof. reflexivity. Qed.
Lemma fn_1 : fn 1 = f1. Proof. reflexivity. Qed.
Lemma fn_inj x y : x < secp_p -> y < secp_p -> fn x = fn y -> x = y.
Proof.
  intros X Y E. apply fz_eq in E. rewrite !Z.mod_small in E; [now apply N2Z.inj| |]; rewrite <- p_z; lia.
Qed.
Lemma fn_zero x : x < secp_p -> fn x = f0 -> x = 0.
Proof. intros X E. apply fn_inj; [exact X|reflexivity|exact E]. Qed.
Lemma fn_val (a : Fp) : exists x, x < secp_p /\ fn x = a.
Proof.
  exists (Z.to_N (val pz a)). pose proof (val_range pz a) as R. split.
  - apply N2Z.inj_lt. rewrite Z2N.id, p_z by lia. lia.
  - unfold fn. rewrite Z2N.id by lia. apply mk_val.
Qed.

(** ** Reduction *)
Lemma fold_z x : Z.of_N (secp_fold x) = fold 256 (Z.of_N secp_c) (Z.of_N x).
Proof.
  unfold secp_fold, fold. rewrite N2Z.inj_add, N2Z.inj_mul. f_equal; [|f_equal].
  - rewrite N.land_ones, Z.land_ones by discriminate. rewrite N2Z.inj_mod. f_equal.
  - rewrite N.shiftr_div_pow2, Z.shiftr_div_pow2 by discriminate. rewrite N2Z.inj_div. f_equal.
Qed.
Lemma fn_fold x : fn (secp_fold x) = fn x.
Proof.
  unfold fn. apply fz_eq. rewrite fold_z. pose proof pz_big. apply (fold_spec 256 (Z.of_N secp_c) pz (Z.of_N x)); [discriminate|discriminate|lia| |lia].
  rewrite <- p_z. vm_compute. reflexivity.
Qed.
Lemma fn_red x : fn (secp_red x) = fn x.
Proof.
  unfold secp_red. set (y := secp_fold (secp_fold x)). assert (E : fn y = fn x) by (unfold y; now rewrite !fn_fold).
  destruct (N.ltb_spec y secp_p) as [L|L]; [exact E|]. rewrite <- E. unfold fn. rewrite N2Z.inj_sub, p_z by exact L. rewrite <- (fz_p (Z.of_N y - pz)). f_equal. lia.
Qed.
Lemma fold_bound x k : x < 2 ^ 256 * k -> 0 < k -> secp_fold x < 2 ^ 256 + secp_c * k.
Proof.
  intros X K. unfold secp_fold. rewrite N.land_ones, N.shiftr_div_pow2.
  pose proof (N.mod_lt x (2 ^ 256) ltac:(discriminate)). assert (x / 2 ^ 256 < k) by (apply N.div_lt_upper_bound; [discriminate|exact X]).
  assert (secp_c * (x / 2 ^ 256) <= secp_c * k) by (apply N.mul_le_mono_l; lia). lia.
Qed.
Lemma red_lt x : x < 2 ^ 512 -> secp_red x < secp_p.
Proof.
  intro X. unfold secp_red. assert (A : secp_fold x < 2 ^ 256 + secp_c * 2 ^ 256) by (apply fold_bound; [exact X|reflexivity]).
  assert (B : secp_fold (secp_fold x) < 2 ^ 256 + secp_c * 2 ^ 34).
  { apply fold_bound; [|reflexivity]. eapply N.lt_trans; [exact A|vm_compute; reflexivity]. }
  set (y := secp_fold (secp_fold x)) in *. destruct (N.ltb_spec y secp_p) as [L|L]; [exact L|].
  assert (C : 2 ^ 256 + secp_c * 2 ^ 34 < secp_p + secp_p) by (vm_compute; reflexivity). lia.
Qed.
Lemma p_lt : secp_p < 2 ^ 256. Proof. vm_compute. reflexivity. Qed.
Definition lt_p (x : N) : Prop := x < secp_p.
Lemma smul_lt a b : lt_p a -> lt_p b -> lt_p (smul_ a b).
Proof.
  intros A B. apply red_lt. pose proof p_lt. change (2 ^ 512) with (2 ^ 256 * 2 ^ 256). unfold lt_p in *. apply N.mul_lt_mono; lia.
Qed.
Lemma small_lt k a : k < 2 ^ 256 -> lt_p a -> lt_p (secp_red (k * a)).
Proof. intros K A. apply red_lt. pose proof p_lt. change (2 ^ 512) with (2 ^ 256 * 2 ^ 256). unfold lt_p in *. apply N.mul_lt_mono; lia. Qed.
Lemma sum_lt a b : lt_p a -> lt_p b -> lt_p (secp_red (a + b)).
Proof.
  intros A B. apply red_lt. unfold lt_p in *. pose proof p_lt. apply N.lt_trans with (2 ^ 256 + 2 ^ 256); [lia|]. vm_compute. reflexivity.
Qed.
Lemma fn_smul a b : fn (smul_ a b) = (fn a * fn b)%F.
Proof. unfold smul_. now rewrite fn_red, fn_mul. Qed.
Lemma ssub_lt a b : lt_p a -> lt_p b -> lt_p (ssub_ a b).
Proof. unfold lt_p, ssub_. intros A B. destruct (N.leb_spec b a); lia. Qed.
Lemma fn_ssub a b : lt_p a -> lt_p b -> fn (ssub_ a b) = (fn a - fn b)%F.
Proof.
  intros A B. unfold ssub_, lt_p in *. unfold fn. rewrite <- fz_sub. destruct (N.leb_spec b a) as [L|L].
  - now rewrite N2Z.inj_sub by exact L.
  - rewrite N2Z.inj_sub by lia. rewrite N2Z.inj_add, p_z. rewrite <- (fz_p (Z.of_N a - Z.of_N b)). f_equal. lia.
Qed.
Lemma spow_spec a e : lt_p a -> lt_p (spow_ a e) /\ fn (spow_ a e) = pow_ (fn a) (Zpos e).
Proof.
  intro A. induction e as [e (IH & IE)|e (IH & IE)|]; cbn [spow_].
  - split; [auto using smul_lt|]. rewrite !fn_smul, IE. unfold pow_. rewrite Pos2Z.inj_xI. rewrite fpow_add by lia. rewrite fpow_1.
    replace (2 * Zpos e)%Z with (Zpos e + Zpos e)%Z by lia. rewrite fpow_add by lia. reflexivity.
  - split; [auto using smul_lt|]. rewrite !fn_smul, IE. unfold pow_. rewrite Pos2Z.inj_xO.
    replace (2 * Zpos e)%Z with (Zpos e + Zpos e)%Z by lia. rewrite fpow_add by lia. reflexivity.
  - split; [exact A|]. unfold pow_. now rewrite fpow_1.
Qed.

(** ** The curve *)
Definition f7 : Fp := fn 7.
Lemma f_two : fn 2 = (f1 + f1)%F. Proof. change 2 with (1 + 1). rewrite fn_add. reflexivity. Qed.
Lemma f_three : fn 3 = (f1 + f1 + f1)%F. Proof. change 3 with (2 + 1). rewrite fn_add, f_two. reflexivity. Qed.
Lemma f_eight : fn 8 = ((f1 + f1) * (f1 + f1) * (f1 + f1))%F. Proof. change 8 with (2 * 2 * 2). rewrite !fn_mul, f_two. reflexivity. Qed.
Lemma small_nonzero k : 0 < k -> k < 2 ^ 64 -> fn k <> f0.
Proof. intros K1 K2 E. apply fn_zero in E; [lia|]. apply N.lt_trans with (2 ^ 64); [exact K2|]. vm_compute. reflexivity. Qed.
Lemma Two : (f1 + f1)%F <> f0.
Proof. rewrite <- f_two. apply small_nonzero; reflexivity. Qed.
Lemma NoTwo x : (x * x * x + f7)%F <> f0.
Proof.
  intro E. assert (X0 : x <> f0).
  { intros ->. apply (small_nonzero 7); [reflexivity|reflexivity|]. fold f7. rewrite <- E. ring. }
  assert (C : (x * x * x * (x * x * x))%F = fn 49).
  { replace (fn 49) with (f7 * f7)%F by (unfold f7; rewrite <- fn_mul; reflexivity). replace (x * x * x)%F with (opp_ f7); [ring|]. replace f7 with ((x * x * x + f7) - x * x * x)%F at 1 by ring. rewrite E. ring. }
  assert (P6 : pow_ x 6 = fn 49).
  { rewrite <- C. unfold pow_. change 6%Z with (1 + 1 + 1 + (1 + 1 + 1))%Z. rewrite !fpow_add, fpow_1 by lia. reflexivity. }
  destruct no_sixth as (k & K0 & X6 & NC). pose proof (fpow_fermat pz prime_p x X0) as Fe. rewrite <- X6 in Fe. rewrite fpow_mul in Fe by lia.
  change (PrimeField.fpow pz prime_p x 6) with (pow_ x 6) in Fe. rewrite P6 in Fe. unfold fn, fz in Fe.
  rewrite <- mk_pow in Fe by lia. apply (mk_eq pz prime_p) in Fe. pose proof pz_big. rewrite (Z.mod_small 1) in Fe by lia. exact (NC Fe).
Qed.
Definition pnt : Type := @pt Fp.
Definition gadd : pnt -> pnt -> pnt := padd f1 add_ mul_ sub_ opp_ div_ Fdec.
Definition gneg : pnt -> pnt := pneg opp_.
Definition gon : pnt -> Prop := on add_ mul_ f7.
Lemma g_add_on P Q : gon P -> gon Q -> gon (gadd P Q).
Proof. exact (add_on f0 f1 add_ mul_ sub_ opp_ div_ inv_ Fth Fdec f7 Two NoTwo P Q). Qed.
Lemma g_neg_on P : gon P -> gon (gneg P).
Proof. exact (neg_on f0 f1 add_ mul_ sub_ opp_ div_ inv_ Fth f7 P). Qed.
Lemma g_comm P Q : gon P -> gon Q -> gadd P Q = gadd Q P.
Proof. exact (add_comm f0 f1 add_ mul_ sub_ opp_ div_ inv_ Fth Fdec f7 P Q). Qed.
Lemma g_assoc P Q R : gon P -> gon Q -> gon R -> gadd P (gadd Q R) = gadd (gadd P Q) R.
Proof. exact (add_assoc f0 f1 add_ mul_ sub_ opp_ div_ inv_ Fth Fdec f7 Two NoTwo P Q R). Qed.
Lemma g_neg P : gon P -> gadd P (gneg P) = None.
Proof. exact (add_neg f0 f1 add_ mul_ sub_ opp_ div_ inv_ Fth Fdec f7 P). Qed.
Lemma g_zero P : gon P -> gadd P None = P.
Proof. intros _. exact (add_none f1 add_ mul_ sub_ opp_ div_ Fdec P). Qed.
Lemma g_y x y : gon (Some (x, y)) -> y <> f0.
Proof. exact (y_nonzero f0 f1 add_ mul_ sub_ opp_ div_ inv_ Fth f7 NoTwo x y). Qed.
Lemma g_same_x x y1 y2 : gon (Some (x, y1)) -> gon (Some (x, y2)) -> y1 = y2 \/ y1 = opp_ y2.
Proof. exact (same_x f0 f1 add_ mul_ sub_ opp_ div_ inv_ Fth Fdec f7 x y1 y2). Qed.
Lemma F_zero a b : (a * b)%F = f0 -> a = f0 \/ b = f0.
Proof. exact (mul_zero f0 f1 add_ mul_ sub_ opp_ div_ inv_ Fth Fdec a b). Qed.
Lemma F_nonzero a b : a <> f0 -> b <> f0 -> (a * b)%F <> f0.
Proof. intros A B E. apply F_zero in E. tauto. Qed.
Lemma F_cancel k a c : k <> f0 -> (k * a)%F = (k * c)%F -> a = c.
Proof. exact (GroupLaw.cancel_l f0 f1 add_ mul_ sub_ opp_ div_ inv_ Fth Fdec k a c). Qed.
Lemma F_sub a c : (a - c)%F = f0 -> a = c.
Proof. exact (sub_zero f0 f1 add_ mul_ sub_ opp_ div_ inv_ Fth a c). Qed.
Lemma double_neq y : y <> f0 -> y <> opp_ y.
Proof.
  intros Y E. apply (F_nonzero (f1 + f1)%F y Two Y). replace ((f1 + f1) * y)%F with (y + y)%F by ring. rewrite E at 1. ring.
Qed.

(** ** Jacobian coordinates *)
Definition repr (j : jac) (P : pnt) : Prop :=
  let '(x, y, z) := j in
  lt_p x /\ lt_p y /\ lt_p z /\
  match P with
  | None => z = 0
  | Some (X, Y) => z <> 0 /\ fn x = (X * (fn z * fn z))%F /\ fn y = (Y * (fn z * fn z * fn z))%F
  end.
Opaque smul_ ssub_ secp_red spow_.
Lemma nonzero_fn z : lt_p z -> z <> 0 -> fn z <> f0.
Proof. intros L N E. apply N. now apply fn_zero. Qed.
Ltac abs_mul a b c L E := pose proof (smul_lt a b ltac:(assumption) ltac:(assumption)) as L; pose proof (fn_smul a b) as E; set (c := smul_ a b) in *; clearbody c.
Ltac abs_sub a b c L E := pose proof (ssub_lt a b ltac:(assumption) ltac:(assumption)) as L; pose proof (fn_ssub a b ltac:(assumption) ltac:(assumption)) as E; set (c := ssub_ a b) in *; clearbody c.
Ltac abs_sum a b c L E := pose proof (sum_lt a b ltac:(assumption) ltac:(assumption)) as L; pose proof (fn_red (a + b)) as E; rewrite (fn_add a b) in E; set (c := secp_red (a + b)) in *; clearbody c.
Ltac abs_small k a c L E := pose proof (small_lt k a ltac:(assumption) ltac:(assumption)) as L; pose proof (fn_red (k * a)) as E; rewrite (fn_mul k a) in E; set (c := secp_red (k * a)) in *; clearbody c.
Lemma double_repr j P : gon P -> repr j P -> repr (jac_double j) (gadd P P).
Proof.
  destruct j as ((x, y), z). intros On (Lx & Ly & Lz & R). unfold jac_double.
  cbv zeta. assert (L2 : 2 < 2 ^ 256) by reflexivity. assert (L3 : 3 < 2 ^ 256) by reflexivity. assert (L8 : 8 < 2 ^ 256) by reflexivity.
  abs_mul x x a La Ea. abs_mul y y b Lb Eb. abs_mul b b c Lc Ec. abs_sum x b t Lt1 Et. abs_mul t t t2 Ltt Ett.
  abs_sub t2 a ta Lta Eta. abs_sub ta c tc Ltc Etc. abs_small 2 tc d Ld Ed. abs_small 3 a e Le Ee. abs_mul e e f Lf Ef. abs_small 2 d dd Ldd Edd.
  abs_sub f dd x3 Lx3 Ex. abs_sub d x3 g Lg Eg. abs_mul e g eg Leg Eeg. abs_small 8 c c8 Lc8 Ec8. abs_sub eg c8 y3 Ly3 Ey.
  abs_mul y z yz Lyz Eyz. abs_small 2 yz z3 Lz3 Ez. rewrite f_two in Ed, Edd, Ez. rewrite f_three in Ee. rewrite f_eight in Ec8.
  unfold repr. split; [exact Lx3|]. split; [exact Ly3|]. split; [exact Lz3|]. destruct P as [(X, Y)|].
  - destruct R as (Z0 & Rx & Ry). pose proof (nonzero_fn z Lz Z0) as Nz. pose proof (g_y X Y On) as NY. unfold gadd, padd.
    destruct (Fdec X X) as [_|N]; [|now elim N]. destruct (Fdec Y (opp_ Y)) as [E|_]; [now elim (double_neq Y NY)|]. unfold chord.
    split.
    + intro E0. rewrite E0, fn_0 in Ez. symmetry in Ez. revert Ez. rewrite Eyz, Ry. repeat apply F_nonzero; auto using Two.
    + exact (jacobian_double f0 f1 add_ mul_ sub_ opp_ div_ inv_ Fth Two X Y (fn x) (fn y) (fn z) (fn a) (fn b) (fn c) (fn t) (fn t2) (fn ta) (fn tc) (fn d) (fn e) (fn f)
        (fn dd) (fn x3) (fn g) (fn eg) (fn c8) (fn y3) (fn yz) (fn z3) NY Nz Rx Ry Ea Eb Ec Et Ett Eta Etc Ed Ee Ef Edd Ex Eg Eeg Ec8 Ey Eyz Ez).
  - cbn [gadd padd]. subst z. apply fn_zero; [exact Lz3|]. rewrite Ez, Eyz, fn_0. ring.
Qed.
Lemma add_repr j P x2 y2 : gon P -> repr j P -> lt_p x2 -> lt_p y2 -> gon (Some (fn x2, fn y2)) ->
  repr (jac_add j (Point x2 y2)) (gadd P (Some (fn x2, fn y2))).
Proof.
  destruct j as ((x, y), z). intros On R Lx2 Ly2 On2. pose proof R as (Lx & Ly & Lz & R'). unfold jac_add. cbn [px py].
  destruct (N.eqb_spec z 0) as [Z0|Z0].
  - destruct P as [(X, Y)|]; [now elim (proj1 R')|]. cbn [gadd padd]. split; [exact Lx2|]. split; [exact Ly2|]. split; [reflexivity|].
    split; [discriminate|]. rewrite fn_1. exact (jacobian_one f0 f1 add_ mul_ sub_ opp_ div_ inv_ Fth _ _).
  - destruct P as [(X, Y)|]; [|contradiction]. destruct R' as (_ & Rx & Ry). pose proof (nonzero_fn z Lz Z0) as Nz. pose proof (g_y X Y On) as NY.
    cbv zeta. abs_mul z z zz Lzz Ezz. abs_mul x2 zz u Lu Eu. abs_sub u x h Lh Eh. abs_mul z zz zzz Lzzz Ezzz. abs_mul y2 zzz w Lw Ew. abs_sub w y r Lr Er.
    rewrite Eu, Ezz in Eh. rewrite Ew, Ezzz, Ezz in Er.
    assert (Hx : (fn h = (fn x2 - X) * (fn z * fn z))%F) by (rewrite Eh, Rx; ring).
    assert (Hy : (fn r = (fn y2 - Y) * (fn z * fn z * fn z))%F) by (rewrite Er, Ry; ring).
    assert (Nz2 : (fn z * fn z)%F <> f0) by auto using F_nonzero. assert (Nz3 : (fn z * fn z * fn z)%F <> f0) by auto using F_nonzero.
    destruct (N.eqb_spec h 0) as [H0|H0].
    + assert (EX : X = fn x2). { rewrite H0, fn_0 in Hx. symmetry in Hx. apply F_zero in Hx as [Hx|Hx]; [symmetry; now apply F_sub|contradiction]. }
      destruct (N.eqb_spec r 0) as [R0|R0].
      * assert (EY : Y = fn y2). { rewrite R0, fn_0 in Hy. symmetry in Hy. apply F_zero in Hy as [Hy|Hy]; [symmetry; now apply F_sub|contradiction]. }
        rewrite <- EX, <- EY. apply double_repr; assumption.
      * assert (NYY : Y <> fn y2). { intros EY. apply R0. apply fn_zero; [exact Lr|]. rewrite Hy, EY. ring. }
        unfold gadd, padd. destruct (Fdec X (fn x2)) as [_|N]; [|contradiction]. destruct (g_same_x X Y (fn y2)) as [E|E]; [exact On|now rewrite EX|contradiction|].
        destruct (Fdec Y (opp_ (fn y2))) as [_|N]; [|contradiction]. repeat split.
    + assert (NX : X <> fn x2). { intros EX. apply H0. apply fn_zero; [exact Lh|]. rewrite Hx, EX. ring. }
      assert (Dx : (fn x2 - X)%F <> f0) by (intro E; apply NX; symmetry; now apply F_sub).
      unfold gadd, padd. destruct (Fdec X (fn x2)) as [E|_]; [contradiction|]. unfold chord.
      assert (L2 : 2 < 2 ^ 256) by reflexivity. abs_mul h h hh Lhh Ehh. abs_mul h hh hhh Lhhh Ehhh. abs_mul x hh v Lv Ev. abs_mul r r rr Lrr Err1.
      abs_sub rr hhh s Ls Es. abs_small 2 v vv Lvv Evv. abs_sub s vv x3 Lx3 Ex3. abs_sub v x3 q Lq Eq1. abs_mul r q rq Lrq Erq. abs_mul y hhh m Lm Em.
      abs_sub rq m y3 Ly3 Ey3. abs_mul z h z3 Lz3 Ez3. rewrite f_two in Evv.
      split; [exact Lx3|]. split; [exact Ly3|]. split; [exact Lz3|]. split.
      * intro E0. rewrite E0, fn_0 in Ez3. symmetry in Ez3. revert Ez3. rewrite Hx. repeat apply F_nonzero; auto.
      * exact (jacobian_add f0 f1 add_ mul_ sub_ opp_ div_ inv_ Fth X Y (fn x2) (fn y2) (fn x) (fn y) (fn z) (fn h) (fn r) (fn hh) (fn hhh) (fn v) (fn rr) (fn s)
          (fn vv) (fn x3) (fn q) (fn rq) (fn m) (fn y3) (fn z3) Dx Nz Rx Ry Hx Hy Ehh Ehhh Ev Err1 Es Evv Ex3 Eq1 Erq Em Ey3 Ez3).
Qed.
Fixpoint gmul (P : pnt) (k : positive) : pnt :=
  match k with
  | xH => P
  | xO k => gadd (gmul P k) (gmul P k)
  | xI k => gadd (gadd (gmul P k) (gmul P k)) P
  end.
Lemma gmul_on P k : gon P -> gon (gmul P k).
Proof. intro H. induction k; cbn; auto using g_add_on. Qed.
Lemma mul_repr x y k : lt_p x -> lt_p y -> gon (Some (fn x, fn y)) -> repr (jac_mul (Point x y) k) (gmul (Some (fn x, fn y)) k).
Proof.
  intros Lx Ly On. induction k as [k IH|k IH|]; cbn [jac_mul gmul].
  - apply add_repr; auto using g_add_on, gmul_on. apply double_repr; auto using gmul_on.
  - apply double_repr; auto using gmul_on.
  - cbn [px py]. split; [exact Lx|]. split; [exact Ly|]. split; [reflexivity|]. split; [discriminate|]. rewrite fn_1. exact (jacobian_one f0 f1 add_ mul_ sub_ opp_ div_ inv_ Fth _ _).
Qed.

(** ** Affine coordinates *)
Definition aff (q : point) : pnt := if is_O q then None else Some (fn (px q), fn (py q)).
Lemma fn_mod x : fn (x mod secp_p) = fn x.
Proof. unfold fn. apply fz_eq. rewrite N2Z.inj_mod, p_z. apply Zmod_mod. Qed.
Lemma fn_eq x y : fn x = fn y <-> x mod secp_p = y mod secp_p.
Proof.
  split; [|intro E; now rewrite <- (fn_mod x), E, fn_mod]. intro E. apply fn_inj; [apply N.mod_lt; discriminate|apply N.mod_lt; discriminate|]. now rewrite !fn_mod.
Qed.
Lemma on_eq x y : gon (Some (fn x, fn y)) <-> (y * y) mod secp_p = (x * x * x + 7) mod secp_p.
Proof. rewrite <- fn_eq, fn_add, !fn_mul. reflexivity. Qed.
Lemma O_off : ~ gon (Some (fn 0, fn 0)).
Proof. intro E. now apply (g_y _ _ E). Qed.
Lemma is_O_eq q : is_O q = true <-> q = Point 0 0.
Proof.
  destruct q as [x y]. unfold is_O. cbn [px py]. rewrite andb_true_iff, !N.eqb_eq. split; [intros (-> & ->); reflexivity|intro E; injection E as -> ->; auto].
Qed.
Lemma on_cases q : secp_on q -> (q = Point 0 0 /\ is_O q = true /\ aff q = None) \/
  (is_O q = false /\ lt_p (px q) /\ lt_p (py q) /\ gon (Some (fn (px q), fn (py q))) /\ aff q = Some (fn (px q), fn (py q))).
Proof.
  unfold aff. intros [->|(X & Y & E)]; [left; auto|]. apply on_eq in E. destruct (is_O q) eqn:I; [left; apply is_O_eq in I; auto|]. right. auto.
Qed.
Lemma aff_on q : secp_on q -> gon (aff q).
Proof. intro H. apply on_cases in H as [(-> & _ & ->)|(_ & _ & _ & H & ->)]; [exact I|exact H]. Qed.
Lemma aff_inj q r : secp_on q -> secp_on r -> aff q = aff r -> q = r.
Proof.
  intros Q R E. apply on_cases in Q as [(-> & _ & Q)|(_ & X & Y & _ & Q)]; apply on_cases in R as [(-> & _ & R)|(_ & X' & Y' & _ & R)]; rewrite ?Q, ?R in E; try discriminate; [reflexivity|].
  assert (E1 : fn (px q) = fn (px r)) by congruence. assert (E2 : fn (py q) = fn (py r)) by congruence. apply fn_inj in E1, E2; auto. destruct q, r; cbn in *; congruence.
Qed.
Lemma aff_onto P : gon P -> exists q, secp_on q /\ aff q = P.
Proof.
  destruct P as [(X, Y)|]; intro H; [|exists (Point 0 0); split; [now left|reflexivity]].
  destruct (fn_val X) as (x & Lx & Ex). destruct (fn_val Y) as (y & Ly & Ey). subst X Y. pose proof H as E. apply on_eq in E.
  exists (Point x y). split; [right; auto|]. unfold aff. destruct (is_O (Point x y)) eqn:I; [|reflexivity].
  apply is_O_eq in I. injection I as -> ->. now elim O_off.
Qed.
Lemma affine_repr j P : gon P -> repr j P -> secp_on (jac_affine j) /\ aff (jac_affine j) = P.
Proof.
  destruct j as ((x, y), z). intros On (Lx & Ly & Lz & R). unfold jac_affine. destruct P as [(X, Y)|].
  - destruct R as (Z0 & Rx & Ry). apply N.eqb_neq in Z0 as Zb. rewrite Zb. pose proof (nonzero_fn z Lz Z0) as Nz. cbv zeta.
    destruct (spow_spec z (N.succ_pos (secp_p - 3)) Lz) as (Li & Ei). set (i := spow_ z (N.succ_pos (secp_p - 3))) in *. clearbody i.
    assert (Ei' : (fn i * fn z)%F = f1).
    { rewrite Ei. assert (Ee : Z.pos (N.succ_pos (secp_p - 3)) = (pz - 2)%Z) by (rewrite <- p_z; vm_compute; reflexivity). rewrite Ee. exact (finv_l pz prime_p (fn z) Nz). }
    abs_mul i i ii Lii Eii. assert (Exy : fn (smul_ x ii) = X /\ fn (smul_ y (smul_ i ii)) = Y).
    { rewrite !fn_smul. exact (jacobian_affine f0 f1 add_ mul_ sub_ opp_ div_ inv_ Fth Fdec X Y (fn x) (fn y) (fn z) (fn i) (fn ii) Nz Ei' Rx Ry Eii). }
    destruct Exy as (EX & EY).
    assert (LX : lt_p (smul_ x ii)) by auto using smul_lt. assert (LY : lt_p (smul_ y (smul_ i ii))) by auto using smul_lt.
    set (u := smul_ x ii) in *. set (w := smul_ y (smul_ i ii)) in *. clearbody u w. subst X Y. pose proof On as E. apply on_eq in E.
    split; [right; auto|]. unfold aff. cbn [px py]. destruct (is_O (Point u w)) eqn:I; [|reflexivity]. apply is_O_eq in I. injection I as -> ->. now elim O_off.
  - subst z. split; [now left|reflexivity].
Qed.
Lemma secp_add_spec a b : secp_on a -> secp_on b -> secp_on (secp_add a b) /\ aff (secp_add a b) = gadd (aff a) (aff b).
Proof.
  intros A B. unfold secp_add. pose proof (on_cases a A) as [(-> & I & Ea)|(I & Lx & Ly & H & Ea)]; rewrite I; [split; [exact B|reflexivity]|].
  pose proof (on_cases b B) as [(-> & J & Eb)|(J & Mx & My & K & Eb)]; rewrite J; [split; [exact A|rewrite Eb; symmetry; apply g_zero; now apply aff_on]|].
  rewrite Ea, Eb. apply affine_repr; [now apply g_add_on|]. destruct b as [x2 y2]. apply add_repr; auto.
  split; [exact Lx|]. split; [exact Ly|]. split; [reflexivity|]. split; [discriminate|]. rewrite fn_1. exact (jacobian_one f0 f1 add_ mul_ sub_ opp_ div_ inv_ Fth _ _).
Qed.
Lemma secp_mul_spec q k : secp_on q -> secp_on (secp_smul q (N.pos k)) /\ aff (secp_smul q (N.pos k)) = gmul (aff q) k.
Proof.
  intros Q. unfold secp_smul. pose proof (on_cases q Q) as [(-> & I & Ea)|(I & Lx & Ly & H & Ea)]; rewrite I.
  - split; [exact Q|]. rewrite Ea. induction k as [k IH|k IH|]; cbn [gmul]; [|rewrite <- IH; reflexivity|reflexivity]. rewrite <- IH. reflexivity.
  - rewrite Ea. apply affine_repr; [now apply gmul_on|]. destruct q as [x y]. apply mul_repr; auto.
Qed.

(** ** The group is cyclic *)
Local Notation nmul := (Cyclic.mul (None : pnt) gadd).
Lemma gmul_nat P k : gon P -> gmul P k = nmul (Pos.to_nat k) P.
Proof.
  intro H. pose proof (Cyclic.mul_add gon None gadd I g_add_on g_assoc g_zero) as A.
  assert (Z : gadd None P = P) by reflexivity.
  induction k as [k IH|k IH|]; cbn [gmul].
  - rewrite IH, Pos2Nat.inj_xI. cbn [Cyclic.mul]. f_equal. replace (2 * Pos.to_nat k)%nat with (Pos.to_nat k + Pos.to_nat k)%nat by lia. now rewrite A.
  - rewrite IH, Pos2Nat.inj_xO. replace (2 * Pos.to_nat k)%nat with (Pos.to_nat k + Pos.to_nat k)%nat by lia. now rewrite A.
  - rewrite Pos2Nat.inj_1. reflexivity.
Qed.
(** At most two points for every x, and the point at infinity. *)
Definition label (P : pnt) : option (Z * bool) :=
  match P with None => None | Some (x, y) => Some (val pz x, (2 * val pz y <? pz)%Z) end.
Lemma val_opp y : y <> f0 -> val pz (opp_ y) = (pz - val pz y)%Z.
Proof.
  intro Y. unfold opp_, PrimeField.fopp. rewrite val_mk. pose proof (val_range pz y) as R. symmetry. apply Z.mod_unique with (q := (-1)%Z); [left|lia].
  assert (val pz y <> 0%Z); [|lia]. intro E. apply Y. apply (val_inj pz). rewrite E. reflexivity.
Qed.
Lemma label_inj P Q : gon P -> gon Q -> label P = label Q -> P = Q.
Proof.
  destruct P as [(x, y)|], Q as [(x', y')|]; cbn [label]; intros HP HQ E; try discriminate; [|reflexivity].
  assert (Ex : val pz x = val pz x') by congruence. apply (val_inj pz) in Ex. subst x'.
  assert (Ey : (2 * val pz y <? pz)%Z = (2 * val pz y' <? pz)%Z) by congruence. destruct (g_same_x x y y' HP HQ) as [->|Ey']; [reflexivity|exfalso].
  pose proof (g_y _ _ HQ) as Ny. subst y. rewrite (val_opp y' Ny) in Ey. destruct prime_odd as (h & Hh).
  destruct (Z.ltb_spec (2 * (pz - val pz y')) pz), (Z.ltb_spec (2 * val pz y') pz); try discriminate; lia.
Qed.
Lemma points_bound (p : nat) l : Z.of_nat p = pz -> NoDup l -> (forall P, In P l -> gon P) -> (length l <= 2 * p + 1)%nat.
Proof.
  intros Ep N On. set (all := None :: map (@Some (Z * bool)) (list_prod (map Z.of_nat (seq 0 p)) [true; false])).
  assert (La : length all = (2 * p + 1)%nat).
  { unfold all. cbn [length]. rewrite map_length, prod_length, map_length, seq_length. cbn [length]. lia. }
  rewrite <- La, <- (map_length label l). apply NoDup_incl_length.
  - apply Cyclic.map_nodup; [|exact N]. intros P Q IP IQ. apply label_inj; auto.
  - intros u I. apply in_map_iff in I as (P & <- & I). unfold all. destruct P as [(x, y)|]; [right|now left]. cbn [label]. apply in_map. apply in_prod.
    + pose proof (val_range pz x) as R. apply in_map_iff. exists (Z.to_nat (val pz x)). rewrite Z2Nat.id by lia. split; [reflexivity|]. apply in_seq. lia.
    + destruct (_ <? _)%Z; cbn; auto.
Qed.
Lemma g_no_two P : gon P -> gadd P P = None -> P = None.
Proof.
  destruct P as [(x, y)|]; [|reflexivity]. intros H. unfold gadd, padd. destruct (Fdec x x) as [_|N]; [|now elim N].
  destruct (Fdec y (opp_ y)) as [E|_]; [|discriminate]. exfalso. exact (double_neq y (g_y _ _ H) E).
Qed.
Lemma p_dec (P Q : pnt) : {P = Q} + {P <> Q}.
Proof.
  destruct P as [(x, y)|], Q as [(x', y')|]; [|right; discriminate|right; discriminate|now left].
  destruct (Fdec x x') as [->|N]; [|right; congruence]. destruct (Fdec y y') as [->|N]; [now left|right; congruence].
Qed.
Lemma G_on : secp_on secp_G. Proof. right. vm_compute. repeat split. Qed.
Lemma H_on : secp_on secp_H. Proof. right. vm_compute. repeat split. Qed.
Definition n_pos : positive := match secp_n with N.pos k => k | 0 => 1%positive end.
Lemma n_pos_eq : N.pos n_pos = secp_n. Proof. reflexivity. Qed.
Lemma n_z : Z.pos n_pos = secp_nz. Proof. vm_compute. reflexivity. Qed.
Lemma n_odd : N.odd secp_n = true. Proof. vm_compute. reflexivity. Qed.
(** n*G is the point at infinity: computed. *)
Lemma nG_z : (let '(_, _, z) := jac_mul secp_G n_pos in z) = 0. Proof. vm_compute. reflexivity. Qed.
Definition gG : pnt := aff secp_G.
Lemma nG : gmul gG n_pos = None.
Proof.
  pose proof nG_z as E. destruct (secp_mul_spec secp_G n_pos G_on) as (_ & M). unfold gG. rewrite <- M. unfold secp_smul.
  replace (is_O secp_G) with false by (vm_compute; reflexivity). destruct (jac_mul secp_G n_pos) as ((x, y), z). subst z. reflexivity.
Qed.
Opaque secp_nz n_pos secp_G secp_H.
Lemma gG_on : gon gG. Proof. apply aff_on. exact G_on. Qed.
Lemma gG_nonzero : gG <> None.
Proof. unfold gG, aff. replace (is_O secp_G) with false by (vm_compute; reflexivity). discriminate. Qed.
Lemma ratio : (2 * pz + 1 < 3 * secp_nz)%Z. Proof. vm_compute. reflexivity. Qed.
Lemma nat_facts : prime (Z.of_nat (Pos.to_nat n_pos)) /\ nmul (Pos.to_nat n_pos) gG = None /\ Nat.odd (Pos.to_nat n_pos) = true.
Proof.
  rewrite positive_nat_Z, n_z. split; [exact prime_n|]. split; [rewrite <- gmul_nat by exact gG_on; exact nG|].
  pose proof n_odd as O. rewrite <- n_pos_eq in O. rewrite <- O. rewrite <- (positive_N_nat n_pos). apply eq_true_iff_eq. rewrite Nat.odd_spec, N.odd_spec. split; intros (m & E).
  - exists (N.of_nat m). lia.
  - exists (N.to_nat m). lia.
Qed.
Theorem all_multiples P : gon P -> exists k, P = nmul k gG.
Proof.
  intro H. destruct nat_facts as (A & B & C). destruct (Cyclic.cyclic p_dec gon None gadd gneg I g_add_on g_neg_on g_comm g_assoc g_zero g_neg
    (Pos.to_nat n_pos) A gG gG_on B gG_nonzero g_no_two C) with (a := P) as (k & _ & E); [|exact H|now exists k].
  intros l N On. pose proof pz_big. assert (Ep : exists p, Z.of_nat p = pz) by (exists (Z.to_nat pz); apply Z2Nat.id; lia). destruct Ep as (p & Ep).
  pose proof (points_bound p l Ep N On). pose proof ratio as R. rewrite <- n_z in R. rewrite <- positive_nat_Z in R. lia.
Qed.
Lemma gG_order k : nmul k gG = None -> Nat.divide (Pos.to_nat n_pos) k.
Proof. destruct nat_facts as (A & B & _). exact (Cyclic.order gon None gadd I g_add_on g_comm g_assoc g_zero _ A gG gG_on B gG_nonzero k). Qed.
Theorem torsion P : gon P -> gmul P n_pos = None.
Proof.
  intro H. destruct (all_multiples P H) as (k & ->). destruct nat_facts as (_ & B & _).
  rewrite gmul_nat by (apply (Cyclic.mul_on gon None gadd I g_add_on); exact gG_on).
  rewrite <- (Cyclic.mul_mul gon None gadd I g_add_on g_assoc g_zero) by exact gG_on. rewrite Nat.mul_comm.
  rewrite (Cyclic.mul_mul gon None gadd I g_add_on g_assoc g_zero) by exact gG_on. rewrite B. apply (Cyclic.mul_O gon None gadd I g_zero).
Qed.
(** No point has x = 0: it would have order 3. *)
Lemma x_nonzero y : ~ gon (Some (f0, y)).
Proof.
  intro H. destruct (all_multiples _ H) as (k & E).
  assert (D : gadd (gadd (Some (f0, y)) (Some (f0, y))) (Some (f0, y)) = None).
  { assert (E2 : gadd (Some (f0, y)) (Some (f0, y)) = gneg (Some (f0, y))).
    { unfold gadd, padd. destruct (Fdec f0 f0) as [_|N]; [|now elim N]. destruct (Fdec y (opp_ y)) as [Ey|_]; [now elim (double_neq y (g_y _ _ H))|].
      exact (tangent_zero f0 f1 add_ mul_ sub_ opp_ div_ inv_ Fth Two y (g_y _ _ H)). }
    rewrite E2. rewrite g_comm by auto using g_neg_on. now apply g_neg. }
  rewrite E in D. change (gadd (gadd (nmul k gG) (nmul k gG)) (nmul k gG)) with (nmul 3 (nmul k gG)) in D.
  rewrite <- (Cyclic.mul_mul gon None gadd I g_add_on g_assoc g_zero) in D by exact gG_on. apply gG_order in D.
  destruct nat_facts as (A & B & _). destruct D as (c0 & D0).
  assert (D : (Z.of_nat (Pos.to_nat n_pos) | Z.of_nat (3 * k))%Z) by (exists (Z.of_nat c0); lia).
  rewrite Nat2Z.inj_mul in D. apply prime_mult in D; [|exact A]. destruct D as [D|D].
  - rewrite positive_nat_Z, n_z in D. apply Z.divide_pos_le in D; [|reflexivity]. pose proof ratio. pose proof pz_big. change (Z.of_nat 3) with 3%Z in D. lia.
  - destruct D as (c & D). pose proof (Pos2Nat.is_pos n_pos). assert (Dk : k = (Z.to_nat c * Pos.to_nat n_pos)%nat) by (apply Nat2Z.inj; rewrite Nat2Z.inj_mul, Z2Nat.id by nia; exact D).
    rewrite Dk, (Cyclic.mul_mul gon None gadd I g_add_on g_assoc g_zero) in E by exact gG_on. rewrite B, (Cyclic.mul_O gon None gadd I g_zero) in E. discriminate E.
Qed.

(** ** The laws *)
Lemma fn_opp y : lt_p y -> fn (secp_p - y) = opp_ (fn y).
Proof.
  intro L. unfold fn. unfold lt_p in L. rewrite N2Z.inj_sub, p_z by lia. replace (pz - Z.of_N y)%Z with (- Z.of_N y + pz)%Z by lia. rewrite fz_p. exact (mk_opp pz prime_p (Z.of_N y)).
Qed.
Lemma on_y q : secp_on q -> is_O q = false -> py q <> 0.
Proof.
  intros Q I. apply on_cases in Q as [(_ & I' & _)|(_ & _ & _ & H & _)]; [congruence|]. intro E. rewrite E in H. now apply (g_y _ _ H).
Qed.
Lemma neg_spec q : secp_on q -> secp_on (secp_neg q) /\ aff (secp_neg q) = gneg (aff q).
Proof.
  intro Q. unfold secp_neg. fold (is_O q). pose proof (on_y q Q) as Y. pose proof (on_cases q Q) as [(E & I & A)|(I & Lx & Ly & H & A)]; rewrite I; [split; [exact Q|rewrite A; reflexivity]|].
  specialize (Y I). assert (L : lt_p (secp_p - py q)) by (unfold lt_p in *; lia). pose proof (fn_opp (py q) Ly) as E.
  assert (H' : gon (Some (fn (px q), fn (secp_p - py q)))) by (rewrite E; exact (g_neg_on _ H)). split.
  - right. cbn [px py]. split; [exact Lx|]. split; [exact L|]. apply on_eq. exact H'.
  - rewrite A. unfold aff at 1, is_O. cbn [px py]. replace (secp_p - py q =? 0) with false by (symmetry; apply N.eqb_neq; unfold lt_p in Ly; lia).
    rewrite andb_false_r, E. reflexivity.
Qed.
Lemma smul_aff q k : secp_on q -> secp_on (secp_smul q k) /\ aff (secp_smul q k) = nmul (N.to_nat k) (aff q).
Proof.
  intro Q. destruct k as [|k].
  - unfold secp_smul. destruct (is_O q) eqn:I; [|split; [now left|reflexivity]]. split; [exact Q|]. apply is_O_eq in I. subst q. reflexivity.
  - destruct (secp_mul_spec q k Q) as (A & B). split; [exact A|]. rewrite B. change (N.to_nat (N.pos k)) with (Pos.to_nat k). apply gmul_nat. now apply aff_on.
Qed.
Lemma sqrt_spec a : lt_p (secp_sqrt a) /\ exists e, (4 * e = pz + 1)%Z /\ fn (secp_sqrt a) = pow_ (fn a) e.
Proof.
  unfold secp_sqrt. assert (L : lt_p (a mod secp_p)) by (apply N.mod_lt; discriminate).
  destruct (spow_spec (a mod secp_p) (N.succ_pos ((secp_p - 3) / 4)) L) as (A & B). split; [exact A|].
  exists (Z.pos (N.succ_pos ((secp_p - 3) / 4))). split; [rewrite <- p_z; vm_compute; reflexivity|]. now rewrite B, fn_mod.
Qed.
Lemma pow_double y e : (0 <= e)%Z -> pow_ (y * y)%F e = pow_ y (2 * e).
Proof.
  intro E. unfold pow_. rewrite fpow_mul by lia. f_equal. change 2%Z with (1 + 1)%Z. rewrite fpow_add, !fpow_1 by lia. reflexivity.
Qed.
Lemma pow_square y e : (0 <= e)%Z -> (pow_ y e * pow_ y e)%F = pow_ y (2 * e).
Proof. intro E. unfold pow_. replace (2 * e)%Z with (e + e)%Z by lia. now rewrite fpow_add by lia. Qed.
Lemma pow_p1 y : y <> f0 -> pow_ y (pz + 1) = (y * y)%F.
Proof.
  intro Y. unfold pow_. pose proof pz_big. replace (pz + 1)%Z with (pz - 1 + (1 + 1))%Z by lia. rewrite !fpow_add, fpow_fermat, !fpow_1 by (assumption || lia).
  fold mul_. change (PrimeField.fmul pz prime_p) with mul_. change (PrimeField.fone pz prime_p) with f1. ring.
Qed.
(** The root of y^2 that is computed, and when it is y. *)
Lemma sqrt_of_square x y : gon (Some (fn x, fn y)) -> exists e, (4 * e = pz + 1)%Z /\ fn (secp_sqrt (x * x * x + 7)) = pow_ (fn y) (2 * e).
Proof.
  intro H. destruct (sqrt_spec (x * x * x + 7)) as (_ & e & E & R). exists e. split; [exact E|]. rewrite R. pose proof pz_big.
  replace (fn (x * x * x + 7)) with (fn y * fn y)%F; [apply pow_double; lia|]. rewrite fn_add, !fn_mul. exact H.
Qed.
Lemma sqrt_root x y : lt_p y -> gon (Some (fn x, fn y)) -> secp_sqrt (x * x * x + 7) = y \/ secp_sqrt (x * x * x + 7) = secp_p - y.
Proof.
  intros L H. destruct (sqrt_of_square x y H) as (e & E & R). destruct (sqrt_spec (x * x * x + 7)) as (Ls & _). pose proof pz_big. pose proof (g_y _ _ H) as Y.
  assert (S : gon (Some (fn x, fn (secp_sqrt (x * x * x + 7))))).
  { unfold gon, on. rewrite R, pow_square by lia. replace (2 * (2 * e))%Z with (pz + 1)%Z by lia. rewrite pow_p1 by exact Y. exact H. }
  assert (Y0 : y <> 0) by (intros ->; now apply Y).
  destruct (g_same_x _ _ _ S H) as [Q|Q]; [left; now apply fn_inj|right]. rewrite <- fn_opp in Q by exact L. apply fn_inj in Q; [exact Q|exact Ls|]. unfold lt_p in L. lia.
Qed.
Lemma square_iff x y : lt_p y -> gon (Some (fn x, fn y)) -> secp_square y = (secp_sqrt (x * x * x + 7) =? y).
Proof.
  intros L H. unfold secp_square. cbv zeta. destruct (sqrt_of_square x y H) as (e & E & R). destruct (sqrt_spec (x * x * x + 7)) as (Ls & _). destruct (sqrt_spec y) as (Lr & e' & E' & R').
  assert (e' = e) by lia. subst e'. pose proof pz_big. f_equal. apply fn_inj; [now apply smul_lt|exact Ls|]. rewrite fn_smul, R', R. apply pow_square. lia.
Qed.

Theorem real_curve : curve_laws real secp_on (Point 0 0) secp_neg.
Proof.
  assert (A2 : forall p q, secp_on p -> secp_on q -> secp_on (secp_add p q)) by (intros p q P Q; apply (secp_add_spec p q P Q)).
  assert (EA : forall p q, secp_on p -> secp_on q -> aff (secp_add p q) = gadd (aff p) (aff q)) by (intros p q P Q; apply (secp_add_spec p q P Q)).
  assert (EM : forall p k, secp_on p -> aff (secp_smul p k) = nmul (N.to_nat k) (aff p)) by (intros p k P; apply (smul_aff p k P)).
  assert (OM : forall p k, secp_on p -> secp_on (secp_smul p k)) by (intros p k P; apply (smul_aff p k P)).
  assert (O0 : secp_on (Point 0 0)) by now left.
  constructor; cbn [c_order c_G c_H c_add c_smul c_sqrt real].
  - split; vm_compute; reflexivity.
  - exact n_odd.
  - exact G_on.
  - exact H_on.
  - exact O0.
  - intros p P. apply (neg_spec p P).
  - exact A2.
  - intros p q P Q. apply aff_inj; auto. rewrite !EA by auto. apply g_comm; now apply aff_on.
  - intros p q r P Q R. apply aff_inj; auto. rewrite !EA by auto. apply g_assoc; now apply aff_on.
  - intros p P. apply aff_inj; auto. rewrite EA by auto. apply g_zero. now apply aff_on.
  - intros p P. pose proof (neg_spec p P) as (N1 & N2). apply aff_inj; auto. rewrite EA, N2 by auto. apply g_neg. now apply aff_on.
  - intros p P. apply aff_inj; auto. rewrite EM by auto. reflexivity.
  - intros p k P. apply aff_inj; auto. rewrite EM, EA, EM by auto. rewrite N2Nat.inj_succ. reflexivity.
  - intros p P. apply aff_inj; auto. rewrite EM by auto. rewrite <- n_pos_eq. change (N.to_nat (N.pos n_pos)) with (Pos.to_nat n_pos). rewrite <- gmul_nat by now apply aff_on.
    rewrite torsion by now apply aff_on. reflexivity.
  - intros k E. apply (f_equal aff) in E. rewrite EM in E by exact G_on. apply gG_order in E as (c & E). exists (N.of_nat c). rewrite <- n_pos_eq. lia.
  - intros p P. pose proof p_lt. apply on_cases in P as [(-> & _)|(_ & L & _)]; [reflexivity|]. unfold lt_p in L. lia.
  - intros p q P Q E. destruct (on_cases p P) as [(-> & _ & Ap)|(I & Lx & Ly & H & Ap)]; destruct (on_cases q Q) as [(-> & _ & Aq)|(J & Mx & My & K & Aq)].
    + now left.
    + cbn [px] in E. rewrite <- E in K. now elim (x_nonzero _ K).
    + cbn [px] in E. rewrite E in H. now elim (x_nonzero _ H).
    + rewrite <- E in K. destruct (g_same_x _ _ _ K H) as [Y|Y].
      * left. apply aff_inj; auto. rewrite Ap, Aq, E, Y. reflexivity.
      * right. pose proof (neg_spec p P) as (N1 & N2). apply aff_inj; auto. rewrite N2, Ap, Aq. cbn. now rewrite <- E, Y.
  - intros p P. unfold secp_neg. fold (is_O p). now destruct (is_O p).
  - intros p P N. destruct (on_cases p P) as [(-> & _)|(I & Lx & Ly & H & Ap)]; [now elim N|]. cbv zeta. unfold secp_neg. fold (is_O p). rewrite I.
    destruct (sqrt_root (px p) (py p) Ly H) as [-> | ->]; [left; now destruct p|now right].
Qed.
Theorem real_codec : codec_laws real secp_affine proof_sized.
Proof.
  constructor; cbn [point_read point_enc rproof rproof_read rproof_enc real].
  - intros p rest (P & N). destruct (on_cases p P) as [(-> & _)|(I & Lx & Ly & H & Ap)]; [now elim N|]. unfold secp_point_enc, secp_point_read.
    pose proof p_lt. assert (Lb : px p < 2 ^ 256) by (unfold lt_p in Lx; lia).
    assert (T : exists tag, tag < 256 /\ (if secp_square (py p) then x08 else x09) :: be 32 (px p) = be 1 tag ++ be 32 (px p) /\ tag = if secp_square (py p) then 8 else 9).
    { destruct (secp_square (py p)); [exists 8|exists 9]; (split; [reflexivity|split; reflexivity]). }
    destruct T as (tag & T1 & T2 & T3). rewrite T2, <- app_assoc. eapply step; [apply (read_be_app 1); exact T1|]. eapply step; [apply (read_be_app 32); exact Lb|]. cbv zeta.
    destruct (sqrt_spec (px p * px p * px p + 7)) as (Ls & _). pose proof (square_iff (px p) (py p) Ly H) as S. pose proof (sqrt_root (px p) (py p) Ly H) as R.
    set (s := secp_sqrt (px p * px p * px p + 7)) in *. clearbody s.
    replace (negb ((tag =? 8) || (tag =? 9))) with false by (rewrite T3; now destruct (secp_square (py p))).
    assert (Sq : smul_ s s = (px p * px p * px p + 7) mod secp_p).
    { apply fn_inj; [now apply smul_lt|apply N.mod_lt; discriminate|]. rewrite fn_smul, fn_mod, fn_add, !fn_mul. destruct R as [-> | ->]; [exact H|].
      rewrite fn_opp by exact Ly. exact (g_neg_on _ H). }
    rewrite Sq, N.eqb_refl. cbn [negb]. unfold rret. do 2 f_equal. rewrite T3, S. destruct (N.eqb_spec s (py p)) as [E|E]; cbn [N.eqb Pos.eqb].
    + rewrite E. now destruct p.
    + destruct R as [R|R]; [contradiction|]. rewrite R. unfold lt_p in Ly. replace (secp_p - (secp_p - py p)) with (py p) by lia. now destruct p.
  - intros p _. unfold secp_point_enc. cbn [List.length]. now rewrite be_length.
  - reflexivity.
  - auto.
Qed.

Theorem real_exact : codec_exact real.
Proof.
  split; cbn [point_read rproof rproof_read rproof_enc real].
  - intros bs p rest H. unfold secp_point_read in H. apply pbind_inv in H as (tag & r1 & R1 & H). apply read_be_inv in R1 as [-> T1].
    apply pbind_inv in H as (x & r2 & R2 & H). apply read_be_inv in R2 as [-> T2]. cbv zeta in H.
    destruct (negb _) in H; [discriminate|]. destruct (negb _) in H; [discriminate|]. apply Ok_inj in H. assert (r2 = rest) by congruence. subst r2.
    unfold lenN. rewrite !app_length, !be_length. lia.
  - intros bs q rest H. unfold read_all in H. apply Ok_inj in H. assert (bs = q) by congruence. assert (rest = []) by congruence. subst. unfold lenN. cbn. lia.
Qed.
