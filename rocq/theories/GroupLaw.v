(** The group law of the curve y^2 = x^3 + b without points of order 2, over any field of
    characteristic other than 2. Associativity is first shown for the complete projective formulas of
    Renes, Costello and Batina, where it is a polynomial identity, and then carried over. *)
From Coq Require Import Ring Field.

Section Group.
Context {F : Type} (zero one : F) (add mul sub : F -> F -> F) (opp : F -> F) (div : F -> F -> F) (inv : F -> F).
Context (Th : field_theory zero one add mul sub opp div inv (@eq F)).
Context (dec : forall a b : F, {a = b} + {a <> b}).
Add Field Ff : Th.
Local Infix "+" := add. Local Infix "*" := mul. Local Infix "-" := sub. Local Infix "/" := div. Local Notation "- a" := (opp a).
Local Notation two := (one + one). Local Notation three := (one + one + one).
Context (b : F) (Two : two <> zero) (NoTwo : forall x, x * x * x + b <> zero).
Local Notation b3 := (three * b).

Lemma mul_zero a c : a * c = zero -> a = zero \/ c = zero.
Proof.
  intro E. destruct (dec a zero) as [H|H]; [now left|right]. replace c with (inv a * (a * c)) by (field; exact H). rewrite E. ring.
Qed.
Lemma mul_nonzero a c : a <> zero -> c <> zero -> a * c <> zero.
Proof. intros A C E. apply mul_zero in E. tauto. Qed.
Lemma one_nonzero : one <> zero.
Proof. exact (F_1_neq_0 Th). Qed.
Lemma sub_zero a c : a - c = zero -> a = c.
Proof. intro E. replace a with (a - c + c) by ring. rewrite E. ring. Qed.
Lemma cancel_l k a c : k <> zero -> k * a = k * c -> a = c.
Proof. intros K E. assert (H : k * (a - c) = zero) by (replace (k * (a - c)) with (k * a - k * c) by ring; rewrite E; ring). apply mul_zero in H. destruct H as [H|H]; [contradiction|now apply sub_zero]. Qed.

(** ** Points *)
Definition pt : Type := option (F * F).
Definition on (P : pt) : Prop := match P with None => True | Some (x, y) => y * y = x * x * x + b end.
Definition chord (l x1 y1 x2 : F) : pt := Some (l * l - x1 - x2, l * (x1 - (l * l - x1 - x2)) - y1).
Definition padd (P Q : pt) : pt :=
  match P, Q with
  | None, _ => Q
  | _, None => P
  | Some (x1, y1), Some (x2, y2) =>
      if dec x1 x2 then
        if dec y1 (- y2) then None else chord (three * (x1 * x1) / (two * y1)) x1 y1 x2
      else chord ((y2 - y1) / (x2 - x1)) x1 y1 x2
  end.
Definition pneg (P : pt) : pt := match P with None => None | Some (x, y) => Some (x, - y) end.

Lemma y_nonzero x y : on (Some (x, y)) -> y <> zero.
Proof. cbn. intros E H. apply (NoTwo x). rewrite <- E, H. ring. Qed.
Lemma same_x x y1 y2 : on (Some (x, y1)) -> on (Some (x, y2)) -> y1 = y2 \/ y1 = - y2.
Proof.
  cbn. intros E1 E2. assert (H : (y1 - y2) * (y1 + y2) = zero) by (replace ((y1 - y2) * (y1 + y2)) with (y1 * y1 - y2 * y2) by ring; rewrite E1, E2; ring).
  apply mul_zero in H. destruct H as [H|H]; [left; now apply sub_zero|right]. replace y1 with (y1 + y2 - y2) by ring. rewrite H. ring.
Qed.
Lemma chord_on l x1 y1 x2 y2 : x1 <> x2 -> y1 * y1 = x1 * x1 * x1 + b -> y2 * y2 = x2 * x2 * x2 + b -> l = (y2 - y1) / (x2 - x1) ->
  on (chord l x1 y1 x2).
Proof.
  intros N E1 E2 ->. cbn. assert (D : x2 - x1 <> zero) by (intro H; apply N; symmetry; now apply sub_zero).
  apply (cancel_l ((x2 - x1) * (x2 - x1) * (x2 - x1) * ((x2 - x1) * (x2 - x1) * (x2 - x1)))); [repeat apply mul_nonzero; exact D|].
  field_simplify; [|exact D|exact D]. assert (B : b = y1 * y1 - x1 * x1 * x1) by (rewrite E1; ring).
  assert (E2' : y2 * y2 = x2 * x2 * x2 + y1 * y1 - x1 * x1 * x1) by (rewrite E2, B; ring). rewrite B. ring [E2'].
Qed.
Lemma tangent_on x y : y <> zero -> y * y = x * x * x + b -> on (chord (three * (x * x) / (two * y)) x y x).
Proof.
  intros N E. cbn. assert (B : b = y * y - x * x * x) by (rewrite E; ring). rewrite B. field. split; assumption.
Qed.
Lemma add_on P Q : on P -> on Q -> on (padd P Q).
Proof.
  destruct P as [(x1, y1)|], Q as [(x2, y2)|]; auto. intros H1 H2. unfold padd.
  destruct (dec x1 x2) as [<-|N]; [|now apply (chord_on _ x1 y1 x2 y2)].
  destruct (dec y1 (- y2)) as [E|Ny]; [exact I|]. apply tangent_on; [exact (y_nonzero x1 y1 H1)|exact H1].
Qed.
Lemma neg_on P : on P -> on (pneg P).
Proof. destruct P as [(x, y)|]; [|auto]. cbn. intros <-. ring. Qed.
Lemma neg_neg P : pneg (pneg P) = P.
Proof. destruct P as [(x, y)|]; [|reflexivity]. cbn. do 2 f_equal. ring. Qed.
Lemma add_comm P Q : on P -> on Q -> padd P Q = padd Q P.
Proof.
  destruct P as [(x1, y1)|], Q as [(x2, y2)|]; auto. intros H1 H2. unfold padd.
  destruct (dec x1 x2) as [<-|N]; [destruct (dec x1 x1) as [_|N]; [|now elim N]|destruct (dec x2 x1) as [E|_]; [congruence|]].
  - destruct (dec y1 (- y2)) as [E|Ny], (dec y2 (- y1)) as [E'|Ny']; try reflexivity.
    + elim Ny'. rewrite E. ring.
    + elim Ny. rewrite E'. ring.
    + destruct (same_x x1 y1 y2 H1 H2) as [->|E]; [reflexivity|contradiction].
  - assert (D1 : x2 - x1 <> zero) by (intro H; apply N; symmetry; now apply sub_zero).
    assert (D2 : x1 - x2 <> zero) by (intro H; apply N; now apply sub_zero).
    unfold chord. assert (L : (y1 - y2) / (x1 - x2) = (y2 - y1) / (x2 - x1)) by (field; split; assumption).
    rewrite L. do 2 f_equal; [ring|]. field. exact D1.
Qed.
Lemma add_neg P : on P -> padd P (pneg P) = None.
Proof.
  destruct P as [(x, y)|]; [|reflexivity]. intros _. cbn [pneg padd]. destruct (dec x x) as [_|N]; [|now elim N].
  destruct (dec y (- - y)) as [_|N]; [reflexivity|]. elim N. ring.
Qed.
Lemma add_none P : padd P None = P.
Proof. now destruct P as [(x, y)|]. Qed.

(** ** Projective coordinates *)
Definition proj (P : pt) : F * F * F := match P with None => (zero, one, zero) | Some (x, y) => (x, y, one) end.
Definition scale (k : F) (P : F * F * F) : F * F * F := let '(x, y, z) := P in (k * x, k * y, k * z).
Definition cadd (P Q : F * F * F) : F * F * F :=
  let '(x1, y1, z1) := P in let '(x2, y2, z2) := Q in
  ((x1 * y2 + x2 * y1) * (y1 * y2 - b3 * (z1 * z2)) - b3 * (y1 * z2 + y2 * z1) * (x1 * z2 + x2 * z1),
   (y1 * y2 + b3 * (z1 * z2)) * (y1 * y2 - b3 * (z1 * z2)) + three * b3 * (x1 * x2) * (x1 * z2 + x2 * z1),
   (y1 * z2 + y2 * z1) * (y1 * y2 + b3 * (z1 * z2)) + three * (x1 * x2) * (x1 * y2 + x2 * y1)).
Lemma triple_eq (u v w u' v' w' : F) : u = u' -> v = v' -> w = w' -> (u, v, w) = (u', v', w').
Proof. now intros -> -> ->. Qed.
Lemma cadd_scale_l k P Q : cadd (scale k P) Q = scale (k * k) (cadd P Q).
Proof. destruct P as ((x1, y1), z1), Q as ((x2, y2), z2). cbn. apply triple_eq; ring. Qed.
Lemma cadd_scale_r k P Q : cadd P (scale k Q) = scale (k * k) (cadd P Q).
Proof. destruct P as ((x1, y1), z1), Q as ((x2, y2), z2). cbn. apply triple_eq; ring. Qed.
Lemma scale_scale k l P : scale k (scale l P) = scale (k * l) P.
Proof. destruct P as ((x, y), z). cbn. apply triple_eq; ring. Qed.

Lemma cadd_chord x1 y1 x2 y2 : x1 <> x2 -> on (Some (x1, y1)) -> on (Some (x2, y2)) ->
  exists k, k <> zero /\ cadd (x1, y1, one) (x2, y2, one) = scale k (proj (chord ((y2 - y1) / (x2 - x1)) x1 y1 x2)).
Proof.
  intros N H1 H2. assert (D : x2 - x1 <> zero) by (intro H; apply N; symmetry; now apply sub_zero).
  assert (M : on (chord ((- y2 - y1) / (x2 - x1)) x1 y1 x2)).
  { apply (chord_on _ x1 y1 x2 (- y2)); auto. cbn in H2. replace (- y2 * - y2) with (y2 * y2) by ring. exact H2. }
  unfold chord in M. apply y_nonzero in M.
  cbn [on] in H1, H2. set (k := (y1 * one + y2 * one) * (y1 * y2 + b3 * (one * one)) + three * (x1 * x2) * (x1 * y2 + x2 * y1)).
  assert (B : b = y1 * y1 - x1 * x1 * x1) by (rewrite H1; ring).
  assert (E2 : y2 * y2 = x2 * x2 * x2 + y1 * y1 - x1 * x1 * x1) by (rewrite H2, B; ring).
  assert (K : k = (x2 - x1) * (x2 - x1) * (x2 - x1) * ((- y2 - y1) / (x2 - x1) * (x1 - ((- y2 - y1) / (x2 - x1) * ((- y2 - y1) / (x2 - x1)) - x1 - x2)) - y1)).
  { unfold k. rewrite B. transitivity (- (y2 + y1) * (x1 * ((x2 - x1) * (x2 - x1)) - ((y2 + y1) * (y2 + y1) - (x1 + x2) * ((x2 - x1) * (x2 - x1)))) - y1 * ((x2 - x1) * (x2 - x1) * (x2 - x1))); [ring [E2]|field; exact D]. }
  exists k. split.
  - rewrite K. apply mul_nonzero; [|exact M]. repeat apply mul_nonzero; exact D.
  - unfold chord, proj, scale, cadd. apply triple_eq.
    + apply (cancel_l ((x2 - x1) * (x2 - x1))); [apply mul_nonzero; exact D|]. unfold k. rewrite B. field_simplify; [|exact D]. ring [E2].
    + apply (cancel_l ((x2 - x1) * (x2 - x1) * (x2 - x1))); [repeat apply mul_nonzero; exact D|]. unfold k. rewrite B. field_simplify; [|exact D]. ring [E2].
    + unfold k. ring.
Qed.

Lemma eight_y y : y <> zero -> two * two * two * (y * y * y) <> zero.
Proof. intro N. repeat apply mul_nonzero; assumption. Qed.
Lemma cadd_tangent x y : on (Some (x, y)) ->
  cadd (x, y, one) (x, y, one) = scale (two * two * two * (y * y * y)) (proj (chord (three * (x * x) / (two * y)) x y x)).
Proof.
  intro H. pose proof (y_nonzero x y H) as N. cbn [on] in H. assert (B : b = y * y - x * x * x) by (rewrite H; ring).
  unfold chord, proj, scale, cadd. rewrite B. apply triple_eq; [field|field|ring]; split; assumption.
Qed.
Lemma cadd_opposite x y : on (Some (x, y)) -> exists k, k <> zero /\ cadd (x, y, one) (x, - y, one) = scale k (proj None).
Proof.
  intro H. pose proof (y_nonzero x y H) as N. pose proof (tangent_on x y N H) as T. unfold chord in T. pose proof (y_nonzero _ _ T) as M.
  exists (two * two * two * (y * y * y) * (three * (x * x) / (two * y) *
          (x - (three * (x * x) / (two * y) * (three * (x * x) / (two * y)) - x - x)) - y)).
  split; [apply mul_nonzero; [now apply eight_y|exact M]|].
  cbn [on] in H. assert (B : b = y * y - x * x * x) by (rewrite H; ring).
  unfold proj, scale, cadd. rewrite B. apply triple_eq; [ring|field; split; assumption|ring].
Qed.
Lemma complete P Q : on P -> on Q -> exists k, k <> zero /\ cadd (proj P) (proj Q) = scale k (proj (padd P Q)).
Proof.
  destruct P as [(x1, y1)|], Q as [(x2, y2)|]; intros H1 H2; cbn [padd].
  - destruct (dec x1 x2) as [<-|N]; [|now apply cadd_chord].
    destruct (dec y1 (- y2)) as [E|Ny].
    + assert (E' : y2 = - y1) by (rewrite E; ring). rewrite E'. now apply cadd_opposite.
    + destruct (same_x x1 y1 y2 H1 H2) as [<-|E]; [|contradiction]. eexists. split; [|exact (cadd_tangent x1 y1 H1)].
      apply eight_y. exact (y_nonzero x1 y1 H1).
  - exists y1. split; [exact (y_nonzero x1 y1 H1)|]. cbn. apply triple_eq; ring.
  - exists y2. split; [exact (y_nonzero x2 y2 H2)|]. cbn. apply triple_eq; ring.
  - exists one. split; [exact one_nonzero|]. cbn. apply triple_eq; ring.
Qed.

(** ** Associativity *)
Definition parallel (P Q : F * F * F) : Prop :=
  let '(x1, y1, z1) := P in let '(x2, y2, z2) := Q in x1 * z2 = x2 * z1 /\ y1 * z2 = y2 * z1 /\ x1 * y2 = x2 * y1.
Lemma cadd_assoc x1 y1 x2 y2 x3 y3 :
  y1 * y1 = x1 * x1 * x1 + b -> y2 * y2 = x2 * x2 * x2 + b -> y3 * y3 = x3 * x3 * x3 + b ->
  parallel (cadd (cadd (x1, y1, one) (x2, y2, one)) (x3, y3, one)) (cadd (x1, y1, one) (cadd (x2, y2, one) (x3, y3, one))).
Proof. intros E1 E2 E3. unfold parallel, cadd. split; [|split]; ring [E1 E2 E3]. Qed.
Lemma parallel_scale k l P Q : k <> zero -> l <> zero -> parallel (scale k P) (scale l Q) -> parallel P Q.
Proof.
  destruct P as ((x1, y1), z1), Q as ((x2, y2), z2). intros K L (A & B & C).
  pose proof (mul_nonzero k l K L) as KL.
  split; [|split]; apply (cancel_l (k * l) _ _ KL).
  - replace (k * l * (x1 * z2)) with (k * x1 * (l * z2)) by ring. rewrite A. ring.
  - replace (k * l * (y1 * z2)) with (k * y1 * (l * z2)) by ring. rewrite B. ring.
  - replace (k * l * (x1 * y2)) with (k * x1 * (l * y2)) by ring. rewrite C. ring.
Qed.
Lemma parallel_eq P Q : parallel (proj P) (proj Q) -> P = Q.
Proof.
  destruct P as [(x1, y1)|], Q as [(x2, y2)|]; intros (A & B & C); [| | |reflexivity].
  - do 2 f_equal; [replace x1 with (x1 * one) by ring; rewrite A; ring|replace y1 with (y1 * one) by ring; rewrite B; ring].
  - elim one_nonzero. replace one with (one * one) by ring. rewrite <- B. ring.
  - elim one_nonzero. replace one with (one * one) by ring. rewrite B. ring.
Qed.
Theorem add_assoc P Q R : on P -> on Q -> on R -> padd P (padd Q R) = padd (padd P Q) R.
Proof.
  intros H1 H2 H3. destruct P as [(x1, y1)|]; [|reflexivity]. destruct Q as [(x2, y2)|]; [|now destruct R as [(x3, y3)|]].
  destruct R as [(x3, y3)|]; [|rewrite !add_none; reflexivity].
  set (P := Some (x1, y1)) in *. set (Q := Some (x2, y2)) in *. set (R := Some (x3, y3)) in *.
  pose proof (add_on P Q H1 H2) as H12. pose proof (add_on Q R H2 H3) as H23.
  destruct (complete P Q H1 H2) as (k1 & K1 & E1). destruct (complete (padd P Q) R H12 H3) as (k2 & K2 & E2).
  destruct (complete Q R H2 H3) as (k3 & K3 & E3). destruct (complete P (padd Q R) H1 H23) as (k4 & K4 & E4).
  symmetry. apply parallel_eq. apply (parallel_scale (k1 * k1 * k2) (k3 * k3 * k4)); [repeat apply mul_nonzero; assumption|repeat apply mul_nonzero; assumption|].
  rewrite <- !scale_scale, <- E2, <- E4, !scale_scale, <- cadd_scale_l, <- cadd_scale_r, <- E1, <- E3. now apply cadd_assoc.
Qed.

(** ** Jacobian coordinates: (x, y, z) stands for (x/z^2, y/z^3) *)
Lemma jacobian_double X Y x y z a b1 c t t2 ta tc d e f dd x3 g eg c8 y3 yz z3 : Y <> zero -> z <> zero ->
  x = X * (z * z) -> y = Y * (z * z * z) ->
  a = x * x -> b1 = y * y -> c = b1 * b1 -> t = x + b1 -> t2 = t * t -> ta = t2 - a -> tc = ta - c -> d = two * tc -> e = three * a -> f = e * e ->
  dd = two * d -> x3 = f - dd -> g = d - x3 -> eg = e * g -> c8 = two * two * two * c -> y3 = eg - c8 -> yz = y * z -> z3 = two * yz ->
  let l := three * (X * X) / (two * Y) in
  x3 = (l * l - X - X) * (z3 * z3) /\ y3 = (l * (X - (l * l - X - X)) - Y) * (z3 * z3 * z3).
Proof. intros NY Nz. intros. subst. unfold l. split; field; auto. Qed.
Lemma jacobian_add X Y x2 y2 x y z h r hh hhh v rr s vv x3 q rq m y3 z3 : x2 - X <> zero -> z <> zero ->
  x = X * (z * z) -> y = Y * (z * z * z) -> h = (x2 - X) * (z * z) -> r = (y2 - Y) * (z * z * z) ->
  hh = h * h -> hhh = h * hh -> v = x * hh -> rr = r * r -> s = rr - hhh -> vv = two * v -> x3 = s - vv -> q = v - x3 -> rq = r * q -> m = y * hhh ->
  y3 = rq - m -> z3 = z * h ->
  let l := (y2 - Y) / (x2 - X) in
  x3 = (l * l - X - x2) * (z3 * z3) /\ y3 = (l * (X - (l * l - X - x2)) - Y) * (z3 * z3 * z3).
Proof. intros NX Nz. intros. subst. unfold l. split; field; auto. Qed.
Lemma jacobian_one (X Y : F) : X = X * (one * one) /\ Y = Y * (one * one * one).
Proof. split; ring. Qed.
(** Back to affine coordinates, with i = 1/z. *)
Lemma jacobian_affine X Y x y z i ii : z <> zero -> i * z = one -> x = X * (z * z) -> y = Y * (z * z * z) -> ii = i * i -> x * ii = X /\ y * (i * ii) = Y.
Proof.
  intros Nz Ei -> -> ->. assert (Ei' : i = one / z) by (apply (cancel_l z); [exact Nz|]; replace (z * i) with (i * z) by ring; rewrite Ei; field; exact Nz).
  rewrite Ei'. split; field; exact Nz.
Qed.
Lemma tangent_zero y : y <> zero -> chord (three * (zero * zero) / (two * y)) zero y zero = pneg (Some (zero, y)).
Proof. intro Y. unfold chord, pneg. do 2 f_equal; field; auto. Qed.
End Group.
