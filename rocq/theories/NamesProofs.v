(** Proofs for C139. *)
From Verif Require Import Names SpecNames SpecMessages SpecPool SpecFull MessageProofs PoolProofs.

(** ** Numbers *)

Lemma nth_error_in {A} (l : list A) n x : nth_error l n = Some x -> (n < List.length l)%nat.
Proof. intro H. apply nth_error_Some. congruence. Qed.
Lemma below_ten n : n < 10 -> n = 0 \/ n = 1 \/ n = 2 \/ n = 3 \/ n = 4 \/ n = 5 \/ n = 6 \/ n = 7 \/ n = 8 \/ n = 9.
Proof. lia. Qed.
Lemma digit_iff b n : digit b n <-> n < 10 /\ b = n2b (48 + n).
Proof.
  unfold digit. split.
  - intro H. assert (L := H). apply nth_error_in in L. cbn [List.length] in L.
    assert (K : n < 10) by lia. split; [exact K|].
    destruct (below_ten n K) as [E|[E|[E|[E|[E|[E|[E|[E|[E|E]]]]]]]]]; subst n; injection H as <-; reflexivity.
  - intros (K & ->). destruct (below_ten n K) as [E|[E|[E|[E|[E|[E|[E|[E|[E|E]]]]]]]]]; subst n; reflexivity.
Qed.
Lemma digit_is b n : digit b n -> is_digit b = true /\ b2n b = 48 + n.
Proof.
  intro H. apply digit_iff in H as (K & ->). unfold is_digit. rewrite b2n_n2b, N.mod_small by lia. split; [|reflexivity].
  apply andb_true_intro. split; apply N.leb_le; lia.
Qed.
Lemma is_digit_digit b : is_digit b = true -> exists n, digit b n.
Proof.
  unfold is_digit. intro H. apply andb_prop in H as (A & B). apply N.leb_le in A. apply N.leb_le in B.
  exists (b2n b - 48). apply digit_iff. split; [lia|]. replace (48 + (b2n b - 48)) with (b2n b) by lia. now rewrite n2b_b2n.
Qed.

Lemma decimal_numeral k : forall n, n < 10 ^ N.of_nat (Datatypes.S k) -> numeral (decimal (Datatypes.S k) n) n.
Proof.
  induction k as [|k IH]; intros n L.
  - cbn [decimal]. change (10 ^ N.of_nat 1) with 10 in L. rewrite (proj2 (N.ltb_lt _ _) L). cbn [app]. constructor.
    apply digit_iff. rewrite N.mod_small by exact L. auto.
  - change (decimal (Datatypes.S (Datatypes.S k)) n) with ((if n <? 10 then [] else decimal (Datatypes.S k) (n / 10)) ++ [n2b (48 + n mod 10)]).
    destruct (N.ltb_spec n 10) as [S|G].
    + cbn [app]. constructor. apply digit_iff. rewrite N.mod_small by exact S. auto.
    + pose proof (N.div_mod' n 10) as D. pose proof (N.mod_lt n 10 ltac:(lia)) as M.
      assert (P : 0 < n / 10) by (apply N.div_str_pos; lia).
      rewrite D at 3. constructor; [|exact P|apply digit_iff; auto].
      apply IH. apply N.div_lt_upper_bound; [lia|].
      replace (N.of_nat (Datatypes.S (Datatypes.S k))) with (N.succ (N.of_nat (Datatypes.S k))) in L by lia. now rewrite N.pow_succ_r' in L.
Qed.
Lemma itoa_numeral n : n < 65536 -> numeral (itoa n) n.
Proof. intro L. apply decimal_numeral. change (10 ^ N.of_nat 5) with 100000. lia. Qed.

Lemma value_snoc s b : value (s ++ [b]) = 10 * value s + (b2n b - 48).
Proof. unfold value. now rewrite fold_left_app. Qed.
Lemma numeral_value s n : numeral s n -> value s = n.
Proof.
  induction 1 as [b d D|s n b d N IH P D].
  - apply digit_is in D as (_ & E). unfold value. cbn. rewrite E. lia.
  - apply digit_is in D as (_ & E). rewrite value_snoc, IH, E. lia.
Qed.
Lemma numeral_digits s n : numeral s n -> forallb is_digit s = true.
Proof.
  induction 1 as [b d D|s n b d N IH P D].
  - apply digit_is in D as (E & _). cbn. now rewrite E.
  - apply digit_is in D as (E & _). rewrite forallb_app, IH. cbn. now rewrite E.
Qed.
Lemma numeral_not_nil s n : numeral s n -> s <> [].
Proof. induction 1; [discriminate|]. intro E. now apply app_eq_nil in E as (_ & E). Qed.
(** No superfluous zero in front. *)
Lemma numeral_head s n : numeral s n -> forall t, s = x30 :: t -> n = 0 /\ t = [].
Proof.
  induction 1 as [b d D|s n b d N IH P D]; intros t E.
  - injection E as -> <-. split; [|reflexivity]. apply digit_is in D as (_ & E). change (b2n x30) with 48 in E. lia.
  - destruct s as [|b' s']; [now apply numeral_not_nil in N|]. cbn [app] in E. injection E as -> E.
    destruct (IH s' eq_refl) as (-> & _). lia.
Qed.
Lemma numeral_inj s n m : numeral s n -> numeral s m -> n = m.
Proof. intros A B. apply numeral_value in A. apply numeral_value in B. congruence. Qed.
Lemma numeral_unique s n : numeral s n -> forall t, numeral t n -> s = t.
Proof.
  induction 1 as [b d D|s n b d N IH P D]; intros t T; inversion T as [b' d' D' E1 E2|s' n' b' d' N' P' D' E1 E2]; subst.
  - apply digit_iff in D as (_ & ->). apply digit_iff in D' as (_ & ->). reflexivity.
  - apply digit_iff in D as (L & _). apply digit_iff in D' as (L' & _). lia.
  - apply digit_iff in D as (L & _). apply digit_iff in D' as (L' & _). lia.
  - apply digit_iff in D as (L & ->). apply digit_iff in D' as (L' & ->). assert (n' = n /\ d' = d) as (-> & ->) by lia.
    now rewrite (IH _ N').
Qed.

Lemma number_numeral strict limit s n : numeral s n -> n <= limit -> number strict limit s = Some n.
Proof.
  intros N L. unfold number. rewrite (numeral_digits _ _ N), (numeral_value _ _ N), (proj2 (N.leb_le _ _) L).
  assert (E : lenN s =? 0 = false) by (apply N.eqb_neq; intro E; apply (numeral_not_nil _ _ N); now destruct s).
  rewrite E. cbn [negb andb].
  assert (H : strict && (1 <? lenN s) && match s with b :: _ => Byte.eqb b x30 | [] => false end = false); [|now rewrite H].
  apply Bool.not_true_iff_false. intro H. apply andb_prop in H as (H & Z). apply andb_prop in H as (_ & H). apply N.ltb_lt in H.
  destruct s as [|b t]; [discriminate Z|]. apply Byte.byte_dec_bl in Z. subst b.
  destruct (numeral_head _ _ N t eq_refl) as (_ & ->). now vm_compute in H.
Qed.
Lemma number_inv strict limit s n : number strict limit s = Some n -> n <= limit /\ value s = n.
Proof.
  unfold number. destruct (_ && _) eqn:E; [|discriminate]. intro H. injection H as <-. split; [|reflexivity].
  apply andb_prop in E as (E & _). apply andb_prop in E as (_ & E). now apply N.leb_le in E.
Qed.

(** ** Pieces *)

Lemma split_none sep s : ~ In sep s -> split_on sep s = [s].
Proof.
  induction s as [|b t IH]; intro H; [reflexivity|]. cbn [split_on].
  destruct (Byte.eqb b sep) eqn:E; [apply Byte.byte_dec_bl in E; subst; now destruct H; left|].
  rewrite IH by (intro I; apply H; now right). reflexivity.
Qed.
Lemma split_more sep s t : ~ In sep s -> split_on sep (s ++ [sep] ++ t) = s :: split_on sep t.
Proof.
  induction s as [|b r IH]; intro H; cbn [app split_on].
  - now rewrite (Byte.byte_dec_lb (eq_refl sep)).
  - destruct (Byte.eqb b sep) eqn:E; [apply Byte.byte_dec_bl in E; subst; now destruct H; left|].
    change (r ++ sep :: t) with (r ++ [sep] ++ t). rewrite IH by (intro I; apply H; now right). reflexivity.
Qed.
Lemma numeral_no sep s n : numeral s n -> is_digit sep = false -> ~ In sep s.
Proof. intros N D I. apply numeral_digits in N. rewrite forallb_forall in N. specialize (N _ I). congruence. Qed.
Lemma not_in_app {A} (x : A) a b : ~ In x a -> ~ In x b -> ~ In x (a ++ b).
Proof. intros P Q I. apply in_app_iff in I as [I|I]; auto. Qed.

(** ** Endpoints *)

Lemma as16_four (d : bytes) : List.length d = 4%nat -> as16 d = brepeat x00 10 ++ [xff; xff] ++ d.
Proof. intro L. unfold as16. now rewrite L. Qed.
Lemma as16_other (d : bytes) : List.length d <> 4%nat -> as16 d = d.
Proof. intro L. unfold as16. now rewrite (proj2 (Nat.eqb_neq _ _) L). Qed.
(** The four bytes of an endpoint. *)
Lemma four_to4 i (d : bytes) : List.length d = 4%nat -> as16 i = as16 d -> to4 i = Some d.
Proof.
  intros L E. rewrite (as16_four d L) in E. unfold as16 in E. destruct (Nat.eqb_spec (List.length i) 4) as [K|K].
  - apply app_inv_head in E. apply app_inv_head in E. subst. now apply to4_4.
  - subst i. now apply to4_mapped.
Qed.
Lemma ipv4_four a : ipv4 a -> exists b c d e, as16 (ip a) = as16 [b; c; d; e].
Proof.
  intros (d & L & H). destruct d as [|x1 [|x2 [|x3 [|x4 [|]]]]]; try discriminate L. exists x1, x2, x3, x4.
  destruct H as [-> | ->]; reflexivity.
Qed.
Lemma ipv4_same a b : ipv4 a -> as16 (ip a) = as16 (ip b) -> ipv4 b.
Proof.
  intros I E. apply ipv4_four in I as (x1 & x2 & x3 & x4 & I). rewrite E in I. exists [x1; x2; x3; x4]. split; [reflexivity|].
  unfold as16 at 1 in I. destruct (Nat.eqb_spec (List.length (ip b)) 4) as [K|K]; [left|right; exact I].
  rewrite (as16_four [x1; x2; x3; x4] eq_refl) in I. apply app_inv_head in I. now apply app_inv_head in I.
Qed.

Lemma spelled_ok s a : spelled s a -> ipv4 a /\ port_ok a.
Proof.
  intros (x1 & x2 & x3 & x4 & t1 & t2 & t3 & t4 & tp & E & _ & _ & _ & _ & (n & L & P & _) & _). split.
  - apply (ipv4_same (Addr [x1; x2; x3; x4] 0)); [exists [x1; x2; x3; x4]; auto|]. symmetry. exact E.
  - unfold port_ok. rewrite P. lia.
Qed.
Lemma spelled_resolve strict dns s a : spelled s a -> resolve_text strict dns s = Some (Addr (as16 (ip a)) (port a)).
Proof.
  intros (x1 & x2 & x3 & x4 & t1 & t2 & t3 & t4 & tp & E & N1 & N2 & N3 & N4 & (n & L & P & Np) & ->).
  assert (C : forall t m, numeral t m -> ~ In x3a t) by (intros t m N; apply (numeral_no _ _ _ N); reflexivity).
  assert (D : forall t m, numeral t m -> ~ In x2e t) by (intros t m N; apply (numeral_no _ _ _ N); reflexivity).
  unfold resolve_text.
  replace (t1 ++ [x2e] ++ t2 ++ [x2e] ++ t3 ++ [x2e] ++ t4 ++ [x3a] ++ tp)
    with ((t1 ++ [x2e] ++ t2 ++ [x2e] ++ t3 ++ [x2e] ++ t4) ++ [x3a] ++ tp) by now rewrite <- !app_assoc.
  assert (F : ~ In x3a [x2e]) by (intros [H|[]]; discriminate H).
  rewrite split_more by (repeat (apply not_in_app; [first [exact F|eauto]|]); eauto).
  rewrite (split_none x3a tp) by eauto. unfold parse_ip4.
  rewrite !split_more by eauto. rewrite (split_none x2e t4) by eauto. cbn [map].
  assert (B : forall x, b2n x <= 255) by (intro x; pose proof (b2n_lt x); lia).
  rewrite (number_numeral strict 255 t1 _ N1 (B _)), (number_numeral strict 255 t2 _ N2 (B _)), (number_numeral strict 255 t3 _ N3 (B _)), (number_numeral strict 255 t4 _ N4 (B _)).
  rewrite (number_numeral false 65535 tp n Np) by lia. rewrite !n2b_b2n, E, P. reflexivity.
Qed.
Lemma as16_twice i : as16 (as16 i) = as16 i.
Proof.
  unfold as16 at 2 3. destruct (Nat.eqb_spec (List.length i) 4) as [K|K]; [|now apply as16_other].
  apply as16_other. rewrite !app_length, K. cbn. lia.
Qed.
Lemma resolved_same a : same_endpoint (Addr (as16 (ip a)) (port a)) a.
Proof. split; [cbn; apply as16_twice|reflexivity]. Qed.

Section Text.
Variables (other : addr -> bytes).
Notation text := (tcp_text other).

Lemma text_spelled a : ipv4 a -> port_ok a -> spelled (text a) a.
Proof.
  intros I P. destruct (ipv4_four a I) as (x1 & x2 & x3 & x4 & E). exists x1, x2, x3, x4.
  exists (itoa (b2n x1)), (itoa (b2n x2)), (itoa (b2n x3)), (itoa (b2n x4)), (itoa (Z.to_N (port a))).
  assert (B : forall x, numeral (itoa (b2n x)) (b2n x)) by (intro x; apply itoa_numeral; pose proof (b2n_lt x); lia).
  split; [exact E|]. repeat (split; [apply B|]). unfold port_ok in P. split.
  - exists (Z.to_N (port a)). split; [lia|]. split; [now rewrite Z2N.id by lia|apply itoa_numeral; lia].
  - unfold tcp_text. rewrite (four_to4 _ [x1; x2; x3; x4] eq_refl E). cbn [dotted]. now rewrite <- !app_assoc.
Qed.
Lemma spelled_text s a : spelled s a -> s = text a.
Proof.
  intros (x1 & x2 & x3 & x4 & t1 & t2 & t3 & t4 & tp & E & N1 & N2 & N3 & N4 & (n & L & P & Np) & ->).
  unfold tcp_text. rewrite (four_to4 _ [x1; x2; x3; x4] eq_refl E). cbn [dotted].
  assert (B : forall x t, numeral t (b2n x) -> itoa (b2n x) = t).
  { intros x t N. apply (numeral_unique _ (b2n x)); [|exact N]. apply itoa_numeral. pose proof (b2n_lt x). lia. }
  rewrite (B _ _ N1), (B _ _ N2), (B _ _ N3), (B _ _ N4). rewrite P, N2Z.id, (numeral_unique _ _ (itoa_numeral n L) _ Np).
  now rewrite <- !app_assoc.
Qed.

Variables (strict : bool) (dns : bytes -> option addr).
Notation resolve := (resolve_text strict dns).


Lemma text_resolve a : ipv4 a -> port_ok a -> resolve (text a) = Some (Addr (as16 (ip a)) (port a)).
Proof. intros I P. apply spelled_resolve, text_spelled; assumption. Qed.

Lemma text_same a b : ipv4 a -> port_ok a -> ipv4 b -> port_ok b -> text a = text b <-> same_endpoint a b.
Proof.
  intros A PA B PB. split.
  - intro E. pose proof (text_resolve a A PA) as R. rewrite E, (text_resolve b B PB) in R. injection R as I P. split; congruence.
  - intros (E & P). destruct (ipv4_four a A) as (x1 & x2 & x3 & x4 & F). unfold tcp_text.
    rewrite (four_to4 _ [x1; x2; x3; x4] eq_refl F). rewrite E in F. now rewrite (four_to4 _ [x1; x2; x3; x4] eq_refl F), P.
Qed.

Lemma text_names : names text resolve.
Proof.
  intros a L P. exists (Addr (as16 (ip a)) (port a)). split; [|apply resolved_same].
  apply text_resolve; [|exact P]. exists (ip a). auto.
Qed.

Lemma remote_name s u : resolve s = Some u -> ipv4 u -> port_ok u -> text u = s <-> exists e, spelled s e.
Proof.
  intros R I P. split.
  - intros <-. exists u. now apply text_spelled.
  - intros (e & H). destruct (spelled_ok _ _ H) as (A & B). rewrite (spelled_resolve _ _ _ _ H) in R. injection R as <-.
    rewrite (spelled_text _ _ H). apply text_same; auto. apply resolved_same.
Qed.
End Text.
