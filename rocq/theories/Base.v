(** Bytes, fixed-width integers and their big/little-endian encodings.
    Models the parts of Go's [encoding/binary] and of Go's integer types that /repo uses. *)
From Coq Require String.
From Coq Require Export List NArith ZArith Lia Bool.
From Coq Require Export Strings.Byte.
Export ListNotations.
Export String.StringSyntax.
Notation string := String.string.
Require Export ZifyBool ZifyNat ZifyN.
(* [Ltac Zify.zify_post_hook] is set locally where division or modulo must be decided. *)

Open Scope list_scope.
Open Scope N_scope.

Arguments N.add : simpl never.
Arguments N.mul : simpl never.
Arguments N.sub : simpl never.
Arguments N.div : simpl never.
Arguments N.modulo : simpl never.
Arguments N.pow : simpl never.
Arguments N.testbit : simpl never.
Arguments N.shiftl : simpl never.
Arguments N.shiftr : simpl never.
Arguments N.land : simpl never.
Arguments N.lor : simpl never.
Arguments N.lxor : simpl never.
Arguments N.eqb : simpl never.
Arguments N.ltb : simpl never.
Arguments N.leb : simpl never.
Arguments N.of_nat : simpl never.
Arguments N.to_nat : simpl never.
Arguments Byte.to_N : simpl never.
Arguments Byte.of_N : simpl never.

(** Go's [byte]/[uint8] values. *)
Definition bytes := list byte.

(** The numeric value of a byte. *)
Definition b2n (b : byte) : N := Byte.to_N b.
(** Go's conversion [byte(n)] / [uint8(n)]: truncation modulo 256. *)
Definition n2b (n : N) : byte :=
  match Byte.of_N (n mod 256) with Some b => b | None => x00 end.

Lemma b2n_lt b : b2n b < 256.
Proof. pose proof (Byte.to_N_bounded b). unfold b2n. lia. Qed.

Lemma n2b_b2n b : n2b (b2n b) = b.
Proof.
  unfold n2b. rewrite N.mod_small by apply b2n_lt.
  unfold b2n. rewrite Byte.of_to_N. reflexivity.
Qed.

Lemma b2n_n2b n : b2n (n2b n) = n mod 256.
Proof.
  unfold n2b. destruct (Byte.of_N (n mod 256)) as [b|] eqn:E.
  - apply Byte.to_of_N in E. exact E.
  - apply Byte.of_N_None_iff in E.
    pose proof (N.mod_lt n 256 ltac:(lia)). lia.
Qed.

Lemma b2n_inj a b : b2n a = b2n b -> a = b.
Proof. intro H. rewrite <- (n2b_b2n a), <- (n2b_b2n b), H. reflexivity. Qed.

(** [be k n]: the [k]-byte big-endian encoding of the unsigned integer [n]
    (Go: binary.Write with binary.BigEndian, PutUint64, ...). *)
Fixpoint be (k : nat) (n : N) : bytes :=
  match k with
  | O => []
  | S k' => be k' (n / 256) ++ [n2b n]
  end.

(** Value of a big-endian byte string (Go: BigEndian.Uint16/32/64, big.Int.SetBytes). *)
Definition unbe (l : bytes) : N := fold_left (fun a b => a * 256 + b2n b) l 0.

(** Little-endian counterparts (Go: binary.LittleEndian). *)
Fixpoint le (k : nat) (n : N) : bytes :=
  match k with
  | O => []
  | S k' => n2b n :: le k' (n / 256)
  end.
Fixpoint unle (l : bytes) : N :=
  match l with
  | [] => 0
  | b :: l' => b2n b + 256 * unle l'
  end.

Lemma be_length k n : List.length (be k n) = k.
Proof.
  revert n; induction k as [|k IH]; intro n; cbn [be]; [reflexivity|].
  rewrite app_length, IH. cbn. lia.
Qed.

Lemma le_length k n : List.length (le k n) = k.
Proof. revert n; induction k as [|k IH]; intro n; cbn [le List.length]; [reflexivity|]. now rewrite IH. Qed.

Lemma unbe_app l b : unbe (l ++ [b]) = unbe l * 256 + b2n b.
Proof. unfold unbe. now rewrite fold_left_app. Qed.

Lemma pow256_S k : 256 ^ N.of_nat (S k) = 256 * 256 ^ N.of_nat k.
Proof. rewrite Nat2N.inj_succ, N.pow_succ_r'. reflexivity. Qed.

Lemma pow256_pos k : 0 < 256 ^ k.
Proof. pose proof (N.pow_nonzero 256 k ltac:(lia)). lia. Qed.

Lemma unbe_be k n : n < 256 ^ N.of_nat k -> unbe (be k n) = n.
Proof.
  revert n; induction k as [|k IH]; intros n H.
  - cbn in *. rewrite N.pow_0_r in H. cbn. lia.
  - cbn [be]. rewrite unbe_app, b2n_n2b, IH.
    + rewrite (N.div_mod n 256) at 3 by lia. lia.
    + rewrite pow256_S in H. apply N.div_lt_upper_bound; lia.
Qed.

Lemma unbe_be_mod k n : unbe (be k n) = n mod 256 ^ N.of_nat k.
Proof.
  revert n; induction k as [|k IH]; intros n.
  - cbn [be]. rewrite N.pow_0_r, N.mod_1_r. reflexivity.
  - cbn [be]. rewrite unbe_app, b2n_n2b, IH, pow256_S.
    pose proof (pow256_pos (N.of_nat k)).
    rewrite N.mod_mul_r by lia. lia.
Qed.

Lemma unbe_lt l : unbe l < 256 ^ N.of_nat (List.length l).
Proof.
  induction l as [|b l IH] using rev_ind.
  - cbn. lia.
  - rewrite unbe_app, app_length. cbn [List.length].
    rewrite Nat.add_1_r, pow256_S. pose proof (b2n_lt b). nia.
Qed.

Lemma be_unbe l : be (List.length l) (unbe l) = l.
Proof.
  induction l as [|b l IH] using rev_ind; [reflexivity|].
  rewrite app_length. cbn [List.length]. rewrite Nat.add_1_r. cbn [be].
  rewrite unbe_app. pose proof (b2n_lt b).
  replace ((unbe l * 256 + b2n b) / 256) with (unbe l).
  2:{ rewrite N.add_comm, N.div_add by lia. rewrite N.div_small by lia. lia. }
  rewrite IH. f_equal. f_equal.
  rewrite <- (n2b_b2n b) at 2. unfold n2b.
  rewrite N.add_comm, N.mod_add by lia. reflexivity.
Qed.

Lemma be_inj k m n : m < 256 ^ N.of_nat k -> n < 256 ^ N.of_nat k -> be k m = be k n -> m = n.
Proof. intros Hm Hn H. rewrite <- (unbe_be k m Hm), <- (unbe_be k n Hn), H. reflexivity. Qed.

Lemma unle_le k n : n < 256 ^ N.of_nat k -> unle (le k n) = n.
Proof.
  revert n; induction k as [|k IH]; intros n H.
  - cbn in *. rewrite N.pow_0_r in H. cbn. lia.
  - cbn [le unle]. rewrite b2n_n2b, IH.
    + rewrite (N.div_mod n 256) at 3 by lia. lia.
    + rewrite pow256_S in H. apply N.div_lt_upper_bound; lia.
Qed.

Lemma unle_lt l : unle l < 256 ^ N.of_nat (List.length l).
Proof.
  induction l as [|b l IH]; cbn [unle List.length]; [cbn; lia|].
  rewrite pow256_S. pose proof (b2n_lt b). nia.
Qed.

Lemma le_unle l : le (List.length l) (unle l) = l.
Proof.
  induction l as [|b l IH]; [reflexivity|].
  cbn [le unle List.length]. pose proof (b2n_lt b). f_equal.
  - unfold n2b. rewrite N.mul_comm, N.mod_add, N.mod_small by lia.
    unfold b2n. now rewrite Byte.of_to_N.
  - rewrite N.mul_comm, N.div_add, N.div_small by lia. exact IH.
Qed.

(** Wrap-around of unsigned 64- and 32-bit arithmetic. *)
Definition w64 (n : N) : N := N.land n 0xffffffffffffffff.
Definition w32 (n : N) : N := N.land n 0xffffffff.

Lemma w64_mod n : w64 n = n mod 2 ^ 64.
Proof. unfold w64. change 0xffffffffffffffff with (N.ones 64). apply N.land_ones. Qed.
Lemma w32_mod n : w32 n = n mod 2 ^ 32.
Proof. unfold w32. change 0xffffffff with (N.ones 32). apply N.land_ones. Qed.
Lemma w64_lt n : w64 n < 2 ^ 64.
Proof. rewrite w64_mod. apply N.mod_lt. discriminate. Qed.
Lemma w32_lt n : w32 n < 2 ^ 32.
Proof. rewrite w32_mod. apply N.mod_lt. discriminate. Qed.
Lemma w64_small n : n < 2 ^ 64 -> w64 n = n.
Proof. intro H. rewrite w64_mod. now apply N.mod_small. Qed.

(** Range predicates for Go's unsigned types. *)
Definition is_u8 (n : N) : Prop := n < 2 ^ 8.
Definition is_u16 (n : N) : Prop := n < 2 ^ 16.
Definition is_u32 (n : N) : Prop := n < 2 ^ 32.
Definition is_u64 (n : N) : Prop := n < 2 ^ 64.

(** Go's [int64]: two's-complement wrap of an integer. *)
Definition wrap64 (z : Z) : Z := ((z + 2 ^ 63) mod 2 ^ 64 - 2 ^ 63)%Z.
Definition is_i64 (z : Z) : Prop := (- 2 ^ 63 <= z < 2 ^ 63)%Z.
(** [uint64(z)] for an [int64], and back. *)
Definition u64_of_i64 (z : Z) : N := Z.to_N (z mod 2 ^ 64)%Z.
Definition i64_of_u64 (n : N) : Z := wrap64 (Z.of_N n).

Lemma wrap64_range z : is_i64 (wrap64 z).
Proof. unfold is_i64, wrap64. pose proof (Z.mod_pos_bound (z + 2^63) (2^64) ltac:(lia)). lia. Qed.

Lemma wrap64_id z : is_i64 z -> wrap64 z = z.
Proof. unfold is_i64, wrap64. intro H. rewrite Z.mod_small by lia. lia. Qed.

Lemma wrap64_wrap64_add a b : wrap64 (wrap64 a + b) = wrap64 (a + b).
Proof.
  unfold wrap64.
  replace ((a + 2 ^ 63) mod 2 ^ 64 - 2 ^ 63 + b + 2 ^ 63)%Z with ((a + 2 ^ 63) mod 2 ^ 64 + b)%Z by lia.
  rewrite Z.add_mod_idemp_l by lia. f_equal. f_equal. lia.
Qed.

Lemma u64_of_i64_lt z : is_u64 (u64_of_i64 z).
Proof.
  unfold is_u64, u64_of_i64. pose proof (Z.mod_pos_bound z (2^64) ltac:(lia)).
  apply N2Z.inj_lt. rewrite Z2N.id by lia. change (Z.of_N (2^64)) with (2^64)%Z. lia.
Qed.

Lemma i64_u64 z : is_i64 z -> i64_of_u64 (u64_of_i64 z) = z.
Proof.
  intro H. unfold i64_of_u64, u64_of_i64.
  pose proof (Z.mod_pos_bound z (2^64) ltac:(lia)).
  rewrite Z2N.id by lia. unfold wrap64. rewrite Z.add_mod_idemp_l by lia.
  fold (wrap64 z). apply wrap64_id, H.
Qed.

Lemma u64_i64 n : is_u64 n -> u64_of_i64 (i64_of_u64 n) = n.
Proof.
  unfold is_u64, i64_of_u64, u64_of_i64, wrap64. intro H.
  rewrite Zminus_mod, Z.mod_mod, <- Zminus_mod by lia.
  replace (Z.of_N n + 2^63 - 2^63)%Z with (Z.of_N n) by lia.
  rewrite Z.mod_small. apply N2Z.id.
  apply N2Z.inj_lt in H. change (Z.of_N (2^64)) with (2^64)%Z in H. lia.
Qed.

(** Generic list helpers: prefix/suffix by a binary count (so that a 64-bit announced length is
    never expanded to unary beyond the list at hand). *)
Definition lenN {A} (l : list A) : N := N.of_nat (List.length l).
Definition takeN {A} (n : N) (l : list A) : list A := firstn (N.to_nat (N.min n (lenN l))) l.
Definition dropN {A} (n : N) (l : list A) : list A := skipn (N.to_nat (N.min n (lenN l))) l.

Lemma takeN_dropN {A} n (l : list A) : takeN n l ++ dropN n l = l.
Proof. apply firstn_skipn. Qed.

Lemma takeN_firstn {A} n (l : list A) : takeN n l = firstn (N.to_nat n) l.
Proof.
  unfold takeN, lenN. destruct (N.le_gt_cases n (N.of_nat (List.length l))) as [H|H].
  - now rewrite N.min_l by lia.
  - rewrite N.min_r by lia. rewrite Nat2N.id, firstn_all, firstn_all2; [reflexivity|lia].
Qed.

Lemma dropN_skipn {A} n (l : list A) : dropN n l = skipn (N.to_nat n) l.
Proof.
  unfold dropN, lenN. destruct (N.le_gt_cases n (N.of_nat (List.length l))) as [H|H].
  - now rewrite N.min_l by lia.
  - rewrite N.min_r by lia. rewrite Nat2N.id, skipn_all, skipn_all2; [reflexivity|lia].
Qed.

Lemma lenN_app {A} (a b : list A) : lenN (a ++ b) = lenN a + lenN b.
Proof. unfold lenN. rewrite app_length. lia. Qed.

Lemma takeN_app_exact {A} (a b : list A) : takeN (lenN a) (a ++ b) = a.
Proof. rewrite takeN_firstn. unfold lenN. rewrite Nat2N.id, firstn_app, Nat.sub_diag. cbn. now rewrite app_nil_r, firstn_all. Qed.

Lemma dropN_app_exact {A} (a b : list A) : dropN (lenN a) (a ++ b) = b.
Proof. rewrite dropN_skipn. unfold lenN. rewrite Nat2N.id, skipn_app, skipn_all, Nat.sub_diag. reflexivity. Qed.

(** [slice off len l]: [len] elements of [l] from offset [off] (Go: l[off:off+len]). *)
Definition slice {A} (off len : nat) (l : list A) : list A := firstn len (skipn off l).

(** Lexicographic comparison of byte strings: Go's [bytes.Compare(a,b) < 0]. *)
Fixpoint bytes_lt (a b : bytes) : bool :=
  match a, b with
  | _, [] => false
  | [], _ :: _ => true
  | x :: a', y :: b' =>
      if b2n x <? b2n y then true
      else if b2n y <? b2n x then false
      else bytes_lt a' b'
  end.

(** Go's [bytes.Equal] / [bytes.Compare(a,b) == 0]. *)
Fixpoint bytes_eqb (a b : bytes) : bool :=
  match a, b with
  | [], [] => true
  | x :: a', y :: b' => Byte.eqb x y && bytes_eqb a' b'
  | _, _ => false
  end.

Lemma bytes_eqb_eq a b : bytes_eqb a b = true <-> a = b.
Proof.
  revert b; induction a as [|x a IH]; intros [|y b]; cbn; try (split; congruence).
  rewrite andb_true_iff, IH. split.
  - intros [H1 ->]. f_equal. now apply Byte.byte_dec_bl.
  - intros [= -> ->]. split; [|reflexivity]. now apply Byte.byte_dec_lb.
Qed.

Lemma bytes_eqb_refl a : bytes_eqb a a = true.
Proof. now apply bytes_eqb_eq. Qed.

Lemma bytes_eqb_neq a b : bytes_eqb a b = false <-> a <> b.
Proof.
  rewrite <- bytes_eqb_eq. destruct (bytes_eqb a b); split; congruence.
Qed.

Lemma bytes_lt_irrefl a : bytes_lt a a = false.
Proof. induction a as [|x a IH]; cbn; [reflexivity|]. rewrite N.ltb_irrefl. exact IH. Qed.

Lemma bytes_lt_trans a b c : bytes_lt a b = true -> bytes_lt b c = true -> bytes_lt a c = true.
Proof.
  revert b c; induction a as [|x a IH]; intros [|y b] [|z c]; cbn; try congruence.
  destruct (N.ltb_spec (b2n x) (b2n y)), (N.ltb_spec (b2n y) (b2n z)),
    (N.ltb_spec (b2n x) (b2n z)), (N.ltb_spec (b2n y) (b2n x)), (N.ltb_spec (b2n z) (b2n y)),
    (N.ltb_spec (b2n z) (b2n x)); try congruence; try lia. apply IH.
Qed.

Lemma bytes_lt_total a b : bytes_lt a b = false -> bytes_lt b a = false -> a = b.
Proof.
  revert b; induction a as [|x a IH]; intros [|y b]; cbn; try congruence.
  destruct (N.ltb_spec (b2n x) (b2n y)), (N.ltb_spec (b2n y) (b2n x)); try congruence; try lia.
  intros H1 H2. f_equal; [apply b2n_inj; lia | now apply IH].
Qed.

(** Repetition, as in Go's [bytes.Repeat] of a single byte. *)
Definition brepeat (b : byte) (n : nat) : bytes := repeat b n.
