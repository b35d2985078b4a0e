(** Proofs for C123. *)
From Coq Require Import Lia.
From Verif Require Import Chain SpecPow SpecCodec SpecConsensus SpecSchnorr SpecRules SpecChain SpecLine CodecProofs RulesProofs ChainProofs.

Section Line.
Context (X : Ext) (S : storage X).

Lemma accepted_later now (p b : block X) : accepted_on S now p b -> clock_ok now ->
  time_wf (h_time (b_header p)) -> time_wf (h_time (b_header b)) ->
  (instant (h_time (b_header p)) < instant (h_time (b_header b)))%Z /\ not_far_future now (h_time (b_header b)).
Proof.
  intros (c & hh & bh & Hh & Bh & N & E & P) C Wp Wb.
  rewrite (process_other X S c b now hh bh Hh Bh N), E in P. apply unit_ok in P as [V P].
  destruct (time_after (h_time (b_header b)) (h_time (b_header p))) eqn:A; [|discriminate P].
  split; [now apply after_iff|]. apply block_validate_iff in V as (V & _). now apply header_validate_cases in V.
Qed.

Lemma line_shorter clock (b : nat -> block X) n : line S clock b (Datatypes.S n) -> line S clock b n.
Proof. intros L i H. apply L. lia. Qed.

Lemma line_later clock (b : nat -> block X) n : line S clock b n -> (forall i, (i < n)%nat -> clock_ok (clock i)) ->
  (forall i, (i <= n)%nat -> whole_seconds (h_time (b_header (b i)))) ->
  (t_sec (h_time (b_header (b 0%nat))) + Z.of_nat n <= t_sec (h_time (b_header (b n))))%Z.
Proof.
  induction n as [|n IH]; intros L C W; [cbn; lia|].
  assert (A := IH (line_shorter _ _ _ L) (fun i H => C i (Nat.lt_lt_succ_r _ _ H)) (fun i H => W i (Nat.le_le_succ_r _ _ H))).
  destruct (W n) as [Wn Zn]; [lia|]. destruct (W (Datatypes.S n)) as [Ws Zs]; [lia|].
  destruct (accepted_later (clock n) (b n) (b (Datatypes.S n))) as [T _]; [apply L; lia|apply C; lia|exact Wn|exact Ws|].
  unfold instant in T. rewrite Zn, Zs in T. lia.
Qed.
Lemma line_time clock (b : nat -> block X) n : line S clock b (Datatypes.S n) -> (forall i, (i <= n)%nat -> clock_ok (clock i)) ->
  (forall i, (i <= Datatypes.S n)%nat -> whole_seconds (h_time (b_header (b i)))) ->
  (Z.of_nat (Datatypes.S n) <= t_sec (clock n) + 720 - t_sec (h_time (b_header (b 0%nat))))%Z.
Proof.
  intros L C W. pose proof (line_later clock b (Datatypes.S n) L ltac:(intros; apply C; lia) W) as A.
  destruct (W n) as [Wn _]; [lia|]. destruct (W (Datatypes.S n)) as [Ws Zs]; [lia|].
  destruct (accepted_later (clock n) (b n) (b (Datatypes.S n))) as [_ T]; [apply L; lia|apply C; lia|exact Wn|exact Ws|].
  unfold not_far_future, instant in T. rewrite Zs in T. destruct (C n) as [[_ Wc] _]; [lia|]. lia.
Qed.

Lemma line_work clock (b : nat -> block X) n top : hash_laws X -> line S clock b n -> is_u64 (h_total_difficulty (b_header (b 0%nat))) ->
  (forall i, (i < n)%nat -> proof_top X (h_pow (b_header (b i))) (top i)) ->
  h_total_difficulty (b_header (b n)) =
    (h_total_difficulty (b_header (b 0%nat)) + sum_to n (fun i => 0x0fffffffffffffff / top i)) mod 2 ^ 64.
Proof.
  intros HL. induction n as [|n IH]; intros L U T.
  - cbn [sum_to]. rewrite N.add_0_r, N.mod_small; [reflexivity|exact U].
  - assert (A := IH (line_shorter _ _ _ L) U (fun i H => T i (Nat.lt_lt_succ_r _ _ H))).
    destruct (L n) as (c & hh & bh & Hh & Bh & N & E & P); [lia|].
    destruct (accepted_total X S c (b (Datatypes.S n)) (clock n) hh bh (b n) (top n) HL Hh Bh N E (T n ltac:(lia)) P) as (_ & D & _).
    rewrite D, A. cbn [sum_to]. rewrite N.add_mod_idemp_l by discriminate. f_equal. lia.
Qed.

Lemma line_linked clock (b : nat -> block X) n : finds_right S -> line S clock b n ->
  (forall i, (i <= n)%nat -> is_u64 (h_height (b_header (b i)))) ->
  h_height (b_header (b n)) = (h_height (b_header (b 0%nat)) + N.of_nat n) mod 2 ^ 64 /\
  forall i, (i < n)%nat -> block_hash X (b i) = Ok (h_previous (b_header (b (Datatypes.S i)))).
Proof.
  intros F L U. split.
  - induction n as [|n IH]; [rewrite N.add_0_r, N.mod_small; [reflexivity|apply U; lia]|].
    assert (A := IH (line_shorter _ _ _ L) (fun i H => U i (Nat.le_le_succ_r _ _ H))).
    destruct (L n) as (c & hh & bh & _ & _ & _ & E & _); [lia|].
    destruct (F _ _ _ E) as [_ H]. specialize (H _ eq_refl).
    rewrite H in A. assert (V := U (Datatypes.S n) ltac:(lia)). unfold is_u64 in V.
    set (h := h_height (b_header (b (Datatypes.S n)))) in *. set (z := h_height (b_header (b 0%nat))) in *.
    rewrite Nat2N.inj_succ. rewrite <- N.add_1_r, N.add_assoc, <- N.add_mod_idemp_l, <- A by discriminate.
    rewrite N.add_mod_idemp_l by discriminate. replace (h + 2 ^ 64 - 1 + 1) with (h + 1 * 2 ^ 64) by lia.
    rewrite N.mod_add by discriminate. now rewrite N.mod_small.
  - intros i H. destruct (L i H) as (c & hh & bh & _ & _ & _ & E & _). destruct (F _ _ _ E) as [G _]. now apply G.
Qed.
End Line.
