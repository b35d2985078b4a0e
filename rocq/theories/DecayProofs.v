(** Proofs for C122. *)
From Coq Require Import Lia.
From Verif Require Import Consensus SpecCodec SpecConsensus SpecRules SpecBody RulesProofs Instance RulesExamples SpecDecay.

Lemma halved x : x * 3600 / 7200 = x / 2.
Proof. change 7200 with (2 * 3600). now rewrite N.div_mul_cancel_r by discriminate. Qed.
Lemma sum_le {X} (bl : list (block X)) D : Forall (fun x => h_difficulty (b_header x) <= D) bl ->
  fold_right N.add 0 (map (fun x => h_difficulty (b_header x)) bl) <= D * lenN bl.
Proof.
  unfold lenN. induction 1 as [|x l H _ IH]; cbn [map fold_right List.length]; [lia|]. rewrite Nat2N.inj_succ. nia.
Qed.
Lemma average_le {X} (bl : list (block X)) D : bl <> [] -> Forall (fun x => h_difficulty (b_header x) <= D) bl -> average bl <= D.
Proof.
  intros N0 F. apply sum_le in F. unfold average. assert (lenN bl <> 0) by (unfold lenN; destruct bl; [contradiction|discriminate]).
  apply N.div_le_upper_bound; [assumption|]. rewrite N.mul_comm. exact F.
Qed.
Lemma first_60 {X} (bl : list (block X)) : List.length bl = 71%nat -> lenN (firstn 60 bl) = 60.
Proof. intro L. unfold lenN. rewrite firstn_length, L. reflexivity. Qed.

Lemma target_at_most {X} (bl : list (block X)) : List.length bl = 71%nat -> target_difficulty bl <= N.max 1 (average (firstn 60 bl) / 2).
Proof.
  intro L. unfold target_difficulty, window_sum, average. rewrite (first_60 bl L).
  set (s := fold_right _ _ _). apply N.max_le_compat_l.
  rewrite <- halved. apply N.div_le_mono; [discriminate|].
  etransitivity; [apply N.mod_le; discriminate|]. apply N.mul_le_mono_r. apply N.div_le_mono; [discriminate|].
  apply N.mod_le. discriminate.
Qed.
Lemma target_exactly {X} (bl : list (block X)) : List.length bl = 71%nat -> average (firstn 60 bl) < 2 ^ 64 / 3600 ->
  target_difficulty bl = N.max 1 (average (firstn 60 bl) / 2).
Proof.
  intros L A. unfold target_difficulty, window_sum. unfold average in *. rewrite (first_60 bl L) in *.
  set (s := fold_right _ _ _) in *. assert (B : s < 2 ^ 64).
  { pose proof (N.mul_div_le (2 ^ 64) 3600 ltac:(discriminate)). pose proof (N.mul_succ_div_gt s 60 ltac:(discriminate)). lia. }
  rewrite (N.mod_small s) by exact B. rewrite N.mod_small.
  - now rewrite halved.
  - pose proof (N.mul_div_le (2 ^ 64) 3600 ltac:(discriminate)). lia.
Qed.
Lemma next_half X (bl : list (block X)) d : List.length bl = 71%nat -> next_difficulty X bl = Ok d ->
  1 <= d /\ d <= N.max 1 (average (firstn 60 bl) / 2) /\
  (average (firstn 60 bl) < 2 ^ 64 / 3600 -> d = N.max 1 (average (firstn 60 bl) / 2)).
Proof.
  intros L E. destruct (closed_form X bl) as (_ & _ & C). rewrite (C L) in E.
  assert (target_difficulty bl = d) as <- by congruence.
  split; [unfold target_difficulty; lia|]. split; [now apply target_at_most|]. intro A. now apply target_exactly.
Qed.

Lemma before_len {X} (b : nat -> block X) n : List.length (before b n) = 71%nat.
Proof. unfold before. now rewrite map_length, seq_length. Qed.

Lemma decays X from (b : nat -> block X) D : (71 <= from)%nat -> least from b ->
  (forall n, (from - 71 <= n < from)%nat -> declared b n <= D) ->
  forall k n, (from <= n + 71 - 71 * k)%nat -> declared b n <= N.max 1 (D / 2 ^ N.of_nat k).
Proof.
  intros F L I k. induction k as [|k IH]; intros n G.
  - assert (A : forall m, (from - 71 <= m)%nat -> declared b m <= N.max 1 D).
    { intro m. induction m as [m IHm] using lt_wf_ind. intro H.
      destruct (Nat.lt_ge_cases m from) as [J|J]; [specialize (I m ltac:(lia)); lia|].
      pose proof (L m J) as E. apply next_half in E as (_ & E & _); [|apply before_len].
      assert (average (firstn 60 (before b m)) <= N.max 1 D).
      { apply average_le; [intro Z; apply (f_equal (@List.length _)) in Z; rewrite firstn_length, before_len in Z; discriminate Z|].
        apply Forall_forall. intros x Hx.
        unfold before in Hx. rewrite firstn_map in Hx. apply in_map_iff in Hx as (j & <- & Hj).
        assert (In j (seq (m - 71) 71)) as Hs by (rewrite <- (firstn_skipn 60); apply in_or_app; now left).
        apply in_seq in Hs. apply IHm; lia. }
      pose proof (N.div_le_upper_bound (average (firstn 60 (before b m))) 2 (N.max 1 D) ltac:(discriminate) ltac:(lia)). lia. }
    rewrite N.pow_0_r, N.div_1_r. apply A. lia.
  - pose proof (L n ltac:(lia)) as E. apply next_half in E as (_ & E & _); [|apply before_len].
    assert (A : average (firstn 60 (before b n)) <= N.max 1 (D / 2 ^ N.of_nat k)).
    { apply average_le; [intro Z; apply (f_equal (@List.length _)) in Z; rewrite firstn_length, before_len in Z; discriminate Z|].
      apply Forall_forall. intros x Hx. unfold before in Hx. rewrite firstn_map in Hx. apply in_map_iff in Hx as (j & <- & Hj).
      assert (In j (seq (n - 71) 71)) as Hs by (rewrite <- (firstn_skipn 60); apply in_or_app; now left).
      apply in_seq in Hs. apply IH. lia. }
    rewrite Nat2N.inj_succ, N.pow_succ_r', (N.mul_comm 2), <- N.div_div by (try apply N.pow_nonzero; discriminate).
    etransitivity; [exact E|]. apply (N.div_le_mono _ _ 2) in A; [|discriminate].
    assert (N.max 1 (D / 2 ^ N.of_nat k) / 2 <= N.max 1 (D / 2 ^ N.of_nat k / 2)).
    { destruct (N.max_spec 1 (D / 2 ^ N.of_nat k)) as [[_ ->]|[_ ->]]; [lia|]. change (1 / 2) with 0. lia. }
    lia.
Qed.

Lemma decayed X from (b : nat -> block X) : (71 <= from)%nat -> least from b ->
  (forall n, (from - 71 <= n < from)%nat -> is_u64 (declared b n)) ->
  forall n, (from + 62 * 71 <= n)%nat -> declared b n = 1.
Proof.
  intros F L I n H.
  assert (U : declared b n <= N.max 1 ((2 ^ 64 - 1) / 2 ^ N.of_nat 63)).
  { apply (decays X from b (2 ^ 64 - 1) F L); [|lia]. intros m Hm. specialize (I m Hm). unfold is_u64 in I. lia. }
  assert (N.max 1 ((2 ^ 64 - 1) / 2 ^ N.of_nat 63) = 1) as V by (vm_compute; reflexivity). rewrite V in U.
  pose proof (L n ltac:(lia)) as E. apply next_half in E as (E & _); [lia|apply before_len].
Qed.

(** ** Every sequence of blocks can be made one that declares the least *)
Section Adapt.
Context {X : Ext} (first : nat -> block X).
Definition least_now (l : list (block X)) : N :=
  match next_difficulty X (skipn (List.length l - 71) l) with Ok d => d | _ => 0 end.
Fixpoint adapted (n : nat) : list (block X) :=
  match n with
  | O => []
  | S n => let l := adapted n in l ++ [if (n <? 71)%nat then first n else with_difficulty (least_now l) (first n)]
  end.
Definition adapt (n : nat) : block X := nth n (adapted (S n)) (first n).
Lemma adapted_len n : List.length (adapted n) = n.
Proof. induction n as [|n IH]; [reflexivity|]. cbn [adapted]. rewrite app_length, IH. cbn. lia. Qed.
Lemma adapt_eq n : adapt n = if (n <? 71)%nat then first n else with_difficulty (least_now (adapted n)) (first n).
Proof. unfold adapt. cbn [adapted]. rewrite app_nth2 by (rewrite adapted_len; lia). now rewrite adapted_len, Nat.sub_diag. Qed.
Lemma adapted_map n : adapted n = map adapt (seq 0 n).
Proof.
  induction n as [|n IH]; [reflexivity|]. rewrite seq_S, map_app. cbn [map Nat.add]. rewrite <- IH, adapt_eq. reflexivity.
Qed.
Lemma skipn_seq k s n : skipn k (seq s n) = seq (s + k) (n - k).
Proof. revert s n. induction k as [|k IH]; intros s [|n]; cbn [skipn seq Nat.sub]; try reflexivity; [now rewrite Nat.add_0_r| ].
  rewrite IH. f_equal; lia. Qed.
Lemma adapt_least : least 71 adapt.
Proof.
  intros n H. unfold declared. rewrite adapt_eq. assert (n <? 71 = false)%nat as -> by (apply Nat.ltb_ge; exact H).
  cbn [with_difficulty b_header h_difficulty]. unfold least_now. rewrite adapted_len, adapted_map.
  assert (skipn (n - 71) (map adapt (seq 0 n)) = before adapt n) as ->.
  { unfold before. rewrite <- (firstn_skipn (n - 71) (seq 0 n)) at 1. rewrite map_app, skipn_app.
    assert (Q : List.length (map adapt (firstn (n - 71) (seq 0 n))) = (n - 71)%nat) by (rewrite map_length, firstn_length, seq_length; lia).
    rewrite Q, Nat.sub_diag. cbn [skipn]. rewrite skipn_all2 by lia. cbn [app]. rewrite skipn_seq. f_equal. f_equal; lia. }
  destruct (closed_form X (before adapt n)) as (_ & _ & C). now rewrite (C (before_len adapt n)).
Qed.
End Adapt.
Lemma any_start X (first : nat -> block X) : exists b, least 71 b /\ (forall n, (n < 71)%nat -> b n = first n) /\
  forall n, b n = with_difficulty (declared b n) (first n).
Proof.
  exists (adapt first). split; [apply adapt_least|]. split.
  - intros n H. rewrite adapt_eq. now apply Nat.ltb_lt in H as ->.
  - intro n. unfold declared. rewrite adapt_eq. destruct (n <? 71)%nat; [|reflexivity].
    destruct (first n) as [[] ? ? ?]. reflexivity.
Qed.

(** ** Windows of one difficulty *)
Definition flat_window (d : N) : list (block toy) :=
  repeat (Block (Header 1 0 [] [] (time_unix 0) [] [] [] 0 [] [] 0 0 (Proof 29 []) d 0 1) [] [] []) 71.
Lemma wraps : List.length (flat_window 120000) = 71%nat /\ List.length (flat_window (2 ^ 64 / 3600 + 1)) = 71%nat /\
  next_difficulty toy (flat_window 120000) = Ok 60000 /\ next_difficulty toy (flat_window (2 ^ 64 / 3600 + 1)) = Ok 1.
Proof.
  split; [reflexivity|]. split; [reflexivity|]. rewrite !next_difficulty_eq. split; vm_compute; reflexivity.
Qed.
Lemma more_less : exists X (bl bl' : list (block X)) d d', List.length bl = 71%nat /\ List.length bl' = 71%nat /\
  Forall (fun x => Forall (fun y => h_difficulty (b_header x) < h_difficulty (b_header y) < 2 ^ 53) bl') bl /\
  next_difficulty X bl = Ok d /\ next_difficulty X bl' = Ok d' /\ d' < d.
Proof.
  exists toy, (flat_window 120000), (flat_window (2 ^ 64 / 3600 + 1)), 60000, 1.
  destruct wraps as (A & B & C & D). split; [exact A|]. split; [exact B|]. split.
  - apply Forall_forall. intros x Hx. apply repeat_spec in Hx as ->. apply Forall_forall. intros y Hy. apply repeat_spec in Hy as ->.
    cbn [b_header h_difficulty]. split; vm_compute; reflexivity.
  - split; [exact C|]. split; [exact D|reflexivity].
Qed.
