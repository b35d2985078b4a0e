(** Proofs for C119. *)
From Coq Require Import Permutation Arith Lia.
From Verif Require Import Relay SpecRelay RelayProofs GoSort SpecGoSort.

Section Calm.
Context {A : Type} (less : A -> A -> bool) (m : list A) (O : ordered less m).

Lemma ask_calm i j k : i < j -> j < length m -> calm less m (k false) -> calm less m (Ask j i k).
Proof.
  intros L Lj C. destruct (nth_error m j) as [x|] eqn:Ex; [|apply nth_error_None in Ex; lia].
  destruct (nth_error m i) as [y|] eqn:Ey; [|apply nth_error_None in Ey; lia].
  apply CAsk with x y; auto. now rewrite (O i j y x L Ey Ex).
Qed.
Lemma gap_calm k c : forall i, 6 <= i -> i + c <= length m -> calm less m k -> calm less m (gap_pass i c k).
Proof.
  induction c as [|c IH]; intros i L6 L C; cbn [gap_pass]; [exact C|]. apply ask_calm; [lia|lia|]. apply IH; [lia|lia|exact C].
Qed.
Lemma shell_calm : calm less m (shell (length m)).
Proof.
  unfold shell. destruct (Nat.le_gt_cases (length m) 6) as [L|L].
  - replace (length m - 6) with 0 by lia. cbn [gap_pass]. now apply insertion_calm.
  - apply gap_calm; [lia|lia|]. now apply insertion_calm.
Qed.
Lemma median_calm a b c sw k : a < b -> b < c -> c < length m -> calm less m (k b sw) -> calm less m (median a b c sw k).
Proof.
  intros H1 H2 H3 C. unfold median, order2. apply ask_calm; [exact H1|lia|]. apply ask_calm; [exact H2|lia|]. apply ask_calm; [exact H1|lia|exact C].
Qed.
Lemma pivot_calm k : 12 < length m -> calm less m (k (length m / 4 * 2) 0) -> calm less m (choose_pivot (length m) k).
Proof.
  intros L C. unfold choose_pivot. cbv zeta.
  pose proof (Nat.div_mod (length m) 4 ltac:(discriminate)) as D. pose proof (Nat.mod_upper_bound (length m) 4 ltac:(discriminate)) as U.
  set (q := length m / 4) in *. assert (Q : 3 <= q) by lia.
  destruct (Nat.leb_spec 50 (length m)).
  - unfold median_adjacent. apply median_calm; [lia|lia|lia|]. apply median_calm; [lia|lia|lia|]. apply median_calm; [lia|lia|lia|].
    apply median_calm; [lia|lia|lia|exact C].
  - apply median_calm; [lia|lia|lia|exact C].
Qed.
Lemma partial_calm shift c : forall i, 1 <= i -> i + c <= length m -> calm less m (partial_insertion i c shift).
Proof. induction c as [|c IH]; intros i L1 L; cbn [partial_insertion]; [constructor|]. apply ask_calm; [lia|lia|]. apply IH; lia. Qed.
Lemma pdq_calm other shift : calm less m (pdq_sort other shift (length m)).
Proof.
  unfold pdq_sort. destruct (Nat.leb_spec (length m) 12); [now apply insertion_calm|]. apply pivot_calm; [lia|]. apply partial_calm; lia.
Qed.
Lemma quick_calm rest : length m <= 12 -> calm less m (quick_sort rest (length m)).
Proof. intro L. unfold quick_sort. destruct (Nat.leb_spec (length m) 12); [apply shell_calm|lia]. Qed.
End Calm.

(** ** The lost element *)
Section Lost.
Context {A : Type} (less : A -> A -> bool).
(** Nobody has [x]. *)
Definition free_of (x : A) (t : writer A) : Prop :=
  match t with
  | Sorting _ => True
  | Less1 _ _ y _ => True
  | Swap1 _ _ y _ => y <> x
  | Swap2 _ _ y z _ => y <> x /\ z <> x
  | Swap3 _ z _ => z <> x
  | Copying _ acc => ~ In x acc
  | Sent l => ~ In x l
  | Crash => True
  end.
Lemma put_in i (y : A) m z : In z (put i y m) -> z = y \/ In z m.
Proof.
  revert i. induction m as [|a m IH]; intros [|i] I; cbn in *; auto.
  - destruct I as [<-|I]; auto.
  - destruct I as [<-|I]; [auto|]. destruct (IH i I); auto.
Qed.
Lemma free_step x m t m' t' : ~ In x m -> free_of x t -> step less m t = Some (m', t') -> ~ In x m' /\ free_of x t'.
Proof.
  intros N F. assert (Ne : forall i y, nth_error m i = Some y -> y <> x) by (intros i y E ->; apply N; eapply nth_error_In; exact E).
  destruct t as [[|i j k|i j k]|i j y k|i j y k|i j y z k|j z k|i acc|l|]; cbn [step free_of] in *; unfold fetch; intro E; try discriminate E.
  - injection E as <- <-. split; [exact N|intros []].
  - destruct (nth_error m i) eqn:Ei; injection E as <- <-; split; auto; exact I.
  - destruct (nth_error m j) eqn:Ej; injection E as <- <-; split; auto; cbn; eauto.
  - destruct (nth_error m j) eqn:Ej; injection E as <- <-; split; auto; exact I.
  - destruct (nth_error m i) eqn:Ei; injection E as <- <-; split; auto; cbn; eauto.
  - injection E as <- <-. destruct F as (F1 & F2). split; [|exact F2]. intro I. apply put_in in I as [I|I]; [congruence|auto].
  - injection E as <- <-. split; [|exact I]. intro K. apply put_in in K as [K|K]; [congruence|auto].
  - destruct (i <? length m); [|injection E as <- <-; auto]. destruct (nth_error m i) eqn:Ei; injection E as <- <-; split; auto; cbn; auto.
    intro K. apply in_app_or in K as [K|[K|[]]]; [auto|]. exact (Ne _ _ Ei K).
Qed.
Lemma free_reach x s s' : reach less s s' -> ~ In x (mem s) -> (forall t, In t (writers s) -> free_of x t) ->
  ~ In x (mem s') /\ forall t, In t (writers s') -> free_of x t.
Proof.
  intros R N F. induction R as [s|s s1 s2 R IH Nx]; [auto|]. destruct (IH N F) as (N1 & F1). destruct s1 as [m1 ts]. cbn [mem writers] in *.
  apply next_inv in Nx as (b & u & a & m2 & v & -> & Hs & ->). cbn [mem writers].
  destruct (free_step x m1 u m2 v N1) as (N2 & F2); [apply F1; apply in_or_app; right; now left|exact Hs|]. split; [exact N2|].
  intros t I. apply in_app_or in I as [I|[<-|I]]; [apply F1; apply in_or_app; now left|exact F2|apply F1; apply in_or_app; right; now right].
Qed.
Lemma run_writer m b t a m' t' s : step less m t = Some (m', t') -> reach less (State m' (b ++ t' :: a)) s -> reach less (State m (b ++ t :: a)) s.
Proof. intros E R. eapply reach_trans; [|exact R]. eapply Then; [apply Here|]. now constructor. Qed.

(** Two writers that begin with Less(0, j) and Swap(0, j). *)
Lemma both_swap m j k x y : j <> 0 -> nth_error m 0 = Some x -> nth_error m j = Some y -> less x y = true ->
  reach less (relayed (Ask 0 j k) 2 m) (State m [Sorting (k true); Sorting (k true)]).
Proof.
  intros J Ex Ey Lt. unfold relayed. cbn [repeat].
  assert (S1 : step less m (Sorting (Ask 0 j k)) = Some (m, Less1 0 j x k)) by (cbn [step]; unfold fetch; now rewrite Ex).
  assert (S2 : step less m (Less1 0 j x k) = Some (m, Sorting (k true))) by (cbn [step]; unfold fetch; now rewrite Ey, Lt).
  apply (run_writer m [] (Sorting (Ask 0 j k)) [Sorting (Ask 0 j k)] m _ _ S1).
  apply (run_writer m [] (Less1 0 j x k) [Sorting (Ask 0 j k)] m _ _ S2). cbn [app].
  apply (run_writer m [Sorting (k true)] (Sorting (Ask 0 j k)) [] m _ _ S1).
  apply (run_writer m [Sorting (k true)] (Less1 0 j x k) [] m _ _ S2). apply Here.
Qed.
Lemma both_lose m j k x y : j <> 0 -> nth_error m 0 = Some x -> nth_error m j = Some y ->
  reach less (State m [Sorting (Exch 0 j k); Sorting (Exch 0 j k)]) (State (put 0 y (put j y m)) [Sorting k; Sorting k]).
Proof.
  intros J Ex Ey. assert (L0 : 0 < length m) by (apply nth_error_Some; congruence). assert (Lj : j < length m) by (apply nth_error_Some; congruence).
  set (m1 := put 0 y m). assert (E1 : nth_error m1 0 = Some y) by (apply put_same; exact L0). assert (E1j : nth_error m1 j = Some y) by (unfold m1; rewrite put_other by auto; exact Ey).
  assert (S1 : step less m (Sorting (Exch 0 j k)) = Some (m, Swap1 0 j y k)) by (cbn [step]; unfold fetch; now rewrite Ey).
  assert (S2 : step less m (Swap1 0 j y k) = Some (m, Swap2 0 j y x k)) by (cbn [step]; unfold fetch; now rewrite Ex).
  assert (S3 : step less m (Swap2 0 j y x k) = Some (m1, Swap3 j x k)) by reflexivity.
  assert (T1 : step less m1 (Sorting (Exch 0 j k)) = Some (m1, Swap1 0 j y k)) by (cbn [step]; unfold fetch; now rewrite E1j).
  assert (T2 : step less m1 (Swap1 0 j y k) = Some (m1, Swap2 0 j y y k)) by (cbn [step]; unfold fetch; now rewrite E1).
  apply (run_writer m [] _ [Sorting (Exch 0 j k)] m _ _ S1). apply (run_writer m [] _ [Sorting (Exch 0 j k)] m _ _ S2).
  apply (run_writer m [] _ [Sorting (Exch 0 j k)] m1 _ _ S3). cbn [app].
  apply (run_writer m1 [Swap3 j x k] _ [] m1 _ _ T1). apply (run_writer m1 [Swap3 j x k] _ [] m1 _ _ T2). cbn [app].
  assert (S4 : step less m1 (Swap3 j x k) = Some (put j x m1, Sorting k)) by reflexivity.
  apply (run_writer m1 [] _ [Swap2 0 j y y k] (put j x m1) _ _ S4). cbn [app].
  assert (T3 : step less (put j x m1) (Swap2 0 j y y k) = Some (put 0 y (put j x m1), Swap3 j y k)) by reflexivity.
  apply (run_writer (put j x m1) [Sorting k] _ [] _ _ _ T3).
  assert (T4 : step less (put 0 y (put j x m1)) (Swap3 j y k) = Some (put j y (put 0 y (put j x m1)), Sorting k)) by reflexivity.
  apply (run_writer _ [Sorting k] _ [] _ _ _ T4). cbn [app].
  replace (put j y (put 0 y (put j x m1))) with (put 0 y (put j y m)); [apply Here|].
  apply ext_eq. intro i. unfold m1.
  assert (P : forall q, length (put q x (put 0 y m)) = length m) by (intro; now rewrite !put_length).
  destruct (Nat.eq_dec i j) as [->|Nj].
  - rewrite (put_other 0 j) by auto. rewrite !put_same by (rewrite ?put_length; lia). reflexivity.
  - rewrite (put_other j i y) by auto. destruct (Nat.eq_dec i 0) as [->|N0].
    + rewrite !put_same by (rewrite ?put_length; lia). reflexivity.
    + rewrite !put_other by auto. reflexivity.
Qed.

Lemma probe_range n : 12 < n -> first_probe n <> 0 /\ first_probe n < n.
Proof.
  intro L. unfold first_probe. destruct (Nat.ltb_spec 40 n).
  - pose proof (Nat.div_mod n 8 ltac:(discriminate)). pose proof (Nat.mod_upper_bound n 8 ltac:(discriminate)). lia.
  - pose proof (Nat.div_mod n 2 ltac:(discriminate)). pose proof (Nat.mod_upper_bound n 2 ltac:(discriminate)). lia.
Qed.
Lemma quick_loses rest m x : 12 < length m -> NoDup m -> nth_error m 0 = Some x ->
  (forall y, nth_error m (first_probe (length m)) = Some y -> less x y = true) ->
  exists s, reach less (relayed (quick_sort rest (length m)) 2 m) s /\ ~ In x (mem s) /\
    forall s' l, reach less s s' -> In (Sent l) (writers s') -> ~ In x l.
Proof.
  intros L Nd Ex Lt. destruct (probe_range _ L) as (J & Lj). set (j := first_probe (length m)) in *.
  destruct (nth_error m j) as [y|] eqn:Ey; [|apply nth_error_None in Ey; lia]. specialize (Lt y eq_refl).
  assert (Ne : y <> x) by (intros ->; apply J; symmetry; apply (proj1 (NoDup_nth_error m) Nd 0 j); [lia|congruence]).
  assert (Abs : ~ In x (put 0 y (put j y m))).
  { intro I. apply In_nth_error in I as (i & E). destruct (Nat.eq_dec i 0) as [->|N0].
    - rewrite put_same in E by (rewrite put_length; lia). congruence.
    - rewrite put_other in E by auto. destruct (Nat.eq_dec i j) as [->|Nj].
      + rewrite put_same in E by lia. congruence.
      + rewrite put_other in E by auto. assert (Li : i < length m) by (apply nth_error_Some; congruence).
        apply N0. symmetry. apply (proj1 (NoDup_nth_error m) Nd 0 i); [lia|congruence]. }
  exists (State (put 0 y (put j y m)) [Sorting (rest true); Sorting (rest true)]). split; [|split; [exact Abs|]].
  - unfold quick_sort. destruct (Nat.leb_spec (length m) 12); [lia|]. fold j.
    eapply reach_trans; [exact (both_swap m j _ x y J Ex Ey Lt)|]. exact (both_lose m j (rest true) x y J Ex Ey).
  - intros s' l R I. destruct (free_reach x _ s' R Abs) as (_ & F); [intros t [<-|[<-|[]]]; exact Logic.I|]. exact (F _ I).
Qed.
End Lost.

From Verif Require Import Base Consensus SpecConsensus.
Local Open Scope nat_scope.
Lemma keys_pdq {B} (key : B -> bytes) other shift n l s : key_sorted key l ->
  reach (fun a b => bytes_lt (key a) (key b)) (relayed (pdq_sort other shift (length l)) n l) s -> all_send (fun a b => bytes_lt (key a) (key b)) l s.
Proof. intros K. apply calm_sent. apply pdq_calm. now apply keys_ordered. Qed.
Lemma keys_quick {B} (key : B -> bytes) rest n l s : key_sorted key l -> (length l <= 12)%nat ->
  reach (fun a b => bytes_lt (key a) (key b)) (relayed (quick_sort rest (length l)) n l) s -> all_send (fun a b => bytes_lt (key a) (key b)) l s.
Proof. intros K L. apply calm_sent. apply quick_calm; [now apply keys_ordered|exact L]. Qed.
Lemma keys_lose {B} (key : B -> bytes) rest l : key_sorted key l -> 12 < length l -> NoDup (map key l) ->
  loses_first (fun a b => bytes_lt (key a) (key b)) (quick_sort rest (length l)) l.
Proof.
  intros K L Nd. destruct (nth_error l 0) as [x|] eqn:Ex; [|apply nth_error_None in Ex; lia].
  destruct (quick_loses (fun a b => bytes_lt (key a) (key b)) rest l x L) as (s & R & N & F).
  - exact (NoDup_map_inv key l Nd).
  - exact Ex.
  - intros y Ey. destruct (probe_range _ L) as (J & _). destruct (bytes_lt (key x) (key y)) eqn:E; [reflexivity|exfalso].
    pose proof (keys_ordered key l K 0 (first_probe (length l)) x y ltac:(lia) Ex Ey) as G.
    pose proof (bytes_lt_total _ _ E G) as Q. apply J. symmetry.
    apply (proj1 (NoDup_nth_error (map key l)) Nd 0 (first_probe (length l))); [rewrite map_length; lia|].
    rewrite !nth_error_map, Ex, Ey. cbn. now rewrite Q.
  - exists x, s. auto.
Qed.
