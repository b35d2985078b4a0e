(** Proofs for C100: what the cycle search accepts contains a cycle and is connected. *)
From Coq Require Import Permutation.
From Verif Require Import Cuckoo SpecPow SipProofs CycleProofs PowProofs.
Local Open Scope nat_scope.

(** ** A closed walk contains a simple cycle *)

(** Some two of the first [k] values agree, or all differ. *)
Lemma repeat_or_nodup (f : nat -> N) k :
  (exists a b, a < b < k /\ f a = f b) \/ NoDup (map f (seq 0 k)).
Proof.
  induction k as [|k IH]; [right; constructor|].
  destruct IH as [(a & b & H & E)|IH]; [left; exists a, b; split; [lia|exact E]|].
  destruct (in_dec N.eq_dec (f k) (map f (seq 0 k))) as [I|I].
  - left. apply in_map_iff in I as (a & E & Ha). apply in_seq in Ha. exists a, k. split; [lia|exact E].
  - right. rewrite seq_S, map_app. cbn [map Nat.add]. apply (Permutation_NoDup (Permutation_cons_append _ _)). constructor; assumption.
Qed.

Lemma map_seq_shift {B} (w : nat -> B) d n : map w (seq d n) = map (fun i => w (d + i)) (seq 0 n).
Proof.
  revert d. induction n as [|n IH]; intro d; [reflexivity|]. cbn [seq map]. rewrite Nat.add_0_r. f_equal.
  rewrite IH, <- seq_shift, map_map. apply map_ext. intro x. f_equal. lia.
Qed.

Lemma closed_walk_cycle : forall k (w : nat -> N * N), 1 <= k ->
  (forall m, m < k -> fst (w (2 * m)) = fst (w (2 * m + 1)) /\ snd (w (2 * m + 1)) = snd (w (2 * m + 2))) ->
  snd (w (2 * k)) = snd (w 0) ->
  contains_cycle (map w (seq 0 (2 * k))).
Proof.
  induction k as [k IH] using (well_founded_induction lt_wf). intros w Hk A Cl.
  destruct (repeat_or_nodup (fun m => fst (w (2 * m))) k) as [(a & b & H & E)|NU].
  { (* two left vertices agree: the walk between them is closed *)
    set (w' := fun i => if i =? 2 * (b - a) - 1 then w (2 * a + 1) else if i =? 2 * (b - a) then w (2 * a + 2) else w (2 * a + 2 + i)).
    destruct (IH (b - a) ltac:(lia) w' ltac:(lia)) as (c & r & P & Sc).
    - intros m Hm. unfold w'.
      destruct (Nat.eqb_spec (2 * m) (2 * (b - a) - 1)); [lia|]. destruct (Nat.eqb_spec (2 * m) (2 * (b - a))); [lia|].
      destruct (Nat.eqb_spec (2 * m + 1) (2 * (b - a) - 1)) as [Em|Em].
      + destruct (Nat.eqb_spec (2 * m + 2) (2 * (b - a) - 1)); [lia|]. destruct (Nat.eqb_spec (2 * m + 2) (2 * (b - a))); [|lia].
        split; [|apply (A a); lia]. replace (2 * a + 2 + 2 * m) with (2 * b) by lia. rewrite <- E. apply (A a); lia.
      + destruct (Nat.eqb_spec (2 * m + 1) (2 * (b - a))); [lia|].
        destruct (Nat.eqb_spec (2 * m + 2) (2 * (b - a) - 1)); [lia|]. destruct (Nat.eqb_spec (2 * m + 2) (2 * (b - a))); [lia|].
        destruct (A (a + 1 + m) ltac:(lia)) as [A1 A2].
        replace (2 * a + 2 + 2 * m) with (2 * (a + 1 + m)) by lia.
        replace (2 * a + 2 + (2 * m + 1)) with (2 * (a + 1 + m) + 1) by lia.
        replace (2 * a + 2 + (2 * m + 2)) with (2 * (a + 1 + m) + 2) by lia. auto.
    - unfold w'. destruct (Nat.eqb_spec (2 * (b - a)) (2 * (b - a) - 1)); [lia|]. rewrite Nat.eqb_refl.
      destruct (Nat.eqb_spec 0 (2 * (b - a) - 1)); [lia|]. destruct (Nat.eqb_spec 0 (2 * (b - a))); [lia|].
      now rewrite Nat.add_0_r.
    - assert (Pm : Permutation (map w' (seq 0 (2 * (b - a)))) (map w (seq (2 * a + 1) (2 * (b - a))))).
      { replace (2 * (b - a)) with (Datatypes.S (2 * (b - a) - 1)) by lia. rewrite seq_S, map_app. cbn [map Nat.add].
        rewrite Permutation_app_comm. cbn [app seq map]. unfold w' at 1. rewrite Nat.eqb_refl.
        constructor. apply Permutation_refl'. rewrite (map_seq_shift w).
        apply map_ext_in. intros x Hx. apply in_seq in Hx. unfold w'.
        destruct (Nat.eqb_spec x (2 * (b - a) - 1)); [lia|]. destruct (Nat.eqb_spec x (2 * (b - a))); [lia|]. f_equal. lia. }
      exists c, (r ++ map w (seq 0 (2 * a + 1)) ++ map w (seq (2 * b + 1) (2 * k - (2 * b + 1)))).
      split; [|exact Sc].
      replace (2 * k) with (2 * a + 1 + (2 * (b - a) + (2 * k - (2 * b + 1)))) at 1 by lia.
      rewrite (seq_app (2 * a + 1)), map_app, (seq_app (2 * (b - a))), map_app, Nat.add_0_l.
      replace (2 * a + 1 + 2 * (b - a)) with (2 * b + 1) by lia.
      rewrite <- Pm, P. rewrite (app_assoc c). rewrite Permutation_app_swap_app. reflexivity. }
  destruct (repeat_or_nodup (fun m => snd (w (2 * m))) k) as [(a & b & H & E)|NV].
  { destruct (IH (b - a) ltac:(lia) (fun i => w (2 * a + i)) ltac:(lia)) as (c & r & P & Sc).
    - intros m Hm. destruct (A (a + m) ltac:(lia)) as [A1 A2].
      replace (2 * a + 2 * m) with (2 * (a + m)) by lia. replace (2 * a + (2 * m + 1)) with (2 * (a + m) + 1) by lia.
      replace (2 * a + (2 * m + 2)) with (2 * (a + m) + 2) by lia. auto.
    - replace (2 * a + 2 * (b - a)) with (2 * b) by lia. now rewrite Nat.add_0_r.
    - exists c, (r ++ map w (seq 0 (2 * a)) ++ map w (seq (2 * b) (2 * k - 2 * b))).
      split; [|exact Sc].
      replace (2 * k) with (2 * a + (2 * (b - a) + (2 * k - 2 * b))) at 1 by lia.
      rewrite (seq_app (2 * a)), map_app, (seq_app (2 * (b - a))), map_app, Nat.add_0_l.
      replace (2 * a + 2 * (b - a)) with (2 * b) by lia.
      rewrite (map_seq_shift w (2 * a)), P. rewrite (app_assoc c). rewrite Permutation_app_swap_app. reflexivity. }
  (* no vertex is met twice *)
  exists (map w (seq 0 (2 * k))), []. split; [now rewrite app_nil_r|].
  exists (map (fun m => fst (w (2 * m))) (seq 0 k)), (map (fun m => snd (w (2 * m))) (seq 0 k)).
  split; [destruct k; [lia|discriminate]|]. split; [now rewrite !map_length|]. split; [exact NU|]. split; [exact NV|].
  rewrite (Permutation_map w (seq_even_odd k)), map_app, !map_map.
  rewrite combine_map, (rotate_map_seq (fun m => snd (w (2 * m)))) by exact Cl. rewrite combine_map.
  apply Permutation_refl'. f_equal; apply map_ext_in; intros m Hm; apply in_seq in Hm; [now destruct (w (2 * m))|].
  destruct (A m ltac:(lia)) as [A1 A2]. replace (2 * S m) with (2 * m + 2) by lia. rewrite <- A2, A1. now destruct (w (2 * m + 1)).
Qed.

(** ** The cycle search *)

Lemma contains_more es es' : contains_cycle es -> forall r, Permutation es' (es ++ r) -> contains_cycle es'.
Proof.
  intros (c & r & P & S) r' P'. exists c, (r ++ r'). split; [|exact S]. rewrite P', P. now rewrite app_assoc.
Qed.

Lemma linked_sym es e f : linked es e f -> linked es f e.
Proof.
  assert (T : forall e f g, linked es e f -> linked es f g -> linked es e g).
  { intros a b c H1 H2. induction H2 as [|x y _ IH I Sh]; [exact H1|]. exact (LinkedMore es a x y IH I Sh). }
  assert (In1 : forall e f, linked es e f -> In e es /\ In f es) by (intros a b H; induction H; tauto).
  intro H. induction H as [I|f g H IH I Sh]; [now constructor|].
  apply (T g f e); [|exact IH]. apply (LinkedMore es g g f); [now constructor|apply (In1 e f H)|]. destruct Sh; auto.
Qed.
Lemma linked_trans es e f g : linked es e f -> linked es f g -> linked es e g.
Proof. intros H1 H2. induction H2 as [|x y _ IH I Sh]; [exact H1|]. exact (LinkedMore es e x y IH I Sh). Qed.

Lemma accepted_shape es : fresh es -> es <> [] -> find_cycle_length es = Some (length es) ->
  contains_cycle (map ends es) /\ connected (map ends es).
Proof.
  intros Hf Hne Hfc. set (n := length es) in *. assert (Hn : 0 < n) by (unfold n; destruct es; [congruence|cbn; lia]).
  destruct (find_cycle_length_end es Hn) as (c & es' & w & E & I & _). rewrite Hfc in E. injection E as <-. clear Hfc.
  assert (ND : NoDup (map w (seq 1 n))).
  { apply nodup_map_w. intros t t' H1 H2 H3. apply (inv_nodup _ _ _ _ I); lia. }
  assert (P1 : Permutation (map w (seq 1 n)) (seq 0 n)).
  { apply NoDup_Permutation_bis; [exact ND|now rewrite map_length, !seq_length|].
    intros x Hx. apply in_map_iff in Hx as (t & <- & Ht). apply in_seq in Ht. apply in_seq.
    pose proof (inv_lt _ _ _ _ I t). unfold n in *. lia. }
  assert (P2 : Permutation (map ends es) (map (fun t => ends (at_ es (w t))) (seq 1 n))).
  { rewrite (map_at_seq ends es). fold n. rewrite <- P1, map_map. reflexivity. }
  assert (Hin0 : In 0 (map w (seq 1 n))) by (apply (Permutation_in 0 (Permutation_sym P1)), in_seq; lia).
  apply in_map_iff in Hin0 as (t & Ht0 & Ht). apply in_seq in Ht. destruct t as [|t]; [lia|].
  assert (Hodd : Nat.even t = false).
  { destruct (Nat.even t) eqn:Et; [exfalso|reflexivity].
    destruct (inv_fresh _ _ _ _ I t ltac:(lia)) as [_ F]. destruct (inv_adj _ _ _ _ I t ltac:(lia)) as [N1 _].
    destruct t as [|t]; [rewrite Ht0, (inv_w0 _ _ _ _ I) in N1; congruence|].
    destruct (F 0 ltac:(lia) ltac:(now rewrite Et)) as [F1 _]. rewrite Ht0, (inv_w0 _ _ _ _ I) in F1. congruence. }
  assert (exists k, S t = 2 * k /\ 1 <= k) as (k & Hk & Hk1).
  { assert (Ev : Nat.even (S t) = true).
    { pose proof (even_S_neq t) as En. rewrite Hodd in En. destruct (Nat.even (S t)); congruence. }
    apply Nat.even_spec in Ev as [k Ek]. exists k. lia. }
  assert (Adj : forall m, 2 * m < n -> eU (at_ es (w (2 * m))) = eU (at_ es (w (2 * m + 1)))).
  { intros m Hm. destruct (inv_adj _ _ _ _ I (2 * m) Hm) as [_ H].
    replace (Nat.even (2 * m)) with true in H by (symmetry; apply Nat.even_spec; exists m; lia). now rewrite Nat.add_1_r. }
  assert (Adj' : forall m, 2 * m + 1 < n -> eV (at_ es (w (2 * m + 1))) = eV (at_ es (w (2 * m + 2)))).
  { intros m Hm. destruct (inv_adj _ _ _ _ I (2 * m + 1) Hm) as [_ H].
    replace (Nat.even (2 * m + 1)) with false in H.
    - now replace (2 * m + 2) with (S (2 * m + 1)) by lia.
    - symmetry. rewrite Nat.add_1_r, Nat.even_succ, <- Nat.negb_even.
      replace (Nat.even (2 * m)) with true by (symmetry; apply Nat.even_spec; exists m; lia). reflexivity. }
  split.
  - apply (contains_more (map (fun i => ends (at_ es (w i))) (seq 0 (2 * k)))) with
      (r := map (fun i => ends (at_ es (w i))) (seq (S (2 * k)) (n - 2 * k))).
    + apply closed_walk_cycle; [exact Hk1| |].
      * intros m Hm. unfold ends. cbn [fst snd]. split; [apply Adj; lia|apply Adj'; lia].
      * now rewrite <- Hk, Ht0, (inv_w0 _ _ _ _ I).
    + rewrite P2. replace n with (2 * k + (n - 2 * k)) at 1 by lia. rewrite seq_app, map_app.
      apply Permutation_app; [|replace (1 + 2 * k) with (S (2 * k)) by lia; reflexivity].
      rewrite <- Hk. rewrite (seq_S t 1). cbn [seq map]. rewrite map_app. cbn [map].
      replace (1 + t) with (S t) by lia. rewrite Ht0, (inv_w0 _ _ _ _ I). symmetry. apply Permutation_cons_append.
  - assert (InE : forall i, i <= n -> In (ends (at_ es (w i))) (map ends es)) by (intros i Hi; apply in_ends, (inv_lt _ _ _ _ I); exact Hi).
    assert (R : forall i, i <= n -> linked (map ends es) (ends (at_ es (w 0))) (ends (at_ es (w i)))).
    { induction i as [|i IHi]; intro Hi; [constructor; apply InE; lia|].
      apply (LinkedMore _ _ (ends (at_ es (w i)))); [apply IHi; lia|apply InE; exact Hi|].
      destruct (inv_adj _ _ _ _ I i ltac:(lia)) as [_ H]. unfold ends, endp in *. cbn [fst snd]. destruct (Nat.even i); auto. }
    assert (All : forall e, In e (map ends es) -> linked (map ends es) (ends (at_ es (w 0))) e).
    { intros e He. apply (Permutation_in e P2), in_map_iff in He as (i & <- & Hi). apply in_seq in Hi. apply R. lia. }
    intros e f He Hf'. apply (linked_trans _ _ (ends (at_ es (w 0)))); [apply linked_sym|]; now apply All.
Qed.

Lemma cuckaroo_shape v ns eb : sip_wf v -> Forall is_u32 ns -> cuckaroo_verify v ns eb = true ->
  contains_cycle (map (cuckaroo_ends (words_of v) eb) ns) /\ connected (map (cuckaroo_ends (words_of v) eb) ns).
Proof.
  intros Hv Hu H. apply (cuckaroo_verify_unfold v ns eb Hu) in H as [[Hne _] H].
  rewrite <- cuckaroo_ends_map by assumption. apply accepted_shape.
  - apply fresh_map. now split.
  - destruct ns; [congruence|discriminate].
  - now rewrite map_length.
Qed.

Lemma cuckoo_shape b sh ns ease : (1 <= sh <= 63)%N -> Forall is_u32 ns -> cuckoo_verify (cuckoo_new b sh) ns ease = true ->
  contains_cycle (map (cuckoo_ends (key_words b) sh) ns) /\ connected (map (cuckoo_ends (key_words b) sh) ns).
Proof.
  intros Hs Hu H. apply (cuckoo_verify_unfold b sh ns ease Hs) in H as [[Hne _] H].
  rewrite <- cuckoo_ends_map by assumption. apply accepted_shape.
  - apply fresh_map. now split.
  - destruct ns; [congruence|discriminate].
  - now rewrite map_length.
Qed.

(** ** Which of the accepted are cycles *)
Lemma cuckaroo_exactly v ns eb : sip_wf v -> Forall is_u32 ns -> cuckaroo_verify v ns eb = true ->
  simple_cycle (map (cuckaroo_ends (words_of v) eb) ns) <->
  (forall x, degL (map (cuckaroo_ends (words_of v) eb) ns) x <= 2 /\ degR (map (cuckaroo_ends (words_of v) eb) ns) x <= 2).
Proof.
  intros Hv Hu H. split; [intro S; exact (proj2 (proj2 (simple_cycle_deg _ S)))|]. intro D. now apply cuckaroo_sound.
Qed.
Lemma cuckoo_exactly b sh ns ease : (1 <= sh <= 63)%N -> Forall is_u32 ns -> cuckoo_verify (cuckoo_new b sh) ns ease = true ->
  simple_cycle (map (cuckoo_ends (key_words b) sh) ns) <->
  (forall x, degL (map (cuckoo_ends (key_words b) sh) ns) x <= 2 /\ degR (map (cuckoo_ends (key_words b) sh) ns) x <= 2).
Proof.
  intros Hs Hu H. split; [intro S; exact (proj2 (proj2 (simple_cycle_deg _ S)))|]. intro D. now apply (cuckoo_sound b sh ns ease).
Qed.

(** The same, for the key that a digest gives. *)
Lemma cuckaroo_digest_shape d ns eb : Forall is_u32 ns -> cuckaroo_verify (new_cuckaroo d) ns eb = true ->
  contains_cycle (map (cuckaroo_ends (key_words d) eb) ns) /\ connected (map (cuckaroo_ends (key_words d) eb) ns).
Proof. rewrite <- keys_words. intros Hu H. apply cuckaroo_shape; [apply sip_keys_wf|exact Hu|exact H]. Qed.
