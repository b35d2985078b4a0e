(** The cycle search of cuckoo/cuckoo.go: termination, completeness, soundness. *)
From Coq Require Import Permutation.
From Verif Require Import Cuckoo SpecPow.
Local Open Scope nat_scope.

Definition endp (s : bool) (e : edge) : N := if s then eU e else eV e.
Definition flag (s : bool) (e : edge) : bool := if s then usedU e else usedV e.
Definition dfl : edge := new_edge 0 0.
Definition at_ (es : list edge) (i : nat) : edge := nth i es dfl.
Definition ends (e : edge) : N * N := (eU e, eV e).

Lemma mark_at_length s i es : length (mark_at s i es) = length es.
Proof. revert i; induction es as [|e t IH]; intros [|i]; cbn; auto. Qed.

Lemma at_mark s i es k : k < length es ->
  at_ (mark_at s i es) k = if k =? i then mark s (at_ es k) else at_ es k.
Proof.
  revert i k; induction es as [|e t IH]; intros i k Hk; cbn in *; [lia|].
  destruct i as [|i], k as [|k]; cbn; try reflexivity. apply IH. lia.
Qed.

Lemma endp_mark s s' e : endp s (mark s' e) = endp s e.
Proof. destruct s, s'; reflexivity. Qed.
Lemma flag_mark s s' e : flag s (mark s' e) = (flag s e || Bool.eqb s s').
Proof. destruct s, s'; cbn; now rewrite ?orb_true_r, ?orb_false_r. Qed.

Lemma joins_spec s i ei j ej :
  joins s i ei j ej = true <-> j <> i /\ flag s ej = false /\ endp s ei = endp s ej.
Proof.
  unfold joins, flag, endp. destruct s; rewrite !andb_true_iff, !negb_true_iff, Nat.eqb_neq, N.eqb_eq; tauto.
Qed.

Lemma find_join_some s i ei j0 es j :
  find_join s i ei j0 es = Some j ->
  exists k, j = j0 + k /\ k < length es /\ joins s i ei j (at_ es k) = true.
Proof.
  revert j0; induction es as [|e t IH]; intros j0 H; cbn in H; [discriminate|].
  destruct (joins s i ei j0 e) eqn:E.
  - injection H as <-. exists 0. cbn. repeat split; auto; lia.
  - apply IH in H as (k & -> & Hk & Hj). exists (S k). cbn. split; [lia|]. split; [lia|exact Hj].
Qed.

Lemma find_join_none s i ei j0 es :
  find_join s i ei j0 es = None ->
  forall k, k < length es -> joins s i ei (j0 + k) (at_ es k) = false.
Proof.
  revert j0; induction es as [|e t IH]; intros j0 H k Hk; cbn in *; [lia|].
  destruct (joins s i ei j0 e) eqn:E; [discriminate|].
  destruct k as [|k]; cbn.
  - now rewrite Nat.add_0_r.
  - replace (j0 + S k) with (S j0 + k) by lia. apply IH; [exact H|lia].
Qed.

(** ** The invariant of the walk: [w t] is the edge visited after [t] steps. *)
Record Inv (es0 es : list edge) (c : nat) (w : nat -> nat) : Prop := {
  inv_w0 : w 0 = 0;
  inv_lt : forall t, t <= c -> w t < length es0;
  inv_len : length es = length es0;
  inv_end : forall s k, k < length es0 -> endp s (at_ es k) = endp s (at_ es0 k);
  inv_adj : forall t, t < c -> w t <> w (S t) /\
     endp (Nat.even t) (at_ es0 (w t)) = endp (Nat.even t) (at_ es0 (w (S t)));
  inv_flag : forall s k, k < length es0 ->
     (flag s (at_ es k) = true <->
      flag s (at_ es0 k) = true \/ exists t, t < c /\ Nat.even t = s /\ (w t = k \/ w (S t) = k));
  inv_fresh : forall t, t < c -> flag (Nat.even t) (at_ es0 (w (S t))) = false /\
     forall t', t' < t -> Nat.even t' = Nat.even t -> w t' <> w (S t) /\ w (S t') <> w (S t);
  inv_nodup : forall t t', 1 <= t -> t < t' -> t' <= c -> w t <> w t'
}.

Lemma inv_init es : 0 < length es -> Inv es es 0 (fun _ => 0).
Proof.
  intro H. split; try (intros; lia); auto.
  intros s k Hk. split; [tauto|]. intros [Hf|(t & Ht & _)]; [exact Hf|lia].
Qed.

Lemma even_S_neq t : Nat.even (S t) <> Nat.even t.
Proof. rewrite Nat.even_succ, <- Nat.negb_even. destruct (Nat.even t); discriminate. Qed.

(** One more step of the walk. *)
Lemma inv_step es0 es c w j :
  Inv es0 es c w -> j < length es0 ->
  joins (Nat.even c) (w c) (at_ es (w c)) j (at_ es j) = true ->
  Inv es0 (mark_at (Nat.even c) j (mark_at (Nat.even c) (w c) es)) (S c)
      (fun t => if t =? S c then j else w t).
Proof.
  intros I Hj Hjoin. destruct I as [I0 I1 I2 I3 I4 I5 I6 I7].
  apply joins_spec in Hjoin as (Hne & Hfl & Heq).
  assert (Hi : w c < length es0) by (apply I1; lia).
  set (s := Nat.even c) in *.
  assert (Hflj : flag s (at_ es0 j) = false /\
     forall t, t < c -> Nat.even t = s -> w t <> j /\ w (S t) <> j).
  { split.
    - destruct (flag s (at_ es0 j)) eqn:E; [|reflexivity].
      rewrite <- Hfl. symmetry. apply I5; auto.
    - intros t Ht Hs. split; intro Hw;
        (assert (flag s (at_ es j) = true) by (apply I5; [exact Hj|right; exists t; auto]); congruence). }
  assert (Wlt : forall t, t <= c -> (if t =? S c then j else w t) = w t)
    by (intros t Ht; destruct (Nat.eqb_spec t (S c)); [lia|reflexivity]).
  assert (WS : (if S c =? S c then j else w (S c)) = j) by now rewrite Nat.eqb_refl.
  split.
  - exact I0.
  - intros t Ht. destruct (Nat.eqb_spec t (S c)); [exact Hj|]. apply I1. lia.
  - now rewrite !mark_at_length.
  - intros s' k Hk. rewrite !at_mark by (rewrite ?mark_at_length; lia).
    rewrite <- I3 by exact Hk.
    destruct (k =? j), (k =? w c); now rewrite ?endp_mark.
  - intros t Ht. rewrite (Wlt t) by lia. destruct (Nat.eq_dec t c) as [->|Hc].
    + rewrite WS. split; [congruence|]. rewrite <- !I3 by assumption. exact Heq.
    + rewrite (Wlt (S t)) by lia. apply I4. lia.
  - intros s' k Hk. rewrite !at_mark by (rewrite ?mark_at_length; lia).
    assert (G : (flag s' (if k =? j then mark s (if k =? w c then mark s (at_ es k) else at_ es k)
                  else (if k =? w c then mark s (at_ es k) else at_ es k)) = true) <->
                flag s' (at_ es k) = true \/ (s' = s /\ (k = j \/ k = w c))).
    { destruct (Nat.eqb_spec k j) as [E1|E1], (Nat.eqb_spec k (w c)) as [E2|E2];
        rewrite ?flag_mark, ?orb_true_iff, ?eqb_true_iff; tauto. }
    rewrite G, I5 by exact Hk. clear G. split.
    + intros [[Hf|(t & Ht & Hs & Hw)]|[-> [->| ->]]].
      * now left.
      * right. exists t. rewrite !Wlt by lia. split; [lia|]. auto.
      * right. exists c. rewrite (Wlt c) by lia. rewrite WS. split; [lia|]. auto.
      * right. exists c. rewrite (Wlt c) by lia. split; [lia|]. auto.
    + intros [Hf|(t & Ht & Hs & Hw)]; [now left; left|].
      destruct (Nat.eq_dec t c) as [->|Hc].
      * rewrite (Wlt c), WS in Hw by lia. right. split; [now symmetry|]. destruct Hw; auto.
      * rewrite !Wlt in Hw by lia. left. right. exists t. split; [lia|]. auto.
  - intros t Ht. destruct (Nat.eq_dec t c) as [->|Hc].
    + rewrite WS. fold s. split; [apply Hflj|]. intros t' Ht' Hs. rewrite !Wlt by lia. now apply Hflj.
    + rewrite (Wlt (S t)) by lia. destruct (I6 t) as [F1 F2]; [lia|]. split; [exact F1|].
      intros t' Ht' Hs. rewrite !Wlt by lia. now apply F2.
  - intros t t' Ht1 Ht2 Ht3. rewrite (Wlt t) by lia. destruct (Nat.eq_dec t' (S c)) as [->|Hc].
    + rewrite WS. destruct (Nat.eq_dec t c) as [->|Htc]; [congruence|].
      (* t was entered and left before: used on both sides *)
      destruct (Bool.bool_dec (Nat.even t) s) as [E|E].
      * apply (proj2 Hflj t ltac:(lia) E).
      * assert (E' : Nat.even (t - 1) = s).
        { pose proof (even_S_neq (t - 1)) as En. replace (S (t - 1)) with t in En by lia.
          destruct (Nat.even t), (Nat.even (t - 1)), s; congruence. }
        pose proof (proj2 Hflj (t - 1) ltac:(lia) E') as [_ Hn].
        now replace (S (t - 1)) with t in Hn by lia.
    + rewrite (Wlt t') by lia. apply I7; lia.
Qed.

(** Distinct visited edges: the walk never has more steps than edges. *)
Lemma nodup_map_w {B} (w : nat -> B) a c :
  (forall t t', a <= t -> t < t' -> t' < a + c -> w t <> w t') -> NoDup (map w (seq a c)).
Proof.
  revert a; induction c as [|c IH]; intros a H; cbn; constructor.
  - rewrite in_map_iff. intros (t & E & Ht). apply in_seq in Ht. apply (H a t); [lia|lia|lia|now symmetry].
  - apply IH. intros t t' H1 H2 H3. apply H; lia.
Qed.

Lemma inv_bound es0 es c w : Inv es0 es c w -> c <= length es0.
Proof.
  intro I. assert (H : length (map w (seq 1 c)) <= length (seq 0 (length es0))).
  { apply NoDup_incl_length.
    - apply nodup_map_w. intros t t' H1 H2 H3. apply (inv_nodup _ _ _ _ I); lia.
    - intros x Hx. apply in_map_iff in Hx as (t & <- & Ht). apply in_seq in Ht. apply in_seq.
      pose proof (inv_lt _ _ _ _ I t). lia. }
  now rewrite map_length, !seq_length in H.
Qed.

(** The walk stops in a state where no unused edge continues it. *)
Definition stuck (es : list edge) (c i : nat) : Prop :=
  forall j, j < length es -> joins (Nat.even c) i (at_ es i) j (at_ es j) = false.

Lemma cycle_loop_end es0 : forall fuel es c w,
  Inv es0 es c w -> length es0 + 1 <= c + fuel ->
  exists c' es' w', cycle_loop fuel es (w c) c = Some c' /\ Inv es0 es' c' w' /\ stuck es' c' (w' c').
Proof.
  induction fuel as [|fuel IH]; intros es c w I Hf.
  - pose proof (inv_bound _ _ _ _ I). lia.
  - cbn [cycle_loop].
    assert (Hi : w c < length es) by (rewrite (inv_len _ _ _ _ I); apply (inv_lt _ _ _ _ I); lia).
    rewrite (nth_error_nth' es dfl Hi). fold (at_ es (w c)).
    destruct (find_join (Nat.even c) (w c) (at_ es (w c)) 0 es) as [j|] eqn:E.
    + apply find_join_some in E as (k & Hk & Hkl & Hj). cbn in Hk. subst k.
      pose proof (inv_step es0 es c w j I ltac:(rewrite <- (inv_len _ _ _ _ I); lia) Hj) as I'.
      specialize (IH _ _ _ I' ltac:(lia)).
      cbv beta in IH. rewrite Nat.eqb_refl in IH. exact IH.
    + exists c, es, w. split; [reflexivity|]. split; [exact I|]. intros j Hj.
      apply (find_join_none _ _ _ _ _ E j Hj).
Qed.

Lemma find_cycle_length_end es0 : 0 < length es0 ->
  exists c es w, find_cycle_length es0 = Some c /\ Inv es0 es c w /\ stuck es c (w c).
Proof.
  intro H. unfold find_cycle_length.
  destruct (cycle_loop_end es0 (S (length es0)) es0 0 (fun _ => 0) (inv_init es0 H) ltac:(lia)) as (c & es & w & E & I).
  exists c, es, w. auto.
Qed.

(** Termination and bound, for every edge list. *)
Lemma find_cycle_length_bound es : exists c, find_cycle_length es = Some c /\ c <= length es.
Proof.
  destruct es as [|e t]; [exists 0; split; [reflexivity|cbn; lia]|].
  destruct (find_cycle_length_end (e :: t) ltac:(cbn; lia)) as (c & es & w & E & I & _).
  exists c. split; [exact E|]. exact (inv_bound _ _ _ _ I).
Qed.

(** ** Degrees *)

Definition deg (es : list edge) (s : bool) (x : N) : nat := count_occ N.eq_dec (map (endp s) es) x.

(** Distinct indices holding the same value count towards its occurrences. *)
Lemma nth_map_endp s es k : nth k (map (endp s) es) (endp s dfl) = endp s (at_ es k).
Proof. apply map_nth. Qed.

Lemma NoDup_map_in {A B} (f : A -> B) (l : list A) :
  (forall a b, In a l -> In b l -> f a = f b -> a = b) -> NoDup l -> NoDup (map f l).
Proof.
  intros Hf Hn. induction Hn as [|a l Ha Hn IH]; cbn; constructor.
  - rewrite in_map_iff. intros (b & E & Hb). apply Ha.
    rewrite (Hf a b); [exact Hb|now left|now right|now symmetry].
  - apply IH. intros x y Hx Hy. apply Hf; now right.
Qed.

Lemma count_occ_ge_indices (l : list N) (x d : N) (ks : list nat) :
  NoDup ks -> (forall k, In k ks -> k < length l /\ nth k l d = x) ->
  length ks <= count_occ N.eq_dec l x.
Proof.
  revert ks; induction l as [|y l IH]; intros ks Hnd Hk.
  - destruct ks as [|k ks]; [cbn; lia|]. destruct (Hk k (or_introl eq_refl)). cbn in *. lia.
  - (* split off index 0 *)
    set (ks0 := filter (fun k => k =? 0) ks).
    set (ks1 := filter (fun k => negb (k =? 0)) ks).
    assert (Hlen : length ks = length ks0 + length ks1).
    { unfold ks0, ks1. clear. induction ks as [|k ks IH]; [reflexivity|].
      cbn. destruct (k =? 0); cbn; lia. }
    assert (H1 : length ks1 <= count_occ N.eq_dec l x).
    { rewrite <- (map_length pred ks1). apply IH.
      - apply NoDup_map_in.
        2:{ unfold ks1. now apply NoDup_filter. }
        intros a b Ha Hb Hab. unfold ks1 in Ha, Hb. apply filter_In in Ha as [_ Ha], Hb as [_ Hb].
        apply negb_true_iff, Nat.eqb_neq in Ha, Hb. lia.
      - intros k' Hk'. apply in_map_iff in Hk' as (k & <- & Hk1). unfold ks1 in Hk1.
        apply filter_In in Hk1 as [Hk1 Hz]. apply negb_true_iff, Nat.eqb_neq in Hz.
        destruct (Hk k Hk1) as [Ha Hb]. destruct k as [|k]; [lia|]. cbn in *. split; [lia|exact Hb]. }
    assert (H0 : length ks0 <= 1).
    { unfold ks0. assert (N0 : NoDup (filter (fun k => k =? 0) ks)) by now apply NoDup_filter.
      destruct (filter (fun k => k =? 0) ks) as [|a [|b r]] eqn:E; cbn; try lia.
      assert (In a (filter (fun k => k =? 0) ks)) by (rewrite E; now left).
      assert (In b (filter (fun k => k =? 0) ks)) by (rewrite E; right; now left).
      apply filter_In in H as [_ H], H0 as [_ H0]. apply Nat.eqb_eq in H, H0. subst.
      inversion N0 as [|? ? N1 N2]. exfalso. apply N1. now left. }
    cbn [count_occ]. destruct (N.eq_dec y x) as [->|Hy]; [lia|].
    assert (length ks0 = 0); [|lia].
    unfold ks0. destruct (filter (fun k => k =? 0) ks) as [|a r] eqn:E; [reflexivity|].
    assert (In a (filter (fun k => k =? 0) ks)) as Ha by (rewrite E; now left).
    apply filter_In in Ha as [Ha Hz]. apply Nat.eqb_eq in Hz. subst a.
    destruct (Hk 0 Ha) as [_ Hx]. cbn in Hx. congruence.
Qed.

Lemma deg_ge es s x ks :
  NoDup ks -> (forall k, In k ks -> k < length es /\ endp s (at_ es k) = x) -> length ks <= deg es s x.
Proof.
  intros Hn Hk. apply (count_occ_ge_indices _ _ (endp s dfl) ks Hn).
  intros k H. rewrite map_length, nth_map_endp. now apply Hk.
Qed.

(** Another occurrence exists when a value occurs twice. *)
Lemma count_occ_other (l : list N) (d : N) i : i < length l ->
  2 <= count_occ N.eq_dec l (nth i l d) ->
  exists j, j <> i /\ j < length l /\ nth j l d = nth i l d.
Proof.
  revert i; induction l as [|y l IH]; intros i Hi Hc; cbn in Hi; [lia|].
  destruct i as [|i]; cbn [nth count_occ] in *.
  - destruct (N.eq_dec y y); [|congruence].
    assert (In y l) as Hin by (apply (count_occ_In N.eq_dec); lia).
    apply (In_nth _ _ d) in Hin as (j & Hj & E). exists (S j). cbn. split; [lia|]. split; [lia|exact E].
  - destruct (N.eq_dec y (nth i l d)) as [->|Hy].
    + exists 0. cbn. split; [lia|]. split; [lia|reflexivity].
    + destruct (IH i ltac:(lia) Hc) as (j & Hj & Hl & E).
      exists (S j). cbn. split; [lia|]. split; [lia|exact E].
Qed.

Lemma deg_other es s i : i < length es -> 2 <= deg es s (endp s (at_ es i)) ->
  exists j, j <> i /\ j < length es /\ endp s (at_ es j) = endp s (at_ es i).
Proof.
  intros Hi Hd. unfold deg in Hd. rewrite <- nth_map_endp in Hd.
  assert (Hi' : i < length (map (endp s) es)) by now rewrite map_length.
  destruct (count_occ_other _ _ i Hi' Hd) as (j & H1 & H2 & H3).
  exists j. rewrite map_length in H2. rewrite !nth_map_endp in H3. auto.
Qed.

(** With degree at most two, an edge has at most one neighbour at each end. *)
Lemma deg2_unique es s a b c :
  (forall x, deg es s x <= 2) -> a < length es -> b < length es -> c < length es ->
  a <> b -> a <> c ->
  endp s (at_ es b) = endp s (at_ es a) -> endp s (at_ es c) = endp s (at_ es a) -> b = c.
Proof.
  intros Hd Ha Hb Hc Hab Hac Eb Ec. destruct (Nat.eq_dec b c) as [|Hbc]; [assumption|]. exfalso.
  assert (H : 3 <= deg es s (endp s (at_ es a))).
  { change 3 with (length [a; b; c]). apply deg_ge.
    - repeat constructor; cbn; intuition congruence.
    - intros k [<-|[<-|[<-|[]]]]; auto. }
  specialize (Hd (endp s (at_ es a))). lia.
Qed.

(** ** Facts about the specification *)

Lemma rotate_perm {A} (l : list A) : Permutation (rotate l) l.
Proof. destruct l as [|a t]; cbn; [constructor|]. symmetry. apply Permutation_cons_append. Qed.
Lemma rotate_length {A} (l : list A) : length (rotate l) = length l.
Proof. apply Permutation_length, rotate_perm. Qed.

Lemma map_fst_combine {A B} (l : list A) (m : list B) : length l = length m -> map fst (combine l m) = l.
Proof. revert m; induction l as [|a l IH]; intros [|b m] H; cbn in *; try lia; [reflexivity|]. f_equal. apply IH. lia. Qed.
Lemma map_snd_combine {A B} (l : list A) (m : list B) : length l = length m -> map snd (combine l m) = m.
Proof. revert m; induction l as [|a l IH]; intros [|b m] H; cbn in *; try lia; [reflexivity|]. f_equal. apply IH. lia. Qed.

Lemma count_occ_perm (l m : list N) x : Permutation l m -> count_occ N.eq_dec l x = count_occ N.eq_dec m x.
Proof. intro H. revert x. now apply (Permutation_count_occ N.eq_dec). Qed.

Lemma simple_cycle_length es : simple_cycle es -> exists k, 1 <= k /\ length es = 2 * k.
Proof.
  intros (us & vs & Hne & Hl & _ & _ & Hp). exists (length us).
  apply Permutation_length in Hp. rewrite app_length, !combine_length, rotate_length, <- Hl, !Nat.min_id in Hp.
  split; [destruct us; [congruence|cbn; lia]|lia].
Qed.

(** On a cycle every vertex has exactly two edges. *)
Lemma simple_cycle_deg es : simple_cycle es ->
  (forall x, In x (map fst es) -> degL es x = 2) /\ (forall x, In x (map snd es) -> degR es x = 2) /\
  max_degree_2 es.
Proof.
  intros (us & vs & Hne & Hl & Hnu & Hnv & Hp).
  assert (PL : Permutation (map fst es) (us ++ us)).
  { rewrite (Permutation_map fst Hp), map_app, !map_fst_combine by (rewrite ?rotate_length; lia). reflexivity. }
  assert (PR : Permutation (map snd es) (vs ++ vs)).
  { rewrite (Permutation_map snd Hp), map_app, !map_snd_combine by (rewrite ?rotate_length; lia).
    apply Permutation_app_head, rotate_perm. }
  assert (C : forall l x, NoDup l -> count_occ N.eq_dec (l ++ l) x <= 2 /\
             (In x (l ++ l) -> count_occ N.eq_dec (l ++ l) x = 2)).
  { intros l x Hn. rewrite count_occ_app.
    pose proof (proj1 (NoDup_count_occ N.eq_dec l) Hn x). split; [lia|].
    intro Hin. assert (In x l) as Hx by (apply in_app_iff in Hin; tauto).
    apply (count_occ_In N.eq_dec) in Hx. lia. }
  unfold degL, degR, max_degree_2, degL, degR. repeat split.
  - intros x Hx. rewrite (count_occ_perm _ _ x PL). apply C; [assumption|]. now apply (Permutation_in x PL).
  - intros x Hx. rewrite (count_occ_perm _ _ x PR). apply C; [assumption|]. now apply (Permutation_in x PR).
  - rewrite (count_occ_perm _ _ x PL). now apply C.
  - rewrite (count_occ_perm _ _ x PR). now apply C.
Qed.

Lemma nth_rotate {A} (l : list A) d i : i < length l -> nth i (rotate l) d = nth ((i + 1) mod length l) l d.
Proof.
  destruct l as [|a t]; cbn [length]; intro H; [lia|]. cbn [rotate].
  destruct (Nat.eq_dec i (length t)) as [->|Hi].
  - rewrite app_nth2, Nat.sub_diag by lia. rewrite Nat.add_1_r, Nat.mod_same by lia. reflexivity.
  - rewrite app_nth1 by lia. rewrite Nat.mod_small by lia. rewrite Nat.add_1_r. reflexivity.
Qed.

(** A cycle is connected: a set of its edges closed under sharing a vertex is everything. *)
Lemma simple_cycle_connected es (Q : N * N -> Prop) : simple_cycle es ->
  (forall e e', In e es -> In e' es -> Q e -> fst e = fst e' \/ snd e = snd e' -> Q e') ->
  (exists e, In e es /\ Q e) -> forall e, In e es -> Q e.
Proof.
  intros (us & vs & Hne & Hl & _ & _ & Hp) Hcl (e0 & Hin0 & HQ0).
  set (m := length us). assert (Hm : 0 < m) by (unfold m; destruct us; cbn; [congruence|lia]).
  set (A := fun i => (nth i us 0%N, nth i vs 0%N)).
  set (B := fun i => (nth i us 0%N, nth ((i + 1) mod m) vs 0%N)).
  assert (HA : forall i, i < m -> In (A i) es).
  { intros i Hi. apply (Permutation_in _ (Permutation_sym Hp)), in_app_iff. left.
    unfold A. rewrite <- (combine_nth us vs i 0%N 0%N Hl). apply nth_In. rewrite combine_length. unfold m in Hi. lia. }
  assert (HB : forall i, i < m -> In (B i) es).
  { intros i Hi. apply (Permutation_in _ (Permutation_sym Hp)), in_app_iff. right.
    unfold B, m. rewrite Hl at 1. rewrite <- nth_rotate by (unfold m in Hi; lia).
    rewrite <- (combine_nth us (rotate vs) i 0%N 0%N) by (rewrite rotate_length; exact Hl).
    apply nth_In. rewrite combine_length, rotate_length. unfold m in Hi. lia. }
  assert (Hcase : forall e, In e es -> exists i, i < m /\ (e = A i \/ e = B i)).
  { intros e He. apply (Permutation_in _ Hp), in_app_iff in He as [He|He];
      apply (In_nth _ _ (0%N, 0%N)) in He as (i & Hi & E); rewrite combine_length, ?rotate_length in Hi;
      exists i; (split; [unfold m; lia|]).
    - left. rewrite <- E, combine_nth by exact Hl. reflexivity.
    - right. rewrite <- E, combine_nth by (now rewrite rotate_length).
      unfold B, m. rewrite nth_rotate by lia. now rewrite Hl. }
  assert (AB : forall i, i < m -> Q (A i) <-> Q (B i)).
  { intros i Hi. split; intro H.
    - apply (Hcl (A i)); auto.
    - apply (Hcl (B i)); auto. }
  assert (BA : forall i, i < m -> Q (B i) -> Q (A ((i + 1) mod m))).
  { intros i Hi H. apply (Hcl (B i)); auto. apply HA, Nat.mod_upper_bound. lia. }
  destruct (Hcase e0 Hin0) as (i0 & Hi0 & E0).
  assert (HA0 : Q (A i0)) by (destruct E0 as [->| ->]; [exact HQ0|now apply AB]).
  assert (Hall : forall k, Q (A ((i0 + k) mod m))).
  { induction k as [|k IH].
    - now rewrite Nat.add_0_r, Nat.mod_small.
    - assert (Hlt : (i0 + k) mod m < m) by (apply Nat.mod_upper_bound; lia).
      apply AB in IH; [|exact Hlt]. apply BA in IH; [|exact Hlt].
      rewrite Nat.add_mod_idemp_l in IH by lia. now replace (i0 + S k) with (i0 + k + 1) by lia. }
  intros e He. destruct (Hcase e He) as (i & Hi & E).
  assert (Q (A i)).
  { specialize (Hall (m - i0 + i)). replace (i0 + (m - i0 + i)) with (i + 1 * m) in Hall by lia.
    rewrite Nat.mod_add, Nat.mod_small in Hall by lia. exact Hall. }
  destruct E as [->| ->]; [assumption|now apply AB].
Qed.

(** ** Completeness *)

Definition fresh (es : list edge) : Prop := forall s k, k < length es -> flag s (at_ es k) = false.

Lemma deg_L es x : deg es true x = degL (map ends es) x.
Proof. unfold deg, degL. now rewrite map_map. Qed.
Lemma deg_R es x : deg es false x = degR (map ends es) x.
Proof. unfold deg, degR. now rewrite map_map. Qed.

Lemma in_ends es i : i < length es -> In (ends (at_ es i)) (map ends es).
Proof. intro H. apply in_map. apply nth_In, H. Qed.

Lemma cycle_complete es : fresh es -> simple_cycle (map ends es) ->
  find_cycle_length es = Some (length es).
Proof.
  intros Hf Hc.
  destruct (simple_cycle_length _ Hc) as (k & Hk1 & Hk2). rewrite map_length in Hk2.
  destruct (simple_cycle_deg _ Hc) as (DL & DR & DM).
  assert (D2 : forall s i, i < length es -> deg es s (endp s (at_ es i)) = 2).
  { intros s i Hi. pose proof (in_ends es i Hi) as Hin. destruct s.
    - rewrite deg_L. apply DL. apply (in_map fst) in Hin. exact Hin.
    - rewrite deg_R. apply DR. apply (in_map snd) in Hin. exact Hin. }
  assert (Dle : forall s x, deg es s x <= 2).
  { intros s x. destruct (DM x). destruct s; [rewrite deg_L|rewrite deg_R]; assumption. }
  destruct (find_cycle_length_end es ltac:(lia)) as (c & es' & w & E & I & St).
  rewrite E. f_equal. pose proof (inv_bound _ _ _ _ I) as Hcn.
  set (i := w c) in *. assert (Hi : i < length es) by (apply (inv_lt _ _ _ _ I); lia).
  set (s := Nat.even c) in *.
  (* the neighbour that the walk did not take has been used *)
  destruct (deg_other es s i Hi ltac:(rewrite D2; lia)) as (p & Hpi & Hp & Ep).
  assert (Hfp : flag s (at_ es' p) = true).
  { destruct (flag s (at_ es' p)) eqn:F; [reflexivity|].
    assert (J : joins s i (at_ es' i) p (at_ es' p) = true).
    { apply joins_spec. split; [exact Hpi|]. split; [exact F|].
      rewrite !(inv_end _ _ _ _ I) by assumption. now symmetry. }
    unfold stuck in St. fold s in St. rewrite St in J by (rewrite (inv_len _ _ _ _ I); exact Hp). discriminate. }
  apply (inv_flag _ _ _ _ I) in Hfp; [|exact Hp].
  destruct Hfp as [Hfp|(t & Ht & Hs & Hw)]; [rewrite Hf in Hfp by exact Hp; discriminate|].
  destruct (inv_adj _ _ _ _ I t Ht) as [Hne Heq]. rewrite Hs in Heq.
  assert (Hit : w t = i \/ w (S t) = i).
  { destruct Hw as [Hw|Hw]; [right|left].
    - symmetry. apply (deg2_unique es s p i (w (S t)) (Dle s)); auto; try congruence.
      apply (inv_lt _ _ _ _ I). lia.
    - symmetry. apply (deg2_unique es s p i (w t) (Dle s)); auto; try congruence.
      apply (inv_lt _ _ _ _ I). lia. }
  assert (Hback : i = 0 /\ s = true /\ 0 < c).
  { destruct Hit as [Hit|Hit].
    - destruct t as [|t].
      + rewrite (inv_w0 _ _ _ _ I) in Hit. split; [now symmetry|]. split; [now rewrite <- Hs|lia].
      + exfalso. apply (inv_nodup _ _ _ _ I (S t) c ltac:(lia) ltac:(lia) ltac:(lia)). exact Hit.
    - exfalso. destruct (Nat.eq_dec (S t) c) as [Ec|Ec].
      + unfold s in Hs. rewrite <- Ec in Hs. symmetry in Hs. now apply even_S_neq in Hs.
      + apply (inv_nodup _ _ _ _ I (S t) c ltac:(lia) ltac:(lia) ltac:(lia)). exact Hit. }
  destruct Hback as (Hi0 & Hs1 & Hc0).
  (* the visited set is closed under sharing a vertex *)
  set (V := fun j => exists t, t < c /\ w t = j).
  assert (VS : forall t, t <= c -> V (w t)).
  { intros u Hu. destruct (Nat.eq_dec u c) as [->|]; [|exists u; split; [lia|reflexivity]].
    exists 0. split; [exact Hc0|]. rewrite (inv_w0 _ _ _ _ I). fold i. now symmetry. }
  assert (Vcl : forall s' j l, V j -> l < length es -> endp s' (at_ es l) = endp s' (at_ es j) -> V l).
  { intros s' j l (u & Hu & <-) Hl El.
    destruct (Nat.eq_dec (w u) l) as [<-|Hul]; [now apply VS; lia|].
    destruct (Bool.bool_dec (Nat.even u) s') as [Eu|Eu].
    - destruct (inv_adj _ _ _ _ I u Hu) as [N1 N2]. rewrite Eu in N2.
      replace l with (w (S u)); [apply VS; lia|].
      apply (deg2_unique es s' (w u) (w (S u)) l (Dle s')); auto; try congruence;
        apply (inv_lt _ _ _ _ I); lia.
    - assert (exists u', u' < c /\ Nat.even u' = s' /\ w (S u') = w u) as (u' & Hu' & Eu' & Wu').
      { destruct u as [|u].
        - exists (c - 1). split; [lia|]. replace (S (c - 1)) with c by lia.
          split.
          + pose proof (even_S_neq (c - 1)) as En. replace (S (c - 1)) with c in En by lia.
            fold s in En. rewrite Hs1 in En. cbn in Eu. destruct (Nat.even (c - 1)), s'; congruence.
          + fold i. rewrite (inv_w0 _ _ _ _ I). exact Hi0.
        - exists u. split; [lia|]. split; [|reflexivity].
          pose proof (even_S_neq u). destruct (Nat.even (S u)), (Nat.even u), s'; congruence. }
      destruct (inv_adj _ _ _ _ I u' Hu') as [N1 N2]. rewrite Eu' in N2.
      replace l with (w u'); [apply VS; lia|].
      apply (deg2_unique es s' (w u) (w u') l (Dle s')); auto; try congruence;
        apply (inv_lt _ _ _ _ I); lia. }
  assert (Vall : forall j, j < length es -> V j).
  { assert (HQ : forall e, In e (map ends es) -> exists j, j < length es /\ ends (at_ es j) = e /\ V j).
    { apply (simple_cycle_connected _ (fun e => exists j, j < length es /\ ends (at_ es j) = e /\ V j) Hc).
      - intros e e' _ He' (j & Hj & <- & HV) Hsh.
        apply (In_nth _ _ (ends dfl)) in He' as (l & Hl & El). rewrite map_length in Hl.
        rewrite map_nth in El. fold (at_ es l) in El. subst e'.
        exists l. split; [exact Hl|]. split; [reflexivity|].
        destruct Hsh as [Hsh|Hsh]; cbn in Hsh.
        + apply (Vcl true j); auto.
        + apply (Vcl false j); auto.
      - exists (ends (at_ es 0)). split; [apply in_ends; lia|]. exists 0.
        split; [lia|]. split; [reflexivity|]. exists 0. split; [exact Hc0|apply (inv_w0 _ _ _ _ I)]. }
    intros j Hj. destruct (HQ _ (in_ends es j Hj)) as (l & Hl & El & HV).
    apply (Vcl true l); auto. unfold ends in El. cbn. congruence. }
  assert (Hge : length (seq 0 (length es)) <= length (map w (seq 0 c))).
  { apply NoDup_incl_length; [apply seq_NoDup|].
    intros j Hj. apply in_seq in Hj. destruct (Vall j ltac:(lia)) as (u & Hu & <-).
    apply in_map, in_seq. lia. }
  rewrite map_length, !seq_length in Hge. lia.
Qed.

(** ** Soundness *)

Lemma seq_even_odd k :
  Permutation (seq 0 (2 * k)) (map (fun m => 2 * m) (seq 0 k) ++ map (fun m => 2 * m + 1) (seq 0 k)).
Proof.
  induction k as [|k IH]; [constructor|].
  replace (2 * S k) with (S (S (2 * k))) by lia. rewrite (seq_S k 0), (seq_S (S (2 * k)) 0), (seq_S (2 * k) 0).
  rewrite !map_app, IH. cbn [map Nat.add]. rewrite <- !app_assoc. apply Permutation_app_head.
  replace (2 * k + 0) with (2 * k) by lia. replace (k + (k + 0)) with (2 * k) by lia.
  replace (S (2 * k)) with (2 * k + 1) by lia.
  rewrite !app_assoc. apply Permutation_app_tail. apply Permutation_app_comm.
Qed.

Lemma map_at_seq {B} (f : edge -> B) es : map f es = map (fun i => f (at_ es i)) (seq 0 (length es)).
Proof.
  unfold at_. induction es as [|e t IH]; [reflexivity|]. cbn [length seq map nth].
  f_equal. rewrite IH, <- seq_shift, map_map. reflexivity.
Qed.

Lemma combine_map {A B C} (f : A -> B) (g : A -> C) l : combine (map f l) (map g l) = map (fun x => (f x, g x)) l.
Proof. induction l as [|a l IH]; cbn; [reflexivity|]. now rewrite IH. Qed.

Lemma rotate_map_seq {B} (f : nat -> B) k : f k = f 0 -> rotate (map f (seq 0 k)) = map (fun m => f (S m)) (seq 0 k).
Proof.
  destruct k as [|k]; [reflexivity|]. intro H.
  rewrite <- (map_map S f), seq_shift, (seq_S k 1), map_app.
  cbn [seq map rotate Nat.add]. now rewrite H.
Qed.

Lemma cycle_sound es : fresh es -> es <> [] -> max_degree_2 (map ends es) ->
  find_cycle_length es = Some (length es) -> simple_cycle (map ends es).
Proof.
  intros Hf Hne DM Hfc.
  set (n := length es) in *. assert (Hn : 0 < n) by (unfold n; destruct es; [congruence|cbn; lia]).
  assert (Dle : forall s x, deg es s x <= 2).
  { intros s x. destruct (DM x). destruct s; [rewrite deg_L|rewrite deg_R]; assumption. }
  destruct (find_cycle_length_end es Hn) as (c & es' & w & E & I & _).
  rewrite Hfc in E. injection E as <-. clear Hfc.
  (* the visited edges after step 0 are all the edges *)
  assert (ND : NoDup (map w (seq 1 n))).
  { apply nodup_map_w. intros t t' H1 H2 H3. apply (inv_nodup _ _ _ _ I); lia. }
  assert (Incl : incl (map w (seq 1 n)) (seq 0 n)).
  { intros x Hx. apply in_map_iff in Hx as (t & <- & Ht). apply in_seq in Ht. apply in_seq.
    pose proof (inv_lt _ _ _ _ I t). unfold n in *. lia. }
  assert (P1 : Permutation (map w (seq 1 n)) (seq 0 n)).
  { apply NoDup_Permutation_bis; auto. now rewrite map_length, !seq_length. }
  (* edge 0 is re-entered at some time t, and only at the very end *)
  assert (Hin0 : In 0 (map w (seq 1 n))).
  { apply (Permutation_in 0 (Permutation_sym P1)), in_seq. lia. }
  apply in_map_iff in Hin0 as (t & Ht0 & Ht). apply in_seq in Ht.
  destruct t as [|t]; [lia|].
  assert (Hodd : Nat.even t = false).
  { destruct (Nat.even t) eqn:Et; [exfalso|reflexivity].
    destruct (inv_fresh _ _ _ _ I t ltac:(lia)) as [_ F].
    destruct (inv_adj _ _ _ _ I t ltac:(lia)) as [N1 _].
    destruct t as [|t].
    - rewrite Ht0, (inv_w0 _ _ _ _ I) in N1. congruence.
    - destruct (F 0 ltac:(lia) ltac:(now rewrite Et)) as [F1 _].
      rewrite Ht0, (inv_w0 _ _ _ _ I) in F1. congruence. }
  assert (Hlast : S t = n).
  { destruct (Nat.eq_dec (S t) n) as [|Hn']; [assumption|exfalso].
    destruct (inv_adj _ _ _ _ I 0 ltac:(lia)) as [A1 A2].
    destruct (inv_adj _ _ _ _ I (S t) ltac:(lia)) as [B1 B2].
    rewrite (inv_w0 _ _ _ _ I) in A1, A2. rewrite Ht0 in B1, B2.
    assert (Es : Nat.even (S t) = true)
      by (pose proof (even_S_neq t); rewrite Hodd in *; destruct (Nat.even (S t)); congruence).
    rewrite Es in B2. change (Nat.even 0) with true in A2.
    assert (H1 : w 1 = w (S (S t))).
    { apply (deg2_unique es true 0 (w 1) (w (S (S t))) (Dle true)); auto;
        apply (inv_lt _ _ _ _ I); lia. }
    exact (inv_nodup _ _ _ _ I 1 (S (S t)) ltac:(lia) ltac:(lia) ltac:(lia) H1). }
  assert (Hwn : w n = 0) by (now rewrite <- Hlast).
  assert (Hev : Nat.even n = true).
  { rewrite <- Hlast. pose proof (even_S_neq t) as En. rewrite Hodd in En.
    destruct (Nat.even (S t)); congruence. }
  apply Nat.even_spec in Hev as [k Hk].
  (* hence the visited edges before step n are all the edges too *)
  assert (Inj : forall a b, a < n -> b < n -> w a = w b -> a = b).
  { assert (G : forall a b, a < b -> b < n -> w a <> w b).
    { intros a b Hab Hb. destruct a as [|a].
      - rewrite (inv_w0 _ _ _ _ I), <- Hwn. intro Hx. symmetry in Hx. revert Hx.
        apply (inv_nodup _ _ _ _ I); lia.
      - apply (inv_nodup _ _ _ _ I); lia. }
    intros a b Ha Hb Hab. destruct (Nat.lt_trichotomy a b) as [H|[H|H]]; [|assumption|].
    - exfalso. exact (G a b H Hb Hab).
    - exfalso. symmetry in Hab. exact (G b a H Ha Hab). }
  assert (P0 : Permutation (map w (seq 0 n)) (seq 0 n)).
  { apply (Permutation_trans (l' := map w (seq 1 n))); [|exact P1]. destruct n as [|n']; [lia|].
    rewrite (seq_S n' 1). cbn [seq map]. rewrite map_app. cbn [map].
    replace (w (1 + n')) with (w 0) by (rewrite (inv_w0 _ _ _ _ I); now symmetry).
    apply Permutation_cons_append. }
  set (us := map (fun m => eU (at_ es (w (2 * m)))) (seq 0 k)).
  set (vs := map (fun m => eV (at_ es (w (2 * m)))) (seq 0 k)).
  exists us, vs.
  assert (SU : forall m, m < k -> eU (at_ es (w (2 * m))) = eU (at_ es (w (2 * m + 1)))).
  { intros m Hm. destruct (inv_adj _ _ _ _ I (2 * m) ltac:(lia)) as [_ H].
    replace (Nat.even (2 * m)) with true in H by (symmetry; apply Nat.even_spec; exists m; lia).
    now rewrite Nat.add_1_r. }
  assert (SV : forall m, m < k -> eV (at_ es (w (2 * m + 1))) = eV (at_ es (w (2 * S m)))).
  { intros m Hm. destruct (inv_adj _ _ _ _ I (2 * m + 1) ltac:(lia)) as [_ H].
    replace (Nat.even (2 * m + 1)) with false in H.
    - now replace (2 * S m) with (S (2 * m + 1)) by lia.
    - symmetry. rewrite Nat.add_1_r, Nat.even_succ, <- Nat.negb_even.
      replace (Nat.even (2 * m)) with true by (symmetry; apply Nat.even_spec; exists m; lia). reflexivity. }
  repeat split.
  - unfold us. destruct k as [|k]; [lia|]. discriminate.
  - unfold us, vs. now rewrite !map_length.
  - unfold us. apply nodup_map_w. intros a b _ Hab Hb Heq. cbn in Hb.
    assert (H3 : 3 <= deg es true (eU (at_ es (w (2 * a))))).
    { change 3 with (length [w (2 * a); w (2 * a + 1); w (2 * b)]). apply deg_ge.
      - repeat constructor; cbn [In]; intro H.
        + destruct H as [H|[H|[]]]; apply Inj in H; lia.
        + destruct H as [H|[]]; apply Inj in H; lia.
        + exact H.
      - intros x Hx. cbn [In] in Hx. destruct Hx as [<-|[<-|[<-|[]]]];
          (split; [apply (inv_lt _ _ _ _ I); lia|]); cbn [endp]; auto.
        + symmetry. apply SU. lia. }
    specialize (Dle true (eU (at_ es (w (2 * a))))). lia.
  - unfold vs. apply nodup_map_w. intros a b _ Hab Hb Heq. cbn in Hb.
    assert (H3 : 3 <= deg es false (eV (at_ es (w (2 * b))))).
    { change 3 with (length [w (2 * b); w (2 * (b - 1) + 1); w (2 * a)]). apply deg_ge.
      - repeat constructor; cbn [In]; intro H.
        + destruct H as [H|[H|[]]]; apply Inj in H; lia.
        + destruct H as [H|[]]; apply Inj in H; lia.
        + exact H.
      - intros x Hx. cbn [In] in Hx. destruct Hx as [<-|[<-|[<-|[]]]];
          (split; [apply (inv_lt _ _ _ _ I); lia|]); cbn [endp]; auto.
        rewrite SV by lia. now replace (S (b - 1)) with b by lia. }
    specialize (Dle false (eV (at_ es (w (2 * b))))). lia.
  - rewrite (map_at_seq ends es). fold n.
    rewrite <- P0, map_map. rewrite Hk.
    rewrite (Permutation_map (fun x => ends (at_ es (w x))) (seq_even_odd k)), map_app, !map_map.
    assert (C1 : combine us vs = map (fun x => ends (at_ es (w (2 * x)))) (seq 0 k)).
    { unfold us, vs. rewrite combine_map. reflexivity. }
    assert (C2 : combine us (rotate vs) = map (fun x => ends (at_ es (w (2 * x + 1)))) (seq 0 k)).
    { unfold us, vs. rewrite rotate_map_seq.
      - rewrite combine_map. apply map_ext_in. intros m Hm. apply in_seq in Hm.
        unfold ends. now rewrite SU, <- SV by lia.
      - rewrite <- Hk, Hwn. change (2 * 0) with 0. now rewrite (inv_w0 _ _ _ _ I). }
    rewrite C1, C2. reflexivity.
Qed.
