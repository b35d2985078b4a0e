(** Proofs for C114: what the cycle search accepts is a trail that returns to the first edge, and every
    cycle with a path hanging off the first edge, in the right order, is accepted. *)
From Coq Require Import Permutation.
From Verif Require Import Cuckoo SpecPow SpecTrail SipProofs CycleProofs PowProofs ContainProofs.
Local Open Scope nat_scope.

Definition share (left : bool) (e f : N * N) : Prop := if left then fst e = fst f else snd e = snd f.
Definition parity (left : bool) (t : nat) : bool := if Nat.even t then left else negb left.

Lemma parity_S left t : parity (negb left) t = parity left (S t).
Proof. unfold parity. rewrite Nat.even_succ, <- Nat.negb_even. destruct (Nat.even t), left; reflexivity. Qed.

Lemma alternates_nth d : forall l left, alternates left l <->
  forall t, S t < length l -> share (parity left t) (nth t l d) (nth (S t) l d).
Proof.
  induction l as [|e [|f l] IH]; intro left.
  - split; [intros _ t H; cbn in H; lia|intros; exact I].
  - split; [intros _ t H; cbn in H; lia|intros; exact I].
  - change (alternates left (e :: f :: l)) with (share left e f /\ alternates (negb left) (f :: l)).
    rewrite IH. split.
    + intros [H1 H2] [|t] Ht; [exact H1|]. specialize (H2 t ltac:(cbn in *; lia)). rewrite parity_S in H2. exact H2.
    + intro H. split; [exact (H 0 ltac:(cbn; lia))|]. intros t Ht. rewrite parity_S. exact (H (S t) ltac:(cbn in *; lia)).
Qed.

Lemma parity_true t : parity true t = Nat.even t.
Proof. unfold parity. now destruct (Nat.even t). Qed.

Lemma nth_map_seq {B} (f : nat -> B) d n t : t < n -> nth t (map f (seq 0 n)) d = f t.
Proof. intro H. rewrite (nth_indep _ d (f 0)) by now rewrite map_length, seq_length. rewrite map_nth, seq_nth by exact H. reflexivity. Qed.

Lemma accepted_trail es : fresh es -> es <> [] -> find_cycle_length es = Some (length es) ->
  returning_trail (map ends es).
Proof.
  intros Hf Hne Hfc. set (n := length es) in *. assert (Hn : 0 < n) by (unfold n; destruct es; [congruence|cbn; lia]).
  destruct (find_cycle_length_end es Hn) as (c & es' & w & E & I & _). rewrite Hfc in E. injection E as <-. clear Hfc.
  assert (ND : NoDup (map w (seq 1 n))).
  { apply nodup_map_w. intros t t' H1 H2 H3. apply (inv_nodup _ _ _ _ I); lia. }
  assert (P1 : Permutation (map w (seq 1 n)) (seq 0 n)).
  { apply NoDup_Permutation_bis; [exact ND|now rewrite map_length, !seq_length|].
    intros x Hx. apply in_map_iff in Hx as (t & <- & Ht). apply in_seq in Ht. apply in_seq.
    pose proof (inv_lt _ _ _ _ I t). unfold n in *. lia. }
  set (f := fun t => ends (at_ es (w t))).
  assert (P2 : Permutation (map ends es) (map f (seq 1 n))).
  { rewrite (map_at_seq ends es). fold n. rewrite <- P1, map_map. reflexivity. }
  assert (Hin0 : In 0 (map w (seq 1 n))) by (apply (Permutation_in 0 (Permutation_sym P1)), in_seq; lia).
  apply in_map_iff in Hin0 as (t & Ht0 & Ht). apply in_seq in Ht. destruct t as [|t]; [lia|].
  assert (Hodd : Nat.even t = false).
  { destruct (Nat.even t) eqn:Et; [exfalso|reflexivity].
    destruct (inv_fresh _ _ _ _ I t ltac:(lia)) as [_ F]. destruct (inv_adj _ _ _ _ I t ltac:(lia)) as [N1 _].
    destruct t as [|t]; [rewrite Ht0, (inv_w0 _ _ _ _ I) in N1; congruence|].
    destruct (F 0 ltac:(lia) ltac:(now rewrite Et)) as [F1 _]. rewrite Ht0, (inv_w0 _ _ _ _ I) in F1. congruence. }
  assert (f0 : f 0 = ends (at_ es 0)) by (unfold f; now rewrite (inv_w0 _ _ _ _ I)).
  assert (ft : f (S t) = ends (at_ es 0)) by (unfold f; now rewrite Ht0).
  exists (ends (at_ es 0)), (map f (seq 1 t)), (map f (seq (S (S t)) (n - S t))).
  assert (S0 : seq 1 n = seq 1 t ++ S t :: seq (S (S t)) (n - S t)).
  { replace n with (t + S (n - S t)) at 1 by lia. rewrite seq_app. reflexivity. }
  split; [destruct es; [congruence|reflexivity]|]. split; [|split].
  - rewrite P2, S0, map_app. cbn [map]. rewrite ft. symmetry. apply Permutation_middle.
  - rewrite map_length, seq_length. apply Nat.odd_spec. rewrite <- Nat.negb_even, Hodd. reflexivity.
  - replace (ends (at_ es 0) :: map f (seq 1 t) ++ ends (at_ es 0) :: map f (seq (S (S t)) (n - S t)))
      with (map f (seq 0 (S n))).
    + apply (alternates_nth (0%N, 0%N)). rewrite map_length, seq_length. intros u Hu.
      rewrite !nth_map_seq by lia. rewrite parity_true.
      destruct (inv_adj _ _ _ _ I u ltac:(lia)) as [_ H]. unfold f, share, ends, endp in *. cbn [fst snd]. destruct (Nat.even u); exact H.
    + change (seq 0 (S n)) with (0 :: seq 1 n). rewrite S0. cbn [map]. rewrite map_app. cbn [map]. now rewrite f0, ft.
Qed.

(** ** Lollipops are accepted *)

Lemma find_join_least s i ei : forall es j0 j k, find_join s i ei j0 es = Some j -> j0 + k < j -> k < length es ->
  joins s i ei (j0 + k) (at_ es k) = false.
Proof.
  induction es as [|e t IH]; intros j0 j k H L Hk; cbn in *; [lia|].
  destruct (joins s i ei j0 e) eqn:E; [injection H as <-; lia|].
  destruct k as [|k]; cbn; [now rewrite Nat.add_0_r|]. replace (j0 + S k) with (S j0 + k) by lia.
  eapply IH; [exact H|lia|lia].
Qed.

Lemma find_join_have s i ei : forall es j0 k, k < length es -> joins s i ei (j0 + k) (at_ es k) = true ->
  exists j, find_join s i ei j0 es = Some j /\ j <= j0 + k.
Proof.
  intros es j0 k Hk J. destruct (find_join s i ei j0 es) as [j|] eqn:E.
  - exists j. split; [reflexivity|]. destruct (le_lt_dec j (j0 + k)) as [L|L]; [exact L|exfalso].
    rewrite (find_join_least s i ei es j0 j k E L Hk) in J. discriminate.
  - rewrite (find_join_none _ _ _ _ _ E k Hk) in J. discriminate.
Qed.

Lemma cycle_loop_ge : forall fuel es i c c', cycle_loop fuel es i c = Some c' -> c <= c'.
Proof.
  induction fuel as [|fuel IH]; intros es i c c' H; cbn in H; [discriminate|].
  destruct (nth_error es i); [|injection H; lia].
  destruct (find_join _ _ _ _ _); [apply IH in H; lia|injection H; lia].
Qed.

(** If at each of [n] steps the walk has one way to go that is taken, it has [n] steps. *)
Lemma follow es0 n (W : nat -> nat) : 0 < length es0 -> n = length es0 -> W 0 = 0 ->
  (forall c es, c < n -> Inv es0 es c W -> find_join (Nat.even c) (W c) (at_ es (W c)) 0 es = Some (W (S c))) ->
  find_cycle_length es0 = Some n.
Proof.
  intros H0 En W0 Step.
  assert (G : forall d c es fuel, c + d = n -> Inv es0 es c W -> length es0 + 1 <= c + fuel ->
    exists c', cycle_loop fuel es (W c) c = Some c' /\ n <= c' <= n).
  { induction d as [|d IH]; intros c es fuel Hd I Hf.
    - destruct (cycle_loop_end es0 fuel es c W I Hf) as (c' & es' & w' & E & I' & _). exists c'. split; [exact E|].
      apply cycle_loop_ge in E. apply inv_bound in I'. lia.
    - destruct fuel as [|fuel]; [lia|]. cbn [cycle_loop].
      assert (Hi : W c < length es) by (rewrite (inv_len _ _ _ _ I); apply (inv_lt _ _ _ _ I); lia).
      rewrite (nth_error_nth' es dfl Hi). fold (at_ es (W c)). pose proof (Step c es ltac:(lia) I) as F. rewrite F.
      apply find_join_some in F as (k & Hk & Hkl & Hj). cbn in Hk. subst k.
      pose proof (inv_step es0 es c W (W (S c)) I ltac:(rewrite <- (inv_len _ _ _ _ I); lia) Hj) as I'.
      apply IH; [lia| |lia]. destruct I' as [A0 A1 A2 A3 A4 A5 A6 A7].
      assert (X : forall t, (if t =? S c then W (S c) else W t) = W t) by (intro t; destruct (Nat.eqb_spec t (S c)); congruence).
      split; auto.
      + intros t Ht. rewrite <- X. auto.
      + intros t Ht. rewrite <- (X t), <- (X (S t)). auto.
      + intros s k Hk. rewrite A5 by exact Hk. split; (intros [A|(t & T1 & T2 & T3)]; [now left|right; exists t; rewrite ?X in *; auto]).
      + intros t Ht. rewrite <- (X (S t)). destruct (A6 t Ht) as [B1 B2]. split; [exact B1|]. intros t' T1 T2.
        rewrite <- (X t'), <- (X (S t')). auto.
      + intros t t' T1 T2 T3. rewrite <- (X t), <- (X t'). auto. }
  unfold find_cycle_length.
  assert (I0 : Inv es0 es0 0 W).
  { destruct (inv_init es0 H0) as [A0 A1 A2 A3 A4 A5 A6 A7]. split; auto; try (intros; lia).
    - intros t Ht. replace t with 0 by lia. lia.
    - intros s k Hk. split; [tauto|]. intros [Hg|(t & Ht & _)]; [exact Hg|lia]. }
  destruct (G n 0 es0 (S (length es0)) ltac:(lia) I0 ltac:(lia)) as (c' & E & L). rewrite W0 in E. rewrite E. f_equal. lia.
Qed.

Lemma index_exists (l : list (N * N)) e : In e l -> exists i, nth_error l i = Some e /\ i < length l.
Proof. intro H. apply In_nth_error in H as [i Hi]. exists i. split; [exact Hi|]. apply nth_error_Some. congruence. Qed.

Lemma lollipop_accepted es : fresh es -> lollipop (map ends es) -> find_cycle_length es = Some (length es).
Proof.
  intros Hf (e0 & e1 & c & f1 & r & i & j & H0 & Hi & Hj & Lij & ND & Pm & Ev & Alt & DR & DL & D3).
  set (n := length es) in *. set (T := e0 :: e1 :: c ++ e0 :: f1 :: r) in *. set (d := (0%N, 0%N)).
  set (k := S (S (length c))).
  assert (LT : length T = S n).
  { apply Permutation_length in Pm. rewrite map_length in Pm. fold n in Pm. unfold T. cbn [length] in *. rewrite app_length in *. cbn [length] in *. lia. }
  assert (Lk : S k <= n).
  { unfold T in LT. cbn [length] in LT. rewrite app_length in LT. cbn [length] in LT. unfold k. lia. }
  assert (Tk : nth k T d = e0).
  { unfold T, k. cbn [nth]. rewrite app_nth2 by lia. now rewrite Nat.sub_diag. }
  assert (TSk : nth (S k) T d = f1).
  { unfold T, k. cbn [nth]. rewrite app_nth2 by lia. replace (S (length c) - length c) with 1 by lia. reflexivity. }
  assert (ND' : NoDup (e0 :: e1 :: c ++ f1 :: r)) by exact (Permutation_NoDup Pm ND).
  (* two positions of the trail hold the same edge only if they are 0 and k *)
  assert (Tinj : forall a b, a < b -> b <= n -> nth a T d = nth b T d -> a = 0 /\ b = k).
  { intros a b Hab Hb E.
    set (M := e0 :: e1 :: c ++ f1 :: r) in *.
    assert (LM : length M = n) by (apply Permutation_length in Pm; now rewrite map_length in Pm).
    assert (To : forall a, a < k -> nth a T d = nth a M d).
    { intros a' Ha. unfold T, M. destruct a' as [|[|a']]; cbn [nth]; try reflexivity. unfold k in Ha. rewrite !app_nth1 by lia. reflexivity. }
    assert (Ts : forall a, k < a -> nth a T d = nth (pred a) M d).
    { intros a' Ha. unfold k in Ha. unfold T, M. destruct a' as [|[|[|a']]]; cbn [nth pred]; try lia.
      rewrite !app_nth2 by lia. replace (S a' - length c) with (S (a' - length c)) by lia. reflexivity. }
    assert (M0 : nth 0 M d = e0) by reflexivity.
    assert (NI : forall a b, a < n -> b < n -> nth a M d = nth b M d -> a = b).
    { intros a' b' Ha' Hb'. apply (proj1 (NoDup_nth M d) ND'); lia. }
    destruct (lt_eq_lt_dec a k) as [[A|A]|A]; destruct (lt_eq_lt_dec b k) as [[B|B]|B]; try lia.
    - rewrite !To in E by assumption. apply NI in E; lia.
    - subst b. rewrite Tk, To, <- M0 in E by assumption. apply NI in E; lia.
    - rewrite To, Ts in E by assumption. apply NI in E; lia.
    - subst a. rewrite Tk, Ts, <- M0 in E by assumption. apply NI in E; lia.
    - rewrite !Ts in E by assumption. apply NI in E; lia. }
  (* the indices of the trail *)
  assert (HW : exists W : nat -> nat, forall t, t <= n -> W t < n /\ ends (at_ es (W t)) = nth t T d).
  { assert (Q : forall t, t <= n -> exists x, x < n /\ ends (at_ es x) = nth t T d).
    { intros t Ht. assert (In (nth t T d) (map ends es)) as Hin.
      { apply (Permutation_in _ (Permutation_sym Pm)). assert (Hn : In (nth t T d) T) by (apply nth_In; lia).
        unfold T in Hn at 2. cbn in Hn. rewrite in_app_iff in Hn. cbn in Hn. cbn. rewrite in_app_iff. cbn. tauto. }
      apply (In_nth _ _ (ends dfl)) in Hin as (x & Hx & Ex). rewrite map_length in Hx. rewrite map_nth in Ex. exists x. auto. }
    assert (G : forall (R : nat -> nat -> Prop) m, (forall t, t <= m -> exists x, R t x) -> exists W : nat -> nat, forall t, t <= m -> R t (W t)).
    { clear. intro R. induction m as [|m IH]; intro Q.
      - destruct (Q 0 ltac:(lia)) as (x & Hx). exists (fun _ => x). intros t Ht. now replace t with 0 by lia.
      - destruct IH as (W & HW); [intros; apply Q; lia|]. destruct (Q (S m) ltac:(lia)) as (x & Hx).
        exists (fun t => if t =? S m then x else W t). intros t Ht. destruct (Nat.eqb_spec t (S m)) as [->|]; [exact Hx|apply HW; lia]. }
    exact (G (fun t x => x < n /\ ends (at_ es x) = nth t T d) n Q). }
  destruct HW as (W & HW).
  assert (Uniq : forall a b, a < n -> b < n -> ends (at_ es a) = ends (at_ es b) -> a = b).
  { intros a b Ha Hb E. apply (proj1 (NoDup_nth (map ends es) (ends dfl)) ND); rewrite ?map_length; auto. now rewrite !map_nth. }
  assert (AtE : forall x e, nth_error (map ends es) x = Some e -> x < n /\ ends (at_ es x) = e).
  { intros x e H. assert (Hx : x < n) by (assert (x < length (map ends es)) by (apply nth_error_Some; congruence); now rewrite map_length in *).
    split; [exact Hx|]. apply (nth_error_nth _ _ (ends dfl)) in H. now rewrite map_nth in H. }
  assert (Hn : 0 < n) by lia.
  destruct (AtE _ _ H0) as [_ E0]. destruct (AtE _ _ Hi) as [Hin E1]. destruct (AtE _ _ Hj) as [Hjn Ef].
  assert (W0 : W 0 = 0).
  { destruct (HW 0 ltac:(lia)) as [A B]. apply Uniq; auto. rewrite B, E0. reflexivity. }
  assert (W1 : W 1 = i) by (destruct (HW 1 ltac:(lia)) as [A B]; apply Uniq; auto; now rewrite B, E1).
  assert (Wk : W k = 0) by (destruct (HW k ltac:(lia)) as [A B]; apply Uniq; auto; now rewrite B, E0, Tk).
  assert (WSk : W (S k) = j) by (destruct (HW (S k) ltac:(lia)) as [A B]; apply Uniq; auto; now rewrite B, Ef, TSk).
  assert (Winj : forall a b, a < b -> b <= n -> W a = W b -> a = 0 /\ b = k).
  { intros a b Hab Hb E. apply Tinj; auto. destruct (HW a ltac:(lia)) as [_ A], (HW b Hb) as [_ B]. congruence. }
  assert (Wadj : forall t, t < n -> endp (Nat.even t) (at_ es (W t)) = endp (Nat.even t) (at_ es (W (S t)))).
  { intros t Ht. pose proof (proj1 (alternates_nth d T true) Alt t ltac:(lia)) as Sh. rewrite parity_true in Sh.
    destruct (HW t ltac:(lia)) as [_ A], (HW (S t) ltac:(lia)) as [_ B]. rewrite <- A, <- B in Sh.
    unfold share, ends, endp in *. cbn [fst snd] in Sh. destruct (Nat.even t); exact Sh. }
  assert (Kev : Nat.even k = true) by (apply Nat.even_spec; destruct Ev as [m Hm]; exists (S m); unfold k; lia).
  apply (follow es n W Hn eq_refl W0). intros t es' Ht I.
  set (s := Nat.even t) in *.
  assert (WtN : W t < n) by (apply HW; lia). assert (WSN : W (S t) < n) by (apply HW; lia).
  assert (Ne : W (S t) <> W t) by (intro E; symmetry in E; apply Winj in E as [-> E]; [unfold k in E|..]; lia).
  (* the next edge of the trail is a way to go *)
  assert (J : joins s (W t) (at_ es' (W t)) (0 + W (S t)) (at_ es' (W (S t))) = true).
  { apply joins_spec. split; [exact Ne|]. split.
    - destruct (flag s (at_ es' (W (S t)))) eqn:F; [exfalso|reflexivity].
      apply (inv_flag _ _ _ _ I) in F; [|exact WSN]. destruct F as [F|(u & Hu & Su & [E|E])].
      + rewrite Hf in F by exact WSN. discriminate.
      + apply Winj in E as [-> E]; [|lia|lia]. cbn in Su. fold s in Su.
        assert (Kt : Nat.even (S t) = true) by now rewrite E.
        pose proof (even_S_neq t) as En. fold s in En. congruence.
      + apply Winj in E as [E _]; lia.
    - rewrite !(inv_end _ _ _ _ I) by assumption. apply Wadj, Ht. }
  destruct (find_join_have s (W t) (at_ es' (W t)) es' 0 (W (S t)) ltac:(rewrite (inv_len _ _ _ _ I); exact WSN) J) as (x & Fx & Lx).
  rewrite Fx. f_equal. cbn in Lx. destruct (Nat.eq_dec x (W (S t))) as [|Nx]; [assumption|exfalso].
  apply find_join_some in Fx as (x' & Ex & Hx & Jx). cbn in Ex. subst x'. rewrite (inv_len _ _ _ _ I) in Hx. fold n in Hx.
  apply joins_spec in Jx as (Nxt & Fl & Ex). rewrite !(inv_end _ _ _ _ I) in Ex by assumption.
  pose proof (Wadj t Ht) as Ex'. fold s in Ex'.
  (* a third edge at the vertex *)
  assert (D3' : 3 <= deg es s (endp s (at_ es (W t)))).
  { change 3 with (length [W t; W (S t); x]). apply deg_ge.
    - repeat constructor; cbn; intuition congruence.
    - intros y [<-|[<-|[<-|[]]]]; auto. }
  destruct s eqn:Es.
  2:{ rewrite deg_R in D3'. specialize (DR (endp false (at_ es (W t)))). lia. }
  assert (V : endp true (at_ es (W t)) = fst e0).
  { destruct (N.eq_dec (endp true (at_ es (W t))) (fst e0)) as [|Nv]; [assumption|]. apply DL in Nv. rewrite deg_L in D3'. lia. }
  assert (U0 : endp true (at_ es 0) = fst e0) by now rewrite <- E0.
  assert (U1 : endp true (at_ es i) = fst e0).
  { pose proof (Wadj 0 ltac:(lia)) as A. cbn [Nat.even] in A. rewrite W0, W1 in A. now rewrite <- A. }
  assert (Uj : endp true (at_ es j) = fst e0).
  { rewrite <- WSk. pose proof (Wadj k ltac:(lia)) as A. rewrite Kev in A. rewrite <- A, Wk. exact U0. }
  assert (Three : forall y, y < n -> endp true (at_ es y) = fst e0 -> y = 0 \/ y = i \/ y = j).
  { intros y Hy Uy. destruct (Nat.eq_dec y 0); auto. destruct (Nat.eq_dec y i); auto. destruct (Nat.eq_dec y j); auto. exfalso.
    assert (i <> 0) by (rewrite <- W1, <- W0; intro E; symmetry in E; apply Winj in E as [_ E]; [unfold k in E|..]; lia).
    assert (4 <= deg es true (fst e0)).
    { change 4 with (length [0; i; j; y]). apply deg_ge; [repeat constructor; cbn; intuition lia|].
      intros z [<-|[<-|[<-|[<-|[]]]]]; auto. }
    rewrite deg_L in *. lia. }
  assert (Zero : W t = 0).
  { destruct (Three (W t) WtN V) as [A|[A|A]]; [exact A|exfalso..].
    - rewrite <- W1 in A. destruct (lt_eq_lt_dec t 1) as [[B|B]|B].
      + apply Winj in A as [_ A]; [unfold k in A|..]; lia.
      + subst t. discriminate.
      + symmetry in A. apply Winj in A as [A _]; lia.
    - rewrite <- WSk in A. destruct (lt_eq_lt_dec t (S k)) as [[B|B]|B].
      + apply Winj in A as [_ A]; lia.
      + assert (Qe : Nat.even t = true) by exact Es. rewrite B in Qe. pose proof (even_S_neq k) as En. congruence.
      + symmetry in A. apply Winj in A as [A _]; lia. }
  assert (t = 0 \/ t = k) as [->| ->].
  { destruct t as [|t]; [now left|right]. rewrite <- W0 in Zero. symmetry in Zero. apply Winj in Zero as [_ Z]; lia. }
  - (* the first step: e1 stands before f1 *)
    rewrite W1 in *. rewrite W0 in *. rewrite U0 in Ex. destruct (Three x Hx (eq_sym Ex)) as [A|[A|A]]; lia.
  - (* back at the first edge: e1 has been used *)
    rewrite Wk in *. rewrite U0 in Ex. destruct (Three x Hx (eq_sym Ex)) as [A|[A|A]]; [lia| |rewrite WSk in Nx; lia].
    subst x. assert (F : flag true (at_ es' i) = true).
    { apply (inv_flag _ _ _ _ I); [exact Hin|]. right. exists 0. split; [unfold k; lia|]. split; [reflexivity|]. right. exact W1. }
    congruence.
Qed.

Lemma cuckaroo_trail d ns eb : Forall is_u32 ns -> cuckaroo_verify (new_cuckaroo d) ns eb = true ->
  returning_trail (map (cuckaroo_ends (key_words d) eb) ns).
Proof.
  rewrite <- keys_words. intros Hu H. apply (cuckaroo_verify_unfold _ ns eb Hu) in H as [[Hne _] H].
  rewrite <- cuckaroo_ends_map by (try apply sip_keys_wf; assumption). apply accepted_trail.
  - apply fresh_map. now split.
  - destruct ns; [congruence|discriminate].
  - now rewrite map_length.
Qed.

Lemma cuckaroo_lollipop d ns eb : Forall is_u32 ns -> valid_nonces (2 ^ eb) ns ->
  lollipop (map (cuckaroo_ends (key_words d) eb) ns) -> cuckaroo_verify (new_cuckaroo d) ns eb = true.
Proof.
  rewrite <- keys_words. intros Hu Hv L. apply (cuckaroo_verify_unfold _ ns eb Hu). split; [exact Hv|].
  rewrite <- cuckaroo_ends_map in L by (try apply sip_keys_wf; assumption).
  rewrite <- (map_length (cuckaroo_edge (new_cuckaroo d) (cuckaroo_mask eb)) ns). apply lollipop_accepted; [|exact L].
  apply fresh_map. now split.
Qed.

Lemma cuckoo_trail b sh ns ease : (1 <= sh <= 63)%N -> Forall is_u32 ns -> cuckoo_verify (cuckoo_new b sh) ns ease = true ->
  returning_trail (map (cuckoo_ends (key_words b) sh) ns).
Proof.
  intros Hs Hu H. apply (cuckoo_verify_unfold b sh ns ease Hs) in H as [[Hne _] H].
  rewrite <- cuckoo_ends_map by assumption. apply accepted_trail.
  - apply fresh_map. now split.
  - destruct ns; [congruence|discriminate].
  - now rewrite map_length.
Qed.

Lemma cuckoo_lollipop b sh ns ease : (1 <= sh <= 63)%N -> Forall is_u32 ns ->
  valid_nonces ((ease * 2 ^ sh) mod 2 ^ 64 / 100) ns ->
  lollipop (map (cuckoo_ends (key_words b) sh) ns) -> cuckoo_verify (cuckoo_new b sh) ns ease = true.
Proof.
  intros Hs Hu Hv L. apply (cuckoo_verify_unfold b sh ns ease Hs). split; [exact Hv|].
  rewrite <- cuckoo_ends_map in L by assumption.
  rewrite <- (map_length (cuckoo_edge (cuckoo_new b sh)) ns). apply lollipop_accepted; [|exact L].
  apply fresh_map. now split.
Qed.

(** A vertex of degree one or three is not on a simple cycle. *)
Lemma lollipop_no_cycle es : lollipop es -> ~ simple_cycle es.
Proof.
  intros (e0 & e1 & c & f1 & r & i & j & H0 & Hi & Hj & Lij & ND & Pm & Ev & Alt & _) Sc.
  destruct (simple_cycle_deg es Sc) as (_ & _ & D). destruct (D (fst e0)) as [D0 _].
  assert (A : fst e0 = fst e1) by exact (proj1 Alt).
  assert (B : fst e0 = fst f1).
  { pose proof (proj1 (alternates_nth (0%N, 0%N) _ true) Alt (S (S (length c)))) as Sh. cbn [nth length] in Sh.
    rewrite !app_nth2, Nat.sub_diag in Sh by lia. replace (S (length c) - length c) with 1 in Sh by lia.
    rewrite parity_true in Sh. cbn [nth] in Sh.
    replace (Nat.even (S (S (length c)))) with true in Sh by (symmetry; apply Nat.even_spec; destruct Ev as [m Hm]; exists (S m); lia).
    apply Sh. rewrite app_length. cbn [length]. lia. }
  assert (C : 3 <= degL es (fst e0)).
  { unfold degL. rewrite (count_occ_perm (map fst es) (map fst (e0 :: e1 :: c ++ f1 :: r))) by now apply Permutation_map.
    cbn [map]. rewrite map_app, <- A. cbn [map]. rewrite <- B. cbn [count_occ].
    destruct (N.eq_dec (fst e0) (fst e0)) as [_|]; [|congruence]. rewrite count_occ_app. cbn [count_occ].
    destruct (N.eq_dec (fst e0) (fst e0)) as [_|]; [lia|congruence]. }
  lia.
Qed.

(** Checks by evaluation, for examples. *)
Lemma degR_check es : forallb (fun e => degR es (snd e) <=? 2) es = true -> forall x, degR es x <= 2.
Proof.
  rewrite forallb_forall. intros H x. destruct (in_dec N.eq_dec x (map snd es)) as [Hi|Hi].
  - apply in_map_iff in Hi as (e & <- & He). apply Nat.leb_le, H, He.
  - unfold degR. apply (count_occ_not_In N.eq_dec) in Hi. rewrite Hi. lia.
Qed.
Lemma degL_check es v : forallb (fun e => N.eqb (fst e) v || (degL es (fst e) <=? 2))%bool es = true ->
  forall x, x <> v -> degL es x <= 2.
Proof.
  rewrite forallb_forall. intros H x Nx. destruct (in_dec N.eq_dec x (map fst es)) as [Hi|Hi].
  - apply in_map_iff in Hi as (e & <- & He). apply H in He. apply Bool.orb_true_iff in He as [He|He].
    + apply N.eqb_eq in He. congruence.
    + now apply Nat.leb_le.
  - unfold degL. apply (count_occ_not_In N.eq_dec) in Hi. rewrite Hi. lia.
Qed.
Fixpoint distinct (l : list (N * N)) : bool :=
  match l with
  | [] => true
  | a :: t => negb (existsb (fun b => N.eqb (fst a) (fst b) && N.eqb (snd a) (snd b))%bool t) && distinct t
  end.
Lemma nodup_check l : distinct l = true -> NoDup l.
Proof.
  induction l as [|a t IH]; intro H; [constructor|]. cbn in H. apply andb_true_iff in H as [H1 H2].
  constructor; [|now apply IH]. intro Hi. apply negb_true_iff in H1.
  assert (existsb (fun b => N.eqb (fst a) (fst b) && N.eqb (snd a) (snd b))%bool t = true); [|congruence].
  apply existsb_exists. exists a. split; [exact Hi|]. now rewrite !N.eqb_refl.
Qed.
