(** Lemmas about sending one block to several peers. *)
From Coq Require Import Permutation Arith Lia.
From Verif Require Import Relay SpecRelay.

Section Proofs.
Context {A : Type} (less : A -> A -> bool).

(** ** put *)
Lemma put_length i (x : A) m : length (put i x m) = length m.
Proof. revert i. induction m as [|a m IH]; intros [|i]; cbn; auto. Qed.
Lemma put_same i (x : A) m : i < length m -> nth_error (put i x m) i = Some x.
Proof. revert i. induction m as [|a m IH]; intros [|i] H; cbn in *; try lia; auto. apply IH. lia. Qed.
Lemma put_other i j (x : A) m : i <> j -> nth_error (put i x m) j = nth_error m j.
Proof. revert i j. induction m as [|a m IH]; intros [|i] [|j] H; cbn; auto; try congruence. Qed.
Lemma ext_eq (m m' : list A) : (forall k, nth_error m k = nth_error m' k) -> m = m'.
Proof.
  revert m'. induction m as [|a m IH]; intros [|b m'] H; auto; [specialize (H 0); discriminate H|specialize (H 0); discriminate H|].
  f_equal; [specialize (H 0); cbn in H; congruence|]. apply IH. intro k. exact (H (S k)).
Qed.
Lemma exchanged_eq m m1 m2 i j : exchanged (A := A) m m1 i j -> exchanged m m2 i j -> m1 = m2.
Proof.
  intros (_ & A1 & A2 & A3) (_ & B1 & B2 & B3). apply ext_eq. intro k.
  destruct (Nat.eq_dec k i) as [->|Ki]; [congruence|]. destruct (Nat.eq_dec k j) as [->|Kj]; [congruence|]. rewrite A3, B3; auto.
Qed.
Lemma exchanged_put m i j (x y : A) : nth_error m i = Some x -> nth_error m j = Some y -> exchanged m (put j x (put i y m)) i j.
Proof.
  intros Ei Ej. assert (Li : i < length m) by (apply nth_error_Some; congruence). assert (Lj : j < length m) by (apply nth_error_Some; congruence).
  split; [now rewrite !put_length|]. split; [|split].
  - destruct (Nat.eq_dec j i) as [->|N]; [rewrite put_same by (rewrite put_length; lia); congruence|]. rewrite put_other by exact N. rewrite put_same by exact Li. congruence.
  - rewrite put_same by (rewrite put_length; lia). congruence.
  - intros k Ki Kj. rewrite !put_other; auto.
Qed.

(** ** One writer *)
(** What the writer will do if left alone. *)
Definition will (m : list A) (t : writer A) (m' : list A) : Prop :=
  match t with
  | Sorting p => alone less m p m'
  | Less1 i j x k => exists y, nth_error m j = Some y /\ alone less m (k (less x y)) m'
  | Swap1 i j y k => exists x m1, nth_error m i = Some x /\ nth_error m j = Some y /\ exchanged m m1 i j /\ alone less m1 k m'
  | Swap2 i j y x k => alone less (put j x (put i y m)) k m'
  | Swap3 j x k => alone less (put j x m) k m'
  | Copying i acc => m' = m /\ acc = firstn i m /\ i <= length m
  | Sent l => m' = m /\ l = m
  | Crash => False
  end.
Lemma firstn_snoc i (m : list A) x : nth_error m i = Some x -> firstn i m ++ [x] = firstn (S i) m.
Proof. revert m. induction i as [|i IH]; intros [|a m] E; cbn in *; try discriminate; [congruence|]. f_equal. now apply IH. Qed.
Lemma alone_step m t m' m1 t1 : will m t m' -> step less m t = Some (m1, t1) -> will m1 t1 m'.
Proof.
  unfold fetch. destruct t as [[|i j k|i j k]|i j x k|i j y k|i j y x k|j x k|i acc|l|]; cbn [will step]; unfold fetch; intros H E; try discriminate E.
  - injection E as <- <-. inversion H; subst. cbn. repeat split; lia.
  - inversion H as [|? ? ? ? x y ? Ei Ej K|]; subst. rewrite Ei in E. injection E as <- <-. cbn. now exists y.
  - inversion H as [| |? ? ? ? m2 ? Li Lj X K]; subst. apply nth_error_Some in Li, Lj.
    destruct (nth_error m j) as [y|] eqn:Ej; [|congruence]. destruct (nth_error m i) as [x|] eqn:Ei; [|congruence].
    injection E as <- <-. cbn. exists x, m2. auto.
  - destruct H as (y & Ey & K). rewrite Ey in E. injection E as <- <-. exact K.
  - destruct H as (x & m2 & Ex & Ey & X & K). rewrite Ex in E. injection E as <- <-. cbn.
    now rewrite (exchanged_eq _ _ _ _ _ (exchanged_put m i j x y Ex Ey) X).
  - injection E as <- <-. exact H.
  - injection E as <- <-. exact H.
  - destruct H as (-> & -> & L). destruct (Nat.ltb_spec i (length m)) as [Li|Li].
    + destruct (nth_error m i) as [x|] eqn:Ex; [|apply nth_error_None in Ex; lia]. injection E as <- <-. cbn.
      split; [reflexivity|]. split; [now apply firstn_snoc|lia].
    + injection E as <- <-. cbn. split; [reflexivity|]. now apply firstn_all2.
Qed.
Lemma next_inv m ts s : next less (State m ts) s -> exists before t after m' t',
  ts = before ++ t :: after /\ step less m t = Some (m', t') /\ s = State m' (before ++ t' :: after).
Proof. intro N. inversion N; subst. eexists _, _, _, _, _. split; [reflexivity|]. split; [eassumption|reflexivity]. Qed.
Lemma single m t m' s : will m t m' -> reach less (State m [t]) s -> exists m1 t1, s = State m1 [t1] /\ will m1 t1 m'.
Proof.
  intros W R. remember (State m [t]) as s0 eqn:E0. revert m t E0 W. induction R as [s|s s1 s2 R IH N]; intros m t E0 W.
  - exists m, t. auto.
  - destruct (IH m t E0 W) as (m1 & t1 & -> & W1). apply next_inv in N as (b & u & a & mb & v & E1 & Hs & ->).
    destruct b as [|? b]; [|destruct b; discriminate E1]. destruct a; [|discriminate E1]. cbn in E1. injection E1 as <-.
    exists mb, v. split; [reflexivity|]. eapply alone_step; eassumption.
Qed.
Lemma single_sent p m : sorts less p (length m) -> forall m' l, reach less (relayed p 1 m) (State m' [Sent l]) ->
  m' = l /\ Permutation l m /\ ordered less l.
Proof.
  intros S m' l R. destruct (S m eq_refl) as (r & Ra & P & O).
  destruct (single m (Sorting p) r _ Ra R) as (m1 & t1 & E & W). injection E as <- <-. destruct W as (-> & ->). auto.
Qed.
Lemma single_goes p m : sorts less p (length m) -> forall m' t, reach less (relayed p 1 m) (State m' [t]) ->
  (exists l, t = Sent l) \/ exists s, step less m' t = Some s.
Proof.
  intros S m' t R. destruct (S m eq_refl) as (r & Ra & _). destruct (single m (Sorting p) r _ Ra R) as (m1 & t1 & E & W). injection E as <- <-.
  destruct t as [[| |]| | | | |i acc|l|]; cbn [step]; unfold fetch; eauto; try (right; destruct (nth_error _ _); eauto; fail).
  - right. destruct (i <? length m'); eauto.
  - elim W.
Qed.

(** ** Calm programs *)
Definition unmoved (m : list A) (t : writer A) : Prop :=
  match t with
  | Sorting p => calm less m p
  | Less1 i j x k => exists y, nth_error m j = Some y /\ calm less m (k (less x y))
  | Copying i acc => acc = firstn i m /\ i <= length m
  | Sent l => l = m
  | _ => False
  end.
Lemma unmoved_step m t m1 t1 : unmoved m t -> step less m t = Some (m1, t1) -> m1 = m /\ unmoved m t1.
Proof.
  destruct t as [[|i j k|i j k]|i j x k|i j y k|i j y x k|j x k|i acc|l|]; cbn [unmoved step]; unfold fetch; intros H E; try discriminate E; try contradiction.
  - injection E as <- <-. cbn. repeat split. lia.
  - inversion H as [|? ? ? x y Ei Ej K]; subst. rewrite Ei in E. injection E as <- <-. split; [reflexivity|]. cbn. now exists y.
  - inversion H.
  - destruct H as (y & Ey & K). rewrite Ey in E. injection E as <- <-. split; [reflexivity|exact K].
  - destruct H as (-> & L). destruct (Nat.ltb_spec i (length m)) as [Li|Li].
    + destruct (nth_error m i) as [x|] eqn:Ex; [|apply nth_error_None in Ex; lia]. injection E as <- <-. split; [reflexivity|]. cbn.
      split; [now apply firstn_snoc|lia].
    + injection E as <- <-. split; [reflexivity|]. cbn. now apply firstn_all2.
Qed.
Lemma calm_sent p n m s : calm less m p -> reach less (relayed p n m) s -> all_send less m s.
Proof.
  intros C R. assert (G : mem s = m /\ Forall (unmoved m) (writers s)).
  { remember (relayed p n m) as s0 eqn:E0. induction R as [s|s s1 s2 R IH N].
    - subst s. split; [reflexivity|]. cbn. apply Forall_forall. intros t I. apply repeat_spec in I. now subst t.
    - specialize (IH E0). destruct IH as (E & F). destruct s1 as [ma ts]. cbn in E, F. subst ma. apply next_inv in N as (b & u & a & mb & v & -> & Hs & ->). cbn.
      apply Forall_app in F as (F1 & F2). inversion F2 as [|? ? Hu Fa]; subst. destruct (unmoved_step _ _ _ _ Hu Hs) as (-> & U). split; [reflexivity|].
      apply Forall_app. split; [exact F1|]. now constructor. }
  destruct G as (E & F). split; [exact E|]. intros t I. rewrite E. apply (proj1 (Forall_forall _ _) F) in I.
  split; [|split].
  - intros ->. exact I.
  - intros l ->. exact I.
  - destruct t as [[|? ? ?|? ? ?]| | | | |i acc|l|]; cbn [unmoved] in I; try contradiction; cbn [step]; unfold fetch; eauto.
    right. destruct (i <? length m); eauto.
Qed.

(** ** Insertion sort *)
Context (W : weak_order less).
Lemma sink_calm m j k : ordered less m -> j < length m -> calm less m k -> calm less m (sink j k).
Proof.
  intros O L C. destruct j as [|j]; [exact C|]. cbn [sink].
  destruct (nth_error m (S j)) as [x|] eqn:Ex; [|apply nth_error_None in Ex; lia].
  destruct (nth_error m j) as [y|] eqn:Ey; [|apply nth_error_None in Ey; lia].
  apply CAsk with x y; auto. rewrite (O j (S j) y x) by (auto; lia). exact C.
Qed.
Lemma insertion_calm m : ordered less m -> calm less m (insertion (length m)).
Proof.
  intro O. unfold insertion. assert (G : forall c i, i + c <= length m -> calm less m (insert_from i c)).
  { induction c as [|c IH]; intros i L; cbn [insert_from]; [constructor|]. apply sink_calm; [exact O|lia|]. apply IH. lia. }
  destruct (length m) as [|n]; [cbn; constructor|]. apply G. lia.
Qed.

Lemma ordered_cons x m : ordered less (x :: m) <-> (forall y, In y m -> less y x = false) /\ ordered less m.
Proof.
  split.
  - intro O. split.
    + intros y I. apply In_nth_error in I as (j & E). apply (O 0 (S j) x y); [lia|reflexivity|exact E].
    + intros i j a b L Ea Eb. apply (O (S i) (S j) a b); [lia|exact Ea|exact Eb].
  - intros (H & O) i j a b L Ea Eb. destruct j as [|j]; [lia|]. destruct i as [|i].
    + cbn in Ea. injection Ea as <-. apply H. eapply nth_error_In. exact Eb.
    + apply (O i j a b); [lia|exact Ea|exact Eb].
Qed.
Lemma ordered_app m1 m2 : ordered less (m1 ++ m2) <-> ordered less m1 /\ ordered less m2 /\ forall x y, In x m1 -> In y m2 -> less y x = false.
Proof.
  induction m1 as [|a m1 IH]; cbn [app].
  - split; [intro H; split; [intros i j x y _ E; destruct i; discriminate E|split; [exact H|intros ? ? []]]|tauto].
  - rewrite !ordered_cons, IH. split.
    + intros (H & O1 & O2 & X). split; [split; [intros y I; apply H, in_or_app; auto|exact O1]|]. split; [exact O2|].
      intros x y [<-|I] J; [apply H, in_or_app; auto|auto].
    + intros ((H & O1) & O2 & X). split; [intros y I; apply in_app_or in I as [I|I]; [auto|apply X; [now left|exact I]]|].
      split; [exact O1|]. split; [exact O2|]. intros x y I J. apply X; [now right|exact J].
Qed.
Lemma nth_middle_ (l : list A) x r : nth_error (l ++ x :: r) (length l) = Some x.
Proof. rewrite nth_error_app2, Nat.sub_diag by lia. reflexivity. Qed.
Lemma adjacent (l : list A) y x r : exchanged (l ++ y :: x :: r) (l ++ x :: y :: r) (S (length l)) (length l).
Proof.
  assert (E1 : forall u v, nth_error (l ++ u :: v :: r) (S (length l)) = Some v).
  { intros u v. replace (l ++ u :: v :: r) with ((l ++ [u]) ++ v :: r) by (now rewrite <- app_assoc).
    replace (S (length l)) with (length (l ++ [u])) by (rewrite app_length; cbn; lia). apply nth_middle_. }
  split; [rewrite !app_length; reflexivity|]. rewrite !E1, !nth_middle_. split; [reflexivity|]. split; [reflexivity|].
  intros k K1 K2. destruct (Nat.lt_ge_cases k (length l)) as [L|L]; [now rewrite !nth_error_app1 by lia|].
  rewrite !nth_error_app2 by lia. destruct (k - length l) as [|[|d]] eqn:Ed; [lia|lia|reflexivity].
Qed.
Lemma insert_alone c : forall pre post, length post = c -> ordered less pre -> exists m', alone less (pre ++ post) (insert_from (length pre) c) m' /\
  Permutation m' (pre ++ post) /\ ordered less m'.
Proof.
  induction c as [|c IH]; intros pre post L O.
  - destruct post; [|discriminate L]. rewrite app_nil_r. exists pre. split; [constructor|auto].
  - destruct post as [|x post]; [discriminate L|]. cbn in L. injection L as L. cbn [insert_from].
    assert (G : exists l, Permutation l (pre ++ [x]) /\ ordered less l /\ exists m', alone less (pre ++ x :: post) (sink (length pre) (insert_from (S (length pre)) c)) m' /\
      Permutation m' (l ++ post) /\ ordered less m').
    { assert (H : forall l1 l2, length l1 + length l2 = length pre -> ordered less (l1 ++ l2) -> (forall y, In y l2 -> less x y = true) ->
        exists l, Permutation l (l1 ++ x :: l2) /\ ordered less l /\ exists m', alone less (l1 ++ x :: l2 ++ post) (sink (length l1) (insert_from (S (length pre)) c)) m' /\
        Permutation m' (l ++ post) /\ ordered less m').
      { intros l1. induction l1 as [|y l1 IH1] using rev_ind; intros l2 Ln Ol Lx.
        - cbn [app length sink] in *. assert (O' : ordered less (x :: l2)).
          { apply ordered_cons. split; [|exact Ol]. intros y I. apply (proj1 W). now apply Lx. }
          exists (x :: l2). split; [reflexivity|]. split; [exact O'|].
          destruct (IH (x :: l2) post L O') as (m' & Al & P & Om). cbn [length] in Al. change (length l2 = length pre) in Ln. rewrite Ln in Al. exists m'. auto.
        - rewrite app_length in *. cbn [length] in *. replace (length l1 + 1) with (S (length l1)) in * by lia. cbn [sink].
          rewrite <- !app_assoc in *. cbn [app] in *.
          assert (Ex : nth_error (l1 ++ y :: x :: l2 ++ post) (S (length l1)) = Some x).
          { replace (l1 ++ y :: x :: l2 ++ post) with ((l1 ++ [y]) ++ x :: l2 ++ post) by (now rewrite <- app_assoc).
            replace (S (length l1)) with (length (l1 ++ [y])) by (rewrite app_length; cbn; lia). apply nth_middle_. }
          assert (Ey : nth_error (l1 ++ y :: x :: l2 ++ post) (length l1) = Some y) by apply nth_middle_.
          destruct (less x y) eqn:Lxy.
          + destruct (IH1 (y :: l2)) as (l & P & Ol' & m' & Al & Pm & Om); [cbn; lia|exact Ol|intros z [<-|I]; [exact Lxy|now apply Lx]|].
            exists l. split; [rewrite P; apply Permutation_app_head; constructor|]. split; [exact Ol'|]. exists m'. split; [|auto].
            apply AAsk with x y; auto. rewrite Lxy. apply AExch with (l1 ++ x :: y :: l2 ++ post); [| |apply adjacent|exact Al];
              rewrite app_length; cbn [length]; lia.
          + assert (O' : ordered less (l1 ++ y :: x :: l2)).
            { apply ordered_app in Ol as (O1 & O2 & O3). apply ordered_cons in O2 as (O2 & O4).
              apply ordered_app. split; [exact O1|]. split.
              - apply ordered_cons. split; [intros z [<-|I]; [exact Lxy|now apply O2]|]. apply ordered_cons. split; [|exact O4].
                intros z I. apply (proj1 W). now apply Lx.
              - intros a b I [<-|[<-|J]]; [apply O3; [exact I|now left]| |apply O3; [exact I|now right]].
                apply (proj2 W a y x); [apply O3; [exact I|now left]|exact Lxy]. }
            exists (l1 ++ y :: x :: l2). split; [reflexivity|]. split; [exact O'|].
            destruct (IH (l1 ++ y :: x :: l2) post L O') as (m' & Al & P & Om). exists m'. split; [|auto].
            apply AAsk with x y; auto. rewrite Lxy. rewrite app_length in Al. cbn [length] in Al.
            replace (length l1 + S (S (length l2))) with (S (length pre)) in Al by lia. rewrite <- app_assoc in Al. exact Al. }
      destruct (H pre []) as (l & P & Ol & m' & Al & Pm & Om); [cbn; lia|now rewrite app_nil_r|intros ? []|].
      exists l. split; [exact P|]. split; [exact Ol|]. exists m'. split; [exact Al|auto]. }
    destruct G as (l & P & _ & m' & Al & Pm & Om). exists m'. split; [exact Al|]. split; [|exact Om].
    rewrite Pm, P, <- app_assoc. reflexivity.
Qed.
Lemma insertion_sorts n : sorts less (insertion n) n.
Proof.
  intros m L. unfold insertion. destruct m as [|x m]; cbn in L; subst n.
  - exists []. split; [constructor|]. split; [constructor|]. intros i j a b _ E. destruct i; discriminate E.
  - cbn [Nat.sub]. rewrite Nat.sub_0_r. apply (insert_alone (length m) [x] m eq_refl).
    apply ordered_cons. split; [intros ? []|]. intros i j a b _ E. destruct i; discriminate E.
Qed.
End Proofs.

From Verif Require Import Consensus SpecConsensus BlockCodecProofs BodyProofs.
Lemma keys_weak {B} (key : B -> bytes) : weak_order (fun a b => bytes_lt (key a) (key b)).
Proof.
  split.
  - intros x y L. destruct (bytes_lt (key y) (key x)) eqn:E; [|reflexivity]. rewrite <- (bytes_lt_irrefl (key x)). symmetry. now apply bytes_lt_trans with (key y).
  - intros x y z. apply not_lt_trans.
Qed.
Lemma keys_ordered {B} (key : B -> bytes) l : key_sorted key l -> ordered (fun a b => bytes_lt (key a) (key b)) l.
Proof.
  unfold key_sorted. induction 1 as [|x l _ IH F].
  - intros i j a b _ E. destruct i; discriminate E.
  - apply ordered_cons. split; [|exact IH]. intros y I. exact (proj1 (Forall_forall _ _) F y I).
Qed.
Lemma keys_sent {B} (key : B -> bytes) n l s : key_sorted key l ->
  reach (fun a b => bytes_lt (key a) (key b)) (relayed (insertion (length l)) n l) s -> all_send (fun a b => bytes_lt (key a) (key b)) l s.
Proof. intros K. apply calm_sent. apply insertion_calm. now apply keys_ordered. Qed.
Lemma valid_keys X now (b : block X) : block_validate X now b = Ok tt ->
  key_sorted (input_key X) (b_inputs b) /\ key_sorted (output_key X) (b_outputs b) /\ key_sorted (kernel_key X) (b_kernels b).
Proof.
  intro V. apply validate_split in V. destruct V as (_ & S1 & (_ & S2 & _) & (_ & S3 & _)).
  split; [apply (proj1 (is_sorted_iff (input_hash X) _)), S1|]. split; [apply (proj1 (is_sorted_iff (output_hash X) _)), S2|apply (proj1 (is_sorted_iff (kernel_hash X) _)), S3].
Qed.

(** ** Executing a schedule *)
Section Exec.
Context {A : Type} (less : A -> A -> bool).
Fixpoint at_writer (i : nat) (m : list A) (ts : list (writer A)) : option (list A * list (writer A)) :=
  match ts, i with
  | [], _ => None
  | t :: ts, O => match step less m t with Some (m', t') => Some (m', t' :: ts) | None => None end
  | t :: ts, S i => match at_writer i m ts with Some (m', ts') => Some (m', t :: ts') | None => None end
  end.
Fixpoint exec (sched : list nat) (s : state A) : option (state A) :=
  match sched with
  | [] => Some s
  | i :: sched => match at_writer i (mem s) (writers s) with Some (m, ts) => exec sched (State m ts) | None => None end
  end.
Lemma at_writer_next i : forall m ts m' ts', at_writer i m ts = Some (m', ts') ->
  exists before t after t', ts = before ++ t :: after /\ ts' = before ++ t' :: after /\ step less m t = Some (m', t').
Proof.
  induction i as [|i IH]; intros m [|t ts] m' ts' E; cbn [at_writer] in E; try discriminate E.
  - destruct (step less m t) as [[m1 t1]|] eqn:Es; [|discriminate E]. injection E as <- <-. now exists [], t, ts, t1.
  - destruct (at_writer i m ts) as [[m1 ts1]|] eqn:Ea; [|discriminate E]. injection E as <- <-.
    destruct (IH _ _ _ _ Ea) as (b & u & a & u' & -> & -> & Es). now exists (t :: b), u, a, u'.
Qed.
Lemma reach_trans s1 s2 s3 : reach less s1 s2 -> reach less s2 s3 -> reach less s1 s3.
Proof. intros R1 R2. induction R2 as [s|s s2 s3 R IH N]; [exact R1|]. apply (Then less s1 s2 s3); [exact (IH R1)|exact N]. Qed.
Lemma exec_reach sched : forall s s', exec sched s = Some s' -> reach less s s'.
Proof.
  induction sched as [|i sched IH]; intros s s' E; cbn [exec] in E; [injection E as <-; constructor|].
  destruct (at_writer i (mem s) (writers s)) as [[m ts]|] eqn:Ea; [|discriminate E].
  destruct (at_writer_next _ _ _ _ _ Ea) as (b & u & a & u' & Eb & -> & Es). destruct s as [m0 ts0]. cbn in *. subst ts0.
  apply reach_trans with (State m (b ++ u' :: a)); [eapply Then; [apply Here|now constructor]|now apply IH].
Qed.
End Exec.

(** A program that sorts two elements by first moving the other one to the front, as quicksort does
    with a pivot. *)
Definition pivoting : prog := Exch 0 1 (Ask 1 0 (fun b => if b then Exch 0 1 Done else Done)).
Lemma pivoting_sorts {A} (less : A -> A -> bool) : weak_order less -> sorts less pivoting 2.
Proof.
  intros W m L. destruct m as [|a [|b [|? ?]]]; try discriminate L.
  assert (E : forall x y : A, exchanged [x; y] [y; x] 0 1).
  { intros x y. repeat split. intros [|[|k]] K0 K1; try congruence. reflexivity. }
  destruct (less a b) eqn:Lab.
  - exists [a; b]. split; [|split; [reflexivity|]].
    + apply AExch with [b; a]; [cbn; lia|cbn; lia|apply E|]. apply AAsk with a b; [reflexivity|reflexivity|]. rewrite Lab.
      apply AExch with [a; b]; [cbn; lia|cbn; lia|apply E|constructor].
    + apply ordered_cons. split; [intros y [<-|[]]; now apply (proj1 W)|]. apply ordered_cons. split; [intros ? []|]. intros i j x y _ Ex. destruct i; discriminate Ex.
  - exists [b; a]. split; [|split; [constructor|]].
    + apply AExch with [b; a]; [cbn; lia|cbn; lia|apply E|]. apply AAsk with a b; [reflexivity|reflexivity|]. rewrite Lab. constructor.
    + apply ordered_cons. split; [intros y [<-|[]]; exact Lab|]. apply ordered_cons. split; [intros ? []|]. intros i j x y _ Ex. destruct i; discriminate Ex.
Qed.
