(** Proofs for C121: moving the events of a critical section together. *)
From Coq Require Import Permutation.
From Verif Require Import Race SpecRace SpecAtomic RaceProofs.

(** ** Events that may change places *)

(** [e1] is an acquisition of [l] by [t] or a use of the map behind it; [e2] is by another goroutine and
    has nothing to do with [l] or the map. *)
Definition light (t : nat) (l : lock) (e : event) : Prop :=
  e = Did t (Acq l) \/ exists a x, e = Did t a /\ accesses a x /\ guards l x.
Definition clear (t : nat) (l : lock) (e : event) : Prop :=
  match e with
  | Did u a => u <> t /\ a <> Acq l /\ a <> Rel l /\ (forall x, guards l x -> ~ accesses a x)
  | Forked u v => u <> t /\ v <> t
  end.
Inductive swaps : list event -> list event -> Prop :=
| SwRefl tr : swaps tr tr
| SwStep t l p e1 e2 q tr : light t l e1 -> clear t l e2 -> swaps (p ++ e2 :: e1 :: q) tr -> swaps (p ++ e1 :: e2 :: q) tr.

Lemma swaps_trans a b c : swaps a b -> swaps b c -> swaps a c.
Proof. induction 1; intro H'; [exact H'|]. econstructor; eauto. Qed.
Lemma swaps_app a b r : swaps a b -> swaps (a ++ r) (b ++ r).
Proof.
  induction 1 as [|t l p e1 e2 q tr L C H IH]; [constructor|]. rewrite <- app_assoc in *. cbn [app] in *.
  econstructor; eauto.
Qed.

(** *** The machine *)

Definition alike (s s' : threads) : Prop := th_progs s = th_progs s' /\ Permutation (th_held s) (th_held s').
Lemma alike_refl s : alike s s.
Proof. split; [reflexivity|apply Permutation_refl]. Qed.
Lemma alike_trans a b c : alike a b -> alike b c -> alike a c.
Proof. intros [A B] [C D]. split; [congruence|now transitivity (th_held b)]. Qed.

Lemma alike_step s s' e s1 : alike s s' -> thread_step s e s1 -> exists s1', thread_step s' e s1' /\ alike s1 s1'.
Proof.
  intros [P H] E. destruct E as [s t l w N F|s t l w pre post N E|s t r w v N V|s t a w N A]; unfold next in N.
  - eexists. split; [apply DoAcq|].
    + unfold next. rewrite <- P. exact N.
    + intro I. apply F. apply (Permutation_in l (Permutation_map fst (Permutation_sym H))). exact I.
    + split; cbn [th_progs th_held]; [now rewrite P|now constructor].
  - assert (I : In (l, t) (th_held s')). { apply (Permutation_in _ H). rewrite E. apply in_elt. }
    apply in_split in I as (pre' & post' & E'). eexists. split; [eapply DoRel|].
    + unfold next. rewrite <- P. exact N.
    + exact E'.
    + split; cbn [th_progs th_held]; [now rewrite P|]. rewrite E, E' in H. now apply Permutation_app_inv in H.
  - rewrite P in N |- *. eexists. split; [eapply DoGo; [exact N|exact V]|]. split; cbn [th_progs th_held]; [reflexivity|exact H].
  - eexists. split; [eapply DoAccess; [unfold next; rewrite <- P; exact N|exact A]|].
    split; cbn [th_progs th_held]; [now rewrite P|exact H].
Qed.
Lemma alike_steps s tr s1 : thread_steps s tr s1 -> forall s', alike s s' -> exists s1', thread_steps s' tr s1' /\ alike s1 s1'.
Proof.
  induction 1 as [s|s tr s1 e s2 H IH E]; intros s' A; [exists s'; split; [constructor|exact A]|].
  destruct (IH s' A) as (s1' & H' & A'). destruct (alike_step _ _ _ _ A' E) as (s2' & E' & A2).
  exists s2'. split; [econstructor; eassumption|exact A2].
Qed.

Lemma set_set {A} t u (x y : A) ls : t <> u -> set_nth t x (set_nth u y ls) = set_nth u y (set_nth t x ls).
Proof.
  revert u ls. induction t as [|t IH]; intros [|u] [|z ls] N; cbn; try reflexivity; try congruence.
  f_equal. apply IH. congruence.
Qed.
Lemma set_app {A} t (x : A) ls r : t < length ls -> set_nth t x (ls ++ r) = set_nth t x ls ++ r.
Proof.
  revert ls. induction t as [|t IH]; intros [|z ls] L; cbn in *; try lia; [reflexivity|]. f_equal. apply IH. lia.
Qed.
Lemma nth_set_other {A} t u (x : A) ls : t <> u -> nth_error (set_nth u x ls) t = nth_error ls t.
Proof. revert u ls. induction t as [|t IH]; intros [|u] [|z ls] N; cbn; auto; congruence. Qed.
Lemma nth_set_other' {A} t u (x : A) ls r : t <> u -> t < length ls ->
  nth_error (set_nth u x ls ++ r) t = nth_error ls t.
Proof. intros N L. rewrite nth_error_app1 by (rewrite set_length; exact L). now apply nth_set_other. Qed.

Lemma swap_step t l e1 e2 s s1 s2 : light t l e1 -> clear t l e2 -> thread_step s e1 s1 -> thread_step s1 e2 s2 ->
  exists s1' s2', thread_step s e2 s1' /\ thread_step s1' e1 s2' /\ alike s2 s2'.
Proof.
  intros L C A B.
  assert (K : exists w h0, nth_error (th_progs s) t = Some w /\ exists a v, w = a :: v /\ e1 = Did t a /\
     s1 = Threads (set_nth t v (th_progs s)) (h0 ++ th_held s) /\
     (a = Acq l /\ free s l /\ h0 = [(l, t)] \/ (exists x, accesses a x) /\ h0 = [])).
  { destruct L as [->|(a & x & -> & Ax & _)].
    - inversion A as [? ? ? w N F| | |? ? ? w N [(? & [?|?])|(? & ?)]]; subst; try discriminate.
      exists (Acq l :: w), [(l, t)]. split; [exact N|]. exists (Acq l), w. repeat split. left. auto.
    - inversion A as [? ? ? w N F|? ? ? w ? ? N|? ? ? w ? N|? ? ? w N _]; subst; try (destruct Ax; discriminate).
      exists (a :: w), []. split; [exact N|]. exists a, w. repeat split. right. eauto. }
  destruct K as (w & h0 & N & a & v & -> & -> & -> & K). clear L A.
  assert (LT : t < length (th_progs s)) by (apply nth_error_Some; congruence).
  assert (FIN : forall s1', nth_error (th_progs s1') t = Some (a :: v) -> (free s l -> free s1' l) ->
    thread_step s1' (Did t a) (Threads (set_nth t v (th_progs s1')) (h0 ++ th_held s1'))).
  { intros s1' N' F'. destruct K as [(-> & F & ->)|((x & X) & ->)].
    - apply DoAcq; [exact N'|auto].
    - apply DoAccess; [exact N'|]. left. exists x. destruct X; auto. }
  inversion B as [? u k w' N' F'|? u k w' pre post N' E'|? u r w' v' N' V'|? u b w' N' A']; subst; unfold next in N'; cbn [th_progs th_held] in *.
  - destruct C as (Nu & Nk & _ & _). rewrite nth_set_other in N' by exact Nu.
    exists (Threads (set_nth u w' (th_progs s)) ((k, u) :: th_held s)), (Threads (set_nth t v (set_nth u w' (th_progs s))) (h0 ++ (k, u) :: th_held s)).
    split; [|split].
    + apply DoAcq; [exact N'|]. intro I. apply F'. cbn [th_held]. rewrite map_app. apply in_app_iff. now right.
    + apply (FIN (Threads (set_nth u w' (th_progs s)) ((k, u) :: th_held s))); cbn [th_progs th_held].
      * rewrite nth_set_other; [exact N|congruence].
      * intros F [Q|Q]; [cbn in Q; congruence|exact (F Q)].
    + split; cbn [th_progs th_held]; [now rewrite set_set|]. apply Permutation_middle.
  - destruct C as (Nu & _ & Nk & _). rewrite nth_set_other in N' by exact Nu.
    assert (Hh : exists pre', pre = h0 ++ pre' /\ th_held s = pre' ++ (k, u) :: post).
    { destruct K as [(_ & _ & ->)|(_ & ->)]; [|exists pre; auto].
      destruct pre as [|z pre]; cbn [app] in E'; [inversion E'; subst; congruence|]. inversion E'; subst. exists pre. auto. }
    destruct Hh as (pre' & -> & Hh).
    exists (Threads (set_nth u w' (th_progs s)) (pre' ++ post)), (Threads (set_nth t v (set_nth u w' (th_progs s))) (h0 ++ pre' ++ post)).
    split; [|split].
    + eapply DoRel; [exact N'|exact Hh].
    + apply (FIN (Threads (set_nth u w' (th_progs s)) (pre' ++ post))); cbn [th_progs th_held].
      * rewrite nth_set_other; [exact N|congruence].
      * unfold free. cbn [th_held]. rewrite Hh, !map_app. intros F I. apply F. apply in_app_iff in I. apply in_app_iff. cbn. tauto.
    + split; cbn [th_progs th_held]; [now rewrite set_set|]. now rewrite app_assoc.
  - rewrite set_length in *. destruct C as (Nu & Nv). rewrite nth_set_other in N' by exact Nu.
    exists (Threads (set_nth u w' (th_progs s) ++ [v']) (th_held s)), (Threads (set_nth t v (set_nth u w' (th_progs s) ++ [v'])) (h0 ++ th_held s)).
    split; [|split].
    + eapply DoGo; [exact N'|exact V'].
    + apply (FIN (Threads (set_nth u w' (th_progs s) ++ [v']) (th_held s))); cbn [th_progs th_held]; [|auto].
      rewrite nth_set_other' by congruence. exact N.
    + split; cbn [th_progs th_held]; [|apply Permutation_refl]. rewrite set_app by (now rewrite set_length). now rewrite set_set.
  - destruct C as (Nu & _). rewrite nth_set_other in N' by exact Nu.
    exists (Threads (set_nth u w' (th_progs s)) (th_held s)), (Threads (set_nth t v (set_nth u w' (th_progs s))) (h0 ++ th_held s)).
    split; [|split].
    + apply DoAccess; assumption.
    + apply (FIN (Threads (set_nth u w' (th_progs s)) (th_held s))); cbn [th_progs th_held]; [|auto].
      rewrite nth_set_other; [exact N|congruence].
    + split; cbn [th_progs th_held]; [now rewrite set_set|apply Permutation_refl].
Qed.

Lemma steps_snoc_inv s tr s' : thread_steps s tr s' -> forall p e, tr = p ++ [e] -> exists m, thread_steps s p m /\ thread_step m e s'.
Proof.
  intros [x|x tr0 s1 e0 s2 H E] p e Q; [destruct p; discriminate|]. apply app_inj_tail in Q as [-> ->]. exists s1. auto.
Qed.
Lemma steps_nil_inv s s' : thread_steps s [] s' -> s' = s.
Proof.
  intro H. remember [] as tr eqn:Q. destruct H as [x|x tr0 s1 e0 s2 H E]; [reflexivity|destruct tr0; discriminate].
Qed.
Lemma steps_app_inv s p q s' : thread_steps s (p ++ q) s' -> exists m, thread_steps s p m /\ thread_steps m q s'.
Proof.
  revert s'. induction q as [|e q IH] using rev_ind; intros s' H.
  - rewrite app_nil_r in H. exists s'. split; [exact H|constructor].
  - rewrite app_assoc in H. destruct (steps_snoc_inv _ _ _ H _ _ eq_refl) as (s1 & H1 & E).
    destruct (IH _ H1) as (m & A & B). exists m. split; [exact A|econstructor; eassumption].
Qed.
Lemma steps_one s e s' : thread_step s e s' -> thread_steps s [e] s'.
Proof. intro E. change [e] with ([] ++ [e]). econstructor; [constructor|exact E]. Qed.
Lemma steps_one_inv s e s' : thread_steps s [e] s' -> thread_step s e s'.
Proof.
  intro H. destruct (steps_snoc_inv _ _ _ H [] e eq_refl) as (m & H1 & E). apply steps_nil_inv in H1. now subst.
Qed.
Lemma swaps_steps tr tr' : swaps tr tr' -> forall s s1, thread_steps s tr s1 -> exists s1', thread_steps s tr' s1' /\ alike s1 s1'.
Proof.
  induction 1 as [|t l p e1 e2 q tr L C H IH]; intros s s1 T; [exists s1; split; [exact T|apply alike_refl]|].
  apply steps_app_inv in T as (m & P & T). change (e1 :: e2 :: q) with ([e1] ++ [e2] ++ q) in T.
  apply steps_app_inv in T as (m1 & E1 & T). apply steps_app_inv in T as (m2 & E2 & Q).
  destruct (swap_step t l e1 e2 m m1 m2 L C (steps_one_inv _ _ _ E1) (steps_one_inv _ _ _ E2)) as (m1' & m2' & E2' & E1' & A).
  destruct (alike_steps _ _ _ Q _ A) as (s1' & Q' & A').
  destruct (IH s s1') as (s1'' & R & A'').
  - eapply steps_app; [exact P|]. change (e2 :: e1 :: q) with ([e2] ++ [e1] ++ q).
    eapply steps_app; [apply steps_one; exact E2'|]. eapply steps_app; [apply steps_one; exact E1'|exact Q'].
  - exists s1''. split; [exact R|]. eapply alike_trans; eassumption.
Qed.

(** *** What is done *)

Lemma by_iff t e : is_by t e = true <-> done_by t e.
Proof. destruct e; cbn; apply Nat.eqb_eq. Qed.
Lemma loc_eqb_iff x y : loc_eqb x y = true <-> x = y.
Proof.
  destruct x as [| | | |i f], y as [| | | |j g]; cbn; try (split; [discriminate|discriminate]); try (split; reflexivity).
  - destruct f; split; discriminate.
  - destruct f; split; discriminate.
  - destruct f; split; discriminate.
  - destruct f; split; discriminate.
  - destruct f, g; try rewrite Nat.eqb_eq; split; intro H; try discriminate H; congruence.
Qed.

Lemma effect_same choose e w w' : same_world w w' -> same_world (effect choose e w) (effect choose e w').
Proof.
  intros (V & C & S). destruct e as [t [l|l|x|x|c|r]|t u]; cbn; unfold same_world; cbn; rewrite ?S, ?V, ?C; repeat split; intros;
    try match goal with |- context [if ?b then _ else _] => destruct b end; auto.
Qed.
Lemma outcome_same choose tr : forall w w', same_world w w' -> same_world (outcome choose tr w) (outcome choose tr w').
Proof. induction tr as [|e tr IH]; intros w w' H; [exact H|]. cbn. apply IH, effect_same, H. Qed.
Lemma same_refl w : same_world w w.
Proof. repeat split. Qed.
Lemma same_trans a b c : same_world a b -> same_world b c -> same_world a c.
Proof. intros (A1 & A2 & A3) (B1 & B2 & B3). repeat split; intros; etransitivity; eauto. Qed.

Lemma guards_one l x y : guards l x -> guards l y -> x = y.
Proof. destruct l, x, y; cbn; tauto. Qed.

Lemma swap_effect choose t l e1 e2 w : light t l e1 -> clear t l e2 ->
  same_world (effect choose e2 (effect choose e1 w)) (effect choose e1 (effect choose e2 w)).
Proof.
  intros L C.
  assert (D : forall u v : nat, u <> v -> Nat.eqb u v = false) by (intros u v; apply Nat.eqb_neq).
  assert (E : exists a, e1 = Did t a /\ (a = Acq l \/ exists x, (a = Rd x \/ a = Wr x) /\ guards l x)).
  { destruct L as [->|(a & x & -> & A & G)]; [exists (Acq l); auto|exists a; split; [reflexivity|right; exists x; auto]]. }
  destruct E as (a & -> & E). clear L.
  assert (X : forall u b, clear t l (Did u b) -> forall x y, (a = Rd x \/ a = Wr x) -> guards l x -> (b = Rd y \/ b = Wr y) -> loc_eqb y x = false /\ loc_eqb x y = false).
  { intros u b (_ & _ & _ & N) x y _ G B. assert (x <> y) as Ne. { intros ->. apply (N y G). exact B. }
    split; apply not_true_iff_false; rewrite loc_eqb_iff; congruence. }
  destruct e2 as [u b|u v].
  - specialize (X u b C). assert (Nu : u <> t) by apply C. pose proof (D _ _ Nu) as D1. pose proof (D _ _ (not_eq_sym Nu)) as D2.
    destruct E as [->|(x & [-> | ->] & G)]; destruct b as [k|k|y|y|c|r]; unfold same_world; cbn; rewrite ?D1, ?D2; cbn;
      repeat split; intros;
      try (assert (Q := X x y ltac:(auto) G ltac:(auto)); destruct Q as [Q1 Q2]; rewrite ?Q1, ?Q2);
      repeat match goal with |- context [Nat.eqb ?i ?j] => let E := fresh in destruct (Nat.eqb i j) eqn:E;
        [apply Nat.eqb_eq in E; subst|apply Nat.eqb_neq in E] end; try congruence; try reflexivity.
    destruct (loc_eqb x0 y) eqn:Z1; [|reflexivity]. destruct (loc_eqb x0 x) eqn:Z2; [|reflexivity].
    apply loc_eqb_iff in Z1, Z2. subst. now rewrite (proj2 (loc_eqb_iff _ _) eq_refl) in Q1.
  - destruct C as [Nu Nv]. pose proof (D _ _ Nu) as D1. pose proof (D _ _ (not_eq_sym Nu)) as D2.
    pose proof (D _ _ Nv) as D3. pose proof (D _ _ (not_eq_sym Nv)) as D4.
    destruct E as [->|(x & [-> | ->] & G)]; unfold same_world; cbn; rewrite ?D1, ?D2, ?D3, ?D4; repeat split; intros;
      repeat match goal with |- context [Nat.eqb ?i ?j] => let E := fresh in destruct (Nat.eqb i j) eqn:E;
        [apply Nat.eqb_eq in E; subst|apply Nat.eqb_neq in E] end; try congruence; try reflexivity.
Qed.
Lemma light_by t l e : light t l e -> done_by t e.
Proof. intros [->|(a & x & -> & _)]; reflexivity. Qed.
Lemma clear_by t l e : clear t l e -> ~ done_by t e.
Proof. destruct e; cbn; tauto. Qed.
Lemma swaps_doings tr tr' : swaps tr tr' -> same_doings tr tr'.
Proof.
  induction 1 as [tr|t l p e1 e2 q tr L C H [IH1 IH2]]; [split; [reflexivity|intros; apply same_refl]|]. split.
  - intro u. rewrite <- IH1. unfold of_goroutine. rewrite !filter_app. f_equal. cbn [filter].
    destruct (is_by u e1) eqn:B1, (is_by u e2) eqn:B2; try reflexivity. exfalso.
    apply by_iff in B1, B2. apply light_by in L. apply clear_by in C. destruct e1, e2; cbn in *; congruence.
  - intros choose w. eapply same_trans; [|apply IH2]. unfold outcome. rewrite !fold_left_app. cbn [fold_left].
    apply outcome_same. now apply (swap_effect choose t l).
Qed.

(** ** Gathering the events of a section *)

Lemma bubble t l e1 q : light t l e1 -> Forall (clear t l) q -> forall p r, swaps (p ++ e1 :: q ++ r) (p ++ q ++ e1 :: r).
Proof.
  intros L F. induction F as [|e2 q C F IH]; intros p r; [constructor|]. cbn [app].
  eapply SwStep; [exact L|exact C|]. change (p ++ e2 :: e1 :: q ++ r) with (p ++ [e2] ++ e1 :: q ++ r).
  change (p ++ e2 :: q ++ e1 :: r) with (p ++ [e2] ++ q ++ e1 :: r). rewrite !(app_assoc p [e2]). apply IH.
Qed.
Definition others (t : nat) (q : list event) : list event := filter (fun e => negb (is_by t e)) q.
Lemma gather t l q : (forall e, In e q -> done_by t e -> light t l e) -> (forall e, In e q -> ~ done_by t e -> clear t l e) ->
  forall p r, swaps (p ++ q ++ r) (p ++ others t q ++ of_goroutine t q ++ r).
Proof.
  induction q as [|e q IH]; intros L C p r; [constructor|]. unfold others, of_goroutine in *. cbn [filter].
  assert (IH' : forall p r, swaps (p ++ q ++ r) (p ++ others t q ++ of_goroutine t q ++ r)).
  { apply IH; intros e' I; [apply L|apply C]; now right. }
  unfold others, of_goroutine in IH'. specialize (IH' (p ++ [e]) r). rewrite <- !app_assoc in IH'. cbn [app] in IH'.
  destruct (is_by t e) eqn:B; cbn [negb].
  - eapply swaps_trans; [exact IH'|]. cbn [app]. apply (bubble t l); [apply L; [now left|now apply by_iff]|].
    apply Forall_forall. intros e' I. apply filter_In in I as [I N]. apply C; [now right|].
    intro D. apply by_iff in D. rewrite D in N. discriminate.
  - exact IH'.
Qed.

(** ** While a lock is held *)

Lemma guards_guarded l x : guards l x -> guarded l x.
Proof. destruct l, x; cbn; intros []; constructor. Qed.
Lemma held_clear s tr s' : thread_steps s tr s' -> forall t l, inv s -> In (l, t) (th_held s) -> ~ In (Did t (Rel l)) tr ->
  In (l, t) (th_held s') /\ forall e, In e tr -> ~ done_by t e -> clear t l e.
Proof.
  induction 1 as [s|s tr s1 e s2 H IH E]; intros t l I Ht NR; [split; [exact Ht|intros e []]|].
  destruct (IH t l I Ht) as [H1 C]; [intro Q; apply NR, in_app_iff; now left|].
  pose proof (inv_steps _ _ _ I H) as I1.
  assert (NE : e <> Did t (Rel l)) by (intros ->; apply NR, in_app_iff; right; now left).
  split.
  - destruct E as [sx t' l' w N F|sx t' l' w pre post N E|sx t' r w v N V|sx t' a w N A]; cbn [th_held]; [now right| |exact H1|exact H1].
    rewrite E in H1. apply in_app_iff in H1 as [H1|[H1|H1]]; apply in_app_iff; [now left| |now right].
    injection H1 as -> ->. congruence.
  - intros e' Q D. apply in_app_iff in Q as [Q|[<-|[]]]; [now apply C|].
    assert (LT : t < length (th_progs s1)) by (exact (inv_live _ I1 _ _ H1)).
    destruct e as [u a|u v]; cbn in D |- *.
    + split; [exact D|]. split; [|split].
      * intros ->. inversion E as [? ? ? ? ? F| | |? ? ? ? ? [(? & [?|?])|(? & ?)]]; subst; try discriminate.
        exact (free_not_held _ _ _ F H1).
      * intros ->. inversion E as [|? ? ? ? pre post ? HH| |? ? ? ? ? [(? & [?|?])|(? & ?)]]; subst; try discriminate.
        apply D. eapply unique_holder; [apply I1| |exact H1]. rewrite HH. apply in_elt.
      * intros x G A. destruct (access_held _ _ _ _ l x I1 (guards_guarded _ _ G) E A) as [U _].
        apply D. eapply unique_holder; [apply I1|exact U|exact H1].
    + split; [exact D|]. inversion E; subst. lia.
Qed.
Lemma got s tr s' l t : inv s -> thread_steps s tr s' -> ~ In (l, t) (th_held s) -> In (l, t) (th_held s') ->
  exists p q, tr = p ++ Did t (Acq l) :: q /\ ~ In (Did t (Rel l)) q /\ ~ In (Did t (Acq l)) q.
Proof.
  intros I0 H N. induction H as [s|s tr s1 e s2 H IH E]; intro I; [contradiction|].
  destruct (in_dec (fun a b : lock * nat => ltac:(decide equality; [apply Nat.eq_dec|apply lock_dec])) (l, t) (th_held s1)) as [Q|Q].
  - destruct (IH I0 N Q) as (p & q & -> & A & B). exists p, (q ++ [e]). rewrite <- app_assoc. split; [reflexivity|].
    split; intro J; apply in_app_iff in J as [J|[-> |[]]]; auto.
    + inversion E as [|? ? ? ? pre post ? HH| |? ? ? ? ? [(? & [?|?])|(? & ?)]]; subst; try discriminate. cbn [th_held] in I.
      pose proof (inv_nodup _ (inv_steps _ _ _ I0 H)) as ND. rewrite HH, map_app in ND. cbn [map fst] in ND.
      apply NoDup_remove_2 in ND. apply ND. rewrite <- map_app. exact (in_map fst _ _ I).
    + inversion E as [? ? ? ? ? F| | |? ? ? ? ? [(? & [?|?])|(? & ?)]]; subst; try discriminate. exact (free_not_held _ _ _ F Q).
  - exists tr, []. split; [|split; intros []]. f_equal. f_equal.
    destruct E; cbn [th_held] in I; try contradiction.
    + destruct I as [I|I]; [|contradiction]. congruence.
    + exfalso. apply Q. rewrite H1. apply in_app_iff in I as [I|I]; apply in_app_iff; [now left|right; now right].
Qed.

(** ** Pieces of a list *)

Lemma split_left {A} (P M : list A) a x c : P ++ M = a ++ x :: c -> ~ In x M -> exists c', P = a ++ x :: c' /\ c = c' ++ M.
Proof.
  revert a. induction P as [|z P IH]; intros a E N.
  - cbn in E. subst M. destruct N. apply in_elt.
  - destruct a as [|y a]; cbn in E; injection E as -> E.
    + exists P. auto.
    + destruct (IH a E N) as (c' & -> & ->). exists c'. auto.
Qed.
Lemma split_section {A} (P M : list A) a x b y c : P ++ M = a ++ x :: b ++ y :: c -> ~ In y M ->
  exists c', P = a ++ x :: b ++ y :: c'.
Proof.
  intros E N. change (a ++ x :: b ++ y :: c) with (a ++ (x :: b) ++ y :: c) in E. rewrite app_assoc in E.
  apply split_left in E as (c' & -> & _); [|exact N]. exists c'. now rewrite <- app_assoc.
Qed.
Lemma split_two {A} (P M : list A) y a x b : a ++ x :: b = P ++ y :: M -> (a = P /\ x = y /\ b = M) \/ In y b \/ In x M.
Proof.
  revert P. induction a as [|z a IH]; intros [|w P] E; cbn in E; injection E as E1 E2.
  - left. auto.
  - right. left. rewrite E2. apply in_elt.
  - right. right. rewrite <- E2. apply in_elt.
  - destruct (IH P E2) as [(-> & -> & ->)|K]; [left; subst; auto|right; exact K].
Qed.
(** [thin t l r]: [r] is [l] without some events of [t]. *)
Inductive thin (t : nat) : list event -> list event -> Prop :=
| ThNil : thin t [] []
| ThKeep e a b : thin t a b -> thin t (e :: a) (e :: b)
| ThDrop e a b : done_by t e -> thin t a b -> thin t (e :: a) b.
Lemma thin_refl t a : thin t a a.
Proof. induction a; constructor; assumption. Qed.
Lemma thin_app t a b c d : thin t a b -> thin t c d -> thin t (a ++ c) (b ++ d).
Proof. induction 1; intro H'; cbn; [exact H'|constructor; auto|apply ThDrop; auto]. Qed.
Lemma thin_others t q : thin t q (others t q).
Proof.
  induction q as [|e q IH]; [constructor|]. unfold others in *. cbn [filter]. destruct (is_by t e) eqn:B; cbn [negb].
  - apply ThDrop; [now apply by_iff|exact IH].
  - now constructor.
Qed.
Lemma thin_split t L r : thin t L r -> forall a x c, r = a ++ x :: c -> exists a' c', L = a' ++ x :: c' /\ thin t a' a /\ thin t c' c.
Proof.
  induction 1 as [|e L r H IH|e L r D H IH]; intros a x c E.
  - destruct a; discriminate.
  - destruct a as [|y a]; cbn in E; injection E as -> E.
    + subst. exists [], L. split; [reflexivity|]. split; [constructor|exact H].
    + destruct (IH a x c E) as (a' & c' & -> & A & C). exists (y :: a'), c'. split; [reflexivity|]. split; [now constructor|exact C].
  - destruct (IH a x c E) as (a' & c' & -> & A & C). exists (e :: a'), c'. split; [reflexivity|]. split; [now apply ThDrop|exact C].
Qed.
Lemma thin_in t L r e : thin t L r -> In e r -> In e L.
Proof. induction 1; cbn; tauto. Qed.
Lemma thin_kept t L r e : thin t L r -> In e L -> ~ done_by t e -> In e r.
Proof. induction 1; cbn; intros I N; [exact I| |]; destruct I as [<-|I]; auto; contradiction. Qed.

(** ** The theorem *)

Definition smooth (tr : list event) : Prop :=
  forall t l b, pool_lock l -> section tr t l b -> plain t l b -> uninterrupted t b.

Lemma section_snoc tr e t l b : section (tr ++ [e]) t l b -> section tr t l b \/ (e = Did t (Rel l) /\ exists a, tr = a ++ Did t (Acq l) :: b).
Proof.
  intros (a & c & E & N). destruct c as [|z c _] using rev_ind.
  - right. rewrite app_comm_cons, app_assoc in E. apply app_inj_tail in E as [E1 E2]. split; [exact E2|]. exists a. exact E1.
  - left. replace (a ++ Did t (Acq l) :: b ++ Did t (Rel l) :: c ++ [z]) with ((a ++ Did t (Acq l) :: b ++ Did t (Rel l) :: c) ++ [z]) in E.
    2: { rewrite <- app_assoc. cbn [app]. f_equal. f_equal. rewrite <- app_assoc. reflexivity. }
    apply app_inj_tail in E as [E1 _]. exists a, c. auto.
Qed.
Lemma plain_dec t l b : plain t l b \/ ~ plain t l b.
Proof.
  unfold plain. induction b as [|e b [IH|IH]].
  - left. intros e [].
  - assert (K : (done_by t e -> exists a x, e = Did t a /\ accesses a x /\ guards l x) \/
                ~ (done_by t e -> exists a x, e = Did t a /\ accesses a x /\ guards l x)).
    { destruct e as [u a|u v].
      - destruct (Nat.eq_dec u t) as [->|N]; [|left; intro D; contradiction].
        assert (G : forall x, guards l x \/ ~ guards l x) by (intro x; destruct l, x; cbn; auto).
        destruct a as [k|k|x|x|c|r];
          try (right; intro D; destruct (D eq_refl) as (a & x & E & [A|A] & _); subst; discriminate);
          (destruct (G x) as [g|g]; [left; intros _; do 2 eexists; split; [reflexivity|split; [|exact g]]; unfold accesses; auto|]);
          right; intro D; destruct (D eq_refl) as (a & y & E & [A|A] & g'); subst; try discriminate; injection E as ->; contradiction.
      - destruct (Nat.eq_dec u t) as [->|N]; [|left; intro D; contradiction].
        right. intro D. destruct (D eq_refl) as (a & x & E & _). discriminate. }
    destruct K as [K|K]; [left|right].
    + intros e' [<-|I]; [exact K|now apply IH].
    + intro H. apply K, H. now left.
  - right. intro H. apply IH. intros e' I. apply H. now right.
Qed.

Lemma smooth_exec tr s : execution tr s -> exists tr' s', execution tr' s' /\ swaps tr tr' /\ smooth tr' /\ alike s s'.
Proof.
  intros (w & W & H). remember (Threads [w] []) as s0 eqn:E0. revert E0. induction H as [s0|s0 tr s1 e s2 H IH E]; intros ->.
  - exists [], (Threads [w] []). split; [exists w; split; [exact W|constructor]|]. split; [constructor|]. split; [|apply alike_refl].
    intros t l b _ (a & c & Q & _). destruct a; discriminate.
  - destruct (IH eq_refl) as (tr' & s1' & (w' & W' & H') & SW & SM & AL). clear IH.
    destruct (alike_step _ _ _ _ AL E) as (s2' & E' & AL2).
    assert (EX : execution (tr' ++ [e]) s2') by (exists w'; split; [exact W'|econstructor; eassumption]).
    assert (SW' : swaps (tr ++ [e]) (tr' ++ [e])) by (now apply swaps_app).
    assert (PLAINLY : (forall t l b a, pool_lock l -> e = Did t (Rel l) -> tr' = a ++ Did t (Acq l) :: b -> ~ In (Did t (Rel l)) b -> ~ plain t l b) ->
      exists tr'' s'', execution tr'' s'' /\ swaps (tr ++ [e]) tr'' /\ smooth tr'' /\ alike s2 s'').
    { intro NO. exists (tr' ++ [e]), s2'. split; [exact EX|]. split; [exact SW'|]. split; [|exact AL2].
      intros t l b PL SE PB. assert (N : ~ In (Did t (Rel l)) b) by (destruct SE as (? & ? & _ & N); exact N).
      apply section_snoc in SE as [SE|(-> & a & Q)]; [exact (SM t l b PL SE PB)|].
      destruct (NO t l b a PL eq_refl Q N PB). }
    assert (REL : (exists t l, e = Did t (Rel l) /\ pool_lock l) \/ ~ exists t l, e = Did t (Rel l) /\ pool_lock l).
    { destruct e as [t [l|l|x|x|c|r]|t u]; try (right; intros (? & ? & Q & _); discriminate Q).
      destruct l; try (left; do 2 eexists; split; [reflexivity|exact I]). right. intros (? & ? & Q & P). injection Q as -> <-. exact P. }
    destruct REL as [(t & l & -> & PL)|NREL].
    2: { apply PLAINLY. intros t l b a PL Q _ _. destruct NREL. exists t, l. auto. }
    pose proof (inv_start w' W') as I0.
    assert (HELD : In (l, t) (th_held s1')).
    { inversion E' as [|? ? ? ? pre post ? HH| |? ? ? ? ? [(? & [?|?])|(? & ?)]]; subst; try discriminate. rewrite HH. apply in_elt. }
    destruct (got _ _ _ l t I0 H') as (p & q & -> & NR & NA); [intros []|exact HELD|].
    destruct (plain_dec t l q) as [PQ|NP].
    2: { apply PLAINLY. intros t' l' b a _ Q Ea _ PB. injection Q as <- <-. apply split_two in Ea as [(_ & _ & <-)|[Q|Q]]; [contradiction| |].
      - apply NA. exact Q.
      - destruct (PB _ Q eq_refl) as (x & y & Ex & [Ax|Ax] & _); subst; discriminate. }
    (* the section is moved to the end *)
    destruct (steps_app_inv _ _ _ _ H') as (m & Hp & Hq). change (Did t (Acq l) :: q) with ([Did t (Acq l)] ++ q) in Hq.
    apply steps_app_inv in Hq as (m1 & Ha & Hq). apply steps_one_inv in Ha.
    pose proof (inv_steps _ _ _ I0 Hp) as Im. pose proof (inv_step _ _ _ Im Ha) as Im1.
    assert (H1 : In (l, t) (th_held m1)).
    { inversion Ha as [| | |? ? ? ? ? [(? & [?|?])|(? & ?)]]; subst; try discriminate. cbn. now left. }
    destruct (held_clear _ _ _ Hq t l Im1 H1 NR) as [_ CL].
    assert (GA : swaps ((p ++ Did t (Acq l) :: q) ++ [Did t (Rel l)])
                   (p ++ others t q ++ (Did t (Acq l) :: of_goroutine t q) ++ [Did t (Rel l)])).
    { pose proof (gather t l (Did t (Acq l) :: q)) as G. unfold others, of_goroutine in G. cbn [filter is_by] in G.
      rewrite Nat.eqb_refl in G. cbn [negb] in G. rewrite <- app_assoc. apply G.
      - intros e [<-|I] D; [now left|]. destruct (PQ e I D) as (a & x & -> & A & g). right. eauto.
      - intros e [<-|I] D; [now destruct D|]. now apply CL. }
    destruct EX as (w2 & W2 & EX). destruct (swaps_steps _ _ GA _ _ EX) as (s3 & H3 & A3).
    eexists _, s3. split; [exists w2; split; [exact W2|exact H3]|]. split; [eapply swaps_trans; eassumption|].
    split; [|eapply alike_trans; eassumption].
    assert (MINE : forall e, In e (of_goroutine t q) -> done_by t e /\ exists a x, e = Did t a /\ accesses a x /\ guards l x).
    { intros e I. apply filter_In in I as [I B]. apply by_iff in B. split; [exact B|]. now apply PQ. }
    assert (OTH : forall e, In e (others t q) -> ~ done_by t e).
    { intros e I D. apply filter_In in I as [_ B]. apply by_iff in D. rewrite D in B. discriminate. }
    intros u k b PK SE PB. rewrite !app_assoc in SE.
    assert (N : ~ In (Did u (Rel k)) b) by (destruct SE as (? & ? & _ & N); exact N).
    apply section_snoc in SE as [SE|(Q & a & Ea)].
    + destruct SE as (a & c & Ea & _). apply split_section in Ea as (c' & Ea).
      2: { intros [Q|Q]; [discriminate Q|]. destruct (MINE _ Q) as (_ & x & y & Ex & [Ax|Ax] & _); subst; discriminate. }
      destruct (Nat.eq_dec u t) as [->|Nu].
      * apply split_section in Ea as (c2 & Ea); [|intro Q; exact (OTH _ Q eq_refl)]. apply (SM t k b PK); [|exact PB].
        exists a, (c2 ++ Did t (Acq l) :: q). split; [|exact N]. rewrite Ea, <- !app_assoc. cbn [app]. now rewrite <- app_assoc.
      * assert (TH : thin t (p ++ Did t (Acq l) :: q) (p ++ others t q)).
        { apply thin_app; [apply thin_refl|]. apply ThDrop; [reflexivity|apply thin_others]. }
        destruct (thin_split _ _ _ TH _ _ _ Ea) as (a' & r & E1 & _ & T1).
        destruct (thin_split _ _ _ T1 _ _ _ eq_refl) as (b' & c2 & E2 & T2 & _). rewrite E2 in E1.
        assert (KEEP : forall e, In e b' -> done_by u e -> In e b).
        { intros e I D. apply (thin_kept t b' b e T2 I). destruct e; cbn in *; congruence. }
        assert (U : uninterrupted u b').
        { apply (SM u k b' PK).
          - exists a', c2. split; [exact E1|]. intro Q. exact (N (KEEP _ Q eq_refl)).
          - intros e I D. apply PB; [now apply KEEP|exact D]. }
        intros e I. apply U. exact (thin_in _ _ _ _ T2 I).
    + injection Q as <- <-. symmetry in Ea. apply split_two in Ea as [(_ & _ & ->)|[Q|Q]].
      * intros e I. now apply MINE.
      * destruct (PB _ Q eq_refl) as (x & y & Ex & [Ax|Ax] & _); subst; discriminate.
      * destruct (MINE _ Q) as (_ & x & y & Ex & [Ax|Ax] & _); subst; discriminate.
Qed.

Theorem sections_atomic tr s : execution tr s -> exists tr' s', execution tr' s' /\ same_doings tr tr' /\ Permutation tr tr' /\
  forall t l b, pool_lock l -> section tr' t l b -> plain t l b -> uninterrupted t b.
Proof.
  intro H. destruct (smooth_exec tr s H) as (tr' & s' & E & SW & SM & _). exists tr', s'. split; [exact E|].
  split; [now apply swaps_doings|]. split; [|exact SM]. clear -SW.
  induction SW as [|t l p e1 e2 q tr L C H IH]; [apply Permutation_refl|].
  eapply Permutation_trans; [|exact IH]. apply Permutation_app_head. constructor.
Qed.

(** ** What is done in a section *)

(** What a goroutine may do while it holds [l]; [h]: it is held at first. *)
Definition in_section (l : lock) (a : act) : Prop :=
  (exists x, accesses a x /\ guards l x) \/ (l = Ptmu /\ exists i, a = Rd (LField i FStatus) \/ a = Rd (LField i FCaps)) \/
  (l <> Bnmu /\ exists r, a = Go r).
Fixpoint tame (l : lock) (h : bool) (w : list act) : Prop :=
  match w with
  | [] => True
  | a :: w =>
      (a = Acq l /\ h = false /\ tame l true w) \/ (a = Rel l /\ h = true /\ tame l false w) \/
      (a <> Acq l /\ a <> Rel l /\ (h = true -> in_section l a) /\ tame l h w)
  end.
Definition tseg (l : lock) (w : list act) : Prop := forall rest, tame l false rest -> tame l false (w ++ rest).
Lemma tseg_nil l : tseg l [].
Proof. intros rest H. exact H. Qed.
Lemma tseg_app l a b : tseg l a -> tseg l b -> tseg l (a ++ b).
Proof. intros A B rest H. rewrite <- app_assoc. apply A, B, H. Qed.
Lemma tseg_concat l ls : Forall (tseg l) ls -> tseg l (concat ls).
Proof. induction 1; cbn [concat]; [apply tseg_nil|now apply tseg_app]. Qed.
Lemma tame_in l a w : in_section l a -> tame l true w -> tame l true (a :: w).
Proof.
  intros I T. cbn. right. right. split; [|split; [|auto]];
    destruct I as [(x & [-> | ->] & _)|[(_ & i & [-> | ->])|(_ & r & ->)]]; discriminate.
Qed.
Lemma tame_acq l w : tame l true w -> tame l false (Acq l :: w).
Proof. intro T. left. auto. Qed.
Lemma tame_rel l w : tame l false w -> tame l true (Rel l :: w).
Proof. intro T. right. left. auto. Qed.
Lemma tame_other l a w : a <> Acq l -> a <> Rel l -> tame l false w -> tame l false (a :: w).
Proof. intros A R T. right. right. split; [exact A|]. split; [exact R|]. split; [discriminate|exact T]. Qed.
Lemma tame_scan l h es rest : (h = true -> l = Ptmu) -> Forall entry_acts es -> tame l h rest -> tame l h (concat es ++ rest).
Proof.
  intros Hl F R. induction F as [|e es E F IH]; cbn [concat]; [exact R|]. rewrite <- app_assoc. destruct h.
  - specialize (Hl eq_refl). subst l. destruct E; cbn [app]; repeat (apply tame_in;
      [first [left; eexists; split; [left; reflexivity|exact I]|right; left; split; [reflexivity|eexists; auto]]|]); exact IH.
  - destruct E; cbn [app]; repeat (apply tame_other; [discriminate|discriminate|]); exact IH.
Qed.
Lemma tseg_scan l w : scan_acts w -> tseg l w.
Proof.
  intros [es F] rest H. rewrite <- !app_assoc. cbn [app].
  destruct (lock_dec l Ptmu) as [->|N].
  - apply tame_acq, tame_in; [left; eexists; split; [left; reflexivity|exact I]|].
    apply tame_scan; [reflexivity|exact F|]. now apply tame_rel.
  - apply tame_other; [congruence|discriminate|]. apply tame_other; [discriminate|discriminate|].
    apply tame_scan; [discriminate|exact F|]. apply tame_other; [discriminate|congruence|exact H].
Qed.
Lemma tame_gos l {A} (f : A -> role) is h rest : (h = true -> l <> Bnmu) -> tame l h rest -> tame l h (map (fun i => Go (f i)) is ++ rest).
Proof.
  intros N H. induction is as [|i is IH]; cbn [map app]; [exact H|]. right. right. split; [discriminate|]. split; [discriminate|].
  split; [|exact IH]. intro Z. right. right. split; [auto|eauto].
Qed.
Lemma tseg_section l k x mid : guards k x ->
  (forall h rest, (h = true -> l = k) -> tame l h rest -> tame l h (mid ++ rest)) ->
  tseg l ([Acq k; Rd x] ++ mid ++ [Rel k]).
Proof.
  intros G M rest H. rewrite <- !app_assoc. cbn [app]. destruct (lock_dec l k) as [<-|N].
  - apply tame_acq, tame_in; [left; exists x; split; [now left|exact G]|].
    apply M; [reflexivity|]. now apply tame_rel.
  - apply tame_other; [congruence|discriminate|]. apply tame_other; [discriminate|discriminate|].
    apply M; [discriminate|]. apply tame_other; [discriminate|congruence|exact H].
Qed.

Section Tame.
Context (l : lock) (PL : pool_lock l).
Ltac tame_tac := let rest := fresh in let H := fresh in intros rest H;
  cbn [app peer_op look is_ban_acts closer_acts watcher_acts connected_acts];
  repeat first [exact H|apply tame_acq|apply tame_rel|apply tame_other; [discriminate|discriminate|]
    |apply tame_in; [left; eexists; split; [first [left; reflexivity|right; reflexivity]|exact I]|]].
Ltac each := destruct l as [| | |i0]; [| | |destruct PL]; tame_tac.

Lemma tseg_look : tseg l look. Proof. each. Qed.
Lemma tseg_peer c : tseg l (peer_op c). Proof. each. Qed.
Lemma tseg_sync c : tseg l [Sync c]. Proof. each. Qed.
Lemma tseg_add w : add_acts w -> tseg l w. Proof. intros []; each. Qed.
Lemma tseg_ban w : ban_acts w -> tseg l w. Proof. intros []; each. Qed.
Lemma tseg_is_ban : tseg l is_ban_acts. Proof. each. Qed.
Lemma tseg_propagate w : propagate_acts w -> tseg l w.
Proof.
  intros [is]. apply (tseg_section l Cpmu LUp); [exact I|].
  intros h rest Hl R. apply tame_gos; [intro Z; rewrite (Hl Z); discriminate|exact R].
Qed.
Lemma tseg_stopped is : tseg l (stopped_acts is).
Proof.
  unfold stopped_acts. change (tseg l ([Sync CQuit] ++ [Acq Ptmu; Rd LTable] ++ map (fun i => Go (Closer i)) is ++ [Rel Ptmu])).
  apply tseg_app; [apply tseg_sync|]. apply (tseg_section l Ptmu LTable); [exact I|].
  intros h rest Hl R. apply tame_gos; [intro Z; rewrite (Hl Z); discriminate|exact R].
Qed.
Lemma tseg_relay i w : relay_acts i w -> tseg l w. Proof. intros []; each. Qed.
Lemma tseg_connect w : connect_acts w -> tseg l w. Proof. intros []; each. Qed.
Lemma tseg_round w : round_acts w -> tseg l w.
Proof. intros [s k Hs Hk|s k Hs Hk]; repeat apply tseg_app; auto using tseg_sync, tseg_scan, tseg_connect. Qed.
Lemma tseg_closer i c : tseg l (closer_acts i c). Proof. each. Qed.
Lemma tseg_watcher i c : tseg l (watcher_acts i c). Proof. each. Qed.
Lemma tseg_process c i w : process_acts c i w -> tseg l w.
Proof.
  intros [ | |s Hs|ls F| | |b Hb|b u r Hb Hu Hr].
  - each.
  - each.
  - apply tseg_app; [now apply tseg_scan|apply tseg_peer].
  - apply tseg_concat. eapply Forall_impl; [|exact F]. exact tseg_add.
  - each.
  - apply tseg_nil.
  - now apply tseg_ban.
  - apply tseg_app; [apply tseg_sync|]. apply tseg_app; [destruct Hb as [-> |Hb]; [apply tseg_nil|now apply tseg_ban]|].
    rewrite !app_assoc. apply tseg_app; [|destruct Hr as [-> |Hr]; [apply tseg_nil|now apply tseg_propagate]].
    destruct Hu as [<-|[<-|[<-|[]]]]; each.
Qed.
Lemma tseg_turn c w : turn_acts c w -> tseg l w.
Proof.
  intros [i p H|]; [|apply tseg_peer]. apply tseg_app; [apply tseg_peer|]. apply tseg_app; [apply tseg_look|]. now apply (tseg_process c i).
Qed.
Lemma tseg_call w : call_acts w -> tseg l w.
Proof. intros []; auto using tseg_add, tseg_ban, tseg_is_ban, tseg_scan, tseg_look, tseg_propagate, tseg_sync. Qed.
Lemma all_tame r w : acts_of r w -> tame l false w.
Proof.
  intro H. rewrite <- (app_nil_r w). assert (T : tseg l w); [|apply T; exact I].
  destruct H as [adds n rounds is Ha Hr|c n|c turns F|i c|i w H|i c|calls F].
  - apply tseg_app; [apply tseg_concat; eapply Forall_impl; [|exact Ha]; exact tseg_add|].
    apply tseg_app. { intros rest H. induction n; cbn [repeat app]; [exact H|]. apply tame_other; [discriminate|discriminate|assumption]. }
    apply tseg_app; [apply tseg_concat; eapply Forall_impl; [|exact Hr]; exact tseg_round|]. apply tseg_stopped.
  - apply tseg_concat. induction n; cbn; constructor; [apply tseg_peer|assumption].
  - apply tseg_app; [|apply tseg_peer]. apply tseg_concat. eapply Forall_impl; [|exact F]. apply tseg_turn.
  - apply tseg_watcher.
  - now apply (tseg_relay i).
  - apply tseg_closer.
  - apply tseg_concat. eapply Forall_impl; [|exact F]. exact tseg_call.
Qed.
End Tame.

(** In every state each goroutine's program is tame, given whether it holds [l]. *)
Definition tamed (l : lock) (s : threads) : Prop :=
  forall t w, nth_error (th_progs s) t = Some w -> exists h, (h = true <-> In (l, t) (th_held s)) /\ tame l h w.
Lemma tamed_step l s e s' : pool_lock l -> inv s -> tamed l s -> thread_step s e s' -> tamed l s'.
Proof.
  intros PL I T E. pose proof (inv_step _ _ _ I E) as I'. destruct E as [s t k w N F|s t k w pre post N E|s t r w v N V|s t a w N A]; intros u w' Q; cbn [th_progs th_held] in *.
  - apply nth_set_inv in Q as [[-> ->]|[Ne Q]].
    + destruct (T t _ N) as (h & Hh & D). cbn [tame] in D. destruct D as [(K & -> & D)|[(K & _)|(K & _ & _ & D)]]; [|discriminate K|].
      * injection K as ->. exists true. split; [|exact D]. split; [intros _; now left|reflexivity].
      * exists h. split; [|exact D]. rewrite Hh. cbn. split; [auto|intros [Z|Z]; [congruence|exact Z]].
    + destruct (T u _ Q) as (h & Hh & D). exists h. split; [|exact D]. rewrite Hh. cbn.
      split; [auto|intros [Z|Z]; [congruence|exact Z]].
  - assert (SAME : forall z, (l, z) <> (k, t) -> (In (l, z) (pre ++ post) <-> In (l, z) (th_held s))).
    { intros z Ne. rewrite E, !in_app_iff. cbn. split; [tauto|]. intros [Z|[Z|Z]]; [tauto|congruence|tauto]. }
    apply nth_set_inv in Q as [[-> ->]|[Ne Q]].
    + destruct (T t _ N) as (h & Hh & D). cbn [tame] in D. destruct D as [(K & _)|[(K & -> & D)|(_ & K & _ & D)]]; [discriminate K| |].
      * injection K as ->. exists false. split; [|exact D]. split; [discriminate|]. intro Z.
        pose proof (inv_nodup _ I) as ND. rewrite E, map_app in ND. cbn [map fst] in ND. apply NoDup_remove_2 in ND.
        destruct ND. rewrite <- map_app. exact (in_map fst _ _ Z).
      * exists h. split; [|exact D]. rewrite Hh. symmetry. apply SAME. congruence.
    + destruct (T u _ Q) as (h & Hh & D). exists h. split; [|exact D]. rewrite Hh. symmetry. apply SAME. congruence.
  - destruct (Nat.lt_ge_cases u (length (set_nth t w (th_progs s)))) as [L|L].
    + rewrite nth_error_app1 in Q by exact L. apply nth_set_inv in Q as [[-> ->]|[Ne Q]]; [|exact (T u _ Q)].
      destruct (T t _ N) as (h & Hh & D). exists h. split; [exact Hh|]. cbn [tame] in D.
      destruct D as [(K & _)|[(K & _)|(_ & _ & _ & D)]]; [discriminate K|discriminate K|exact D].
    + rewrite nth_error_app2 in Q by exact L. destruct (u - length (set_nth t w (th_progs s))) as [|j] eqn:K; [|destruct j; discriminate].
      assert (w' = v) as -> by (cbn in Q; congruence). exists false. split; [|exact (all_tame l PL r v V)].
      split; [discriminate|]. intro Z. pose proof (inv_live _ I _ _ Z). rewrite set_length in L. lia.
  - apply nth_set_inv in Q as [[-> ->]|[Ne Q]]; [|exact (T u _ Q)].
    destruct (T t _ N) as (h & Hh & D). exists h. split; [exact Hh|]. cbn [tame] in D.
    destruct D as [(K & _)|[(K & _)|(_ & _ & _ & D)]]; [subst; destruct A as [(? & [?|?])|(? & ?)]; discriminate..|exact D].
Qed.
Lemma tamed_steps l s tr s' : pool_lock l -> inv s -> tamed l s -> thread_steps s tr s' -> tamed l s'.
Proof.
  intros PL I T H. induction H as [|s tr s1 e s2 H IH E]; [exact T|].
  eapply tamed_step; [exact PL|eapply inv_steps; eassumption|now apply IH|exact E].
Qed.

Theorem section_events tr s t l b : execution tr s -> pool_lock l -> section tr t l b -> forall e, In e b -> done_by t e ->
  (exists a x, e = Did t a /\ accesses a x /\ guards l x) \/
  (l = Ptmu /\ exists i, e = Did t (Rd (LField i FStatus)) \/ e = Did t (Rd (LField i FCaps))) \/
  (l <> Bnmu /\ exists u, e = Forked t u).
Proof.
  intros (w & W & H) PL (a & c & -> & NR) e Ie De. pose proof (inv_start w W) as I0.
  assert (T0 : tamed l (Threads [w] [])).
  { intros [|u] v Q; [|destruct u; discriminate]. assert (v = w) as -> by (cbn in Q; congruence). exists false.
    split; [split; [discriminate|intros []]|]. exact (all_tame l PL Main w W). }
  apply steps_app_inv in H as (m & Ha & H). change (Did t (Acq l) :: b ++ Did t (Rel l) :: c) with ([Did t (Acq l)] ++ b ++ Did t (Rel l) :: c) in H.
  apply steps_app_inv in H as (m1 & E1 & H). apply steps_one_inv in E1. apply in_split in Ie as (b1 & b2 & ->).
  rewrite <- app_assoc in H. apply steps_app_inv in H as (m2 & Hb & H). cbn [app] in H.
  change (e :: b2 ++ Did t (Rel l) :: c) with ([e] ++ b2 ++ Did t (Rel l) :: c) in H.
  apply steps_app_inv in H as (m3 & E & _). apply steps_one_inv in E.
  pose proof (inv_steps _ _ _ I0 Ha) as Im. pose proof (inv_step _ _ _ Im E1) as Im1. pose proof (inv_steps _ _ _ Im1 Hb) as Im2.
  assert (T2 : tamed l m2).
  { eapply tamed_steps; [exact PL|exact Im1| |exact Hb]. eapply tamed_step; [exact PL|exact Im| |exact E1].
    eapply tamed_steps; [exact PL|exact I0|exact T0|exact Ha]. }
  assert (H1 : In (l, t) (th_held m1)).
  { inversion E1 as [| | |? ? ? ? ? [(? & [?|?])|(? & ?)]]; subst; try discriminate. cbn. now left. }
  destruct (held_clear _ _ _ Hb t l Im1 H1) as [H2 _]; [intro Q; apply NR, in_app_iff; now left|].
  assert (NE : e <> Did t (Rel l)) by (intros ->; apply NR, in_elt).
  assert (K : exists x w', next m2 t x w' /\ (e = Did t x \/ exists u r, e = Forked t u /\ x = Go r)).
  { destruct e as [u x|u v]; cbn in De; subst u; inversion E; subst; eauto 8. }
  destruct K as (x & w' & N & K). destruct (T2 t _ N) as (h & Hh & D). cbn [tame] in D.
  assert (h = true) as -> by (now apply Hh).
  destruct D as [(_ & Z & _)|[(-> & _)|(_ & _ & D & _)]]; [discriminate Z|destruct K as [K|(u & r & _ & K)]; [contradiction|discriminate K]|].
  destruct (D eq_refl) as [(y & A & G)|[(-> & i & [-> | ->])|(Nl & r & ->)]]; destruct K as [->|(u & r' & -> & K)];
    try discriminate K; try (destruct A; subst; discriminate); eauto 10.
  inversion E as [| | |? ? ? ? ? [(? & [?|?])|(? & ?)]]; discriminate.
Qed.
