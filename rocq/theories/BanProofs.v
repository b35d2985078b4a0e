(** Proofs for C132. *)
From Coq Require Import Lia.
From Verif Require Import Sync SpecPool SpecBan PoolProofs.
Local Open Scope nat_scope.

(** *** A call that is alone *)
Section Alone.
Context (pre post : list ban_pc) (Epre : Forall (fun b => b = BnEnd) pre) (Epost : Forall (fun b => b = BnEnd) post).
Lemma only l b r x : pre ++ x :: post = l ++ b :: r -> b <> BnEnd -> l = pre /\ b = x /\ r = post.
Proof.
  intros E N. revert E. generalize Epre. generalize pre. induction l as [|z l IH]; intros [|y p] F E; cbn in E.
  - injection E as -> ->. now repeat split.
  - injection E as -> _. inversion F; subst. now elim N.
  - injection E as -> E. exfalso. apply N. rewrite Forall_forall in Epost. apply Epost. rewrite E. apply in_elt.
  - injection E as -> E. inversion F; subst. destruct (IH p ltac:(assumption) E) as (-> & -> & ->). now repeat split.
Qed.
Definition at_ (s : sys) p b : sys := set_ban s p (pre ++ b :: post).
Definition banned_at (p : pool) i := upd p i (with_status StBanned).
Definition recorded (p : pool) i a l := set_banned (banned_at p i) (Some (a :: l)).
(** The states it goes through. *)
Inductive on_way (s : sys) (a : bytes) : sys -> Prop :=
| OwStart : on_way s a (at_ s (y_pool s) (BnLookup a))
| OwNone : lookup a (pl_table (y_pool s)) = None -> on_way s a (at_ s (y_pool s) BnEnd)
| OwStatus i : lookup a (pl_table (y_pool s)) = Some i -> on_way s a (at_ s (y_pool s) (BnStatus a i))
| OwClose i : lookup a (pl_table (y_pool s)) = Some i -> on_way s a (at_ s (banned_at (y_pool s) i) (BnClose a i))
| OwNil i x : lookup a (pl_table (y_pool s)) = Some i -> nth_error (pl_infos (y_pool s)) i = Some x -> i_peer x = None ->
    on_way s a (down (at_ s (banned_at (y_pool s) i) (BnClose a i)) NilPeer)
| OwMap i x c : lookup a (pl_table (y_pool s)) = Some i -> nth_error (pl_infos (y_pool s)) i = Some x -> i_peer x = Some c ->
    on_way s a (at_ s (banned_at (y_pool s) i) (BnMap a))
| OwNilMap i x c : lookup a (pl_table (y_pool s)) = Some i -> nth_error (pl_infos (y_pool s)) i = Some x -> i_peer x = Some c ->
    pl_bans (y_pool s) = None -> on_way s a (down (at_ s (banned_at (y_pool s) i) (BnMap a)) NilBans)
| OwDelete i x c l : lookup a (pl_table (y_pool s)) = Some i -> nth_error (pl_infos (y_pool s)) i = Some x -> i_peer x = Some c ->
    pl_bans (y_pool s) = Some l -> on_way s a (at_ s (recorded (y_pool s) i a l) (BnDelete a))
| OwEnd i x c l : lookup a (pl_table (y_pool s)) = Some i -> nth_error (pl_infos (y_pool s)) i = Some x -> i_peer x = Some c ->
    pl_bans (y_pool s) = Some l ->
    on_way s a (at_ s (set_table (recorded (y_pool s) i a l) (remove a (pl_table (recorded (y_pool s) i a l)))) BnEnd).
Lemma way_step s a t u : on_way s a t -> y_crash t = None -> ban_step t u -> on_way s a u.
Proof.
  intros W C St. assert (Nx : forall i x, nth_error (pl_infos (y_pool s)) i = Some x -> nth_error (pl_infos (banned_at (y_pool s) i)) i = Some (with_status StBanned x)).
  { intros i x N. unfold banned_at, upd. cbn [pl_infos set_infos]. rewrite update_nth, Nat.eqb_refl, N. reflexivity. }
  assert (Nx' : forall i y, nth_error (pl_infos (banned_at (y_pool s) i)) i = Some y -> exists x, nth_error (pl_infos (y_pool s)) i = Some x /\ i_peer x = i_peer y).
  { intros i y. unfold banned_at, upd. cbn [pl_infos set_infos]. rewrite update_nth, Nat.eqb_refl. destruct (nth_error _ i) as [x|]; [|discriminate]. cbn. intro E. injection E as <-. now exists x. }
  destruct W; cbn in C; try discriminate C;
  (inversion St; subst; match goal with E : y_bans _ = _ ++ _ :: _ |- _ => cbn in E; destruct (only _ _ _ _ E) as (-> & Eb & ->); try discriminate; try discriminate Eb; injection Eb; intros; subst end);
  cbn in *; try match goal with N : nth_error _ _ = Some ?y, P : i_peer ?y = _ |- _ => destruct (Nx' _ _ N) as (z & Nz & Pz); rewrite P in Pz end.
  - exact (OwNone s a ltac:(assumption)).
  - exact (OwStatus s a _ ltac:(eassumption)).
  - exact (OwClose s a _ ltac:(eassumption)).
  - exact (OwNil s a _ z ltac:(eassumption) Nz Pz).
  - exact (OwMap s a _ z _ ltac:(eassumption) Nz Pz).
  - exact (OwNilMap s a _ _ _ ltac:(eassumption) ltac:(eassumption) ltac:(eassumption) ltac:(eassumption)).
  - exact (OwDelete s a _ _ _ _ ltac:(eassumption) ltac:(eassumption) ltac:(eassumption) ltac:(eassumption)).
  - match goal with D : pl_bans (y_pool s) = Some _ |- _ => exact (OwEnd s a _ _ _ _ ltac:(eassumption) ltac:(eassumption) ltac:(eassumption) D) end.
Qed.
Lemma way_steps s a t : ban_steps s t -> y_bans s = pre ++ BnLookup a :: post -> on_way s a t.
Proof.
  induction 1 as [s|s t u _ IH C St]; intro B.
  - assert (Q : s = at_ s (y_pool s) (BnLookup a)) by (destruct s; unfold at_, set_ban; cbn in *; now rewrite B).
    rewrite Q at 2. apply OwStart.
  - eapply way_step; eauto.
Qed.
End Alone.

Section Alone2.
Context (pre post : list ban_pc) (Epre : Forall (fun b => b = BnEnd) pre) (Epost : Forall (fun b => b = BnEnd) post).
Context (s : sys) (a : bytes) (F : table_free s) (B : y_bans s = pre ++ BnLookup a :: post) (C : y_crash s = None).
Context (V : forall i, lookup a (pl_table (y_pool s)) = Some i -> i < List.length (pl_infos (y_pool s))).
Definition ends_as (t : sys) : Prop :=
  let (e, p) := pool_ban (fun _ => true) a (y_pool s) in
  y_pool t = p /\
  ((e = HDone /\ y_crash t = None /\ y_bans t = pre ++ BnEnd :: post) \/ (e = HPanic /\ y_crash t <> None)).
Lemma banned_nth i x : nth_error (pl_infos (y_pool s)) i = Some x ->
  nth_error (pl_infos (upd (y_pool s) i (with_status StBanned))) i = Some (with_status StBanned x).
Proof. intros N. unfold upd. cbn [pl_infos set_infos]. rewrite update_nth, Nat.eqb_refl, N. reflexivity. Qed.
Lemma has i : lookup a (pl_table (y_pool s)) = Some i -> exists x, nth_error (pl_infos (y_pool s)) i = Some x.
Proof. intro L. apply V in L. apply nth_error_Some in L. destruct nth_error as [x|]; [now exists x|easy]. Qed.
Lemma alone_over t : on_way pre post s a t -> ban_over t -> ends_as t.
Proof.
  intros W O. unfold ban_over in O. unfold ends_as, pool_ban. destruct W.
  - exfalso. cbn in O. destruct (lookup a (pl_table (y_pool s))) as [i|] eqn:L.
    + refine (O C _ (BaFound (at_ pre post s (y_pool s) (BnLookup a)) pre a i post eq_refl F L)).
    + refine (O C _ (BaUnknown (at_ pre post s (y_pool s) (BnLookup a)) pre a post eq_refl F L)).
  - rewrite H. split; [reflexivity|]. left. now repeat split.
  - exfalso. refine (O C _ (BaStatus (at_ pre post s (y_pool s) (BnStatus a i)) pre a i post eq_refl)).
  - exfalso. destruct (has i H) as [x N]. apply banned_nth in N. destruct (i_peer x) as [c|] eqn:P.
    + refine (O C _ (BaClosed (at_ pre post s (banned_at (y_pool s) i) (BnClose a i)) pre a i post _ c eq_refl N P)).
    + refine (O C _ (BaNil (at_ pre post s (banned_at (y_pool s) i) (BnClose a i)) pre a i post _ eq_refl N P)).
  - rewrite H, (banned_nth _ _ H0). cbn [with_status i_peer]. rewrite H1. split; [reflexivity|]. right. now split.
  - exfalso. destruct (pl_bans (y_pool s)) as [l|] eqn:L.
    + refine (O C _ (BaMap (at_ pre post s (banned_at (y_pool s) i) (BnMap a)) pre a post l eq_refl L)).
    + refine (O C _ (BaNilMap (at_ pre post s (banned_at (y_pool s) i) (BnMap a)) pre a post eq_refl L)).
  - rewrite H, (banned_nth _ _ H0). cbn [with_status i_peer]. rewrite H1. cbn [upd pl_bans set_infos]. rewrite H2. split; [reflexivity|]. right. now split.
  - exfalso. refine (O C _ (BaDelete (at_ pre post s (recorded (y_pool s) i a l) (BnDelete a)) pre a post eq_refl F)).
  - rewrite H, (banned_nth _ _ H0). cbn [with_status i_peer]. rewrite H1. cbn [upd pl_bans set_infos]. rewrite H2. split; [reflexivity|]. left. now repeat split.
Qed.
Definition full (t : sys) : Prop := ban_steps s t /\ ban_over t.
Ltac stuck_end := intros _ u Su; inversion Su; subst; match goal with E : y_bans _ = _ ++ _ :: _ |- _ => cbn in E; destruct (only pre post Epre Epost _ _ _ _ E) as (-> & Eb & ->); discriminate end.
Lemma alone_full : exists t, full t.
Proof.
  assert (Q : s = at_ pre post s (y_pool s) (BnLookup a)) by (destruct s; unfold at_, set_ban; cbn in *; now rewrite B).
  assert (S0 : ban_steps s (at_ pre post s (y_pool s) (BnLookup a))) by (rewrite <- Q; apply BsNone).
  pose proof has as Hs. destruct (lookup a (pl_table (y_pool s))) as [i|] eqn:L.
  2: { eexists. split; [exact (BsMore _ _ _ S0 C (BaUnknown (at_ pre post s (y_pool s) (BnLookup a)) pre a post eq_refl F L))|]. stuck_end. }
  assert (S1 : ban_steps s (at_ pre post s (y_pool s) (BnStatus a i)))
    by exact (BsMore _ _ _ S0 C (BaFound (at_ pre post s (y_pool s) (BnLookup a)) pre a i post eq_refl F L)).
  assert (S2 : ban_steps s (at_ pre post s (banned_at (y_pool s) i) (BnClose a i)))
    by exact (BsMore _ _ _ S1 C (BaStatus (at_ pre post s (y_pool s) (BnStatus a i)) pre a i post eq_refl)).
  destruct (Hs i eq_refl) as [x N]. apply banned_nth in N. destruct (i_peer x) as [c|] eqn:P.
  2: { eexists. split; [exact (BsMore _ _ _ S2 C (BaNil (at_ pre post s (banned_at (y_pool s) i) (BnClose a i)) pre a i post _ eq_refl N P))|]. intro D. discriminate D. }
  assert (S3 : ban_steps s (at_ pre post s (banned_at (y_pool s) i) (BnMap a)))
    by exact (BsMore _ _ _ S2 C (BaClosed (at_ pre post s (banned_at (y_pool s) i) (BnClose a i)) pre a i post _ c eq_refl N P)).
  destruct (pl_bans (y_pool s)) as [l|] eqn:M.
  2: { eexists. split; [exact (BsMore _ _ _ S3 C (BaNilMap (at_ pre post s (banned_at (y_pool s) i) (BnMap a)) pre a post eq_refl M))|]. intro D. discriminate D. }
  assert (S4 : ban_steps s (at_ pre post s (recorded (y_pool s) i a l) (BnDelete a)))
    by exact (BsMore _ _ _ S3 C (BaMap (at_ pre post s (banned_at (y_pool s) i) (BnMap a)) pre a post l eq_refl M)).
  eexists. split; [exact (BsMore _ _ _ S4 C (BaDelete (at_ pre post s (recorded (y_pool s) i a l) (BnDelete a)) pre a post eq_refl F))|]. stuck_end.
Qed.
Lemma alone_ends t : full t -> ends_as t.
Proof. intros (R & O). apply alone_over; [|exact O]. now apply way_steps. Qed.
End Alone2.

(** *** A call of Ban that returns *)
Lemma is_ban_cons a b l p : is_ban a (set_banned p (Some (b :: l))) = bytes_eqb a b || existsb (bytes_eqb a) l.
Proof. reflexivity. Qed.
Definition back (a : bytes) (s : sys) (b : ban_pc) : Prop :=
  match b with
  | BnLookup x | BnStatus x _ | BnClose x _ | BnMap x => x = a
  | BnDelete x => x = a /\ is_ban a (y_pool s) = true
  | BnEnd => is_ban a (y_pool s) = true
  end.
Definition dels (a : bytes) (s : sys) : Prop := In (BnDelete a) (y_bans s) -> is_ban a (y_pool s) = true.
Definition rinv a k (s : sys) : Prop :=
  dels a s /\ (listed a (y_pool s) \/ is_ban a (y_pool s) = true) /\ exists b, nth_error (y_bans s) k = Some b /\ back a s b.
(** What a step does to the table, to the record of bans and to the calls of Ban. *)
Lemma ban_mono ad s0 t : sys_step s0 t -> is_ban ad (y_pool s0) = true -> is_ban ad (y_pool t) = true.
Proof.
  intros St. unfold is_ban. destruct St as [_ St|_ St|_ St|_ St|_ St].
  - run_cases St; fields; auto.
  - watch_cases St; fields; auto.
  - ban_cases St; fields; auto. rewrite K. cbn. intros ->. apply Bool.orb_true_r.
  - close_cases St; fields; auto.
  - env_cases St; fields; auto. destruct (add_cases r a (y_pool s)) as [->|(_ & _ & _ & ->)]; auto.
Qed.
Lemma listed_step ad s0 t : sys_step s0 t -> dels ad s0 -> listed ad (y_pool s0) -> listed ad (y_pool t) \/ is_ban ad (y_pool s0) = true.
Proof.
  intros St D. unfold listed. destruct St as [_ St|_ St|_ St|_ St|_ St].
  - run_cases St; fields; auto.
  - watch_cases St; fields; auto.
  - ban_cases St; fields; auto. intro I. destruct (bytes_eqb ad a) eqn:Q.
    + apply bytes_eqb_eq in Q. subst. right. apply D. rewrite E. apply in_elt.
    + left. apply in_map_iff in I. destruct I as (kv & <- & I). apply in_map_iff. exists kv. split; [reflexivity|]. apply remove_in.
      split; [exact I|]. intros Z. rewrite Z, bytes_eqb_refl in Q. discriminate.
  - close_cases St; fields; auto.
  - env_cases St; fields; auto. destruct (add_cases r a (y_pool s)) as [->|(_ & K & _ & ->)]; auto.
    cbn [pl_table set_table set_infos]. intro I. left. now right.
Qed.
Lemma in_other {A} (pre : list A) x y z post : In x (pre ++ z :: post) -> x <> z -> In x (pre ++ y :: post).
Proof. rewrite !in_app_iff. cbn. intros [?|[?|?]] ?; auto. congruence. Qed.
Lemma dels_step ad s0 t : sys_step s0 t -> dels ad s0 -> dels ad t.
Proof.
  intros St D I. destruct (is_ban ad (y_pool s0)) eqn:Is; [exact (ban_mono ad s0 t St Is)|].
  assert (No : ~ In (BnDelete ad) (y_bans s0)) by (intro J; apply D in J; congruence). clear D Is.
  destruct St as [_ St|_ St|_ St|_ St|_ St].
  - exfalso. run_cases St; fields; auto.
  - exfalso. watch_cases St; fields; auto.
  - ban_cases St; fields.
    7: { destruct (bytes_eqb ad a) eqn:Q; [rewrite is_ban_cons, Q; reflexivity|]. exfalso. apply No. rewrite E. eapply in_other; [exact I|].
         intro Z. injection Z as ->. rewrite bytes_eqb_refl in Q. discriminate. }
    all: exfalso; try (now apply No); apply No; rewrite E; eapply in_other; try exact I; discriminate.
  - exfalso. close_cases St; fields; auto.
  - exfalso. env_cases St; fields; auto. apply in_app_iff in I. destruct I as [I|[I|[]]]; [auto|discriminate].
Qed.
Lemma dels_reach ad bans t : sys_steps (sys_start bans) t -> dels ad t.
Proof. intro R. revert R. apply sys_ind'; [intros []|]. intros u v D St. now apply (dels_step ad u v). Qed.
Lemma nth_put {A} (pre : list A) x y post k b : nth_error (pre ++ x :: post) k = Some b ->
  (k = List.length pre /\ b = x) \/ nth_error (pre ++ y :: post) k = Some b.
Proof.
  intro N. destruct (Nat.eq_dec k (List.length pre)) as [->|Ne].
  - left. rewrite nth_error_app2, Nat.sub_diag in N by lia. injection N as <-. auto.
  - right. destruct (Nat.lt_ge_cases k (List.length pre)) as [L|G].
    + rewrite nth_error_app1 in * by lia. exact N.
    + rewrite nth_error_app2 in * by lia. destruct (k - List.length pre) eqn:Q; [lia|exact N].
Qed.
Lemma nth_here {A} (pre : list A) y post : nth_error (pre ++ y :: post) (List.length pre) = Some y.
Proof. rewrite nth_error_app2, Nat.sub_diag by lia. reflexivity. Qed.
Lemma back_mono ad s0 t b : sys_step s0 t -> back ad s0 b -> back ad t b.
Proof. intros St. destruct b; cbn; auto; [intros (E & H); split; [exact E|]|intro H]; now apply (ban_mono ad s0 t). Qed.
Lemma rinv_step ad k s0 t : sys_step s0 t -> rinv ad k s0 -> rinv ad k t.
Proof.
  intros St (D & Ld & b & Nb & Hb). split; [exact (dels_step ad s0 t St D)|]. split.
  { destruct Ld as [Ld|Ld]; [|right; exact (ban_mono ad s0 t St Ld)]. destruct (listed_step ad s0 t St D Ld) as [?|Is]; [now left|].
    right. exact (ban_mono ad s0 t St Is). }
  pose proof (fun c => back_mono ad s0 t c St) as Mono. destruct St as [Ok St|Ok St|Ok St|Ok St|Ok St].
  - exists b. split; [|auto]. run_cases St; exact Nb.
  - exists b. split; [|auto]. watch_cases St; exact Nb.
  - assert (Keep : forall pre x y post, y_bans s0 = pre ++ x :: post -> y_bans t = pre ++ y :: post -> (back ad s0 x -> back ad t y) ->
      exists c, nth_error (y_bans t) k = Some c /\ back ad t c).
    { intros pre x y post E E' H. rewrite E in Nb. destruct (nth_put pre x y post k b Nb) as [(-> & ->)|Nb'].
      - exists y. rewrite E'. split; [apply nth_here|]. now apply H.
      - exists b. rewrite E'. split; [exact Nb'|]. now apply Mono. }
    ban_cases St.
    + eapply (Keep pre _ _ post E eq_refl). cbn. intros ->. destruct Ld as [Ld|Ld]; [|exact Ld]. apply lookup_none in K. now elim K.
    + eapply (Keep pre _ _ post E eq_refl). cbn. auto.
    + eapply (Keep pre _ _ post E eq_refl). cbn. auto.
    + exists b. auto.
    + eapply (Keep pre _ _ post E eq_refl). cbn. auto.
    + exists b. auto.
    + eapply (Keep pre _ _ post E eq_refl). cbn. intros ->. now rewrite bytes_eqb_refl.
    + eapply (Keep pre _ _ post E eq_refl). cbn. intros (_ & H). exact H.
  - exists b. split; [|auto]. close_cases St; exact Nb.
  - exists b. split; [|auto]. env_cases St; try exact Nb. cbn. rewrite nth_error_app1; [exact Nb|]. apply nth_error_Some. congruence.
Qed.
Lemma returns_recorded bans s t ad k : sys_steps (sys_start bans) s -> nth_error (y_bans s) k = Some (BnLookup ad) -> listed ad (y_pool s) ->
  sys_steps s t -> nth_error (y_bans t) k = Some BnEnd -> is_ban ad (y_pool t) = true.
Proof.
  intros R N L Rt E. assert (I : rinv ad k t).
  { revert t Rt E. intros t Rt _. revert t Rt. apply sys_ind'.
    - split; [exact (dels_reach ad bans s R)|]. split; [now left|]. exists (BnLookup ad). now split.
    - intros u v I St. exact (rinv_step ad k u v St I). }
  destruct I as (_ & _ & b & Nb & H). rewrite E in Nb. injection Nb as <-. exact H.
Qed.
Lemma stays_recorded s t a : sys_steps s t -> is_ban a (y_pool s) = true -> is_ban a (y_pool t) = true.
Proof. intros R H. revert t R. apply sys_ind'; [exact H|]. intros u v I St. exact (ban_mono a u v St I). Qed.
Lemma no_ban_step s0 t : sys_step s0 t -> pl_bans (y_pool s0) = None -> pl_bans (y_pool t) = None.
Proof.
  intros St. destruct St as [_ St|_ St|_ St|_ St|_ St].
  - run_cases St; fields; auto.
  - watch_cases St; fields; auto.
  - ban_cases St; fields; auto. congruence.
  - close_cases St; fields; auto.
  - env_cases St; fields; auto. destruct (add_cases r a (y_pool s)) as [->|(_ & _ & _ & ->)]; auto.
Qed.
Lemma never_returns s t a k : sys_steps (sys_start None) s -> nth_error (y_bans s) k = Some (BnLookup a) -> listed a (y_pool s) ->
  sys_steps s t -> nth_error (y_bans t) k <> Some BnEnd.
Proof.
  intros R N L Rt E. pose proof (returns_recorded None s t a k R N L Rt E) as H.
  assert (Z : pl_bans (y_pool t) = None).
  { pose proof (sys_app _ _ _ R Rt) as Ra. revert Ra. clear. revert t. apply sys_ind'; [reflexivity|]. intros u v I St. exact (no_ban_step u v St I). }
  unfold is_ban in H. rewrite Z in H. discriminate.
Qed.
Lemma alone s pre a post : valid_table (y_pool s) -> table_free s -> y_crash s = None ->
  y_bans s = pre ++ BnLookup a :: post -> Forall (fun b => b = BnEnd) pre -> Forall (fun b => b = BnEnd) post ->
  (exists t, ban_steps s t /\ ban_over t) /\
  forall t, ban_steps s t -> ban_over t ->
    y_pool t = snd (pool_ban (fun _ => true) a (y_pool s)) /\
    ((fst (pool_ban (fun _ => true) a (y_pool s)) = HDone /\ y_crash t = None /\ y_bans t = pre ++ BnEnd :: post) \/
     (fst (pool_ban (fun _ => true) a (y_pool s)) = HPanic /\ y_crash t <> None)).
Proof.
  intros V F C B P Q.
  assert (V' : forall i, lookup a (pl_table (y_pool s)) = Some i -> i < List.length (pl_infos (y_pool s))).
  { intros i L. apply lookup_in in L. exact (V a i L). }
  split; [exact (alone_full pre post P Q s a F B C V')|]. intros t R O.
  pose proof (alone_ends pre post P Q s a F B C V' t (conj R O)) as H. unfold ends_as in H.
  destruct (pool_ban (fun _ => true) a (y_pool s)) as [e p]. exact H.
Qed.
