(** Proofs for C133. *)
From Coq Require Import Lia.
From Verif Require Import Sync SpecPool SpecBan SpecHandle PoolProofs BanProofs.
Local Open Scope nat_scope.

Lemma same_refl s : same_others s s. Proof. now repeat split. Qed.
Lemma same_trans s t u : same_others s t -> same_others t u -> same_others s u.
Proof. intros (A & B & C & D & E) (A' & B' & C' & D' & E'). repeat split; congruence. Qed.
Lemma ban_steps_sys s t : ban_steps s t -> sys_steps s t /\ same_others s t.
Proof.
  induction 1 as [s|s t u _ (R & Sm) C St]; [split; [apply YsNone|apply same_refl]|].
  split; [exact (YsMore s t u R (YsBan t u C St))|]. apply (same_trans s t u Sm). clear -St. ban_cases St; now repeat split.
Qed.
Lemma banned_lock p i j : unlocked p j -> unlocked (upd p i (with_status StBanned)) j.
Proof.
  intros (x & N & L). unfold unlocked, upd. cbn [pl_infos set_infos]. rewrite update_nth, N. destruct (Nat.eqb i j).
  - exists (with_status StBanned x). now split.
  - now exists x.
Qed.
Lemma pool_ban_lock closes a p j : unlocked p j -> unlocked (snd (pool_ban closes a p)) j.
Proof.
  intro U. unfold pool_ban. destruct (lookup a (pl_table p)) as [i|]; [|exact U].
  pose proof (banned_lock p i j U) as U'. destruct nth_error as [x|]; [|exact U']. destruct (i_peer x) as [c|]; [|exact U'].
  destruct (closes c); [|exact U']. destruct (pl_bans _); exact U'.
Qed.
(** A call of Ban. *)
Lemma ban_run s a closes : y_crash s = None -> table_free s -> Forall (fun b => b = BnEnd) (y_bans s) -> valid_table (y_pool s) ->
  exists t, sys_steps s t /\ same_others s t /\ y_pool t = snd (pool_ban closes a (y_pool s)) /\
    match fst (pool_ban closes a (y_pool s)) with
    | HDone => y_crash t = None /\ Forall (fun b => b = BnEnd) (y_bans t)
    | HPanic => y_crash t <> None
    | HHang => y_crash t = None
    | HFatal => False
    end.
Proof.
  intros C F E V. set (s' := set_ban s (y_pool s) (y_bans s ++ [BnLookup a])).
  assert (R0 : sys_steps s s') by exact (YsMore s s s' (YsNone s) (YsEnv s s' C (EnBan s a))).
  assert (B0 : same_others s s') by now repeat split.
  destruct (alone s' (y_bans s) a [] V F C eq_refl E ltac:(constructor)) as ((t & Rt & Ot) & H).
  specialize (H t Rt Ot). destruct H as (Hp & He). change (y_pool s') with (y_pool s) in *.
  destruct (ban_steps_sys s' t Rt) as (Rs & Sm).
  assert (D : pool_ban closes a (y_pool s) = pool_ban (fun _ => true) a (y_pool s) \/
     exists i, lookup a (pl_table (y_pool s)) = Some i /\ pool_ban closes a (y_pool s) = (HHang, upd (y_pool s) i (with_status StBanned))).
  { unfold pool_ban. destruct (lookup a (pl_table (y_pool s))) as [i|] eqn:L; [|now left].
    destruct nth_error as [x|]; [|now left]. destruct (i_peer x) as [c|]; [|now left]. destruct (closes c); [now left|]. right. now exists i. }
  destruct D as [->|(i & L & ->)].
  - exists t. split; [exact (sys_app _ _ _ R0 Rs)|]. split; [exact (same_trans _ _ _ B0 Sm)|]. split; [exact Hp|].
    destruct He as [(-> & Ct & Bt)|(-> & Ct)]; [|exact Ct]. split; [exact Ct|]. rewrite Bt. apply Forall_app. split; [exact E|]. now constructor.
  - pose (s1 := set_ban s' (y_pool s') (y_bans s ++ [BnStatus a i])). pose (s2 := set_ban s1 (upd (y_pool s1) i (with_status StBanned)) (y_bans s ++ [BnClose a i])).
    exists s2. cbn [fst snd]. split; [|split; [|split; [reflexivity|exact C]]].
    + apply (sys_app s s' s2 R0). apply (YsMore s' s1 s2).
      * apply (YsMore s' s' s1 (YsNone s')). apply YsBan; [exact C|]. exact (BaFound s' (y_bans s) a i [] eq_refl F L).
      * apply YsBan; [exact C|]. exact (BaStatus s1 (y_bans s) a i [] eq_refl).
    + now repeat split.
Qed.
Lemma pool_eq s p : y_pool s = p -> set_pool s p = s.
Proof. intros <-. now destruct s. Qed.
Lemma adds_run me c l s : undisturbed me s -> exists t, sys_steps s t /\ same_others s t /\
  y_pool t = fold_left (fun p a => pool_add (x_resolve c (x_string c a)) (x_string c a) p) l (y_pool s) /\ y_crash t = None /\ y_bans t = y_bans s.
Proof.
  revert s. enough (G : forall s, y_crash s = None -> table_free s -> exists t, sys_steps s t /\ same_others s t /\
  y_pool t = fold_left (fun p a => pool_add (x_resolve c (x_string c a)) (x_string c a) p) l (y_pool s) /\ y_crash t = None /\ y_bans t = y_bans s).
  { intros s (C & F & _). now apply G. }
  induction l as [|a l IH]; intros s C F.
  - exists s. split; [apply YsNone|]. now repeat split.
  - set (s' := set_pool s (pool_add (x_resolve c (x_string c a)) (x_string c a) (y_pool s))).
    destruct (IH s' C F) as (t & R & Sm & P & Ct & Bt). exists t. split.
    + eapply sys_cons; [|exact R]. apply YsEnv; [exact C|]. now apply EnAdd.
    + split; [exact (same_trans s s' t ltac:(now repeat split) Sm)|]. split; [exact P|]. now split.
Qed.
Lemma list_ext {A} (l m : list A) : (forall k, nth_error l k = nth_error m k) -> l = m.
Proof.
  revert m. induction l as [|x l IH]; intros [|y m] H; [reflexivity|discriminate (H O)|discriminate (H O)|].
  f_equal; [now injection (H O)|]. apply IH. intro k. exact (H (Datatypes.S k)).
Qed.
Lemma upd_same (p : pool) i f g x : nth_error (pl_infos p) i = Some x -> f x = g x -> upd p i f = upd p i g.
Proof.
  intros N Q. unfold upd. f_equal. apply list_ext. intro k. rewrite !update_nth. destruct (Nat.eqb_spec i k) as [<-|_]; [|reflexivity].
  rewrite N. cbn. now rewrite Q.
Qed.
Lemma upd_id (p : pool) i f x : nth_error (pl_infos p) i = Some x -> f x = x -> upd p i f = p.
Proof.
  intros N Q. transitivity (set_infos p (pl_infos p)); [|now destruct p]. unfold upd. f_equal. apply list_ext. intro k. rewrite update_nth.
  destruct (Nat.eqb_spec i k) as [<-|_]; [|reflexivity]. rewrite N. cbn. now rewrite Q.
Qed.
Section Handle.
Context (X : Ext) (S : storage X).
Definition ok_after (s : sys) (o : outcome X S) : Prop :=
  exists t, sys_steps s t /\ same_others s t /\ y_pool t = nd_pool (o_node o) /\ (y_crash t <> None -> o_end o = HPanic) /\
    (o_end o = HDone -> Forall (fun b => b = BnEnd) (y_bans t)).
Lemma after_run s i h (n : node X S) : y_pool s = nd_pool n -> y_crash s = None -> Forall (fun b => b = BnEnd) (y_bans s) -> unlocked (y_pool s) i ->
  ok_after s (after_block i h n).
Proof.
  intros P C E U. destruct U as (x & N & Lk). unfold after_block.
  destruct ((i_td x <? h_total_difficulty h) || (i_height x <? h_height h))%N eqn:Q.
  - exists (set_pool s (upd (y_pool s) i (with_record (h_total_difficulty h) (h_height h)))). split.
    { apply (YsMore s s _ (YsNone s)). apply YsEnv; [exact C|]. apply EnRecord. now exists x. }
    split; [now repeat split|]. split; [|split; [cbn; congruence|intros _; exact E]]. cbn [o_node with_pool nd_pool set_pool y_pool]. rewrite <- P.
    apply (upd_same _ _ _ _ x N). now rewrite Q.
  - exists s. split; [apply YsNone|]. split; [apply same_refl|]. split; [|split; [congruence|intros _; exact E]]. cbn [o_node with_pool nd_pool]. rewrite <- P.
    symmetry. apply (upd_id _ _ _ x N). now rewrite Q.
Qed.
Lemma banning_run s c (n : node X S) k : y_pool s = nd_pool n -> y_crash s = None -> table_free s -> Forall (fun b => b = BnEnd) (y_bans s) -> valid_table (y_pool s) ->
  (forall t p, sys_steps s t -> same_others s t -> y_pool t = p -> pool_ban (x_closes c) (x_remote c) (nd_pool n) = (HDone, p) -> y_crash t = None ->
     Forall (fun b => b = BnEnd) (y_bans t) -> ok_after t (k (with_pool n p))) ->
  ok_after s (banning c n k).
Proof.
  intros P C F E V K. destruct (ban_run s (x_remote c) (x_closes c) C F E V) as (t & R & Sm & Pt & H). rewrite P in *.
  unfold banning. destruct (pool_ban (x_closes c) (x_remote c) (nd_pool n)) as [e p]. cbn [fst snd] in *. destruct e.
  - destruct H as (Ct & Et). destruct (K t p R Sm Pt eq_refl Ct Et) as (u & Ru & Su & Pu & Cu & Eu). exists u.
    split; [exact (sys_app _ _ _ R Ru)|]. split; [exact (same_trans _ _ _ Sm Su)|]. now split.
  - exists t. split; [exact R|]. split; [exact Sm|]. split; [exact Pt|]. split; [reflexivity|discriminate].
  - destruct H.
  - exists t. split; [exact R|]. split; [exact Sm|]. split; [exact Pt|]. split; [congruence|discriminate].
Qed.
Lemma stay s (n n' : node X S) e ans rl : y_pool s = nd_pool n -> nd_pool n' = nd_pool n -> y_crash s = None -> Forall (fun b => b = BnEnd) (y_bans s) ->
  ok_after s (Outcome e n' ans rl).
Proof.
  intros P P' C E. exists s. split; [apply YsNone|]. split; [apply same_refl|]. cbn [o_node o_end]. split; [congruence|]. split; [congruence|auto].
Qed.
Lemma record_run s (n : node X S) i td h ans : y_pool s = nd_pool n -> y_crash s = None -> Forall (fun b => b = BnEnd) (y_bans s) -> unlocked (y_pool s) i ->
  ok_after s (Outcome HDone (with_pool n (upd (nd_pool n) i (with_record td h))) ans []).
Proof.
  intros P C E U. exists (set_pool s (upd (y_pool s) i (with_record td h))). split.
  - apply (YsMore s s _ (YsNone s)). apply YsEnv; [exact C|]. now apply EnRecord.
  - split; [now repeat split|]. split; [cbn; now rewrite P|]. split; [cbn; congruence|intros _; exact E].
Qed.
Lemma handle_run c (n : node X S) m s : y_pool s = nd_pool n -> undisturbed (x_me c) s -> valid_table (y_pool s) -> ok_after s (process_message c n m).
Proof.
  intros P Un V. destruct Un as (C & F & E & U). pose proof (conj C (conj F (conj E U)) : undisturbed (x_me c) s) as Un.
  unfold process_message. rewrite <- P at 1. destruct (peer_info (x_me c) (y_pool s)) as [i|] eqn:L; [|now apply (stay s n n)].
  specialize (U i eq_refl).
  assert (Ban : forall n1 : node X S, nd_pool n1 = nd_pool n -> ok_after s (banning c n1 (fun n => Outcome HDone n [] []))).
  { intros n1 P1. apply banning_run; auto; [congruence|]. intros t p R Sm Pt _ Ct Et. now apply (stay t (with_pool n1 p) (with_pool n1 p)). }
  destruct m; try (now apply (stay s n n)).
  - now apply record_run.
  - now apply record_run.
  - destruct (adds_run (x_me c) c l s Un) as (t & R & Sm & Pt & Ct & Bt). exists t. split; [exact R|]. split; [exact Sm|].
    split; [cbn; now rewrite Pt, P|]. split; [congruence|]. intros _. now rewrite Bt.
  - destruct get_block_headers; now apply (stay s n n).
  - destruct (fst (process_headers _ _ _)); now apply (stay s n).
  - destruct (fst (process_headers _ _ _)); try (now apply (stay s n)). now apply Ban.
  - destruct get_block; now apply (stay s n n).
  - destruct (fst (process_block _ _ _)) eqn:Q; try (now apply (stay s n)).
    + apply after_run; auto.
    + apply banning_run; auto. intros t p R Sm Pt Hp Ct Et. apply after_run; auto. rewrite Pt.
      pose proof (pool_ban_lock (x_closes c) (x_remote c) (nd_pool n) i ltac:(rewrite <- P; exact U)) as Hl.
      cbn [with_chain nd_pool] in Hp. rewrite Hp in Hl. exact Hl.
  - destruct (nd_mempool n) as [f|]; [|now apply (stay s n n)]. destruct (f t); try (now apply (stay s n n)). now apply Ban.
Qed.
End Handle.
