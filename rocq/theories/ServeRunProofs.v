(** Proofs for C133: whole connections. *)
From Coq Require Import Lia.
From Verif Require Import Serve SpecPool SpecBan SpecHandle PoolProofs BanProofs HandleProofs.
Local Open Scope nat_scope.

Definition kept (p q : pool) : Prop :=
  (forall j, unlocked p j -> unlocked q j) /\
  (forall a j, lookup a (pl_table q) = Some j -> lookup a (pl_table p) = Some j \/ unlocked q j).
Lemma kept_refl p : kept p p. Proof. split; auto. Qed.
Lemma kept_trans p q r : kept p q -> kept q r -> kept p r.
Proof.
  intros (A & B) (A' & B'). split; [auto|]. intros a j L. destruct (B' a j L) as [L'|U]; [|now right].
  destruct (B a j L') as [?|U]; [now left|right; auto].
Qed.
Lemma kept_upd p i f : (forall x, i_locked (f x) = i_locked x) -> kept p (upd p i f).
Proof.
  intro H. split; [|now left]. intros j (x & N & L). unfold unlocked, upd. cbn [pl_infos set_infos]. rewrite update_nth, N. destruct (Nat.eqb i j).
  - exists (f x). split; [reflexivity|]. now rewrite H.
  - now exists x.
Qed.
Lemma kept_add r a p : kept p (pool_add r a p).
Proof.
  destruct (add_cases r a p) as [->|(_ & K & _ & ->)]; [apply kept_refl|]. split.
  - intros j (x & N & L). exists x. split; [|exact L]. cbn. rewrite nth_error_app1; [exact N|]. apply nth_error_Some. congruence.
  - intros b j. cbn [pl_table set_table set_infos lookup]. destruct (bytes_eqb b a); [|now left]. intro E. injection E as <-. right.
    exists fresh_info. split; [|reflexivity]. cbn. rewrite nth_error_app2, Nat.sub_diag; [reflexivity|lia].
Qed.
Lemma lookup_remove {A} a b (t : list (bytes * A)) j : lookup a (remove b t) = Some j -> lookup a t = Some j.
Proof.
  unfold remove. induction t as [|(k, v) t IH]; [auto|]. cbn [filter fst lookup]. destruct (bytes_eqb b k) eqn:Q; cbn [negb].
  - apply bytes_eqb_eq in Q. subst k. intro H. destruct (bytes_eqb a b) eqn:Q; [|now apply IH]. apply bytes_eqb_eq in Q. subst b. exfalso.
    apply lookup_in in H. fold (remove a t) in H. apply remove_in in H. now apply (proj2 H).
  - cbn [lookup]. destruct (bytes_eqb a k); [auto|exact IH].
Qed.
Lemma kept_ban closes a p : kept p (snd (pool_ban closes a p)).
Proof.
  unfold pool_ban. destruct (lookup a (pl_table p)) as [i|]; [|apply kept_refl].
  assert (K : kept p (upd p i (with_status StBanned))) by (apply kept_upd; now intros []). destruct nth_error as [x|]; [|exact K].
  destruct (i_peer x) as [c|]; [|exact K]. destruct (closes c); [|exact K]. destruct (pl_bans _) as [l|]; [|exact K].
  apply (kept_trans _ _ _ K). split; [intros j U; exact U|]. intros b j L. left. apply lookup_remove in L. exact L.
Qed.
Section Serve.
Context (X : Ext) (S : storage X).
Lemma kept_after i h (n : node X S) : kept (nd_pool n) (nd_pool (o_node (after_block i h n))).
Proof. cbn. apply kept_upd. intro x. now destruct (_ || _). Qed.
Lemma kept_banning c (n : node X S) k p : nd_pool n = p -> (forall q, kept q (nd_pool (o_node (k (with_pool n q))))) -> kept p (nd_pool (o_node (banning c n k))).
Proof.
  intros <- K. unfold banning. pose proof (kept_ban (x_closes c) (x_remote c) (nd_pool n)) as H.
  destruct (pool_ban (x_closes c) (x_remote c) (nd_pool n)) as [[] q]; cbn [snd] in H; try exact H. exact (kept_trans _ _ _ H (K q)).
Qed.
Lemma kept_handle c (n : node X S) m : kept (nd_pool n) (nd_pool (o_node (process_message c n m))).
Proof.
  unfold process_message. destruct (peer_info (x_me c) (nd_pool n)) as [i|]; [|apply kept_refl].
  destruct m; try apply kept_refl.
  - now apply kept_upd.
  - now apply kept_upd.
  - cbn [o_node with_pool nd_pool]. generalize (nd_pool n). clear n i. induction l as [|a l IH]; intro p; [apply kept_refl|].
    cbn [fold_left]. exact (kept_trans _ _ _ (kept_add _ _ p) (IH _)).
  - destruct get_block_headers; apply kept_refl.
  - destruct (fst (process_headers _ _ _)); apply kept_refl.
  - destruct (fst (process_headers _ _ _)); try apply kept_refl. apply kept_banning; [reflexivity|]. intro q. apply kept_refl.
  - destruct get_block; apply kept_refl.
  - destruct (fst (process_block _ _ _)); try apply kept_refl.
    + exact (kept_after i (b_header b) (with_chain n _)).
    + apply kept_banning; [reflexivity|]. intro q. exact (kept_after i (b_header b) (with_pool _ q)).
  - destruct (nd_mempool n) as [f|]; [|apply kept_refl]. destruct (f t); try apply kept_refl. apply kept_banning; [reflexivity|]. intro q. apply kept_refl.
Qed.
Lemma handle_on bans c (n : node X S) m s : sys_steps (sys_start bans) s -> y_pool s = nd_pool n -> undisturbed (x_me c) s ->
  exists t, sys_steps s t /\ same_others s t /\ y_pool t = nd_pool (o_node (process_message c n m)) /\
    (y_crash t <> None -> o_end (process_message c n m) = HPanic) /\ (o_end (process_message c n m) = HDone -> undisturbed (x_me c) t).
Proof.
  intros R P Un. assert (V : valid_table (y_pool s)) by exact (proj2 (proj2 (table_reach bans s R))).
  destruct (handle_run X S c n m s P Un V) as (t & Rt & Sm & Pt & Ct & Et). exists t. do 4 (split; [assumption|]). intro D.
  destruct Un as (C & F & E & U). split; [|split; [|split]].
  - destruct (y_crash t) eqn:Z; [|reflexivity]. exfalso. rewrite (Ct ltac:(discriminate)) in D. discriminate.
  - unfold table_free in *. now rewrite (proj1 Sm).
  - now apply Et.
  - destruct (kept_handle c n m) as (K1 & K2). rewrite <- P, <- Pt in *. intros i L. destruct (K2 _ _ L) as [L'|U']; auto.
Qed.
Lemma serve_on bans me w lenient B (rf : N -> B -> res (bytes * B)) synced : goes_on bans me w ->
  forall fuel i (n : node X S) ans count src s, sys_steps (sys_start bans) s -> y_pool s = nd_pool n -> undisturbed me s ->
  exists t, sys_steps s t /\ y_pool t = nd_pool (sv_node (serve lenient w rf synced fuel i n ans count src)) /\
    (y_crash t <> None -> sv_stop (serve lenient w rf synced fuel i n ans count src) = Stuck HPanic).
Proof.
  intro Al. induction fuel as [|fuel IH]; intros i n ans count src s R P Un.
  - exists s. split; [apply YsNone|]. split; [exact P|]. intro C. elim C. apply Un.
  - assert (Stay : exists t, sys_steps s t /\ y_pool t = nd_pool n /\ y_crash t = None) by (exists s; split; [apply YsNone|]; split; [exact P|apply Un]).
    assert (Done : forall r : service X S B, sv_node r = n -> exists t, sys_steps s t /\ y_pool t = nd_pool (sv_node r) /\ (y_crash t <> None -> sv_stop r = Stuck HPanic)).
    { intros r ->. destruct Stay as (t & Rt & Pt & Ct). exists t. split; [exact Rt|]. split; [exact Pt|]. congruence. }
    cbn [serve]. destruct (src_header rf src) as [((t, len), s1)| | |]; try (now apply Done).
    destruct (_ <? _)%N; [now apply Done|]. destruct (rf len s1) as [(body, s2)| | |]; try (now apply Done).
    destruct (decode_frame X lenient t body) as [[m|]| | |]; try (now apply Done).
    + destruct synced; [|now apply Done]. destruct (Al i) as (Me & Al'). destruct (Al' s R Un) as (u & Ru & Uu & Pu).
      pose proof (sys_app _ _ _ R Ru) as R'. rewrite <- Me in Uu.
      destruct (handle_on bans (ar_context w i) (met w i n) m u R' ltac:(rewrite Pu, P; reflexivity) Uu) as (v & Rv & _ & Pv & Cv & Dv).
      cbn zeta. destruct (o_end (process_message (ar_context w i) (met w i n) m)) eqn:Eo.
      1: { destruct (IH (Datatypes.S i) _ (ans ++ o_answers (process_message (ar_context w i) (met w i n) m)) (w64 (count + (len + msg_header_len))) s2 v (sys_app _ _ _ R' Rv) Pv ltac:(rewrite <- Me; now apply Dv))
             as (z & Rz & Hz). exists z. split; [exact (sys_app _ _ _ Ru (sys_app _ _ _ Rv Rz))|exact Hz]. }
      all: exists v; split; [exact (sys_app _ _ _ Ru Rv)|]; split; [exact Pv|]; intro C; specialize (Cv C); cbn; congruence.
    + exact (IH i n ans _ s2 s R P Un).
Qed.
Lemma connection_on bans me w lenient fuel p (n : node X S) chunks s : goes_on bans me w -> sys_steps (sys_start bans) s -> y_pool s = nd_pool n -> undisturbed me s ->
  exists t, sys_steps s t /\ y_pool t = nd_pool (sv_node (run_peer lenient w fuel p n chunks)) /\
    (y_crash t <> None -> sv_stop (run_peer lenient w fuel p n chunks) = Stuck HPanic).
Proof. intros. now apply (serve_on bans me). Qed.
End Serve.
