(** Lemmas for C131: the record of a connection that has not ended has its peer. *)
From Coq Require Import Lia.
From Verif Require Import Pool SpecPool PoolProofs.
Local Open Scope nat_scope.

Definition peer_at (p : pool) (i : nat) : option nat := match nth_error (pl_infos p) i with Some x => i_peer x | None => None end.
Definition fresh_peer (r : run_pc) : nat := match run_up r with Some _ => 1 | None => 0 end.
Definition own (s : sys) : Prop :=
  (forall k w, nth_error (y_watch s) k = Some w -> early w = true -> peer_at (y_pool s) (wt_info w) = Some k) /\
  (forall i, run_up (y_run s) = Some i -> peer_at (y_pool s) i = Some (List.length (y_watch s))) /\
  (forall i c, peer_at (y_pool s) i = Some c -> c < List.length (y_watch s) + fresh_peer (y_run s)).
Lemma peer_upd p i f j : (forall x, i_peer (f x) = i_peer x) -> peer_at (upd p i f) j = peer_at p j.
Proof.
  intro H. unfold peer_at, upd. cbn [pl_infos set_infos]. rewrite update_nth. destruct (i =? j); [|reflexivity]. destruct (nth_error (pl_infos p) j); [cbn; now rewrite H|reflexivity].
Qed.
Lemma peer_add r a p j : peer_at (pool_add r a p) j = peer_at p j.
Proof.
  destruct (add_cases r a p) as [->|(_ & _ & _ & ->)]; [reflexivity|]. unfold peer_at. cbn [pl_infos set_table set_infos].
  destruct (Nat.lt_trichotomy j (List.length (pl_infos p))) as [L|[L|L]].
  - now rewrite nth_error_app1.
  - subst j. rewrite nth_error_app2, Nat.sub_diag by lia. cbn. rewrite (proj2 (nth_error_None _ _)); [reflexivity|lia].
  - rewrite (proj2 (nth_error_None (pl_infos p ++ [fresh_info]) j)) by (rewrite app_length; cbn; lia). rewrite (proj2 (nth_error_None _ _)); [reflexivity|lia].
Qed.
Lemma own_keep s t : (forall i, peer_at (y_pool t) i = peer_at (y_pool s) i) ->
  (forall k w, nth_error (y_watch t) k = Some w -> early w = true -> exists v, nth_error (y_watch s) k = Some v /\ early v = true /\ wt_info v = wt_info w) ->
  List.length (y_watch t) = List.length (y_watch s) -> run_up (y_run t) = run_up (y_run s) -> own s -> own t.
Proof.
  intros Ep Ew El Er (A & B & D). unfold own, fresh_peer in *. rewrite Er, El. repeat split.
  - intros k x N E. rewrite Ep. destruct (Ew k x N E) as (v & N' & E' & <-). now apply A.
  - intros i H. rewrite Ep. now apply B.
  - intros i c H. rewrite Ep in H. now apply (D i).
Qed.
Lemma same_watch s t : y_watch t = y_watch s -> forall k w, nth_error (y_watch t) k = Some w -> early w = true -> exists v, nth_error (y_watch s) k = Some v /\ early v = true /\ wt_info v = wt_info w.
Proof. intros -> k x N E. now exists x. Qed.
Lemma moved_watch s t pre x y post : y_watch s = pre ++ x :: post -> y_watch t = pre ++ y :: post -> wt_info x = wt_info y -> (early y = true -> early x = true) ->
  forall k w, nth_error (y_watch t) k = Some w -> early w = true -> exists v, nth_error (y_watch s) k = Some v /\ early v = true /\ wt_info v = wt_info w.
Proof.
  intros -> -> Ei Ee k z N E. destruct (Nat.lt_trichotomy k (List.length pre)) as [L|[L|L]].
  - rewrite nth_error_app1 in * by lia. now exists z.
  - subst k. rewrite nth_error_app2, Nat.sub_diag in * by lia. cbn in *. injection N as <-. exists x. auto.
  - rewrite nth_error_app2 in * by lia. destruct (k - List.length pre) eqn:Ek; [lia|]. now exists z.
Qed.
Lemma early_in s k w : nth_error (y_watch s) k = Some w -> early w = true -> In (wt_info w) (early_infos (y_watch s)).
Proof. intros N E. unfold early_infos. apply in_map. apply filter_In. split; [exact (nth_error_In _ _ N)|exact E]. Qed.
Lemma own_step s t : dial_inv s -> own s -> sys_step s t -> own t.
Proof.
  intros Hd Ho [C St|C St|C St|C St|C St].
  - run_cases St; try (revert Ho; apply own_keep; fields; [intro j; first [reflexivity|now apply peer_upd]|apply same_watch; reflexivity|reflexivity|rewrite Er; reflexivity]; fail).
    + destruct (Hd ltac:(congruence)) as (_ & _ & _ & F & _). destruct (F i) as (F1 & F2); [now rewrite Er|]. destruct Ho as (A & B & D).
      unfold own, fresh_peer in *. fields. cbn [run_up]. rewrite Er in D. cbn in D.
      assert (P : forall j, peer_at (upd (y_pool s) i (with_conn (List.length (y_watch s)))) j = if i =? j then Some (List.length (y_watch s)) else peer_at (y_pool s) j).
      { intro j. unfold peer_at, upd. cbn [pl_infos set_infos]. rewrite update_nth. destruct (Nat.eqb_spec i j) as [<-|Ne]; [|reflexivity].
        destruct (nth_error (pl_infos (y_pool s)) i) eqn:Nx; [reflexivity|]. apply nth_error_None in Nx. lia. }
      repeat split.
      * intros k w N0 E0. rewrite P. destruct (Nat.eqb_spec i (wt_info w)) as [->|Ne]; [elim F1; now apply (early_in s k)|now apply A].
      * intros j E0. injection E0 as <-. rewrite P, Nat.eqb_refl. reflexivity.
      * intros j c. rewrite P. destruct (i =? j); intro H; [injection H as <-; lia|]. specialize (D j c H). lia.
    + destruct Ho as (A & B & D). unfold own, fresh_peer in *. fields. cbn [run_up]. rewrite Er in B, D. cbn in B, D. rewrite app_length. cbn [List.length].
      assert (P : forall j, peer_at (upd (y_pool s) i (with_lock false)) j = peer_at (y_pool s) j) by (intro j; now apply peer_upd).
      repeat split.
      * intros k w N0 E0. rewrite P. destruct (Nat.lt_trichotomy k (List.length (y_watch s))) as [L0|[L0|L0]].
        -- rewrite nth_error_app1 in N0 by lia. now apply A.
        -- subst k. rewrite nth_error_app2, Nat.sub_diag in N0 by lia. injection N0 as <-. now apply B.
        -- exfalso. assert (K0 : nth_error (y_watch s ++ [Watch a i WtWait]) k <> None) by congruence. apply nth_error_Some in K0. rewrite app_length in K0. cbn in K0. lia.
      * discriminate.
      * intros j c H. rewrite P in H. specialize (D j c H). lia.
  - watch_cases St; (revert Ho; apply own_keep; [intro j; fields; first [reflexivity|now apply peer_upd]|eapply moved_watch; [exact E|reflexivity|reflexivity|cbn; auto]|fields; rewrite E, !app_length; reflexivity|reflexivity]).
  - ban_cases St; (revert Ho; apply own_keep; fields; [intro j; first [reflexivity|now apply peer_upd]|apply same_watch; reflexivity|reflexivity|reflexivity]).
  - close_cases St; (revert Ho; apply own_keep; fields; [intro j; first [reflexivity|now apply peer_upd]|apply same_watch; reflexivity|reflexivity|reflexivity]).
  - env_cases St; (revert Ho; apply own_keep; fields; [intro j; first [reflexivity|apply peer_add|now apply peer_upd]|apply same_watch; reflexivity|reflexivity|reflexivity]).
Qed.
Lemma own_reach bans s : sys_steps (sys_start bans) s -> dial_inv s /\ own s.
Proof.
  apply (sys_ind' (fun s => dial_inv s /\ own s)).
  - split.
    + intros _. cbn. split; [reflexivity|]. split; [constructor|]. split; [intros j []|]. split; discriminate.
    + repeat split.
      * intros k w N. now destruct k.
      * discriminate.
      * intros i c. unfold peer_at. cbn. now destruct i.
  - intros t u (Hd & Ho) St. split; [exact (dial_step t u Hd St)|exact (own_step t u Hd Ho St)].
Qed.
