(** Lemmas for C137. *)
From Verif Require Import Pool SpecPool SpecGuard PoolProofs StopProofs.

Lemma up_run s t : sys_step s t -> y_run t <> y_run s -> run_step s t.
Proof.
  intros [C R|C R|C R|C R|C R] N; [exact R|..]; elim N; destruct R; cbn; reflexivity.
Qed.
Lemma give_up s t : sys_step s t -> y_run s <> RuFail -> y_run t = RuFail -> gave_up s t.
Proof.
  intros St N E. assert (D : y_run t <> y_run s) by congruence. pose proof (up_run s t St D) as R. clear St D.
  unfold gave_up. destruct R; cbn in E; try discriminate E; try contradiction.
  - left. exists a. auto.
  - right. left. exists a. split; [assumption|]. now apply lookup_none.
  - right. right. left. exists a, i. split; [assumption|]. intros x. cbn. rewrite update_nth, Nat.eqb_refl.
    destruct (nth_error _ i); cbn; [|discriminate]. intro Q. injection Q as <-. reflexivity.
  - right. right. right. exists a, i, d. auto.
Qed.
Lemma go_on s t a i : sys_step s t -> (forall b, y_run s <> RuLock b i) -> y_run t = RuLock a i -> goes_on s a i.
Proof.
  intros St N E. assert (D : y_run t <> y_run s) by (rewrite E; intro Q; now elim (N a)). pose proof (up_run s t St D) as R. clear St D.
  destruct R; cbn in E; try discriminate E. injection E as <- <-. split; assumption.
Qed.

(** A call of Ban: by its position among the calls. *)
Lemma nth_cases {A} (pre post : list A) x y k : nth_error (pre ++ x :: post) k = Some y ->
  y = x \/ forall z, nth_error (pre ++ z :: post) k = Some y.
Proof.
  revert k. induction pre as [|b pre IH]; intros [|k] H; cbn in *; auto. left. congruence.
Qed.
Lemma close_needs s t k a i : sys_step s t -> nth_error (y_bans s) k = Some (BnClose a i) -> nth_error (y_bans t) k <> Some (BnClose a i) ->
  exists x c, nth_error (pl_infos (y_pool s)) i = Some x /\ i_peer x = Some c.
Proof.
  intros St B N.
  assert (Other : forall pre x post z, y_bans s = pre ++ x :: post -> x <> BnClose a i -> nth_error (pre ++ z :: post) k = Some (BnClose a i)).
  { intros pre x post z E D. rewrite E in B. destruct (nth_cases _ _ _ _ _ B) as [Q|Q]; [congruence|apply Q]. }
  destruct St as [C R|C R|C R|C R|C R].
  - elim N. destruct R; cbn; exact B.
  - elim N. destruct R; cbn; exact B.
  - destruct R as [s pre b post E L|s pre b j post E L|s pre b j post E|s pre b j post x E L P|s pre b j post x c E L P|s pre b post E L|s pre b post l E L|s pre b post E L];
      cbn [y_bans set_ban down] in N;
      try (elim N; first [exact B|apply (Other _ _ _ _ E); discriminate]).
    destruct (nth_cases pre post (BnClose b j) (BnClose a i) k) as [Q|Q]; [now rewrite <- E|..].
    + injection Q as -> ->. eauto.
    + elim N. apply Q.
  - elim N. destruct R; cbn; exact B.
  - elim N. destruct R; cbn; try exact B. rewrite nth_error_app1; [exact B|]. apply nth_error_Some. congruence.
Qed.

(** Over an execution: a call of Ban that got past Close met a connection there. *)
Lemma close_met s t k a i : sys_steps s t -> nth_error (y_bans s) k = Some (BnClose a i) -> nth_error (y_bans t) k <> Some (BnClose a i) ->
  exists u x c, sys_steps s u /\ sys_steps u t /\ nth_error (pl_infos (y_pool u)) i = Some x /\ i_peer x = Some c.
Proof.
  intros R B. induction R as [s|s t u R IH St]; intro N; [contradiction|].
  assert (D : {nth_error (y_bans t) k = Some (BnClose a i)} + {nth_error (y_bans t) k <> Some (BnClose a i)}).
  { destruct (nth_error (y_bans t) k) as [[b|b j|b j|b|b|]|]; try (right; discriminate).
    destruct (list_eq_dec Byte.byte_eq_dec b a) as [->|]; [|right; congruence].
    destruct (Nat.eq_dec j i) as [->|]; [now left|right; congruence]. }
  destruct D as [D|D].
  - destruct (close_needs t u k a i St D N) as (x & c & Nx & P). exists t, x, c. split; [exact R|]. split; [|auto].
    exact (YsMore t t u (YsNone t) St).
  - destruct (IH B D) as (v & x & c & R1 & R2 & H). exists v, x, c. split; [exact R1|]. split; [|exact H]. exact (YsMore v t u R2 St).
Qed.
