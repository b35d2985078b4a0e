(** Lemmas for C135: who holds the lock of a record after Stop. *)
From Coq Require Import Lia.
From Verif Require Import Pool SpecPool SpecDone PoolProofs SilentProofs OwnProofs.
Local Open Scope nat_scope.

Definition held (c : list close_pc) (i : nat) : Prop := In (ClClose i) c \/ In (ClStatus i) c.
Definition lock_end s : Prop := y_run s = RuStopped ->
  (forall i, nth_error (locks (y_pool s)) i = Some true -> held (y_close s) i) /\
  (forall i, In (ClLock i) (y_close s) \/ held (y_close s) i -> i < List.length (pl_infos (y_pool s))).
Lemma lock_end_same s t : y_close t = y_close s -> y_run t = y_run s -> locks (y_pool t) = locks (y_pool s) -> lock_end s -> lock_end t.
Proof. unfold lock_end. rewrite <- !locks_len. intros -> -> ->. auto. Qed.
Lemma in_mid {A} (x y : A) pre post : In x (pre ++ y :: post) <-> x = y \/ In x (pre ++ post).
Proof. rewrite !in_app_iff. cbn. intuition congruence. Qed.
Lemma lock_end_step s t : lock_inv s -> sys_table s -> lock_end s -> sys_step s t -> lock_end t.
Proof.
  intros Hl Tb He [C St|C St|C St|C St|C St].
  - run_cases St; intro Hr; cbn in Hr; try discriminate Hr. cbn. destruct (Hl ltac:(congruence)) as (Ec & _ & D). rewrite Er in D. cbn in D. split.
    + intros j N. discriminate (proj1 (D j true N) eq_refl).
    + rewrite Ec. intros j H. cbn in H. destruct Tb as (_ & _ & V). unfold held in H.
      destruct H as [H|[H|H]]; apply in_map_iff in H as ((b & k) & Hk & I); cbn in Hk; try discriminate Hk. injection Hk as ->. exact (V b j I).
  - watch_cases St; (apply (lock_end_same s); [reflexivity|reflexivity| |exact He]); fields; try reflexivity. now apply locks_same.
  - ban_cases St; (apply (lock_end_same s); [reflexivity|reflexivity| |exact He]); fields; try reflexivity. now apply locks_same.
  - close_cases St; intro Hr; cbn in Hr; destruct (He Hr) as (A & B); unfold held in *; rewrite E in A, B; cbn [set_close y_pool y_close down].
    + split.
      * intros j N. rewrite locks_upd in N. rewrite !in_mid. destruct (Nat.eqb_spec i j) as [->|Ne]; [auto|].
        specialize (A j N). rewrite !in_mid in A. destruct A as [[A|A]|[A|A]]; try discriminate A; auto.
      * intros j H. rewrite upd_len. apply B. rewrite !in_mid in *. destruct H as [[H|H]|[[H|H]|[H|H]]]; try discriminate H; auto. injection H as ->. auto.
    + rewrite E. auto.
    + split.
      * intros j N0. specialize (A j N0). rewrite !in_mid in *. destruct A as [[A|A]|[A|A]]; try discriminate A; auto. injection A as ->. auto.
      * intros j H. apply B. rewrite !in_mid in *. destruct H as [[H|H]|[[H|H]|[H|H]]]; try discriminate H; auto. injection H as ->. auto.
    + split.
      * intros j N. rewrite locks_upd in N. rewrite !in_mid. destruct (Nat.eqb_spec i j) as [->|Ne].
        -- destruct (nth_error (pl_infos (y_pool s)) j); discriminate N.
        -- specialize (A j N). rewrite !in_mid in A. destruct A as [[A|A]|[A|A]]; try discriminate A; auto. injection A as ->. now elim Ne.
      * intros j H. rewrite upd_len. apply B. rewrite !in_mid in *. destruct H as [[H|H]|[[H|H]|[H|H]]]; try discriminate H; auto.
  - env_cases St; try ((apply (lock_end_same s); [reflexivity|reflexivity| |exact He]); fields; try reflexivity; now apply locks_same).
    intro Hr. cbn in Hr. destruct (He Hr) as (A & B). cbn [set_pool y_pool y_close]. split.
    + intros j N. apply A. destruct (locks_add r a (y_pool s)) as [E|E]; rewrite E in N; [exact N|].
      destruct (Nat.lt_ge_cases j (List.length (locks (y_pool s)))) as [Lt|Ge]; [now rewrite nth_error_app1 in N|].
      rewrite nth_error_app2 in N by exact Ge. destruct (j - _) as [|k]; [discriminate N|destruct k; discriminate N].
    + intros j H. specialize (B j H). rewrite <- locks_len in *. destruct (locks_add r a (y_pool s)) as [E|E]; rewrite E; [exact B|rewrite app_length; lia].
Qed.
Lemma lock_end_reach bans s : sys_steps (sys_start bans) s -> lock_end s.
Proof.
  intro R. cut (lock_inv s /\ sys_table s /\ lock_end s); [tauto|]. revert s R. apply sys_ind'.
  - split; [exact (lock_reach bans _ (YsNone _))|]. split; [exact (table_reach bans _ (YsNone _))|]. intro H. discriminate H.
  - intros t u (A & B & D) St. split; [exact (lock_step t u A B St)|]. split; [exact (table_step t u B St)|exact (lock_end_step t u A B D St)].
Qed.

(** ** Records keep a peer *)
Definition ready s : Prop := forall i, to_close s i -> peered (y_pool s) i.
Lemma peered_at p i : peered p i <-> peer_at p i <> None.
Proof.
  unfold peered, peer_at. destruct (nth_error (pl_infos p) i) as [x|].
  - split; [intros (y & c & N & P); injection N as <-; congruence|]. intro H. destruct (i_peer x) as [c|] eqn:E; [now exists x, c|now elim H].
  - split; [intros (y & c & N & _); discriminate N|intro H; now elim H].
Qed.
Lemma peered_step s t k : sys_step s t -> peered (y_pool s) k -> peered (y_pool t) k.
Proof.
  rewrite !peered_at. intros St H. destruct St as [C St|C St|C St|C St|C St].
  - run_cases St; fields; try exact H; try (rewrite peer_upd by reflexivity; exact H).
    unfold peer_at, upd in *. cbn [pl_infos set_infos] in *. rewrite update_nth. destruct (i =? k); [|exact H]. destruct (nth_error (pl_infos (y_pool s)) k); cbn; congruence.
  - watch_cases St; fields; try exact H; rewrite peer_upd by reflexivity; exact H.
  - ban_cases St; fields; try exact H; rewrite peer_upd by reflexivity; exact H.
  - close_cases St; fields; try exact H; rewrite peer_upd by reflexivity; exact H.
  - env_cases St; fields; try exact H; [rewrite peer_add; exact H|rewrite peer_upd by reflexivity; exact H].
Qed.
Lemma ready_step s t : sys_step s t -> (forall i, to_close t i -> to_close s i) -> ready s -> ready t.
Proof. intros St H R i Hi. apply (peered_step s t i St). apply R. now apply H. Qed.
Lemma to_close_run s t k : lock_inv s -> run_step s t -> to_close t k -> to_close s k.
Proof.
  intros Hl St. unfold to_close. run_cases St; cbn; intros [(N0 & b & I)|H]; try (left; split; [congruence|exists b; exact I]); try (right; exact H).
  destruct (Hl ltac:(congruence)) as (Ec & _). rewrite Ec in *. cbn in H. left. split; [congruence|].
  destruct H as [H|H]; apply in_map_iff in H as ((b & m) & Hk & I); cbn in Hk; try discriminate Hk. injection Hk as ->. eauto.
Qed.
