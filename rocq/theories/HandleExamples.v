(** Cases for C133. *)
From Verif Require Import Serve SpecPool SpecHandle PoolProofs PoolExamples ServeRunProofs.
Local Open Scope nat_scope.

Lemma run_undisturbed bans : exists s, sys_steps (sys_start bans) s /\ undisturbed addr_a s /\ live s = 1 /\ peer_info addr_a (y_pool s) = Some 0.
Proof.
  eexists. split.
  - add addr_a. run_dialled [(addr_a, 0%nat)] addr_a 0%nat StNew. run_finish addr_a 0%nat. apply YsNone.
  - repeat split; [constructor|]. intros i E. injection E as <-. eexists. now split.
Qed.
(** Somebody adds an address before every message. *)
Definition busy : around :=
  Around (fun _ => Context (fun _ => GoTime 0 0) (fun _ => home) (fun _ => addr_b) [] addr_a addr_a (fun _ => true)) (fun _ => pool_add home addr_b).
Lemma busy_goes_on bans : goes_on bans addr_a busy /\ forall i p, ar_pool busy i p = pool_add home addr_b p.
Proof.
  split; [|reflexivity]. intro i. split; [reflexivity|]. intros s R (C & F & E & U). exists (set_pool s (pool_add home addr_b (y_pool s))).
  split; [|split; [|reflexivity]].
  - apply (YsMore s s _ (YsNone s)). apply YsEnv; [exact C|]. now apply EnAdd.
  - repeat split; auto. intros j L. destruct (kept_add home addr_b (y_pool s)) as (K1 & K2). destruct (K2 _ _ L) as [L'|U']; auto.
Qed.
