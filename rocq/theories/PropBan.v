(** Property C132: what a call of Ban has done when it is over. Statements; proofs are in BanProofs.v, executions in
    BanExamples.v, the specification in SpecBan.v. *)
From Verif Require Import Sync SpecPool SpecBan PoolProofs PoolExamples BanProofs BanExamples.
Local Open Scope nat_scope.

(** * C132 *)

(** When the call of Ban returns, an address that was listed when it was called is recorded as banned, whatever
    the other goroutines do (and whatever other calls of Ban there are). *)
Theorem C132_recorded : forall bans s t a k, sys_steps (sys_start bans) s -> nth_error (y_bans s) k = Some (BnLookup a) -> listed a (y_pool s) ->
  sys_steps s t -> nth_error (y_bans t) k = Some BnEnd -> is_ban a (y_pool t) = true.
Proof. exact returns_recorded. Qed.
Print Assumptions C132_recorded.
(** And it stays recorded. *)
Theorem C132_stays : forall s t a, sys_steps s t -> is_ban a (y_pool s) = true -> is_ban a (y_pool t) = true.
Proof. exact stays_recorded. Qed.
Print Assumptions C132_stays.
(** So as shipped, where nothing is ever recorded (C50), such a call never returns: it ends the process or waits
    for ever. *)
Theorem C132_never_returns_refuted : forall s t a k, sys_steps (sys_start None) s -> nth_error (y_bans s) k = Some (BnLookup a) -> listed a (y_pool s) ->
  sys_steps s t -> nth_error (y_bans t) k <> Some BnEnd.
Proof. exact never_returns. Qed.
Print Assumptions C132_never_returns_refuted.
(** Run alone from beginning to end, with Close returning, the call does what the function [pool_ban] of Sync.v
    says: it returns where that does, it takes the process down where that does, and leaves the same pool. *)
Theorem C132_alone : forall s pre a post, valid_table (y_pool s) -> table_free s -> y_crash s = None ->
  y_bans s = pre ++ BnLookup a :: post -> Forall (fun b => b = BnEnd) pre -> Forall (fun b => b = BnEnd) post ->
  (exists t, ban_steps s t /\ ban_over t) /\
  forall t, ban_steps s t -> ban_over t ->
    y_pool t = snd (pool_ban (fun _ => true) a (y_pool s)) /\
    ((fst (pool_ban (fun _ => true) a (y_pool s)) = HDone /\ y_crash t = None /\ y_bans t = pre ++ BnEnd :: post) \/
     (fst (pool_ban (fun _ => true) a (y_pool s)) = HPanic /\ y_crash t <> None)).
Proof. exact alone. Qed.
Print Assumptions C132_alone.

(** A call that returns: *)
Example C132_recorded_case : exists s t, sys_steps (sys_start (Some [])) s /\ nth_error (y_bans s) 0 = Some (BnLookup addr_a) /\
  listed addr_a (y_pool s) /\ sys_steps s t /\ nth_error (y_bans t) 0 = Some BnEnd /\ ~ listed addr_a (y_pool t).
Proof. exact run_ban_returns. Qed.
(** one that is about to begin, with and without a made map. *)
Example C132_alone_case : forall bans, exists s, sys_steps (sys_start bans) s /\ y_bans s = [BnLookup addr_a] /\ listed addr_a (y_pool s) /\
  table_free s /\ y_crash s = None /\ valid_table (y_pool s) /\ pl_bans (y_pool s) = bans /\
  nth_error (y_bans s) 0 = Some (BnLookup addr_a).
Proof. exact run_ban_called. Qed.
