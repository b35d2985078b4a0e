(** C121: critical sections of the pool's mutexes are atomic. *)
From Coq Require Import Permutation.
From Verif Require Import Race SpecRace SpecAtomic AtomicProofs AtomicExamples.

(** Every execution does what an execution does in which no section that only uses the map behind its
    mutex is interrupted: each goroutine does the same, sees the same, and leaves the same behind. *)
Theorem C121_atomic_partial : forall tr s, execution tr s -> exists tr' s', execution tr' s' /\
  same_doings tr tr' /\ Permutation tr tr' /\
  forall t l b, pool_lock l -> section tr' t l b -> plain t l b -> uninterrupted t b.
Proof. exact sections_atomic. Qed.
Print Assumptions C121_atomic_partial.
(** All that a goroutine does in a section: use the map, read the Status and the Capabilities of records
    (Peers and notConnected), start goroutines (PropagateBlock, Run after Stop). *)
Theorem C121_contents : forall tr s t l b, execution tr s -> pool_lock l -> section tr t l b -> forall e, In e b -> done_by t e ->
  (exists a x, e = Did t a /\ accesses a x /\ guards l x) \/
  (l = Ptmu /\ exists i, e = Did t (Rd (LField i FStatus)) \/ e = Did t (Rd (LField i FCaps))) \/
  (l <> Bnmu /\ exists u, e = Forked t u).
Proof. exact section_events. Qed.
Print Assumptions C121_contents.
(** An execution with a lookup in the table that is interrupted by IsBan. *)
Example C121_case : (exists s, execution mixed_trace s) /\
  section mixed_trace 1 Ptmu [Did 2 (Acq Bnmu); Did 1 (Rd LTable); Did 2 (Rd LBans)] /\
  plain 1 Ptmu [Did 2 (Acq Bnmu); Did 1 (Rd LTable); Did 2 (Rd LBans)] /\
  ~ uninterrupted 1 [Did 2 (Acq Bnmu); Did 1 (Rd LTable); Did 2 (Rd LBans)].
Proof. exact mixed_case. Qed.

(** Refuted for all sections: an execution in which Ban writes a Status between two reads of it by Peers.
    In no execution in which every goroutine does the same and no section is interrupted does Peers see
    the same. *)
Theorem C121_scan_refuted : exists tr s choose w, execution tr s /\
  forall tr' s', execution tr' s' -> (forall t, of_goroutine t tr = of_goroutine t tr') ->
  (forall t l b, pool_lock l -> section tr' t l b -> uninterrupted t b) ->
  ~ same_world (outcome choose tr w) (outcome choose tr' w).
Proof.
  destruct scan_interrupted as (s & E & H). exists scan_trace, s, (fun _ _ _ => 7), blank. split; [exact E|exact H].
Qed.
Print Assumptions C121_scan_refuted.
