(** Property C124: a full peers table. Statements; proofs are in FullProofs.v, cases in FullExamples.v,
    specifications in SpecFull.v. *)
From Verif Require Import Sync Serve Send SpecPool SpecMessages SpecSync SpecServe SpecSend SpecFull PoolProofs PoolExamples
  SyncExamples PropServe PropSend FullProofs FullExamples.

(** * C124: a full table makes room for new addresses (refuted) *)

(** The pool as it is started keeps every address, with its record, for ever, whatever its goroutines, calls of
    Add, Ban and Stop, and messages do: Ban does not get to its delete. *)
Theorem C124_permanent : forall s t kv, sys_steps (sys_start None) s -> sys_steps s t ->
  In kv (pl_table (y_pool s)) -> In kv (pl_table (y_pool t)).
Proof. exact permanent. Qed.
Print Assumptions C124_permanent.
(** For a case see C124_frozen_case. *)

(** Once it holds more than 10000 addresses it never changes, *)
Theorem C124_frozen_refuted : forall s t, sys_steps (sys_start None) s -> 10000 < lenN (pl_table (y_pool s)) -> sys_steps s t ->
  pl_table (y_pool t) = pl_table (y_pool s).
Proof. exact frozen. Qed.
Print Assumptions C124_frozen_refuted.
(** and the node dials nobody else. *)
Theorem C124_eclipsed_refuted : forall s t a i, sys_steps (sys_start None) s -> 10000 < lenN (pl_table (y_pool s)) -> sys_steps s t ->
  y_run t = RuDial a i -> In (a, i) (pl_table (y_pool s)).
Proof. exact eclipsed. Qed.
Print Assumptions C124_eclipsed_refuted.
Example C124_frozen_case : exists s t a i, sys_steps (sys_start None) s /\ 10000 < lenN (pl_table (y_pool s)) /\ y_run s = RuSelect /\
  sys_steps s t /\ y_run t = RuDial a i.
Proof. exact full_dialling. Qed.

(** One peer fills the table, however full it is and whatever is added meanwhile: it sends any more than 10000
    different addresses that do not have to exist, in messages of at most 256, in any chunks. All its messages
    are served. *)
Theorem C124_flood_refuted : forall X S lenient w,
  (forall i, names (x_string (ar_context w i)) (x_resolve (ar_context w i))) ->
  (forall i a, x_string (ar_context w i) a = x_string (ar_context w 0) a) ->
  (forall i, x_me (ar_context w i) = x_me (ar_context w 0)) -> (forall i, keeping (ar_pool w i)) ->
  forall fuel p (n : node X S) chunks encs ls, pe_sync p = true -> Forall (fun c : bytes => c <> []) chunks ->
  Forall2 (fun l e => exists k, write_message X (MPeerAddrs l) = Ok (e, k)) ls encs -> concat chunks = concat encs ->
  Forall made_up (concat ls) -> NoDup (concat ls) -> 10000 < lenN (concat ls) ->
  proper (nd_pool n) -> In (x_me (ar_context w 0)) (map fst (pl_table (nd_pool n))) -> (List.length ls < fuel)%nat ->
  let r := run_peer lenient w fuel p n chunks in
  10000 < lenN (pl_table (nd_pool (sv_node r))) /\ proper (nd_pool (sv_node r)) /\ sv_stop r = Leave (Failed EOF).
Proof. exact flooded. Qed.
Print Assumptions C124_flood_refuted.

(** 40 messages with 10240 addresses do, on the shipped node with two peers. *)
Example C124_flood_case : forall X,
  (forall i, names (x_string (ar_context six i)) (x_resolve (ar_context six i))) /\
  (forall i a, x_string (ar_context six i) a = x_string (ar_context six 0) a) /\
  (forall i, x_me (ar_context six i) = x_me (ar_context six 0)) /\ (forall i, keeping (ar_pool six i)) /\
  pe_sync some_peer = true /\
  (exists encs, Forall2 (fun l e => exists k, write_message X (MPeerAddrs l) = Ok (e, k)) tens encs) /\ List.length tens = 40%nat /\
  Forall made_up (concat tens) /\ NoDup (concat tens) /\ 10000 < lenN (concat tens) /\
  proper (nd_pool (busy X)) /\ In (x_me (ar_context six 0)) (map fst (pl_table (nd_pool (busy X)))).
Proof.
  intro X. split; [exact six_names|]. split; [reflexivity|]. split; [reflexivity|]. split; [exact six_keeping|]. split; [reflexivity|].
  split; [exact (tens_written X)|]. split; [unfold tens; now rewrite map_length, seq_length|]. destruct tens_ok as (A & B & C).
  split; [exact A|]. split; [exact B|]. split; [exact C|]. split; [exact (busy_proper X)|]. left. reflexivity.
Qed.

(** Add with the full table changes nothing. *)
Theorem C124_closed : forall l p, 10000 < lenN (pl_table p) -> adds l p = p.
Proof. exact full_adds. Qed.
Print Assumptions C124_closed.
Example C124_closed_case : 10000 < lenN (pl_table (adds (many 10001) pool_new)).
Proof. rewrite many_all by lia. reflexivity. Qed.
