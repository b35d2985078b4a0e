(** C95-C97: data races on the shared variables of the pool, and the order of its mutexes. *)
From Verif Require Import Race SpecRace RaceProofs RaceExamples.

(** C95. In no execution is there a race on the maps of the pool, nor on the protocol version and the
    time of the last connection of a record. *)
Theorem C95_race_free : forall tr s x, execution tr s ->
  (x = LTable \/ x = LUp \/ x = LBans \/ exists i, x = LField i FVersion \/ x = LField i FLastConn) ->
  ~ race false tr x.
Proof. exact safe_locations. Qed.
Print Assumptions C95_race_free.

(** An execution in which two goroutines use two of the maps. *)
Example C95_case : (exists s, execution node_trace s) /\
  exists l m n k, at_pos node_trace l (Did 0 (Wr LTable)) /\ at_pos node_trace m (Did 2 (Rd LTable)) /\
    at_pos node_trace n (Did 0 (Wr LUp)) /\ at_pos node_trace k (Did 2 (Rd LUp)).
Proof. exact shared_use. Qed.
(** The notion of a race is not empty: without mutexes these two accesses race. *)
Example C95_case_race : race true [Forked 0 1; Did 0 (Wr LTable); Did 1 (Rd LTable)] LTable /\
  ~ race false [Did 0 (Acq Ptmu); Did 0 (Wr LTable); Did 0 (Rel Ptmu); Did 1 (Acq Ptmu); Did 1 (Rd LTable)] LTable.
Proof. exact race_cases. Qed.

(** C96, refuted. There is an execution with a race on [connected] and on each other field of a record,
    even when every channel operation is taken to order everything. *)
Theorem C96_races_refuted : exists tr s, execution tr s /\ race true tr LConnected /\
  race true tr (LField 0 FStatus) /\ race true tr (LField 0 FPeer) /\ race true tr (LField 0 FHeight) /\
  race true tr (LField 0 FDifficulty) /\ race true tr (LField 0 FCaps).
Proof. exact racy_locations. Qed.
Print Assumptions C96_races_refuted.
(** What holds: there are no races anywhere else. *)
Theorem C96_races_partial : forall tr s x, execution tr s -> race false tr x ->
  x = LConnected \/ exists i f, x = LField i f /\ In f [FStatus; FPeer; FHeight; FDifficulty; FCaps].
Proof. exact only_racy. Qed.
Print Assumptions C96_races_partial.

(** C97. As long as some goroutine has something left to do, some goroutine can go on: the mutexes
    alone never block all of them. *)
Theorem C97_no_mutex_deadlock : forall tr s, execution tr s -> (exists t a w, next s t a w) -> exists e s', thread_step s e s'.
Proof. exact mutexes_live. Qed.
Print Assumptions C97_no_mutex_deadlock.
(** ... nor any set of goroutines among themselves: whoever waits for a mutex waits for a goroutine that
    can take its next step, or for one that waits for such a goroutine. *)
Theorem C97_waits_end : forall tr s t l w, execution tr s -> next s t (Acq l) w -> ~ free s l ->
  exists u, In (l, u) (th_held s) /\ u <> t /\ exists a v, next s u a v /\
    (forall k, a = Acq k -> ~ free s k ->
      exists u', In (k, u') (th_held s) /\ u' <> u /\ u' <> t /\ exists a' v', next s u' a' v' /\ forall k', a' <> Acq k').
Proof. exact waits_end. Qed.
Print Assumptions C97_waits_end.

(** In this execution a goroutine waits for a mutex that main holds while main waits for none. *)
Example C97_case : exists tr s t u l w, execution tr s /\ next s t (Acq l) w /\ In (l, u) (th_held s) /\ t <> u.
Proof. exact waiting_case. Qed.
(** Two goroutines that take two mutexes in opposite orders do block each other in this model. *)
Example C97_case_stuck : let s := Threads [[Acq Cpmu]; [Acq Ptmu]] [(Ptmu, 0); (Cpmu, 1)] in
  forall e s', ~ thread_step s e s'.
Proof. exact stuck_case. Qed.
