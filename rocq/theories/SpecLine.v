(** Specification for C123: lines of blocks each of which was accepted on top of the one before. *)
From Verif Require Import Chain SpecChain.

Section Spec.
Context {X : Ext} (S : storage X).

(** At the time [now] a node accepted [b], which is not its head, and found [parent] as the block that [b]
    follows. What node it was and what else it had stored does not matter. *)
Definition accepted_on (now : gotime) (parent b : block X) : Prop :=
  exists (c : chain X S) hh bh, block_hash X (c_head c) = Ok hh /\ block_hash X b = Ok bh /\ hh <> bh /\
    st_get S (c_store c) (parent_id (b_header b)) = Some parent /\ fst (process_block now c b) = Ok tt.
(** [n] blocks, after the block number 0. *)
Definition line (clock : nat -> gotime) (b : nat -> block X) (n : nat) : Prop :=
  forall i, (i < n)%nat -> accepted_on (clock i) (b i) (b (Datatypes.S i)).

(** A storage that finds only what it is asked for. *)
Definition finds_right : Prop := forall st i p, st_get S st i = Some p ->
  (forall h, id_hash i = Some h -> block_hash X p = Ok h) /\ (forall n, id_height i = Some n -> h_height (b_header p) = n).
End Spec.

(** Times are times, in whole seconds, as all are that come from the wire (C28). *)
Definition whole_seconds (t : gotime) : Prop := time_wf t /\ t_nsec t = 0%Z.
(** The sum of the first [n] numbers. *)
Fixpoint sum_to (n : nat) (f : nat -> N) : N := match n with O => 0 | Datatypes.S k => sum_to k f + f k end.
