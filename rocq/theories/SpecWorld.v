(** Specification for C130: the pool together with its peers. *)
From Verif Require Import World SpecPeer SpecPool.

Section Spec.
Context {X : Ext}.
(** The handlers of a peer that are in their loops. *)
Definition handlers (p : pstate X) : nat :=
  (match p_writer p with WDisc _ => 0 | _ => 1 end + match p_reader p with RDisc _ => 0 | _ => 1 end)%nat.
(** At least one of them is. *)
Definition served (p : pstate X) : bool := negb (handlers p =? 0)%nat.
Definition all_handlers (ps : list (pstate X)) : nat := fold_right (fun p n => (handlers p + n)%nat) 0%nat ps.
End Spec.
