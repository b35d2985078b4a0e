(** Specifications for sending one block to several peers. *)
From Coq Require Import Permutation.
From Verif Require Import Relay.

Section Spec.
Context {A : Type} (less : A -> A -> bool).

(** [less] is a strict weak order. *)
Definition weak_order : Prop :=
  (forall x y, less x y = true -> less y x = false) /\
  (forall x y z, less y x = false -> less z y = false -> less z x = false).
(** No element is less than an earlier one. *)
Definition ordered (m : list A) : Prop :=
  forall i j x y, i < j -> nth_error m i = Some x -> nth_error m j = Some y -> less y x = false.

(** The effect of the calls when nobody else touches the list: Less compares two elements, Swap
    exchanges them. *)
Definition exchanged (m m' : list A) (i j : nat) : Prop :=
  length m' = length m /\ nth_error m' i = nth_error m j /\ nth_error m' j = nth_error m i /\
  forall k, k <> i -> k <> j -> nth_error m' k = nth_error m k.
Inductive alone : list A -> prog -> list A -> Prop :=
| ADone m : alone m Done m
| AAsk m i j k x y m' : nth_error m i = Some x -> nth_error m j = Some y -> alone m (k (less x y)) m' -> alone m (Ask i j k) m'
| AExch m i j k m1 m' : i < length m -> j < length m -> exchanged m m1 i j -> alone m1 k m' -> alone m (Exch i j k) m'.
(** A program that sorts every list of length [n]. *)
Definition sorts (p : prog) (n : nat) : Prop :=
  forall m, length m = n -> exists m', alone m p m' /\ Permutation m' m /\ ordered m'.
(** The program calls Less on this list, but never Swap. *)
Inductive calm (m : list A) : prog -> Prop :=
| CDone : calm m Done
| CAsk i j k x y : nth_error m i = Some x -> nth_error m j = Some y -> calm m (k (less x y)) -> calm m (Ask i j k).

(** Every writer ends or can go on, none crashes, and what was sent is [m]. *)
Definition all_send (m : list A) (s : state A) : Prop :=
  mem s = m /\ forall t, In t (writers s) -> t <> Crash /\ (forall l, t = Sent l -> l = m) /\ ((exists l, t = Sent l) \/ exists s', step less (mem s) t = Some s').
End Spec.
