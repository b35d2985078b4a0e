(** Trails in a bipartite graph, for C114. Like SpecPow.v without any definition of the model. *)
From Coq Require Import List Arith NArith Permutation Sorted.
From Verif Require Import SpecPow.
Import ListNotations.
Open Scope N_scope.

(** Each edge shares a vertex with the next one: a left one (if [left]), then a right one, and so on. *)
Fixpoint alternates (left : bool) (es : list (N * N)) : Prop :=
  match es with
  | e :: t => match t with
              | f :: _ => (if left then fst e = fst f else snd e = snd f) /\ alternates (negb left) t
              | [] => True
              end
  | [] => True
  end.

(** The edges can be passed through in one go, each of them once: starting with the first edge of the
    list, over its left vertex to the edges [c], back to the first edge over its right vertex, and from
    its left vertex on to the edges [r]. *)
Definition returning_trail (es : list (N * N)) : Prop :=
  exists e0 c r, nth_error es 0 = Some e0 /\ Permutation es (e0 :: c ++ r) /\ Nat.Odd (length c) /\
    alternates true (e0 :: c ++ e0 :: r).

(** A cycle with a path hanging off it: as above, where no edge occurs twice, no vertex but the left
    one of the first edge lies on more than two of the edges, and that one on at most three; of the two
    others at that vertex the one on the cycle, [e1], stands in the list before the one on the path,
    [f1]. *)
Definition lollipop (es : list (N * N)) : Prop :=
  exists e0 e1 c f1 r i j,
    nth_error es 0 = Some e0 /\ nth_error es i = Some e1 /\ nth_error es j = Some f1 /\ (i < j)%nat /\
    NoDup es /\ Permutation es (e0 :: e1 :: c ++ f1 :: r) /\ Nat.Even (length c) /\
    alternates true (e0 :: e1 :: c ++ e0 :: f1 :: r) /\
    (forall x, (degR es x <= 2)%nat) /\ (forall x, x <> fst e0 -> (degL es x <= 2)%nat) /\ (degL es (fst e0) <= 3)%nat.
