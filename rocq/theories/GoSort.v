(** How Go's sort.Sort, called at consensus/block.go:102-104, begins. The library is not in /repo; this is
    the text of package sort of the Go releases before 1.19 (quickSort; the releases of the time of the
    pinned dependencies, December 2018) and from 1.19 on (pdqsort), as far as it runs on lists that are in
    order: what it does where a comparison shows that they are not is left open as an argument. *)
From Coq Require Import Arith.
From Verif Require Import Relay.

(** ** Before 1.19 *)
(** consensus/block.go:102-104, library, quickSort for at most 12 elements: for i := a + 6; i < b; i++ the call Less(i, i-6) and, if it holds,
    Swap(i, i-6); then insertionSort. *)
Fixpoint gap_pass (i count : nat) (k : prog) : prog :=
  match count with
  | O => k
  | S c => Ask i (i - 6) (fun b => if b then Exch i (i - 6) (gap_pass (S i) c k) else gap_pass (S i) c k)
  end.
Definition shell (n : nat) : prog := gap_pass 6 (n - 6) (insertion n).
(** consensus/block.go:102-104, library, more elements: doPivot begins with medianOfThree(lo, m, hi-1), m the middle, or for more than 40 elements with
    medianOfThree(lo, lo+s, lo+2*s), s an eighth; and that with Less(m1, m0), followed by Swap(m1, m0) if it
    holds. [rest]: what follows. *)
Definition first_probe (n : nat) : nat := if 40 <? n then n / 8 else n / 2.
Definition quick_sort (rest : bool -> prog) (n : nat) : prog :=
  if n <=? 12 then shell n
  else Ask 0 (first_probe n) (fun b => if b then Exch 0 (first_probe n) (rest true) else rest false).

(** ** From 1.19 on *)
(** consensus/block.go:102-104, library, order2: if Less(b, a) then one more swap and the indices exchanged. [k] gets indices and swaps. *)
Definition order2 (a b sw : nat) (k : nat -> nat -> nat -> prog) : prog :=
  Ask b a (fun c => if c then k b a (S sw) else k a b sw).
(** consensus/block.go:102-104, library, median of three indices; medianAdjacent. *)
Definition median (a b c sw : nat) (k : nat -> nat -> prog) : prog :=
  order2 a b sw (fun a b sw => order2 b c sw (fun b c sw => order2 a b sw (fun a b sw => k b sw))).
Definition median_adjacent (a sw : nat) (k : nat -> nat -> prog) : prog := median (a - 1) a (a + 1) sw k.
(** consensus/block.go:102-104, library, choosePivot, for at least 8 elements; from 50 on with medians of neighbours. *)
Definition choose_pivot (n : nat) (k : nat -> nat -> prog) : prog :=
  let i := n / 4 * 1 in let j := n / 4 * 2 in let l := n / 4 * 3 in
  if 50 <=? n then
    median_adjacent i 0 (fun i sw => median_adjacent j sw (fun j sw => median_adjacent l sw (fun l sw => median i j l sw k)))
  else median i j l 0 k.
(** consensus/block.go:102-104, library, the first loop of partialInsertionSort: for i < b && !Less(i, i-1) the index grows; true if it got to b. *)
Fixpoint partial_insertion (i count : nat) (shift : nat -> prog) : prog :=
  match count with O => Done | S c => Ask i (i - 1) (fun b => if b then shift i else partial_insertion (S i) c shift) end.
(** consensus/block.go:102-104, library, pdqsort: insertionSort for at most 12 elements; otherwise choosePivot and, if it counted no swap, the
    increasing hint and partialInsertionSort. [other]: what follows other hints; [shift]: what follows when
    the list is not in order at an index. *)
Definition pdq_sort (other : nat -> nat -> prog) (shift : nat -> prog) (n : nat) : prog :=
  if n <=? 12 then insertion n
  else choose_pivot n (fun j sw => match sw with O => partial_insertion 1 (n - 1) shift | S _ => other j sw end).
