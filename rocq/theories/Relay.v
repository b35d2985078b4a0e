(** Sending one block to several peers: p2p/pool.go:183-197 puts the same *Block on the send queues of
    several peers, whose write handlers (p2p/peer.go:129-156) call its Bytes method
    (consensus/block.go:82-128) concurrently; that method sorts the block's lists in place.

    One of the lists is modelled. Simplifications: a read or write of one element is a single step
    (elements are structs or interfaces of several words), and memory is sequentially consistent (Go
    promises nothing for racing accesses). *)
From Coq Require Export List.
From Coq Require Import Arith.
Export ListNotations.

Section Relay.
Context {A : Type} (less : A -> A -> bool).

(** sort.Sort (Go's library) can touch the list only by Less, Swap and Len: for a given length it is a
    finite tree of calls. *)
Inductive prog := Done | Ask (i j : nat) (k : bool -> prog) | Exch (i j : nat) (k : prog).

(** The insertion sort that the library uses for short lists: for i := 1; i < n; i++ and, inside,
    for j := i; j > 0 && Less(j, j-1); j-- the call Swap(j, j-1). *)
Fixpoint sink (j : nat) (k : prog) : prog :=
  match j with O => k | S j' => Ask (S j') j' (fun b => if b then Exch (S j') j' (sink j' k) else k) end.
Fixpoint insert_from (i count : nat) : prog :=
  match count with O => Done | S c => sink i (insert_from (S i) c) end.
Definition insertion (n : nat) : prog := insert_from 1 (n - 1).

(** A write handler in Bytes (block.go:101-125): sorting, then reading the elements one by one into the
    buffer. Less reads two elements (block.go:515-517, 636-638, 766-768); Swap is m[i], m[j] = m[j], m[i]
    (block.go:519-521, 640-642, 770-772): two reads, then two writes. *)
Inductive writer :=
| Sorting (p : prog)
| Less1 (i j : nat) (x : A) (k : bool -> prog)
| Swap1 (i j : nat) (y : A) (k : prog)
| Swap2 (i j : nat) (y x : A) (k : prog)
| Swap3 (j : nat) (x : A) (k : prog)
| Copying (i : nat) (acc : list A)
| Sent (l : list A)
| Crash.

Fixpoint put (i : nat) (x : A) (m : list A) : list A :=
  match m, i with [], _ => [] | _ :: t, O => x :: t | a :: t, S i => a :: put i x t end.
(** An access: an index out of range panics. *)
Definition fetch (m : list A) (i : nat) (k : A -> writer) : list A * writer :=
  match nth_error m i with Some x => (m, k x) | None => (m, Crash) end.
(** One step; None when the writer is done. *)
Definition step (m : list A) (t : writer) : option (list A * writer) :=
  match t with
  | Sorting Done => Some (m, Copying 0 [])
  | Sorting (Ask i j k) => Some (fetch m i (fun x => Less1 i j x k))
  | Less1 i j x k => Some (fetch m j (fun y => Sorting (k (less x y))))
  | Sorting (Exch i j k) => Some (fetch m j (fun y => Swap1 i j y k))
  | Swap1 i j y k => Some (fetch m i (fun x => Swap2 i j y x k))
  | Swap2 i j y x k => Some (put i y m, Swap3 j x k)
  | Swap3 j x k => Some (put j x m, Sorting k)
  | Copying i acc =>
      if i <? length m then Some (fetch m i (fun x => Copying (S i) (acc ++ [x]))) else Some (m, Sent acc)
  | Sent _ | Crash => None
  end.

(** Any number of writers on one list, in any order. *)
Record state := State { mem : list A; writers : list writer }.
Inductive next : state -> state -> Prop :=
| Next m before t after m' t' : step m t = Some (m', t') ->
    next (State m (before ++ t :: after)) (State m' (before ++ t' :: after)).
Inductive reach : state -> state -> Prop :=
| Here s : reach s s
| Then s s1 s2 : reach s s1 -> next s1 s2 -> reach s s2.
(** [n] peers are sent the same list. *)
Definition relayed (p : prog) (n : nat) (m : list A) : state := State m (repeat (Sorting p) n).
End Relay.
Arguments prog : clear implicits. Arguments writer : clear implicits. Arguments state : clear implicits.
