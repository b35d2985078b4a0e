(** Specifications for the syncer. *)
From Verif Require Import Sync SpecPool.

Section Spec.
Context (X : Ext) (S : storage X).

(** A message as the read loop hands it to the syncer: decoded from some frame. *)
Definition received (lenient : bool) (m : message X) : Prop :=
  exists t body, decode_frame X lenient t body = Ok (Some m).

(** [p'] is [p] except that the record with index [i] has this total difficulty and height. *)
Definition recorded (i : nat) (td h : N) (p p' : pool) : Prop :=
  pl_connected p' = pl_connected p /\ pl_slots p' = pl_slots p /\ pl_table p' = pl_table p /\ pl_up p' = pl_up p /\
  pl_bans p' = pl_bans p /\ List.length (pl_infos p') = List.length (pl_infos p) /\
  (forall j, j <> i -> nth_error (pl_infos p') j = nth_error (pl_infos p) j) /\
  exists x, nth_error (pl_infos p) i = Some x /\
    nth_error (pl_infos p') i = Some (Info (i_status x) (i_peer x) (i_version x) h td (i_caps x) (i_locked x)).

(** The record of the peer a message comes from. *)
Definition sender (c : context) (n : node X S) (i : nat) (x : info) : Prop :=
  In (x_me c, i) (pl_table (nd_pool n)) /\ NoDup (map fst (pl_table (nd_pool n))) /\ nth_error (pl_infos (nd_pool n)) i = Some x.

(** The address that the connection reports is a key of the table. *)
Definition remote_listed (c : context) (n : node X S) : Prop := In (x_remote c) (map fst (pl_table (nd_pool n))).

(** A chain whose head can be hashed and whose stored blocks have proofs with a difficulty. *)
Definition sound_chain (c : chain X S) : Prop :=
  (exists h, block_hash X (c_head c) = Ok h) /\
  forall i b, st_get S (c_store c) i = Some b -> exists d, to_difficulty X (h_pow (b_header b)) = Ok d.

(** A storage whose contents can be sent. *)
Definition sendable_store (st : st_state S) : Prop :=
  (forall i n, (List.length (st_from S st i n) <= N.to_nat n)%nat) /\
  (forall i n b, In b (st_from S st i n) -> exists bs, header_bytes (b_header b) = Ok bs) /\
  (forall i b, st_get S st i = Some b -> exists bs, block_bytes X b = Ok bs).

(** The messages that are refused: headers and blocks that do not pass, transactions that the mempool
    refuses. *)
Definition refused (c : context) (n : node X S) (m : message X) : Prop :=
  match m with
  | MHeaders l => exists e, fst (process_headers (x_clock c) (nd_chain n) l) = Err e
  | MBlock b => exists e, fst (process_block (x_clock c 0%nat) (nd_chain n) b) = Err e
  | MTx t => exists f e, nd_mempool n = Some f /\ f t = Err e
  | _ => False
  end.

(** Nodes after any history of messages, with the pool changing arbitrarily in between. *)
Inductive history (n : node X S) : node X S -> Prop :=
| HyStart : history n n
| HyMessage c m t : history n t -> history n (o_node (process_message c t m))
| HyPool p t : history n t -> history n (Node (nd_chain t) p (nd_mempool t)).

(** A peer that is behind a block: lower height or lower total difficulty. *)
Definition behind (h : header) (x : info) : Prop := i_height x < h_height h \/ i_td x < h_total_difficulty h.
End Spec.

Arguments received {X}. Arguments sender {X S}. Arguments remote_listed {X S}. Arguments sound_chain {X S}.
Arguments sendable_store {X S}. Arguments refused {X S}. Arguments history {X S}.
