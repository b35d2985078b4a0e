(** Specifications for the chain, stated over the storage interface and without the model's chain
    functions. *)
From Verif Require Import Chain SpecPow SpecCodec SpecConsensus SpecRules.

Section Spec.
Context (X : Ext) (S : storage X).

(** The identifier a block names its parent by: hash and height - 1 (in 64 bits). *)
Definition parent_id (h : header) : block_id :=
  BlockId (Some (h_previous h)) (Some ((h_height h + 2 ^ 64 - 1) mod 2 ^ 64)).
Definition by_hash (h : bytes) : block_id := BlockId (Some h) None.
Definition by_height (n : N) : block_id := BlockId None (Some n).

(** The blocks the difficulty of a block is computed from: 71 of them starting 71 below it (or at
    0). *)
Definition window (st : st_state S) (h : header) : list (block X) :=
  st_from S st (by_height (h_height h - 71)) 71.
(** The least difficulty the next block may declare after [bl] (C31). *)
Definition required_difficulty (bl : list (block X)) : N :=
  match bl with
  | [] => 0
  | _ => if (List.length bl =? 71)%nat then target_difficulty bl else 1
  end.

(** The leading 64 bits of the hash of a proof, graph size included. *)
Definition proof_top (p : proof) (top : N) : Prop :=
  exists e, proof_enc p = Ok e /\ top = unbe (firstn 8 (blake2b X e)).

(** The rules relating a block to its parent. *)
Definition follows (st : st_state S) (top : N) (parent b : block X) : Prop :=
  (instant (h_time (b_header parent)) < instant (h_time (b_header b)))%Z /\
  h_total_difficulty (b_header b) =
    (h_total_difficulty (b_header parent) + 0x0fffffffffffffff / top) mod 2 ^ 64 /\
  required_difficulty (window st (b_header b)) <= h_difficulty (b_header b).

(** A hash that decides a header request: the head's, or one from which storage has blocks. *)
Definition unknown (st : st_state S) (head_hash h : bytes) : Prop :=
  h <> head_hash /\ st_from S st (by_hash h) 513 = [].

(** The [k]-th ancestor of a block, by hash. *)
Fixpoint ancestor (st : st_state S) (k : nat) (b : block X) : option (block X) :=
  match k with
  | O => Some b
  | Datatypes.S k =>
      match ancestor st k b with
      | Some a => match h_previous (b_header a) with
                  | [] => None
                  | p => st_get S st (by_hash p)
                  end
      | None => None
      end
  end.

(** ** Operations on a chain *)
Inductive operation :=
| DoBlock (now : gotime) (b : block X)
| DoHeaders (clock : nat -> gotime) (hs : list header).

(** What the chain's accessors report, and what is in storage. *)
Definition reports (c : chain X S) (genesis head : block X) (height td : N) (st : st_state S) : Prop :=
  c_genesis c = genesis /\ c_head c = head /\ c_height c = height /\ c_td c = td /\ c_store c = st.
End Spec.
Arguments DoBlock {X}. Arguments DoHeaders {X}.

Definition run {X S} (c : chain X S) (o : operation X) : chain X S :=
  match o with
  | DoBlock now b => snd (process_block now c b)
  | DoHeaders clock hs => snd (process_headers clock c hs)
  end.
Arguments unknown {X S}. Arguments ancestor {X S}. Arguments window {X S}. Arguments follows {X S}.
Arguments reports {X S}.
