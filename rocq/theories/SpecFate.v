(** How the handling of a message can end, for C136. *)
From Verif Require Import Sync SpecPow SpecCodec SpecConsensus SpecRules SpecChain SpecPool SpecSync.

Section Spec.
Context {X : Ext} {S : storage X}.

(** The head can be hashed; what is stored has a time of day and a proof that can be hashed. *)
Definition hashable (c : chain X S) : Prop :=
  (exists h, block_hash X (c_head c) = Ok h) /\
  forall i b, st_get S (c_store c) i = Some b -> time_wf (h_time (b_header b)) /\ exists top, proof_top X (h_pow (b_header b)) top.

(** A block within the rules, other than the head and later than its parent, which is stored and whose
    proof has a hash that starts with 64 zero bits. *)
Definition on_zero (now : gotime) (c : chain X S) (b : block X) : Prop :=
  block_hash X b <> block_hash X (c_head c) /\ block_rules X now b /\
  exists prev, st_get S (c_store c) (parent_id (b_header b)) = Some prev /\ proof_top X (h_pow (b_header prev)) 0 /\
    (instant (h_time (b_header prev)) < instant (h_time (b_header b)))%Z.

(** The record listed under the address that the connection reports. *)
Definition reported (c : context) (n : node X S) (x : info) : Prop :=
  exists j, In (x_remote c, j) (pl_table (nd_pool n)) /\ nth_error (pl_infos (nd_pool n)) j = Some x.

(** Banning that address finds no connection to close, or no map to enter the address into. *)
Definition ban_panics (c : context) (n : node X S) : Prop :=
  exists x, reported c n x /\
    (i_peer x = None \/ exists k, i_peer x = Some k /\ x_closes c k = true /\ pl_bans (nd_pool n) = None).
(** It waits for a connection that does not close. *)
Definition ban_hangs (c : context) (n : node X S) : Prop :=
  exists x k, reported c n x /\ i_peer x = Some k /\ x_closes c k = false.

(** The three ways not to return. *)
Definition panics (c : context) (n : node X S) (m : message X) : Prop :=
  match m with
  | MTx t => match nd_mempool n with None => True | Some f => f t = Panic end
  | MBlock b => on_zero (x_clock c 0%nat) (nd_chain n) b
  | _ => False
  end \/ (refused c n m /\ ban_panics c n).
Definition ends_process (n : node X S) (m : message X) : Prop :=
  exists t f, m = MTx t /\ nd_mempool n = Some f /\ f t = Fatal.
Definition hangs (c : context) (n : node X S) (m : message X) : Prop := refused c n m /\ ban_hangs c n.
End Spec.
