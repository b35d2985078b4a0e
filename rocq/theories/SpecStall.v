(** Specification for C126. *)
From Verif Require Import Peer Sync.

Section Spec.
Context {X : Ext}.
(** Steps during which a write that is under way does not return. *)
Inductive stalled_steps : pstate X -> pstate X -> Prop :=
| StNone s : stalled_steps s s
| StMore s t u : stalled_steps s t -> pstep t u -> (forall m, p_writer t = WWrite m -> p_writer u = WWrite m) -> stalled_steps s u.
(** The messages that goroutines other than the handlers wait to put on the send queue. *)
Definition waiting_sends (s : pstate X) : list (message X) :=
  flat_map (fun o => match o with OSend m => [m] | _ => [] end) (p_others s).
(** Somebody is in Disconnect or Close. *)
Definition disconnecting (s : pstate X) : Prop := exists d, In (ODisc d) (p_others s).
(** A goroutine that was started to send or to wait for the disconnect, and has not got any further. *)
Definition fresh (o : opc X) : Prop := o = OWait \/ exists m, o = OSend m.
End Spec.

(** The same message from the same peer [k] times: the connections that goroutines were started for to relay a
    block, all together. *)
Fixpoint relays {X S} (c : context) (n : node X S) (m : message X) (k : nat) : list nat :=
  match k with
  | O => []
  | Datatypes.S k => o_relay (process_message c n m) ++ relays c (o_node (process_message c n m)) m k
  end.
