(** Specification for C134: from the bytes of a shake to the record. *)
From Verif Require Import Pool Handshake.

(** What connectPeer takes from the peer that NewPeer returned. *)
Definition told_by (p : peer) : dialled := Dialled (pe_version p) (pe_caps p) (pe_difficulty p).
(** A record that is connected, and holds what was announced. *)
Definition announced (x : info) (caps td : N) : Prop :=
  i_status x = StConnected /\ i_peer x <> None /\ i_version x = 1 /\ i_height x = 0 /\ i_td x = td /\ i_caps x = caps.
