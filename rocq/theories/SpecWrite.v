(** Which messages can be written. Specification; only the record types of the model are used. *)
From Verif Require Import Messages SpecCodec SpecConsensus.

(** An address is written if it has four or sixteen bytes. *)
Definition addr_sized (a : addr) : Prop := List.length (ip a) = 4%nat \/ List.length (ip a) = 16%nat.
(** The checks made before a header is written: five of its fields are hashes. *)
Definition hashes_sized (h : header) : Prop :=
  Forall (fun x : bytes => List.length x = 32%nat) [h_previous h; h_prev_root h; h_utxo_root h; h_rp_root h; h_kernel_root h].
(** The bits of 42 nonces, in whole bytes, are room for what is written: bit [j] of nonce number [i]
    is bit [i * bits + j]; bits from 32 on, which a nonce does not have, are not written. *)
Definition room (p : proof) : Prop :=
  forall i n j, nth_error (p_nonces p) i = Some n -> j < p_bits p -> j < 32 -> N.testbit n j = true ->
  N.of_nat i * p_bits p + j < 8 * bytes_for (42 * p_bits p).
Definition header_writable (h : header) : Prop := hashes_sized h /\ room (h_pow h).

Section Spec.
Context {X : Ext}.

(** The header of a message that has one. *)
Definition header_of (m : message X) : option header :=
  match m with MHeader h => Some h | MBlock b => Some (b_header b) | MCompact b => Some (cb_header b) | _ => None end.

(** Writing the message ends the process with a message in the log. *)
Definition unwritable (m : message X) : Prop :=
  match m with
  | MHand h => ~ (exists s r, hd_sender h = Some s /\ hd_receiver h = Some r /\ addr_sized s /\ addr_sized r)
  | MPeerAddrs l => ~ (lenN l <= 256 /\ Forall addr_sized l)
  | MGetHeaders hs => 14 < lenN hs
  | MGetBlock h => List.length h <> 32%nat
  | MHeaders l => 512 < lenN l \/ exists pre h post, l = pre ++ h :: post /\ Forall header_writable pre /\ ~ hashes_sized h
  | _ => exists h, header_of m = Some h /\ ~ hashes_sized h
  end.
(** Writing the message is a run-time error: an index is out of range. *)
Definition overflowing (m : message X) : Prop :=
  match m with
  | MHeaders l => lenN l <= 512 /\ exists pre h post, l = pre ++ h :: post /\ Forall header_writable pre /\ hashes_sized h /\ ~ room (h_pow h)
  | _ => exists h, header_of m = Some h /\ hashes_sized h /\ ~ room (h_pow h)
  end.
End Spec.
