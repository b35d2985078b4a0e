(** Properties C79-C82: connections from the handshake to their end. Statements; proofs are in
    ServeProofs.v, specifications in SpecServe.v, SpecSync.v and SpecMessages.v. *)
From Verif Require Import Serve SpecCodec SpecConsensus SpecMessages SpecHandshake SpecPool SpecSync SpecServe HandshakeProofs ServeProofs PoolExamples
  Instance RulesExamples ChainExamples SyncExamples PropMessages PropHandshake.

(** * C79: a connection is served frame by frame *)

(** However the bytes arrive: they are whole frames followed by something, and the node and the answers
    are those of handling the messages in these frames one after the other, up to the end of the
    frames or to the first message whose handling does not return. *)
Theorem C79_served : forall X S lenient w fuel p (n : node X S) chunks,
  pe_sync p = true -> Forall (fun c : bytes => c <> []) chunks ->
  let r := run_peer lenient w fuel p n chunks in
  exists frames outs tail,
    concat chunks = flat_map whole frames ++ tail /\ Forall frame_ok frames /\
    Forall2 (fun f m => decode_frame X lenient (fst f) (snd f) = Ok m) frames outs /\
    (List.length frames <= fuel)%nat /\ (sv_stop r = Leave Cont -> List.length frames = fuel) /\
    ended lenient w n 0 0 outs frames tail (sv_answers r) (sv_node r) (sv_count r) (sv_stop r).
Proof. exact run_parses. Qed.
Print Assumptions C79_served.
(** No connection changes the chain. *)
Theorem C79_chain : forall X S lenient w fuel p (n : node X S) chunks me,
  pe_sync p = true -> Forall (fun c : bytes => c <> []) chunks -> around_ok me w -> entered me (nd_pool n) ->
  nd_chain (sv_node (run_peer lenient w fuel p n chunks)) = nd_chain n.
Proof. exact chain_stays. Qed.
Print Assumptions C79_chain.
(** The shipped node with two connections, alone with the first of them, which pings and asks for
    addresses, in two chunks that split the second frame. *)
Definition quiet_around : around := Around (fun _ => first addr_a) (fun _ p => p).
Definition some_peer : peer := PeerOf seed true 1 7 30000 [] 0.
Definition talk : list bytes := [frame_of 3 (be 8 5 ++ be 8 6) ++ [x54]; dropN 1 (frame_of 5 (be 4 3))].
Lemma quiet_ok : around_ok seed quiet_around.
Proof. intro i. split; [reflexivity|auto]. Qed.
Lemma two_entered : entered seed two.
Proof.
  split; [|split; [reflexivity|]].
  - constructor; [|constructor; [intros []|constructor]]. intros [E|[]]. discriminate E.
  - exists 1%nat. eexists. split; [left; reflexivity|reflexivity].
Qed.
Example C79_case : forall X lenient, let r := run_peer lenient quiet_around 9 some_peer (busy X) talk in
  pe_sync some_peer = true /\ Forall (fun c : bytes => c <> []) talk /\
  sv_answers r = [MPong (PingMsg (c_td (node_chain X)) 0); MPeerAddrs [Addr [x7f; x00; x00; x01] 13414; Addr [x7f; x00; x00; x01] 13414]] /\
  sv_count r = 42 /\ sv_stop r = Leave (Failed EOF) /\
  map (fun x => (i_td x, i_height x)) (pl_infos (nd_pool (sv_node r))) = [(30000, 0); (5, 6)].
Proof.
  intros X lenient. split; [reflexivity|]. split; [repeat constructor; discriminate|].
  destruct lenient; (split; [vm_compute; reflexivity|]); (split; [vm_compute; reflexivity|]); (split; vm_compute; reflexivity).
Qed.

(** * C80: no connection takes the node down (refuted) *)

(** The whole attack: an address that the node dials answers with 134 bytes, a shake and a transaction;
    however they arrive, the node panics. *)
Theorem C80_dial_refuted : forall X S lenient w name nonce receiver (n : node X S),
  hash_laws X -> is_u64 nonce -> ipv4 receiver -> port_ok receiver ->
  around_ok name w -> entered name (nd_pool n) -> nd_mempool n = None ->
  exists input p rest, lenN input = 134 /\ fst (new_peer X lenient name nonce receiver None input) = Ok (p, rest) /\
    forall fuel chunks, Forall (fun c : bytes => c <> []) chunks -> concat chunks = rest ->
      sv_stop (run_peer lenient w (Datatypes.S fuel) p n chunks) = Stuck HPanic.
Proof.
  intros X S lenient w name nonce receiver n HL Hn V P A En Mp.
  exists (frame_of 2 (shake_bytes some_shake) ++ tx_frame). eexists _, _. split; [vm_compute; reflexivity|]. split.
  - apply (any_shake X lenient); auto; [|vm_compute; discriminate]. repeat split; vm_compute; first [reflexivity|discriminate|exact I|idtac]; auto.
  - intros fuel chunks F E. apply (tx_kills X S lenient w fuel _ n chunks name []); [reflexivity|exact F|rewrite (app_nil_r tx_frame); exact E|exact A|exact En|exact Mp].
Qed.
Print Assumptions C80_dial_refuted.
Example C80_case : hash_laws toy /\ is_u64 99 /\ ipv4 ex_addr /\ port_ok ex_addr /\
  around_ok seed quiet_around /\ entered seed (nd_pool (busy toy)) /\ nd_mempool (busy toy) = None.
Proof.
  split; [exact toy_hash_laws|]. split; [reflexivity|]. split; [apply ex_addr_ok|]. split; [apply ex_addr_ok|].
  split; [exact quiet_ok|]. split; [exact two_entered|reflexivity].
Qed.
(** What takes a node without a mempool down is one of: a compact block whose decoding panics, a
    transaction, or headers or a block that are refused while the address reported by the connection is
    in the table. *)
Theorem C80_otherwise_partial : forall X S lenient w fuel p (n : node X S) chunks me,
  codec_safe X -> pe_sync p = true -> Forall (fun c : bytes => c <> []) chunks ->
  around_ok me w -> entered me (nd_pool n) -> sound_chain (nd_chain n) -> nd_mempool n = None ->
  broke (sv_stop (run_peer lenient w fuel p n chunks)) ->
  exists frames f rest, concat chunks = flat_map whole frames ++ whole f ++ rest /\ frame_ok f /\
    ((fst f = 13 /\ (decode_frame X lenient (fst f) (snd f) = Panic \/ decode_frame X lenient (fst f) (snd f) = Fatal)) \/ fst f = 15 \/
     ((fst f = 9 \/ fst f = 11) /\ exists m ms ans n', let k := List.length ms in
        decode_frame X lenient (fst f) (snd f) = Ok (Some m) /\
        handled w 0 n ms ans n' /\ refused (ar_context w k) (met w k n') m /\ remote_listed (ar_context w k) (met w k n'))).
Proof. exact breaks. Qed.
Print Assumptions C80_otherwise_partial.
Example C80_otherwise_case : codec_safe toy /\ sound_chain (nd_chain (busy toy)) /\
  broke (sv_stop (run_peer false quiet_around 3 some_peer (busy toy) [frame_of 3 (be 8 5 ++ be 8 6) ++ tx_frame])).
Proof.
  split; [exact toy_safe|]. split; [apply shipped_sound|]. right. right. exists HPanic. vm_compute. reflexivity.
Qed.

(** * C81: answers are bounded *)

(** With the storage of the repository, the node sends at most one answer per 11 bytes it receives, all
    of them can be encoded, and together their frames are at most 189 times as long as what was
    received. *)
Theorem C81_bounded : forall X lenient w fuel p (n : node X (sql_storage X)) chunks,
  pe_sync p = true -> Forall (fun c : bytes => c <> []) chunks ->
  (forall i s r, x_resolve (ar_context w i) s = Some r -> List.length (ip r) = 4%nat \/ List.length (ip r) = 16%nat) ->
  exists encs, Forall2 (fun a e => exists k, write_message X a = Ok (e, k)) (sv_answers (run_peer lenient w fuel p n chunks)) encs /\
    lenN (concat encs) <= 189 * lenN (concat chunks) /\
    11 * lenN (sv_answers (run_peer lenient w fuel p n chunks)) <= lenN (concat chunks).
Proof. exact run_bound. Qed.
Print Assumptions C81_bounded.
(** The factor is nearly reached, 2831 bytes for 15: a table of 300 records whose addresses are IPv6. *)
Definition name_of (i : nat) : bytes := be 2 (N.of_nat i).
Definition crowd : pool := Pool 0 0 (repeat (Info StNew None 1 0 0 7 false) 300) (map (fun i => (name_of i, i)) (seq 0 300)) [] None.
Definition crowd_around : around :=
  Around (fun _ => Context (fun _ => ex_now) (fun _ => Some (Addr (x20 :: brepeat x01 15) 13414)) (fun _ => []) (pl_table crowd) (name_of 0) [] (fun _ => false))
    (fun _ p => p).
Example C81_case : forall X, let r := run_peer false crowd_around 9 some_peer (Node (node_chain X) crowd None) [frame_of 5 (be 4 3)] in
  exists a e, sv_answers r = [a] /\ write_message X a = Ok (e, 2831) /\ lenN e = 2831 /\ lenN (frame_of 5 (be 4 3)) = 15.
Proof.
  intro X. cbv zeta.
  exists (MPeerAddrs (repeat (Addr (x20 :: brepeat x01 15) 13414) 256)). eexists.
  split; [vm_compute; reflexivity|]. split; [vm_compute; reflexivity|]. split; vm_compute; reflexivity.
Qed.

(** * C82: connections that were accepted are served (refuted) *)

(** A peer made by AcceptNewPeer has no syncer: nothing it sends changes the node or is answered, and
    the first message that would be handled makes the process panic. *)
Theorem C82_accepted_refuted : forall X S lenient w nonces wr input p rest ops fuel (n : node X S) chunks,
  accept_new_peer X lenient nonces wr input = (Ok (p, rest), ops) -> Forall (fun c : bytes => c <> []) chunks ->
  let r := run_peer lenient w fuel p n chunks in
  sv_node r = n /\ sv_answers r = [] /\
  (forall frames f m more outs, concat chunks = flat_map whole frames ++ whole f ++ more -> Forall frame_ok frames -> frame_ok f ->
     Forall2 (fun f o => decode_frame X lenient (fst f) (snd f) = Ok o) frames outs -> decode_frame X lenient (fst f) (snd f) = Ok (Some m) ->
     (List.length frames < fuel)%nat -> sv_stop r = Stuck HPanic).
Proof.
  intros X S lenient w nonces wr input p rest ops fuel n chunks E F.
  exact (unsynced_run X S lenient w fuel p n chunks (accepted_unsynced X lenient nonces wr input p rest ops E) F).
Qed.
Print Assumptions C82_accepted_refuted.
(** A hand followed by a ping. *)
Lemma ping_decodes X : decode_frame X false 3 (be 8 5 ++ be 8 6) = Ok (Some (MPing (PingMsg 5 6))).
Proof. vm_compute. reflexivity. Qed.
Example C82_case : exists input p ops, accept_new_peer toy false [] None input = (Ok (p, frame_of 3 (be 8 5 ++ be 8 6)), ops) /\
  decode_frame toy false 3 (be 8 5 ++ be 8 6) = Ok (Some (MPing (PingMsg 5 6))) /\ frame_ok (3, be 8 5 ++ be 8 6).
Proof.
  destruct (C14_both_ends_refuted toy false [] 99 ex_addr toy_hash_laws eq_refl (proj1 ex_addr_ok) (proj2 ex_addr_ok) (fun x => x))
    as (f1 & f2 & g & h & _ & _ & H & _).
  exists (f1 ++ frame_of 3 (be 8 5 ++ be 8 6)). eexists _, _. split; [unfold accept_new_peer; rewrite H; reflexivity|].
  split; [apply ping_decodes|]. split; vm_compute; [reflexivity|discriminate].
Qed.
