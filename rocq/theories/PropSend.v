(** Properties C83-C85: what nodes tell each other. Statements; proofs are in SendProofs.v,
    specifications in SpecSend.v, SpecServe.v, SpecSync.v and SpecPool.v. *)
From Verif Require Import Send SpecSend SpecCodec SpecConsensus SpecMessages SpecPool SpecSync SpecServe PoolExamples SendProofs
  Instance RulesExamples ChainExamples SyncExamples PropMessages PropHandshake PropServe.

(** The converse of C79: whatever the chunks, frames whose messages are handled are all served. *)
Theorem C79_complete : forall X S lenient w frames ms fuel p (n : node X S) chunks ans n',
  pe_sync p = true -> Forall (fun c : bytes => c <> []) chunks -> concat chunks = flat_map whole frames -> Forall frame_ok frames ->
  Forall2 (fun f m => decode_frame X lenient (fst f) (snd f) = Ok (Some m)) frames ms -> handled w 0 n ms ans n' ->
  (List.length frames < fuel)%nat ->
  let r := run_peer lenient w fuel p n chunks in sv_node r = n' /\ sv_answers r = ans /\ sv_stop r = Leave (Failed EOF).
Proof. exact run_all. Qed.
Print Assumptions C79_complete.
Example C79_complete_case : forall X, exists ans n', handled quiet_around 0 (busy X) [MPing (PingMsg 5 6); MGetPeerAddrs 3] ans n' /\ ans <> [].
Proof.
  intro X. eexists _, _. split.
  - cbn [handled]. eexists. split; [reflexivity|]. split; [reflexivity|]. exists []. split; [reflexivity|]. split; [reflexivity|]. split; reflexivity.
  - discriminate.
Qed.

(** * C83: greeting a peer tells it the sender's state (refuted) *)

(** Whatever the sender's chain is, the receiver of a greeting records total difficulty 1 and height 1
    for it. *)
Theorem C83_ping_refuted : forall X S lenient w fuel p (n : node X S) chunks encs i x,
  pe_sync p = true -> Forall (fun c : bytes => c <> []) chunks ->
  Forall2 (fun m e => exists k, write_message X m = Ok (e, k)) (greeting X) encs -> concat chunks = concat encs ->
  sender (ar_context w 0) (met w 0 n) i x -> x_me (ar_context w 1) = x_me (ar_context w 0) -> (forall q, ar_pool w 1 q = q) -> (2 < fuel)%nat ->
  let r := run_peer lenient w fuel p n chunks in
  recorded i 1 1 (nd_pool (met w 0 n)) (nd_pool (sv_node r)) /\ nd_chain (sv_node r) = nd_chain n /\
  (exists l, sv_answers r = [MPong (PingMsg (c_td (nd_chain n)) (c_height (nd_chain n))); MPeerAddrs l]) /\ sv_stop r = Leave (Failed EOF).
Proof. exact greeted. Qed.
Print Assumptions C83_ping_refuted.
(** The answer does tell it: the pong of the theorem above, in any chunks, makes its receiver record
    the total difficulty and height of the node that sent it. Missing: the other direction. *)
Theorem C83_pong_partial : forall X S lenient w fuel p (n : node X S) chunks e k i x td h,
  pe_sync p = true -> Forall (fun c : bytes => c <> []) chunks ->
  is_u64 td -> is_u64 h -> write_message X (MPong (PingMsg td h)) = Ok (e, k) -> concat chunks = e ->
  sender (ar_context w 0) (met w 0 n) i x -> (1 < fuel)%nat ->
  let r := run_peer lenient w fuel p n chunks in
  recorded i td h (nd_pool (met w 0 n)) (nd_pool (sv_node r)) /\ sv_answers r = [] /\ sv_stop r = Leave (Failed EOF).
Proof. exact pong_taken. Qed.
Print Assumptions C83_pong_partial.
Example C83_case : forall X, exists encs x, Forall2 (fun m e => exists k, write_message X m = Ok (e, k)) (greeting X) encs /\ lenN (concat encs) = 42 /\
  sender (ar_context quiet_around 0) (met quiet_around 0 (busy X)) 1 x /\ i_height x <> 1 /\
  x_me (ar_context quiet_around 1) = x_me (ar_context quiet_around 0) /\ (forall q, ar_pool quiet_around 1 q = q) /\
  exists e k, write_message X (MPong (PingMsg 30000 12)) = Ok (e, k) /\ lenN e = 27.
Proof.
  intro X. eexists [_; _]. eexists. split; [constructor; [eexists; reflexivity|constructor; [eexists; reflexivity|constructor]]|].
  split; [vm_compute; reflexivity|]. split.
  { split; [left; reflexivity|]. split; [apply two_entered|reflexivity]. }
  split; [discriminate|]. split; [reflexivity|]. split; [reflexivity|]. eexists _, _. split; [reflexivity|vm_compute; reflexivity].
Qed.

(** * C84: a node that lags behind asks for what it lacks (refuted) *)

(** Whatever the node and its chain, and whatever a peer says or announces, nothing the node puts on
    the peer's send queue after the handshake is a request for headers or blocks. *)
Theorem C84_never_asks_refuted : forall X S lenient w fuel p (n : node X S) chunks m,
  In m (outgoing X (run_peer lenient w fuel p n chunks)) -> ~ request X m.
Proof. exact never_asks. Qed.
Print Assumptions C84_never_asks_refuted.
(** A peer that announces a total difficulty of 2^63 and height 2^40 to a node at height 0. *)
Definition ahead : list bytes := [frame_of 3 (be 8 (2 ^ 63) ++ be 8 (2 ^ 40))].
Example C84_case : forall X, let r := run_peer false quiet_around 9 some_peer (busy X) ahead in
  outgoing X r = [MPing (PingMsg 1 1); MGetPeerAddrs 7; MPong (PingMsg (c_td (node_chain X)) 0)] /\
  map i_height (pl_infos (nd_pool (sv_node r))) = [0; 2 ^ 40] /\ request X (MGetBlock []).
Proof. intro X. split; [vm_compute; reflexivity|]. split; [vm_compute; reflexivity|exact I]. Qed.

(** * C85: addresses spread *)

(** A node [b] answers a request for addresses with one message, which can be sent; whatever chunks it
    arrives in, the node [a] that reads it keeps the addresses it had, adds only (the notation of)
    endpoints of eligible entries of b's table, and, when the answer is not full and there is room,
    every one that resolves to a usable address. For b's addresses resolving to IPv4. *)
Theorem C85_gossip : forall X S lenient w (c : context) (b : node X S) i x caps fuel p (a : node X S) j y,
  sender c b i x -> valid_table (nd_pool b) -> Permutation (x_order c) (pl_table (nd_pool b)) ->
  (forall s r, x_resolve c s = Some r -> ipv4 r /\ port_ok r) ->
  pe_sync p = true -> sender (ar_context w 0) (met w 0 a) j y -> (1 < fuel)%nat ->
  exists l e k, o_answers (process_message c b (MGetPeerAddrs caps)) = [MPeerAddrs l] /\ write_message X (MPeerAddrs l) = Ok (e, k) /\
  forall chunks, Forall (fun c : bytes => c <> []) chunks -> concat chunks = e ->
  let r := run_peer lenient w fuel p a chunks in let know q := In q (map fst (pl_table (nd_pool (sv_node r)))) in
  let had q := In q (map fst (pl_table (nd_pool (met w 0 a)))) in
  sv_answers r = [] /\ sv_stop r = Leave (Failed EOF) /\ (forall q, had q -> know q) /\
  (forall q, know q -> had q \/ exists s n z u u', In (s, n) (pl_table (nd_pool b)) /\ nth_error (pl_infos (nd_pool b)) n = Some z /\ eligible caps z /\
     x_resolve c s = Some u /\ same_endpoint u u' /\ q = x_string (ar_context w 0) u') /\
  (lenN l < 256 -> lenN (pl_table (nd_pool (met w 0 a))) + lenN l <= 10001 ->
   forall s n z u, In (s, n) (pl_table (nd_pool b)) -> nth_error (pl_infos (nd_pool b)) n = Some z -> eligible caps z -> x_resolve c s = Some u ->
     exists u', same_endpoint u u' /\
       (usable (x_resolve (ar_context w 0) (x_string (ar_context w 0) u')) -> know (x_string (ar_context w 0) u'))).
Proof. intros X S lenient w c b i x caps fuel p a j y. exact (gossip X S lenient w c b i x caps fuel p a j y). Qed.
Print Assumptions C85_gossip.
(** The node with two connections tells another node about 127.0.0.1:13414. *)
Definition spelled : around := Around (fun _ => Context (fun _ => ex_now) (fun _ => Some (Addr [x7f; x00; x00; x01] 13414)) (fun a => [x63]) [] seed [] (fun _ => false))
  (fun _ p => p).
Example C85_case : forall X, (exists x, sender (ar_context quiet_around 0) (busy X) 1 x) /\ valid_table (nd_pool (busy X)) /\
  Permutation (x_order (ar_context quiet_around 0)) (pl_table (nd_pool (busy X))) /\
  (forall s r, x_resolve (ar_context quiet_around 0) s = Some r -> ipv4 r /\ port_ok r) /\
  exists e k, write_message X (MPeerAddrs (repeat (Addr [x7f; x00; x00; x01] 13414) 2)) = Ok (e, k) /\
    o_answers (process_message (ar_context quiet_around 0) (busy X) (MGetPeerAddrs 7)) = [MPeerAddrs (repeat (Addr [x7f; x00; x00; x01] 13414) 2)] /\
    map fst (pl_table (nd_pool (sv_node (run_peer false spelled 9 some_peer (busy X) [e])))) = [x63] :: map fst (pl_table two).
Proof.
  intro X. split; [eexists; split; [left; reflexivity|]; split; [apply two_entered|reflexivity]|].
  split. { intros q n I. cbn in *. destruct I as [E|[E|[]]]; injection E as <- <-; repeat constructor. }
  split; [apply Permutation_refl|]. split.
  { intros s r E. vm_compute in E. injection E as <-. split; [exists [x7f; x00; x00; x01]; auto|split; vm_compute; first [reflexivity|discriminate]]. }
  eexists _, _. split; [reflexivity|]. split; vm_compute; reflexivity.
Qed.
