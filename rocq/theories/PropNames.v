(** Property C139: the texts under which endpoints are listed. Statements; proofs are in NamesProofs.v and
    NamesUseProofs.v, the specification in SpecNames.v. *)
From Verif Require Import Names Sync Send SpecNames SpecMessages SpecConsensus SpecPool SpecFull SpecSync SpecSend SpecServe PoolExamples
  Instance RulesExamples ChainExamples SyncExamples PropServe NamesProofs NamesUseProofs NamesExamples.

(** * C139 *)

(** The text of an IPv4 endpoint is its usual notation, which is unique, ... *)
Theorem C139_text : forall other a s, ipv4 a -> port_ok a -> (spelled s a <-> s = tcp_text other a).
Proof. intros other a s I P. split; [apply spelled_text|]. intros ->. now apply text_spelled. Qed.
Print Assumptions C139_text.
(** ... resolves to it, whichever Go is used and whatever other texts resolve to, ... *)
Theorem C139_resolves : forall strict dns s a, spelled s a -> exists r, resolve_text strict dns s = Some r /\ same_endpoint r a.
Proof. intros strict dns s a H. eexists. split; [exact (spelled_resolve strict dns s a H)|apply resolved_same]. Qed.
Print Assumptions C139_resolves.
(** ... and is that of no other endpoint. *)
Theorem C139_injective : forall other a b, ipv4 a -> port_ok a -> ipv4 b -> port_ok b ->
  (tcp_text other a = tcp_text other b <-> same_endpoint a b).
Proof. intros other a b A PA B PB. exact (text_same other false (fun _ => None) a b A PA B PB). Qed.
Print Assumptions C139_injective.
(** The library meets what C124 assumes of it. *)
Theorem C139_names : forall other strict dns, names (tcp_text other) (resolve_text strict dns).
Proof. exact text_names. Qed.
Print Assumptions C139_names.
Example C139_case : forall other, let a := Addr [x7f; x00; x00; x01] 13414 in ipv4 a /\ port_ok a /\ spelled seed a /\
  tcp_text other a = seed /\ tcp_text other (Addr (as16 (ip a)) 13414) = seed /\
  forall strict dns, resolve_text strict dns seed = Some (Addr (as16 (ip a)) 13414).
Proof.
  intros other a. assert (I : ipv4 a) by (exists (ip a); auto). assert (P : port_ok a) by (split; vm_compute; [discriminate|reflexivity]).
  split; [exact I|]. split; [exact P|]. split; [apply (C139_text other); auto|]. split; [reflexivity|]. split; [reflexivity|].
  intros [|] dns; reflexivity.
Qed.

(** What a connection to a listed name reports as its address is that name exactly if the name is in the usual
    notation. *)
Theorem C139_remote : forall other strict dns s u, resolve_text strict dns s = Some u -> ipv4 u -> port_ok u ->
  (tcp_text other u = s <-> exists e, spelled s e).
Proof. exact remote_name. Qed.
Print Assumptions C139_remote.
(** So a ban of what the connection reports reaches the record of such a name, and does nothing at all if the
    endpoint is listed under other names only. *)
Theorem C139_ban : forall other strict dns closes p s i u, resolve_text strict dns s = Some u -> ipv4 u -> port_ok u ->
  NoDup (map fst (pl_table p)) -> valid_table p -> In (s, i) (pl_table p) ->
  ((exists e, spelled s e) -> status_of (snd (pool_ban closes (tcp_text other u) p)) i = Some StBanned) /\
  (~ In (tcp_text other u) (map fst (pl_table p)) -> pool_ban closes (tcp_text other u) p = (HDone, p)).
Proof. exact ban_reaches. Qed.
Print Assumptions C139_ban.
(** As shipped, anything refused from a peer that is listed in the usual notation ends its read handler, ... *)
Theorem C139_refused : forall other strict dns X S c (n : node X S) m i x u, sender c n i x -> pl_bans (nd_pool n) = None -> refused c n m ->
  resolve_text strict dns (x_me c) = Some u -> ipv4 u -> port_ok u -> x_remote c = tcp_text other u -> (exists a, spelled (x_me c) a) ->
  o_end (process_message c n m) = HPanic \/ o_end (process_message c n m) = HHang.
Proof. exact refused_named. Qed.
Print Assumptions C139_refused.
Example C139_refused_case : forall other X strict dns, sender (first seed) (busy X) 1 (Info StConnected (Some 0%nat) 1 0 30000 7 false) /\
  pl_bans (nd_pool (busy X)) = None /\ refused (first seed) (busy X) (MHeaders [junk_header]) /\
  exists u, resolve_text strict dns (x_me (first seed)) = Some u /\ ipv4 u /\ port_ok u /\ x_remote (first seed) = tcp_text other u /\
    exists a, spelled (x_me (first seed)) a.
Proof.
  intros other X strict dns. split; [apply busy_sender|]. split; [reflexivity|]. split; [apply junk_headers_refused|].
  destruct (C139_case other) as (I & P & Sp & _ & T & R). exists (Addr (as16 [x7f; x00; x00; x01]) 13414). split; [apply R|].
  split; [exists [x7f; x00; x00; x01]; split; [reflexivity|right; reflexivity]|]. split; [exact P|]. split; [symmetry; exact T|eauto].
Qed.

(** ... while a peer under another name is not banned: refused headers change nothing. "127.0.0.1:013414" is
    such a name. *)
Theorem C139_unbanned_refuted : forall other X S c (n : node X S) i x u l e, sender c n i x -> x_remote c = tcp_text other u ->
  fst (process_headers (x_clock c) (nd_chain n) l) = Err e -> ~ In (tcp_text other u) (map fst (pl_table (nd_pool n))) ->
  o_end (process_message c n (MHeaders l)) = HDone /\ nd_pool (o_node (process_message c n (MHeaders l))) = nd_pool n.
Proof. exact refused_unnamed. Qed.
Print Assumptions C139_unbanned_refuted.
(** Nothing keeps one endpoint from being listed under two names. *)
Theorem C139_twice_refuted : forall strict dns, exists s t u, s <> t /\ resolve_text strict dns s = Some u /\ resolve_text strict dns t = Some u /\
  map fst (pl_table (pool_add (resolve_text strict dns t) t (pool_add (resolve_text strict dns s) s pool_new))) = [t; s].
Proof. intros strict dns. exists seed, padded. eexists. split; [discriminate|]. split; [|split]; destruct strict; vm_compute; reflexivity. Qed.
Print Assumptions C139_twice_refuted.
(** Run then connects to both, so that one node has two connections, two slots and two records. *)
Theorem C139_double_refuted : forall strict dns bans, exists s a b u, sys_steps (sys_start bans) s /\ y_run s = RuSelect /\ y_crash s = None /\ live s = 2%nat /\
  map fst (pl_up (y_pool s)) = [a; b] /\ (forall q i, In (q, i) (pl_up (y_pool s)) -> status_of (y_pool s) i = Some StConnected) /\
  a <> b /\ resolve_text strict dns a = Some u /\ resolve_text strict dns b = Some u.
Proof.
  intros strict dns bans. destruct (run_both bans) as (s & A & B & C & D & E & F). exists s, seed, padded, (Addr (as16 [x7f; x00; x00; x01]) 13414).
  repeat (split; [assumption|]). split; [discriminate|]. split; destruct strict; vm_compute; reflexivity.
Qed.
Print Assumptions C139_double_refuted.

(** The shipped node with two peers, of which one was given as "127.0.0.1:013414". *)
Definition odd_pool : pool := set_table two [(padded, 1%nat); (addr_b, 0%nat)].
Definition odd_context : context := Context (fun _ => ex_now) (fun _ => home) (fun _ => addr_a) (pl_table odd_pool) padded seed (fun _ => false).
Example C139_unbanned_case : forall other X strict dns, let n := Node (node_chain X) odd_pool None in let u := Addr (as16 [x7f; x00; x00; x01]) 13414 in
  sender odd_context n 1 (Info StConnected (Some 0%nat) 1 0 30000 7 false) /\
  resolve_text strict dns (x_me odd_context) = Some u /\ ipv4 u /\ port_ok u /\ x_remote odd_context = tcp_text other u /\
  (exists e, fst (process_headers (x_clock odd_context) (nd_chain n) [junk_header]) = Err e) /\
  ~ In (tcp_text other u) (map fst (pl_table (nd_pool n))) /\ ~ (exists e, spelled (x_me odd_context) e) /\
  NoDup (map fst (pl_table odd_pool)) /\ valid_table odd_pool.
Proof.
  intros other X strict dns n u. assert (R : resolve_text strict dns padded = Some u) by (destruct strict; vm_compute; reflexivity).
  assert (I : ipv4 u) by (exists [x7f; x00; x00; x01]; split; [reflexivity|right; reflexivity]).
  assert (P : port_ok u) by (split; vm_compute; [discriminate|reflexivity]).
  assert (N : NoDup (map fst (pl_table odd_pool))).
  { cbn. constructor; [intros [E|[]]; discriminate E|]. constructor; [intros []|constructor]. }
  assert (T : tcp_text other u = seed) by reflexivity.
  split; [split; [left; reflexivity|split; [exact N|reflexivity]]|]. split; [exact R|]. split; [exact I|]. split; [exact P|]. split; [symmetry; exact T|].
  split; [exact (junk_headers_refused X seed)|]. rewrite T. split; [intros [E|[E|[]]]; discriminate E|]. split; [|split; [exact N|]].
  - intro Sp. apply (proj2 (C139_remote other strict dns _ _ R I P)) in Sp. rewrite T in Sp. discriminate Sp.
  - intros q k [E|[E|[]]]; injection E as <- <-; repeat constructor.
Qed.

(** C85 with the library's texts: what a node tells, the other node lists in the usual notation of the same
    endpoints, and nothing else. *)
Theorem C139_gossip : forall other strict dns X S lenient w (c : context) (b : node X S) i x caps fuel p (a : node X S) j y,
  x_string (ar_context w 0) = tcp_text other -> x_resolve (ar_context w 0) = resolve_text strict dns ->
  sender c b i x -> valid_table (nd_pool b) -> Permutation (x_order c) (pl_table (nd_pool b)) ->
  (forall s r, x_resolve c s = Some r -> ipv4 r /\ port_ok r) ->
  pe_sync p = true -> sender (ar_context w 0) (met w 0 a) j y -> (1 < fuel)%nat ->
  exists l e k, o_answers (process_message c b (MGetPeerAddrs caps)) = [MPeerAddrs l] /\ write_message X (MPeerAddrs l) = Ok (e, k) /\
  forall chunks, Forall (fun c : bytes => c <> []) chunks -> concat chunks = e ->
  let r := run_peer lenient w fuel p a chunks in let know q := In q (map fst (pl_table (nd_pool (sv_node r)))) in
  let had q := In q (map fst (pl_table (nd_pool (met w 0 a)))) in
  let tells u := exists s n z, In (s, n) (pl_table (nd_pool b)) /\ nth_error (pl_infos (nd_pool b)) n = Some z /\ eligible caps z /\ x_resolve c s = Some u in
  (forall q, had q -> know q) /\
  (forall q, know q -> had q \/ exists u, tells u /\ spelled q u) /\
  (lenN l < 256 -> lenN (pl_table (nd_pool (met w 0 a))) + lenN l <= 10001 ->
   forall u, tells u -> ~ multicast (ip u) -> port u <> 0%Z -> exists q, spelled q u /\ know q).
Proof. exact gossip_named. Qed.
Print Assumptions C139_gossip.
(** The node with two peers tells 127.0.0.1:13414 to one that does not know it. *)
Definition named (other : addr -> bytes) : around :=
  Around (fun _ => Context (fun _ => ex_now) (resolve_text true (fun _ => None)) (tcp_text other) [] addr_b [] (fun _ => false)) (fun _ p => p).
Definition lone (X : Ext) : node X (sql_storage X) :=
  Node (node_chain X) (Pool 1 1 [Info StConnected (Some 0%nat) 1 0 30000 7 false] [(addr_b, 0%nat)] [(addr_b, 0%nat)] None) None.
Example C139_gossip_case : forall other X, (exists x, sender (ar_context quiet_around 0) (busy X) 1 x) /\ valid_table (nd_pool (busy X)) /\
  Permutation (x_order (ar_context quiet_around 0)) (pl_table (nd_pool (busy X))) /\
  (forall s r, x_resolve (ar_context quiet_around 0) s = Some r -> ipv4 r /\ port_ok r) /\
  (exists y, sender (ar_context (named other) 0) (met (named other) 0 (lone X)) 0 y) /\
  exists e k, write_message X (MPeerAddrs (repeat (Addr [x7f; x00; x00; x01] 13414) 2)) = Ok (e, k) /\
    o_answers (process_message (ar_context quiet_around 0) (busy X) (MGetPeerAddrs 7)) = [MPeerAddrs (repeat (Addr [x7f; x00; x00; x01] 13414) 2)] /\
    map fst (pl_table (nd_pool (sv_node (run_peer false (named other) 9 some_peer (lone X) [e])))) = [seed; addr_b].
Proof.
  intros other X. split; [eexists; apply busy_sender|].
  split. { intros q n I. cbn in *. destruct I as [E|[E|[]]]; injection E as <- <-; repeat constructor. }
  split; [apply Permutation_refl|]. split.
  { intros s r E. vm_compute in E. injection E as <-. split; [exists [x7f; x00; x00; x01]; auto|split; vm_compute; first [reflexivity|discriminate]]. }
  split. { eexists. split; [left; reflexivity|]. split; [|reflexivity]. cbn. constructor; [intros []|constructor]. }
  eexists _, _. split; [reflexivity|]. split; vm_compute; reflexivity.
Qed.
