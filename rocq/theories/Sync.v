(** The syncer: p2p/sync.go, and the node of cmd/node/main.go.

    ProcessMessage is modelled as run by one read handler while nothing else changes the node: the
    locks it takes (those of the peer's record, the chain and the pool's maps) are free. What other
    goroutines can do between its steps is modelled in Peer.v and Pool.v. *)
From Verif Require Export Chain Pool.

(** How a call ends: it returns, it panics, it terminates the process, or it never returns. *)
Inductive ending := HDone | HPanic | HFatal | HHang.

(** p2p/pool.go:61-83 — Ban, called by a read handler. Whether Close on the connection of the record
    returns is an argument: the handler's own connection does not, unless someone else has begun to
    disconnect it (C44); for another connection it depends on that one's handlers. *)
Definition pool_ban (closes : nat -> bool) (a : bytes) (p : pool) : ending * pool :=
  match lookup a (pl_table p) with
  | None => (HDone, p)
  | Some i =>
      let p1 := upd p i (with_status StBanned) in
      match nth_error (pl_infos p1) i with
      | None => (HPanic, p1)                                    (* not reached: indices are valid *)
      | Some x =>
          match i_peer x with
          | None => (HPanic, p1)                                (* 72: nil peer *)
          | Some c =>
              if closes c then
                match pl_bans p1 with
                | None => (HPanic, p1)                          (* 76: nil map *)
                | Some l =>
                    let p2 := set_banned p1 (Some (a :: l)) in
                    (HDone, set_table p2 (remove a (pl_table p2)))
                end
              else (HHang, p1)
          end
      end
  end.

Section WithExt.
Context (X : Ext) (S : storage X).

(** sync.go:40-45, 69-76 — Syncer. The mempool is an interface without an implementation in the
    repository: nil (None), or a function that may fail; its state is left out. *)
#[projections(primitive)] Record node := Node {
  nd_chain : chain X S; nd_pool : pool; nd_mempool : option (transaction X -> res unit) }.

(** What ProcessMessage depends on besides the node and the message: the clock read by the i-th
    validation, net.ResolveTCPAddr, (net.TCPAddr).String, the order of iteration over the peers
    table, the peer's address as dialled (peer.Addr) and as the connection reports it
    (peer.conn.RemoteAddr().String()), and which calls of Close return. *)
Record context := Context {
  x_clock : nat -> gotime; x_resolve : bytes -> option addr; x_string : addr -> bytes;
  x_order : list (bytes * nat); x_me : bytes; x_remote : bytes; x_closes : nat -> bool }.

(** The end, the node, the messages put on the peer's send queue, and the connections a block is
    relayed to. *)
Record outcome := Outcome {
  o_end : ending; o_node : node; o_answers : list (message X); o_relay : list nat }.

Definition with_pool n p := Node (nd_chain n) p (nd_mempool n).
Definition with_chain n ch := Node ch (nd_pool n) (nd_mempool n).
(** A call of Ban, and what the handler does when it returns. *)
Definition banning (c : context) (n : node) (k : node -> outcome) : outcome :=
  match pool_ban (x_closes c) (x_remote c) (nd_pool n) with
  | (HDone, p) => k (with_pool n p)
  | (e, p) => Outcome e (with_pool n p) [] []
  end.
(** The end of a computation that panicked or terminated the process. *)
Definition crashed {A} (r : res A) : ending := match r with Panic => HPanic | Fatal => HFatal | _ => HDone end.

(** sync.go:198-211 — after a block was processed: record its sender's state, relay the block. *)
Definition after_block (i : nat) (h : header) (n : node) : outcome :=
  let p := upd (nd_pool n) i (fun x =>
    if (i_td x <? h_total_difficulty h) || (i_height x <? h_height h)
    then with_record (h_total_difficulty h) (h_height h) x else x) in
  let relay := if h_height h =? c_height (nd_chain n)
               then propagate (h_height h) (h_total_difficulty h) p else [] in
  Outcome HDone (with_pool n p) [] relay.

(** sync.go:103-221 — ProcessMessage. *)
Definition process_message (c : context) (n : node) (m : message X) : outcome :=
  match peer_info (x_me c) (nd_pool n) with
  | None => Outcome HFatal n [] []                                              (* 106-109 *)
  | Some i =>
      match m with
      | MPing p =>                                                              (* 112-130 *)
          Outcome HDone (with_pool n (upd (nd_pool n) i (with_record (pg_difficulty p) (pg_height p))))
            [MPong (PingMsg (c_td (nd_chain n)) (c_height (nd_chain n)))] []
      | MPong p =>                                                              (* 132-139 *)
          Outcome HDone (with_pool n (upd (nd_pool n) i (with_record (pg_difficulty p) (pg_height p)))) [] []
      | MGetPeerAddrs caps =>                                                   (* 141-148 *)
          Outcome HDone n [MPeerAddrs (pool_peers (x_resolve c) caps (x_order c) (nd_pool n))] []
      | MPeerAddrs l =>                                                         (* 150-154 *)
          Outcome HDone (with_pool n (fold_left (fun p a => pool_add (x_resolve c (x_string c a)) (x_string c a) p) l (nd_pool n))) [] []
      | MGetHeaders hs =>                                                       (* 156-164 *)
          match get_block_headers (nd_chain n) hs with
          | Ok l => Outcome HDone n [MHeaders l] []
          | r => Outcome (crashed r) n [] []
          end
      | MHeader h =>                                                            (* 166-174 *)
          let n1 := with_chain n (snd (process_headers (x_clock c) (nd_chain n) [h])) in
          match fst (process_headers (x_clock c) (nd_chain n) [h]) with
          | Panic => Outcome HPanic n1 [] []
          | Fatal => Outcome HFatal n1 [] []
          | _ => Outcome (crashed (header_hash X h)) n1 [] []
          end
      | MHeaders l =>                                                           (* 176-180 *)
          let n1 := with_chain n (snd (process_headers (x_clock c) (nd_chain n) l)) in
          match fst (process_headers (x_clock c) (nd_chain n) l) with
          | Panic => Outcome HPanic n1 [] []
          | Fatal => Outcome HFatal n1 [] []
          | Err _ => banning c n1 (fun n => Outcome HDone n [] [])
          | Ok _ => Outcome HDone n1 [] []
          end
      | MGetBlock h =>                                                          (* 182-186 *)
          match get_block (nd_chain n) h with
          | Some b => Outcome HDone n [MBlock b] []
          | None => Outcome HDone n [] []
          end
      | MBlock b =>                                                             (* 188-211 *)
          let n1 := with_chain n (snd (process_block (x_clock c 0%nat) (nd_chain n) b)) in
          match fst (process_block (x_clock c 0%nat) (nd_chain n) b) with
          | Panic => Outcome HPanic n1 [] []
          | Fatal => Outcome HFatal n1 [] []
          | Err _ => banning c n1 (after_block i (b_header b))
          | Ok _ => after_block i (b_header b) n1
          end
      | MTx t =>                                                                (* 213-219 *)
          match nd_mempool n with
          | None => Outcome HPanic n [] []
          | Some f =>
              match f t with
              | Panic => Outcome HPanic n [] []
              | Fatal => Outcome HFatal n [] []
              | Err _ => banning c n (fun n => Outcome HDone n [] [])
              | Ok _ => Outcome HDone n [] []
              end
          end
      | MError _ | MHand _ | MShake _ | MCompact _ => Outcome HDone n [] []
      end
  end.

(** sync.go:79-91 — NewSyncer: [addrs] with what each resolves to. *)
Definition new_syncer (addrs : list (option addr * bytes)) (ch : chain X S) (mp : option (transaction X -> res unit)) : node :=
  Node ch (fold_left (fun p c => pool_add (fst c) (snd c) p) addrs pool_new) mp.
End WithExt.

Arguments Node {X S}. Arguments nd_chain {X S}. Arguments nd_pool {X S}. Arguments nd_mempool {X S}.
Arguments Outcome {X S}. Arguments o_end {X S}. Arguments o_node {X S}. Arguments o_answers {X S}. Arguments o_relay {X S}.
Arguments with_pool {X S}. Arguments with_chain {X S}. Arguments banning {X S}. Arguments after_block {X S}. Arguments process_message {X S}.
Arguments new_syncer {X S}.

(** "127.0.0.1:13414". *)
Definition seed : bytes :=
  [x31; x32; x37; x2e; x30; x2e; x30; x2e; x31; x3a; x31; x33; x34; x31; x34].
(** cmd/node/main.go:20-26 — the shipped node before it runs: Testnet1, a storage without content,
    one address, no mempool. *)
Definition shipped (X : Ext) : node X (sql_storage X) :=
  new_syncer [(Some (Addr [x7f; x00; x00; x01] 13414), seed)] (node_chain X) None.
