(** A connection after its handshake: p2p/peer.go:171-341 with p2p/sync.go:103-221 in place, i.e. what
    the read handler of one peer does to the node and puts on the send queue.

    Simplifications: the peer is not disconnected by somebody else meanwhile, and the write handler
    takes every message off the send queue (both are modelled in Peer.v). *)
From Verif Require Export Handshake Sync.

(** Why the handler stopped: the loop was left (messages.go:60-75, peer.go:181-341), or the handling of
    a message did not return. *)
Inductive stop := Leave (e : loop_exit) | Stuck (e : ending).

Section Serve.
Context (X : Ext) (S : storage X) (lenient : bool).

(** What surrounds the handler: the context in which it handles its i-th message, and what other
    goroutines did to the pool before. *)
Record around := Around { ar_context : nat -> context; ar_pool : nat -> pool -> pool }.
Context (w : around).
(** The node as the i-th message finds it. *)
Definition met (i : nat) (n : node X S) : node X S := with_pool n (ar_pool w i (nd_pool n)).

(** The node, the messages put on the send queue, the value of bytesReceived, the reason, and what was
    not read. *)
Record service (B : Type) := Service {
  sv_node : node X S; sv_answers : list (message X); sv_count : N; sv_stop : stop; sv_rest : B }.
Arguments Service {B}. Arguments sv_node {B}. Arguments sv_answers {B}. Arguments sv_count {B}. Arguments sv_stop {B}. Arguments sv_rest {B}.

Context {B : Type} (rf : N -> B -> res (bytes * B)).
(** peer.go:171-341 — readHandler for at most [fuel] iterations, having handled [i] messages and put
    [ans] on the queue. [synced] is false when p.sync is nil: ProcessMessage then reads a field of a
    nil pointer (sync.go:105). *)
Fixpoint serve (synced : bool) (fuel i : nat) (n : node X S) (ans : list (message X)) (count : N) (s : B) : service B :=
  match fuel with
  | O => Service n ans count (Leave Cont) s
  | Datatypes.S fuel =>
      match src_header rf s with
      | Err e => Service n ans count (Leave (Failed e)) s
      | Panic => Service n ans count (Leave Crashed) s
      | Fatal => Service n ans count (Leave Terminated) s
      | Ok ((t, len), s1) =>
          if max_msg_len <? len then Service n ans count (Leave (Failed (Msg "too big message size"))) s1
          else
            match rf len s1 with
            | Err _ => Service n ans count (Leave Quiet) s1
            | Panic => Service n ans count (Leave Crashed) s1
            | Fatal => Service n ans count (Leave Terminated) s1
            | Ok (body, s2) =>
                match decode_frame X lenient t body with
                | Err e => Service n ans count (Leave (Failed e)) s2
                | Panic => Service n ans count (Leave Crashed) s2
                | Fatal => Service n ans count (Leave Terminated) s2
                | Ok None => serve synced fuel i n ans (w64 (count + (len + msg_header_len))) s2
                | Ok (Some m) =>
                    if synced then
                      let o := process_message (ar_context w i) (met i n) m in
                      match o_end o with
                      | HDone => serve synced fuel (Datatypes.S i) (o_node o) (ans ++ o_answers o) (w64 (count + (len + msg_header_len))) s2
                      | e => Service (o_node o) (ans ++ o_answers o) count (Stuck e) s2
                      end
                    else Service n ans count (Stuck HPanic) s2
                end
            end
      end
  end.
End Serve.
Arguments Service {X S B}. Arguments sv_node {X S B}. Arguments sv_answers {X S B}. Arguments sv_count {X S B}. Arguments sv_stop {X S B}.
Arguments sv_rest {X S B}. Arguments met {X S}. Arguments serve {X S} lenient w {B}.

(** What a started peer [p] (peer.go:59-116, 119-123) does with the chunks that its connection
    delivers. *)
Definition run_peer {X S} (lenient : bool) (w : around) (fuel : nat) (p : peer) (n : node X S) (chunks : list bytes) : service X S bufsrc :=
  serve lenient w buf_read_full (pe_sync p) fuel 0 n [] 0 (BufSrc [] chunks).
