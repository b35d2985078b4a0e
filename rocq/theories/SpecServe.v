(** Specifications for a served connection. *)
From Verif Require Import Serve SpecMessages SpecPool SpecSync.

Section Spec.
Context {X : Ext} {S : storage X}.

(** The messages are handled one after the other, starting with the i-th: each returns; the answers
    are those of the messages in order. *)
Fixpoint handled (w : around) (i : nat) (n : node X S) (ms : list (message X)) (ans : list (message X)) (n' : node X S) : Prop :=
  match ms with
  | [] => ans = [] /\ n' = n
  | m :: ms =>
      let o := process_message (ar_context w i) (met w i n) m in
      exists more, o_end o = HDone /\ ans = o_answers o ++ more /\ handled w (Datatypes.S i) (o_node o) ms more n'
  end.
(** How the service of a connection ends that sent [frames] and then [tail], when the frames decode to
    [outs] (None: nothing to handle), starting with the i-th message, node [n] and count [c].
    Leave: every message was handled, all frames were counted, and what follows is not a frame that
    decodes; the loop itself crashes only at a frame whose decoding does. Stuck: all messages but the
    last one were handled. *)
Definition ended (lenient : bool) (w : around) (n : node X S) (i : nat) (c : N) (outs : list (option (message X))) (frames : list (N * bytes)) (tail : bytes)
    (ans : list (message X)) (n' : node X S) (count : N) (st : stop) : Prop :=
  match st with
  | Leave ex =>
      handled w i n (flat_map some_list outs) ans n' /\ count = w64 (c + frames_size frames) /\
      (ex <> Cont -> forall f more m, tail = whole f ++ more -> frame_ok f -> decode_frame X lenient (fst f) (snd f) <> Ok m) /\
      (ex = Crashed \/ ex = Terminated -> exists f more, tail = whole f ++ more /\ frame_ok f /\
         (decode_frame X lenient (fst f) (snd f) = Panic \/ decode_frame X lenient (fst f) (snd f) = Fatal))
  | Stuck e =>
      exists before m n1 ans1, outs = before ++ [Some m] /\ handled w i n (flat_map some_list before) ans1 n1 /\
        let o := process_message (ar_context w (i + List.length (flat_map some_list before)))
                   (met w (i + List.length (flat_map some_list before)) n1) m in
        o_end o = e /\ e <> HDone /\ ans = ans1 ++ o_answers o /\ n' = o_node o
  end.

End Spec.
Arguments ended {X S} lenient w.

(** The address has a record. *)
Definition entered (me : bytes) (p : pool) : Prop :=
  NoDup (map fst (pl_table p)) /\ pl_bans p = None /\ exists i x, In (me, i) (pl_table p) /\ nth_error (pl_infos p) i = Some x.

(** The handler or the process did not survive. *)
Definition broke (st : stop) : Prop := st = Leave Crashed \/ st = Leave Terminated \/ exists e, st = Stuck e.

(** The surroundings of the connection dialled as [me]: nobody else removes its record. *)
Definition around_ok (me : bytes) (w : around) : Prop :=
  forall i, x_me (ar_context w i) = me /\ forall p, entered me p -> entered me (ar_pool w i p).
