(** C128: once a disconnect has begun, everything ends whatever the schedule. *)
From Verif Require Import Shutdown SpecPeer SpecFinish FinishProofs Instance.
Local Open Scope nat_scope.

(** Whatever the goroutines of a peer do in whatever order after a successful compare-and-swap of Disconnect, it is
    only so many steps, unless more goroutines are started or the handler undertakes more. *)
Theorem C128_bounded : forall X (s : lstate X) path, p_flag (l_peer s) = true -> own_path s path ->
  List.length path <= 24 + 4 * List.length (p_others (l_peer s)) + 6 * times undertakes s path.
Proof. exact bounded. Qed.
Print Assumptions C128_bounded.
(** At most one more message is handled. *)
Theorem C128_one_more : forall X (s : lstate X) path, p_flag (l_peer s) = true -> own_path s path -> times gets_message s path <= 1.
Proof. intros X s path. exact (one_more X path s). Qed.
Print Assumptions C128_one_more.
(** When there are no steps left, everybody has returned, the connection is closed and the lock is free; or one of the
    four things happened that other properties are about. *)
Theorem C128_ends : forall X bans (s : lstate X) path, lsteps (l_start X bans) s -> own_path s path -> at_an_end (last path s) ->
  let t := last path s in
  (all_ended (l_peer t) /\ p_closed (l_peer t) = true /\ l_lock t = LFree /\ p_crash (l_peer t) = None) \/
  bans_itself t \/ closed_over t \/ p_crash (l_peer t) = Some NilMap \/ p_crash (l_peer t) = Some Encoding.
Proof. exact path_ends. Qed.
Print Assumptions C128_ends.
(** A handler that only answers leaves nothing behind. *)
Theorem C128_ends_well : forall X bans (s : lstate X) path, lsteps (l_start X bans) s -> own_path s path -> at_an_end (last path s) ->
  harmless s -> p_crash (l_peer s) = None -> times bans_or_locks s path = 0 ->
  let t := last path s in
  (all_ended (l_peer t) /\ p_closed (l_peer t) = true /\ l_lock t = LFree /\ p_crash (l_peer t) = None) \/ p_crash (l_peer t) = Some Encoding.
Proof. exact path_ends_well. Qed.
Print Assumptions C128_ends_well.

(** The reader waits for bytes and the writer for messages when a Disconnect begins; nine steps later all have ended. *)
Example C128_case : exists (s : lstate toy) path, lsteps (l_start toy None) s /\ p_flag (l_peer s) = true /\ p_reader (l_peer s) = RRead /\
  p_writer (l_peer s) = WSelect /\ own_path s path /\ List.length path = 9 /\ at_an_end (last path s).
Proof. exact (run_finish toy None). Qed.
