(** Property C99: messages put on one peer's send queue reach the other side's read loop. Statements;
    proofs are in EndToEndProofs.v, specifications in SpecMessages.v and SpecPeer.v. *)
From Verif Require Import Messages SpecCodec SpecConsensus SpecMessages Peer SpecPeer EndToEndProofs Instance PropMessages.

(** * C99: from the send queue to the other side's handler *)

(** [s] is any reachable state of the sending peer, [chunks] what has arrived of what it wrote, cut
    up in any way. The receiving loop passes on exactly the messages whose frames have arrived whole,
    in the order in which they were taken from the queue; it counts their bytes and no others; then
    it stops without a crash. If all that was written has arrived, at most the message that was
    being written is missing. *)
Theorem C99_end_to_end : forall X P Q lenient bans s chunks more fuel, codec_laws X P Q -> sort_laws X ->
  psteps (p_start X bans) s ->
  Forall (fun m => sendable X P Q m /\ in_loop X m /\ (forall f n, write_message X m = Ok (f, n) -> lenN f <= 20000011)) (p_taken s) ->
  Forall (fun c : bytes => c <> []) chunks -> p_wire s = concat chunks ++ more -> (List.length (p_taken s) < fuel)%nat ->
  exists ms later fs got ex src, p_taken s = ms ++ later /\ frames_of ms fs /\
    read_loop X lenient buf_read_full fuel [] 0 (BufSrc [] chunks) = (got, lenN (concat fs) mod 2 ^ 64, ex, src) /\
    Forall2 (received_as X) (filter (dispatched X) ms) got /\
    (forall m rest f n, later = m :: rest -> write_message X m = Ok (f, n) -> lenN (concat chunks) < lenN (concat fs) + lenN f) /\
    (more = [] -> (List.length later <= 1)%nat) /\
    (ex = Quiet /\ lenN (concat fs) + 11 <= lenN (concat chunks) \/
     (exists e, ex = Failed e) /\ lenN (concat chunks) < lenN (concat fs) + 11).
Proof. exact end_to_end. Qed.
Print Assumptions C99_end_to_end.

(** The hypotheses on the sender exclude nothing: any messages that can be encoded can have been
    taken from the queue and written. *)
Theorem C99_any_messages : forall X bans ms fs, frames_of ms fs ->
  exists s, psteps (p_start X bans) s /\ p_taken s = ms /\ p_wire s = concat fs.
Proof. exact run_sends. Qed.
Print Assumptions C99_any_messages.

(** Eleven messages of different types, of which the first 1000 bytes arrive in 7-byte pieces. *)
Example C99_case : exists (s : pstate toy) chunks more, psteps (p_start toy None) s /\ p_taken s = ex_messages /\
  Forall (fun m => sendable toy toy_P toy_Q m /\ in_loop toy m /\
    (forall f n, write_message toy m = Ok (f, n) -> lenN f <= 20000011)) (p_taken s) /\
  Forall (fun c : bytes => c <> []) chunks /\ p_wire s = concat chunks ++ more /\ more <> [] /\ (100 < List.length chunks)%nat.
Proof.
  destruct C17_case as (frs & chunks & F & _ & _ & _ & S & I & _).
  assert (Fo : frames_of ex_messages frs).
  { clear - F. induction F as [|m f ms fs (n & E & _) _ IH]; constructor; [eauto|exact IH]. }
  destruct (run_sends toy None ex_messages frs Fo) as (s & R & T & W).
  assert (Z : (1000 < List.length (concat frs))%nat).
  { rewrite (frames_of_fun ex_messages frs (map (fun m => match write_message toy m with Ok (fr, _) => fr | _ => [] end) ex_messages)).
    - apply Nat.ltb_lt. vm_compute. reflexivity.
    - exact Fo.
    - clear - F. induction F as [|m f ms fs (n & E & _) _ IH]; cbn [map]; constructor; [|exact IH]. rewrite E. eauto. }
  exists s, (pieces 1000 7 (firstn 1000 (concat frs))), (skipn 1000 (concat frs)).
  destruct (pieces_ok 1000 7 (firstn 1000 (concat frs))) as [A B]; [lia|apply firstn_le_length|].
  split; [exact R|]. split; [exact T|]. split.
  { rewrite T. clear - F S I. induction F as [|m f ms fs (n & E & L) _ IH]; constructor; inversion S; inversion I; subst; auto.
    split; [assumption|]. split; [assumption|]. intros f' n' E'. assert (f' = f) as -> by congruence. exact L. }
  split; [exact A|]. split; [rewrite B, W; symmetry; apply firstn_skipn|]. split.
  { intro K. apply (f_equal (@List.length byte)) in K. rewrite skipn_length in K. cbn in K. lia. }
  apply (f_equal (@List.length byte)) in B. rewrite firstn_length in B.
  assert (Len : forall fuel l, (List.length (concat (pieces fuel 7 l)) <= 7 * List.length (pieces fuel 7 l))%nat).
  { induction fuel as [|k IH]; intros [|x l]; cbn [pieces concat List.length]; try (cbn; lia).
    rewrite app_length. pose proof (firstn_le_length 7 (x :: l)). specialize (IH (skipn 7 (x :: l))). lia. }
  specialize (Len 1000%nat (firstn 1000 (concat frs))). rewrite B in Len. lia.
Qed.
