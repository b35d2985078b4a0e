(** Proofs for C134. *)
From Verif Require Import Handshake Pool SpecPool SpecHandshake SpecShaken SpecToldBy PoolProofs ShakenProofs SilentProofs PropShaken.

Section WithExt.
Context (X : Ext).
Lemma told_version lenient name nonce receiver input p rest : tcp_ip receiver ->
  fst (new_peer X lenient name nonce receiver None input) = Ok (p, rest) ->
  dl_version (told_by p) = protocol_version /\ pe_height p = 0 /\ exists c d ag, shaken input c d ag rest /\ told_by p = Dialled 1 c d.
Proof.
  intros T H. destruct (C110_dial X lenient name nonce receiver T) as (f & F). destruct (F input) as (r & E & R & _).
  rewrite E in H. cbn [fst] in H. apply R in H. destruct H as (c & d & ag & Sh & ->). split; [reflexivity|]. split; [reflexivity|].
  exists c, d, ag. now split.
Qed.
Lemma version_passes s t a i p lenient name nonce receiver input rest : tcp_ip receiver ->
  fst (new_peer X lenient name nonce receiver None input) = Ok (p, rest) ->
  y_run s = RuVersion a i (told_by p) -> run_step s t -> y_run t = RuRead a i (told_by p).
Proof.
  intros T H E St. destruct (told_version _ _ _ _ _ _ _ T H) as (V & _).
  inversion St; subst; try congruence; match goal with R : y_run s = RuVersion _ _ _ |- _ => rewrite E in R; injection R; intros; subst end; congruence || reflexivity.
Qed.
Lemma shake_recorded bans lenient nonce receiver s a i input c d ag rest : tcp_ip receiver -> sys_steps (sys_start bans) s -> y_run s = RuDial a i ->
  shaken input c d ag rest ->
  exists p t x, fst (new_peer X lenient a nonce receiver None input) = Ok (p, rest) /\
    run_step s (go s (y_pool s) (RuVersion a i (told_by p))) /\ run_steps (go s (y_pool s) (RuVersion a i (told_by p))) t /\
    y_run t = RuUp a i /\ nth_error (pl_infos (y_pool t)) i = Some x /\ announced x c d /\
    y_watch t = y_watch s /\ pl_connected (y_pool t) = (pl_connected (y_pool s) + 1)%Z.
Proof.
  intros T R E Sh. destruct (C110_dial X lenient a nonce receiver T) as (f & F). destruct (F input) as (r & Er & Rr & _).
  assert (N : exists x, nth_error (pl_infos (y_pool s)) i = Some x).
  { destruct (lock_reach bans s R ltac:(congruence)) as (_ & H & _). specialize (H i). rewrite E in H. specialize (H eq_refl).
    unfold locks in H. rewrite map_length in H. apply nth_error_Some in H. destruct nth_error as [x|]; [now exists x|easy]. }
  destruct N as (x & N).
  set (dl := Dialled 1 c d). exists (PeerOf a true 1 c d ag 0).
  change (told_by (PeerOf a true 1 c d ag 0)) with dl.
  set (s1 := go s (y_pool s) (RuVersion a i dl)).
  set (s2 := go s1 (y_pool s1) (RuRead a i dl)).
  set (s3 := go s2 (y_pool s2) (RuWrite a i dl (pl_connected (y_pool s2)))).
  set (s4 := go s3 (set_connected (y_pool s3) (pl_connected (y_pool s2) + 1)) (RuUpdate a i dl)).
  set (s5 := go s4 (upd (y_pool s4) i (with_conn (List.length (y_watch s4)))) (RuFill a i dl)).
  set (s6 := go s5 (upd (y_pool s5) i (with_told dl)) (RuUp a i)).
  exists s6, (with_told dl (with_conn (List.length (y_watch s)) x)).
  split; [rewrite Er; cbn [fst]; apply Rr; exists c, d, ag; now split|]. split; [now apply RnDialled|]. split.
  { apply (RsMore s1 s2); [now apply RnVersion|]. apply (RsMore s2 s3); [now apply RnRead|].
    apply (RsMore s3 s4); [now apply RnWrite|]. apply (RsMore s4 s5); [now apply RnUpdate|]. apply (RsMore s5 s6); [now apply RnFill|]. apply RsNone. }
  split; [reflexivity|]. split; [|split; [|now split]].
  - cbn. rewrite update_nth, Nat.eqb_refl, update_nth, Nat.eqb_refl, N. reflexivity.
  - repeat split. discriminate.
Qed.
End WithExt.
