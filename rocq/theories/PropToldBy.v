(** Property C134: from the bytes of a shake to the record. Statements; proofs are in ToldByProofs.v, the specification
    is in SpecToldBy.v. *)
From Verif Require Import Handshake Pool SpecPool SpecHandshake SpecShaken SpecToldBy PoolProofs PoolExamples ShakenProofs ToldByProofs PropShaken Instance.

(** * C134 *)

(** Whenever NewPeer returns a peer, whatever the other side sent, connectPeer goes on with it: its version check
    (pool.go:232-234) has nothing left to refuse. *)
Theorem C134_dead : forall X s t a i p lenient name nonce receiver input rest, tcp_ip receiver ->
  fst (new_peer X lenient name nonce receiver None input) = Ok (p, rest) ->
  y_run s = RuVersion a i (told_by p) -> run_step s t -> y_run t = RuRead a i (told_by p).
Proof. exact version_passes. Qed.
Print Assumptions C134_dead.
(** What is announced in the bytes that a dialled address sends is what the record holds six steps of Run later, and
    the connection is counted; the bytes behind the shake are left to the read handler. *)
Theorem C134_recorded : forall X bans lenient nonce receiver s a i input c d ag rest, tcp_ip receiver -> sys_steps (sys_start bans) s -> y_run s = RuDial a i ->
  shaken input c d ag rest ->
  exists p t x, fst (new_peer X lenient a nonce receiver None input) = Ok (p, rest) /\
    run_step s (go s (y_pool s) (RuVersion a i (told_by p))) /\ run_steps (go s (y_pool s) (RuVersion a i (told_by p))) t /\
    y_run t = RuUp a i /\ nth_error (pl_infos (y_pool t)) i = Some x /\ announced x c d /\
    y_watch t = y_watch s /\ pl_connected (y_pool t) = (pl_connected (y_pool s) + 1)%Z.
Proof. exact shake_recorded. Qed.
Print Assumptions C134_recorded.

(** A dial, and a shake of a full node with total difficulty 30000. *)
Example C134_case : exists s input rest, sys_steps (sys_start None) s /\ y_run s = RuDial addr_a 0 /\ y_crash s = None /\ tcp_ip (Addr [x7f; x00; x00; x01] 13414) /\
  shaken input 7 30000 [x67] rest.
Proof.
  eexists. exists (opening 2 57 ++ shake_text 7 30000 [x67] (brepeat x00 32) ++ [x01]), [x01]. split; [|split; [|split; [|split]]].
  - add addr_a. run_dial [(addr_a, 0%nat)] addr_a 0%nat StNew. apply YsNone.
  - reflexivity.
  - reflexivity.
  - now left.
  - exists 57, (brepeat x00 32). repeat split; try reflexivity; vm_compute; discriminate.
Qed.
