(** Proofs about the shipped node (C112). *)
From Verif Require Import GoRT Ext Consensus Messages Chain Pool Sync SpecCodec SpecMessages SpecSync CodecProofs MessageProofs SyncProofs GenesisProofs.

Section WithExt.
Context (X : Ext).
Lemma chain_is t : history (shipped X) t -> nd_chain t = node_chain X.
Proof. exact (history_chain X (sql_storage X) (shipped X) t). Qed.
Lemma locate_none hs : locate (node_chain X) hs = Ok [].
Proof.
  induction hs as [|h t IH]; [reflexivity|]. cbn [locate].
  change (c_head (node_chain X)) with (testnet1 X). rewrite (proj1 (shared X)). cbn [rbind].
  destruct (bytes_eqb h (blake2b X [])); [reflexivity|exact IH].
Qed.

Lemma shipped_answers t c i x m : history (shipped X) t -> sender c t i x ->
  match m with
  | MPing _ => o_answers (process_message c t m) = [MPong (PingMsg 10 0)]
  | MGetHeaders _ => o_answers (process_message c t m) = [MHeaders []]
  | MGetPeerAddrs _ => exists l, o_answers (process_message c t m) = [MPeerAddrs l]
  | _ => o_answers (process_message c t m) = []
  end.
Proof.
  intros H Se. pose proof (chain_is t H) as C.
  destruct m as [e|a|s|p|p|caps|l|hs|h|l|bh|b|b|tx]; try (apply (silent X (sql_storage X)); exact I);
    unfold process_message; rewrite (sender_info X _ c t i x Se), ?C; cbn [o_answers].
  - reflexivity.
  - eauto.
  - unfold get_block_headers. now rewrite locate_none.
  - unfold get_block. destruct bh; reflexivity.
Qed.

Lemma shipped_blocks t now b : history (shipped X) t ->
  (fst (process_block now (nd_chain t) b) = Ok tt <->
   exists h, block_hash X b = Ok h /\ (h = blake2b X [] \/ block_validate X now b = Ok tt)).
Proof.
  intro H. rewrite (chain_is t H). unfold process_block. cbn [fst].
  change (c_head (node_chain X)) with (testnet1 X). rewrite (proj1 (shared X)). cbn [rbind].
  destruct (block_hash X b) as [bh|e| |]; cbn [rbind]; try (split; [discriminate|intros (h & K & _); discriminate]).
  destruct (bytes_eqb (blake2b X []) bh) eqn:E.
  - apply bytes_eqb_eq in E. split; [intros _; exists bh; auto|reflexivity].
  - assert (D : bh <> blake2b X []) by (intros ->; rewrite bytes_eqb_refl in E; discriminate).
    cbn [st_get sql_storage node_chain]. destruct (block_validate X now b) as [[]|e| |]; cbn [rbind];
      (split; [try discriminate|intros (h & K & [->|V])]; [..|congruence|congruence]).
    intros _. exists bh. auto.
Qed.

Lemma pong_frame : write_message X (MPong (PingMsg 10 0)) =
  Ok ([x54; x34; x04] ++ be 8 16 ++ be 8 10 ++ be 8 0, 27) /\
  write_message X (MHeaders []) = Ok ([x54; x34; x09] ++ be 8 2 ++ [x00; x00], 13).
Proof. split; reflexivity. Qed.
End WithExt.
