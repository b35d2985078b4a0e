(** Property C102: requests and their answers. Statements; proofs are in RequestProofs.v, specifications
    in SpecSend.v. *)
From Verif Require Import Send SpecSend SpecCodec SpecConsensus SpecMessages SpecChain SpecPool SpecSync SpecServe CodecExamples RulesProofs
  PoolExamples RequestProofs Instance RulesExamples ChainExamples SyncExamples PropMessages PropHandshake PropServe PropChain PowExamples.

(** * C102: a peer that is asked answers with what it was asked for *)

(** SendBlockRequest can be called with any hash. The peer, whatever chunks the request arrives in,
    answers with the block stored under the hash, if there is one, and the asker's read loop hands on
    that block; its hash is the stored one's. *)
Theorem C102_block : forall X P Q S lenient, codec_laws X P Q -> sort_laws X ->
  forall w fuel p (n : node X S) h i x, List.length h = 32%nat -> pe_sync p = true ->
  sender (ar_context w 0) (met w 0 n) i x -> (1 < fuel)%nat ->
  exists m e k, send_block_request X h = Ok m /\ write_message X m = Ok (e, k) /\
    forall chunks, Forall (fun c : bytes => c <> []) chunks -> concat chunks = e ->
    let r := run_peer lenient w fuel p n chunks in sv_stop r = Leave (Failed EOF) /\ nd_chain (sv_node r) = nd_chain n /\
    match st_get S (c_store (nd_chain n)) (by_hash h) with
    | None => sv_answers r = []
    | Some b => sv_answers r = [MBlock b] /\
        (block_wf X P Q b -> (forall bs, msg_bytes X (MBlock b) = Ok bs -> lenN bs <= 20000000) ->
         exists b', arrives X lenient (MBlock b) (MBlock b') /\ received_as X (MBlock b) (MBlock b') /\ block_hash X b' = block_hash X b)
    end.
Proof. exact block_answered. Qed.
Print Assumptions C102_block.

(** SendHeaderRequest can be called with up to 14 hashes; the answer is as [located] says, and is read. *)
Theorem C102_headers : forall X P Q S lenient, codec_laws X P Q -> sort_laws X ->
  forall w fuel p (n : node X S) hs hh i x, lenN hs <= 14 -> Forall (fun h : bytes => List.length h = 32%nat) hs ->
  pe_sync p = true -> sender (ar_context w 0) (met w 0 n) i x -> block_hash X (c_head (nd_chain n)) = Ok hh -> (1 < fuel)%nat ->
  exists m e k, send_header_request X hs = Ok m /\ write_message X m = Ok (e, k) /\
    forall chunks, Forall (fun c : bytes => c <> []) chunks -> concat chunks = e ->
    let r := run_peer lenient w fuel p n chunks in sv_stop r = Leave (Failed EOF) /\ nd_chain (sv_node r) = nd_chain n /\
    exists l, sv_answers r = [MHeaders l] /\ located (c_store (nd_chain n)) hh hs l /\
      (lenN l <= 512 -> Forall header_wf l -> arrives X lenient (MHeaders l) (MHeaders (map wire_view l))).
Proof. exact headers_answered. Qed.
Print Assumptions C102_headers.

(** The sender's limit is the reader's: SendHeaderRequest ends the process for exactly the lists that a
    peer would refuse to read. *)
Theorem C102_same_limit : forall X hs, lenN hs < 256 -> Forall (fun h : bytes => List.length h = 32%nat) hs ->
  (send_header_request X hs = Fatal <-> exists e, forall rest, locator_read (be 1 (lenN hs) ++ concat hs ++ rest) = Err e).
Proof. exact header_limit. Qed.
Print Assumptions C102_same_limit.

(** A hash that is not 32 bytes long ends the process: in SendBlockRequest if it is shorter than six
    bytes, otherwise when the request is written. *)
Theorem C102_block_length : forall X h,
  (send_block_request X h = Panic <-> (List.length h <= 5)%nat) /\
  (forall m, send_block_request X h = Ok m -> write_message X m = Fatal <-> List.length h <> 32%nat) /\
  (send_block_request X h <> Panic -> exists m, send_block_request X h = Ok m).
Proof. exact block_request_length. Qed.
Print Assumptions C102_block_length.

(** What is logged as the header of a message is what is sent before its body. *)
Theorem C102_logged : forall X (m : message X) b, msg_bytes X m = Ok b -> lenN b <= 20000000 ->
  exists fr k, write_message X m = Ok (fr, k) /\ fr = header_log (type_number X m) (lenN b) ++ b.
Proof. exact logged. Qed.
Print Assumptions C102_logged.

(** A node with two stored blocks is asked for the older one, and for the headers behind it. *)
Definition stocked : node mined (mem_storage mined) := Node (mem_chain [child 1 1 1003; par 1 1000]) two None.
Lemma par_wf : block_wf mined toy_P toy_Q (par 1 1000).
Proof.
  split.
  - split; [|split; [repeat split|]].
    + unfold header_typed. cbn [par b_header h_version h_height h_time h_nonce h_output_mmr h_kernel_mmr h_total_difficulty h_scaling h_pow p_bits p_nonces].
      split; [reflexivity|]. split; [reflexivity|]. split; [apply time_unix_wf|]. do 6 (split; [reflexivity|]).
      apply (below_sound (2 ^ 32)). vm_compute. reflexivity.
    + split; [split; discriminate|]. split; [reflexivity|]. apply (below_sound (2 ^ 29)). vm_compute. reflexivity.
  - repeat split; try constructor; vm_compute; discriminate.
Qed.
Example C102_block_case : codec_laws mined toy_P toy_Q /\ sort_laws mined /\
  List.length (par_hash 1) = 32%nat /\ pe_sync some_peer = true /\ (exists x, sender (ar_context quiet_around 0) (met quiet_around 0 stocked) 1 x) /\
  st_get (mem_storage mined) (c_store (nd_chain stocked)) (by_hash (par_hash 1)) = Some (par 1 1000) /\ block_wf mined toy_P toy_Q (par 1 1000) /\
  (forall bs, msg_bytes mined (MBlock (par 1 1000)) = Ok bs -> lenN bs <= 20000000).
Proof.
  split; [exact mined_codec|]. split; [exact mined_sort|]. split; [apply par_hash_len; auto|]. split; [reflexivity|]. split.
  { eexists. split; [left; reflexivity|]. split; [apply two_entered|reflexivity]. }
  split; [|split; [exact par_wf|]].
  - apply mem_second with (ha := child_hash); [apply child_hashed|apply par_hashed; auto|apply child_not_par; auto].
  - intros bs E. assert (K : (match msg_bytes mined (MBlock (par 1 1000)) with Ok b => lenN b <=? 20000000 | _ => false end) = true) by (vm_compute; reflexivity).
    rewrite E in K. now apply N.leb_le.
Qed.
Example C102_headers_case : lenN [brepeat x00 32; par_hash 1] <= 14 /\ Forall (fun h : bytes => List.length h = 32%nat) [brepeat x00 32; par_hash 1] /\
  block_hash mined (c_head (nd_chain stocked)) = Ok child_hash /\
  located (c_store (nd_chain stocked)) child_hash [brepeat x00 32; par_hash 1] [b_header (child 1 1 1003)] /\
  header_wf (b_header (child 1 1 1003)) /\ lenN (repeat (brepeat x01 32) 15) < 256 /\ send_header_request mined (repeat (brepeat x01 32) 15) = Fatal.
Proof.
  split; [discriminate|]. split; [constructor; [reflexivity|constructor; [apply par_hash_len; auto|constructor]]|].
  split; [apply child_hashed|]. split; [|split; [|split; reflexivity]].
  - right. exists [brepeat x00 32], (par_hash 1), []. split; [reflexivity|]. split.
    + constructor; [|constructor]. split; [vm_compute; discriminate|].
      match goal with |- ?l = [] => assert (K : match l with [] => true | _ => false end = true) by (vm_compute; reflexivity);
        destruct l; [reflexivity|discriminate K] end.
    + right. split; [apply child_not_par; auto|]. exists (par 1 1000), [child 1 1 1003]. split; [|reflexivity].
      cbn [st_from mem_storage]. unfold mem_from.
      cbn [by_hash id_hash id_height mem_chain chain_new st_last mem_storage hd_error c_store rev app drop_until nd_chain stocked].
      unfold id_matches. cbn [by_hash id_hash id_height].
      rewrite (par_hashed 1 1000 (or_introl eq_refl)), bytes_eqb_refl. cbn [andb]. reflexivity.
  - split; [now apply mined_on_typed|split; [apply mined_on_sized; apply par_hash_len; auto|exact mined_canonical]].
Qed.
