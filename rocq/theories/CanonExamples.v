(** Witnesses for C104-C106. *)
From Coq Require Import Permutation Sorted Lia.
From Verif Require Import Messages SpecCodec SpecConsensus SpecMessages SpecCanon CodecProofs BlockCodecProofs MessageProofs
  Instance Real SpecSecp SecpGroup CodecExamples PropMessages CanonProofs.

Lemma isort_keeps {A} (key : A -> bytes) l : key_sorted key l -> isort key l = l.
Proof.
  unfold key_sorted. induction 1 as [|a l _ IH F]; [reflexivity|]. cbn [isort fold_right]. fold (isort key l). rewrite IH.
  destruct l as [|b l]; [reflexivity|]. cbn [insert]. inversion F as [|? ? E _]; subst. now rewrite E.
Qed.
Lemma real_keeps : keeps real.
Proof. intros A key l. apply isort_keeps. Qed.
Definition twin (b : byte) : output real := @Output real 0 secp_G [b].
Lemma order_matters : exists X P Q b b' s s' c c',
  codec_laws X P Q /\ sort_laws X /\ block_wf X P Q b /\ same_block X b b' /\
  block_bytes X b = Ok (s, c) /\ block_bytes X b' = Ok (s', c') /\ s <> s'.
Proof.
  destruct (header_roundtrip (ex_header 29) []) as (hb & Eh & _); [apply ex_header_wf; cbn; auto 8|].
  assert (En : output_name real (twin x01) = output_name real (twin x02)).
  { unfold twin, output_name. cbn [out_features out_commit]. reflexivity. }
  assert (Ew : forall b, output_wire real (twin b) = (n2b 0 :: point_enc real secp_G ++ be 8 1) ++ [b]).
  { intro b. unfold twin, output_wire. cbn [out_features out_commit out_proof app]. rewrite <- app_assoc. reflexivity. }
  destruct (twins_order real (ex_header 29) (twin x01) (twin x02) hb real_keeps Eh En) as (s & s' & c & c' & E & E' & D).
  { rewrite !Ew. intro E. apply app_inv_head in E. discriminate E. }
  { rewrite !Ew, !lenN_app. reflexivity. }
  exists real, secp_affine, proof_sized, (Block (ex_header 29) [] [twin x01; twin x02] []), (Block (ex_header 29) [] [twin x02; twin x01] []), s, s', c, c'.
  split; [exact real_codec|]. split; [exact real_sort|]. split.
  { split; [apply ex_header_wf; cbn; auto 8|]. split; [constructor|].
    assert (W : forall b, output_wf real secp_affine proof_sized (twin b)).
    { intro b. split; [reflexivity|]. split; [split; [exact G_on|vm_compute; discriminate]|]. vm_compute. discriminate. }
    split; [repeat constructor; apply W|]. split; [constructor|]. repeat split; vm_compute; discriminate. }
  split; [|auto]. repeat split; cbn; auto. apply perm_swap.
Qed.

(** Items with different keys. *)
Lemma keys_apart {A} (X : Ext) (text : A -> bytes) l : NoDup (map (fun a => blake2b X (text a)) l) -> ~ colliding X text l.
Proof.
  intros N (a & b & Ia & Ib & D & E). apply D. f_equal.
  revert N Ia Ib. induction l as [|c l IH]; cbn [map In]; intros N Ia Ib; [contradiction|].
  inversion N as [|? ? N1 N2]; subst. destruct Ia as [->|Ia], Ib as [->|Ib]; auto.
  - exfalso. apply N1. apply in_map_iff. exists b. auto.
  - exfalso. apply N1. apply in_map_iff. exists a. auto.
Qed.
Lemma names_apart X l : NoDup (map (output_name X) l) -> ~ twins X l.
Proof.
  intros N (a & b & Ia & Ib & E & D). apply D. f_equal.
  revert N Ia Ib. induction l as [|c l IH]; cbn [map In]; intros N Ia Ib; [contradiction|].
  inversion N as [|? ? N1 N2]; subst. destruct Ia as [->|Ia], Ib as [->|Ib]; auto.
  - exfalso. apply N1. apply in_map_iff. exists b. auto.
  - exfalso. apply N1. apply in_map_iff. exists a. auto.
Qed.
Fixpoint distinct (l : list bytes) : bool :=
  match l with [] => true | a :: t => negb (existsb (bytes_eqb a) t) && distinct t end.
Lemma distinct_nodup l : distinct l = true -> NoDup l.
Proof.
  induction l as [|a l IH]; cbn [distinct]; intro H; constructor; apply andb_true_iff in H as [H1 H2].
  - intro I. apply negb_true_iff in H1. assert (existsb (bytes_eqb a) l = true); [|congruence].
    apply existsb_exists. exists a. split; [exact I|]. now apply bytes_eqb_eq.
  - now apply IH.
Qed.

Definition shuffled : block toy :=
  Block (b_header ex_block) (rev (b_inputs ex_block)) (rev (b_outputs ex_block)) (rev (b_kernels ex_block)).
Lemma shuffled_same : same_block toy ex_block shuffled.
Proof. split; [reflexivity|]. repeat split; cbn [b_inputs b_outputs b_kernels ex_block shuffled rev app]; apply perm_swap. Qed.
Lemma shuffled_bytes : exists s c c', block_bytes toy ex_block = Ok (s, c) /\ block_bytes toy shuffled = Ok (s, c').
Proof.
  destruct (header_roundtrip (ex_header 29) []) as (hb & Eh & _); [apply ex_header_wf; cbn; auto 8|].
  assert (E : forall b, b_header b = ex_header 29 -> exists s c, block_bytes toy b = Ok (s, c)).
  { intros b Eb. unfold block_bytes. rewrite Eb, Eh. cbn [rbind]. eauto. }
  destruct (E ex_block eq_refl) as (s & c & E1), (E shuffled eq_refl) as (s' & c' & E2). exists s, c, c'. split; [exact E1|].
  rewrite E2. f_equal. f_equal. symmetry.
  apply (block_order toy toy_sort ex_block shuffled s s' c c' shuffled_same); auto;
    [apply keys_apart|apply keys_apart|apply keys_apart|apply names_apart]; apply distinct_nodup; vm_compute; reflexivity.
Qed.
Lemma ex_shuffled : exists b', same_block toy ex_block b' /\ b_outputs b' <> b_outputs ex_block /\
  ~ colliding toy input_wire (b_inputs ex_block) /\ ~ colliding toy (output_name toy) (b_outputs ex_block) /\
  ~ colliding toy (kernel_wire toy) (b_kernels ex_block) /\ ~ twins toy (b_outputs ex_block) /\
  exists s c c', block_bytes toy ex_block = Ok (s, c) /\ block_bytes toy b' = Ok (s, c').
Proof.
  exists shuffled. split; [exact shuffled_same|]. split.
  { intro E. apply (f_equal (map (fun o => px (out_commit o)))) in E. vm_compute in E. discriminate. }
  split; [apply keys_apart, distinct_nodup; vm_compute; reflexivity|].
  split; [apply keys_apart, distinct_nodup; vm_compute; reflexivity|].
  split; [apply keys_apart, distinct_nodup; vm_compute; reflexivity|].
  split; [apply names_apart, distinct_nodup; vm_compute; reflexivity|]. exact shuffled_bytes.
Qed.

Lemma control_cases : forall X, Forall (fun t => exists bs m, msg_read X true t bs = Ok (m, [xee]) /\ (4 < List.length bs)%nat) (1 :: 6 :: control_types) /\
  exists bs a, addr_read true bs = Ok (a, [xee]) /\ ip a = brepeat x00 16.
Proof.
  intro X. split.
  - unfold control_types. repeat constructor.
    + exists ((be 4 1 ++ be 4 7 ++ be 8 9 ++ be 8 5 ++ [x00; x0a; x00; x00; x01; x0d; x56] ++ [x00; x0a; x00; x00; x02; x0d; x56] ++ be 8 1 ++ [x67] ++ brepeat x42 32) ++ [xee]).
      eexists. split; [vm_compute; reflexivity|apply Nat.ltb_lt; vm_compute; reflexivity].
    + exists ((be 4 1 ++ [x00; x0a; x00; x00; x01; x0d; x56]) ++ [xee]). eexists. split; [vm_compute; reflexivity|apply Nat.ltb_lt; vm_compute; reflexivity].
    + exists ((be 4 7 ++ be 8 2 ++ [x6e; x6f]) ++ [xee]). eexists. split; [vm_compute; reflexivity|apply Nat.ltb_lt; vm_compute; reflexivity].
    + exists (shake_bytes ex_shake ++ [xee]). eexists. split; [vm_compute; reflexivity|apply Nat.ltb_lt; vm_compute; reflexivity].
    + exists ((be 8 1 ++ be 8 2) ++ [xee]). eexists. split; [vm_compute; reflexivity|apply Nat.ltb_lt; vm_compute; reflexivity].
    + exists ((be 8 1 ++ be 8 2) ++ [xee]). eexists. split; [vm_compute; reflexivity|apply Nat.ltb_lt; vm_compute; reflexivity].
    + exists (be 4 7 ++ [xee]). eexists. split; [vm_compute; reflexivity|apply Nat.ltb_lt; vm_compute; reflexivity].
    + exists ((x02 :: brepeat x01 32 ++ brepeat x02 32) ++ [xee]). eexists. split; [vm_compute; reflexivity|apply Nat.ltb_lt; vm_compute; reflexivity].
    + exists (brepeat x01 32 ++ [xee]). eexists. split; [vm_compute; reflexivity|apply Nat.ltb_lt; vm_compute; reflexivity].
  - exists ([x01; x20; x01; x0d; xb8; x00; x00; x00; x01; x0d; x56] ++ [xee]). eexists. split; [vm_compute; reflexivity|reflexivity].
Qed.

Definition framed (ms : list (message toy)) : list bytes := map (fun m => match write_message toy m with Ok (fr, _) => fr | _ => [] end) ms.
Lemma framed_ok ms : Forall (fun m => is_ok (write_message toy m) = true) ms ->
  Forall (fun m => lenN (match write_message toy m with Ok (fr, _) => fr | _ => [] end) <= 20000011) ms ->
  Forall2 (fun m fr => exists n, write_message toy m = Ok (fr, n) /\ lenN fr <= 20000011) ms (framed ms).
Proof.
  induction ms as [|m l IH]; intros K B; cbn [framed map]; constructor;
    inversion K as [|? ? K1 K2]; inversion B as [|? ? B1 B2]; subst.
  - destruct (write_message toy m) as [[fr n]|e| |]; try discriminate K1. exists n. auto.
  - auto.
Qed.
Definition ex_messages' : list (message toy) :=
  map (fun m => match m with MBlock _ => MBlock shuffled | _ => m end) ex_messages.
Lemma two_ways : exists ms' frs,
  Forall (sendable toy toy_P toy_Q) ex_messages /\ Forall (sendable toy toy_P toy_Q) ms' /\ ms' <> ex_messages /\
  Forall2 (fun m fr => exists n, write_message toy m = Ok (fr, n) /\ lenN fr <= 20000011) ex_messages frs /\
  Forall2 (fun m fr => exists n, write_message toy m = Ok (fr, n) /\ lenN fr <= 20000011) ms' frs.
Proof.
  exists ex_messages', (framed ex_messages). split; [apply ex_messages_ok|]. split.
  { destruct ex_messages_ok as [F _]. unfold ex_messages'. rewrite Forall_map. revert F. apply Forall_impl.
    intros [e|h|s|p|p|c|l|hs|h|l|h|b|b|t] H; try exact H.
    destruct ex_block_wf as (H1 & H2 & H3 & H4 & H5 & H6 & H7). cbn [sendable]. unfold block_wf.
    split; [exact H1|]. unfold shuffled. cbn [b_inputs b_outputs b_kernels].
    split; [now apply Forall_rev|]. split; [now apply Forall_rev|]. split; [now apply Forall_rev|]. split; [exact H5|]. split; [exact H6|exact H7]. }
  split.
  { intro E. assert (F : option_map (fun m => match m with MBlock b => map (fun o => px (out_commit o)) (b_outputs b) | _ => [] end) (nth_error ex_messages' 2) =
       option_map (fun m => match m with MBlock b => map (fun o => px (out_commit o)) (b_outputs b) | _ => [] end) (nth_error ex_messages 2)) by now rewrite E.
    vm_compute in F. discriminate F. }
  split; [apply framed_ok; repeat constructor; vm_compute; first [reflexivity|discriminate]|].
  assert (E : framed ex_messages = framed ex_messages') by (vm_compute; reflexivity). rewrite E.
  apply framed_ok; repeat constructor; vm_compute; first [reflexivity|discriminate].
Qed.
