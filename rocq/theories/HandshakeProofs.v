(** Lemmas about the handshake and the nonce list. *)
From Verif Require Import Handshake SpecPow SpecCodec SpecConsensus SpecMessages SpecHandshake PowCodecProofs CodecProofs MessageProofs RulesProofs ChainProofs.

(** ** Nonces *)
Lemma consist_iff l n : consist l n = true <-> In n l.
Proof.
  unfold consist. rewrite existsb_exists. split.
  - intros (x & I & E). apply N.eqb_eq in E. now subst.
  - intro I. exists n. split; [exact I|apply N.eqb_refl].
Qed.

Lemma nonce_nth (l : nonce_list) : List.length (nl_list l) = 100%nat -> nl_idx l < 100 ->
  exists n, next_nonce l = Ok (n, NonceList ((nl_idx l + 1) mod 100) (nl_list l)) /\
    nth_error (nl_list l) (N.to_nat ((nl_idx l + 1) mod 100)) = Some n.
Proof.
  intros L H. unfold next_nonce, nonces_cap.
  assert (B : (nl_idx l + 1) mod 100 < 100) by now apply N.mod_lt.
  destruct (nth_error (nl_list l) (N.to_nat ((nl_idx l + 1) mod 100))) as [n|] eqn:E.
  - exists n. split; reflexivity.
  - apply nth_error_None in E. lia.
Qed.

Lemma nonce_cycle random k : exists ns l,
  nonce_calls k (nonce_init random) = Ok (ns, l) /\ l = NonceList (N.of_nat k mod 100) (nl_list (nonce_init random)) /\
  ns = map (fun i => random ((i + 1) mod 100)%nat) (seq 0 k).
Proof.
  induction k as [|k (ns & l & E & El & En)].
  - exists [], (nonce_init random). repeat split.
  - cbn [nonce_calls]. rewrite E. cbn [rbind fst snd].
    assert (B : N.of_nat k mod 100 < 100) by now apply N.mod_lt.
    assert (Len : List.length (nl_list (nonce_init random)) = 100%nat).
    { cbn [nonce_init nl_list]. now rewrite map_length, seq_length. }
    destruct (nonce_nth l) as (n & Hn & Hnth).
    { rewrite El. exact Len. } { rewrite El. exact B. }
    rewrite Hn. cbn [rbind fst snd]. eexists. eexists. split; [reflexivity|].
    assert (Ei : (nl_idx l + 1) mod 100 = N.of_nat (S k) mod 100).
    { rewrite El. cbn [nl_idx]. rewrite N.add_mod_idemp_l by discriminate. f_equal. lia. }
    split.
    + rewrite Ei. now rewrite El.
    + rewrite En, seq_S, map_app. cbn [map]. f_equal. f_equal. cbn [Nat.add].
      rewrite Ei in Hnth. rewrite El in Hnth. cbn [nl_list nonce_init] in Hnth.
      rewrite nth_error_map in Hnth.
      assert (Q : N.to_nat (N.of_nat (S k) mod 100) = ((k + 1) mod 100)%nat).
      { rewrite N2Nat.inj_mod. rewrite Nat2N.id. change (N.to_nat 100) with 100%nat. f_equal. lia. }
      rewrite Q in Hnth.
      assert (B2 : ((k + 1) mod 100 < 100)%nat) by (apply Nat.mod_upper_bound; lia).
      rewrite (nth_error_nth' _ 0%nat) in Hnth by (rewrite seq_length; exact B2).
      rewrite seq_nth in Hnth by exact B2. cbn in Hnth. now injection Hnth as <-.
Qed.

(** Under every schedule. *)
Definition thread_fine (l : list N) (t : nonce_thread) : Prop :=
  match t with NtRead v => v < 100 | NtDone n => In n l | NtPanic => False | _ => True end.
Lemma swap_fine l pre post t t' : Forall (thread_fine l) (pre ++ t :: post) -> thread_fine l t' ->
  Forall (thread_fine l) (pre ++ t' :: post).
Proof.
  intros F H. apply Forall_app in F. destruct F as (F1 & F2). inversion F2; subst.
  apply Forall_app. split; [exact F1|]. now constructor.
Qed.
Lemma nonce_inv l s : List.length l = 100%nat -> nonce_steps l nonce_start s ->
  Forall (fun v => v < 100) (ix_seen s) /\ Forall (thread_fine l) (ix_threads s).
Proof.
  intros L R. remember nonce_start as s0 eqn:E0.
  induction R as [s|s t u R IH St].
  - subst. cbn. repeat constructor.
  - destruct (IH E0) as (F1 & F2). clear IH.
    assert (Hall : forall v, In v (ix_seen t) -> v < 100) by (apply Forall_forall; exact F1).
    destruct St as [seen pre post v I|seen pre post v|seen pre post v n I Hn|seen pre post v I Hn|seen ts];
      cbn [ix_seen ix_threads] in *.
    + split; [exact F1|]. apply (swap_fine l pre post NtStart); [exact F2|]. now apply Hall.
    + split; [constructor; [now apply N.mod_lt|exact F1]|]. now apply (swap_fine l pre post (NtRead v)).
    + split; [exact F1|]. apply (swap_fine l pre post NtStored); [exact F2|]. now apply nth_error_In in Hn.
    + exfalso. apply nth_error_None in Hn. apply Hall in I. lia.
    + split; [exact F1|]. apply Forall_app. split; [exact F2|]. repeat constructor.
Qed.
(** A call that runs alone is a run of one more thread. *)
Lemma nonce_alone l i n l' seen ts : next_nonce (NonceList i l) = Ok (n, l') -> In i seen ->
  nonce_steps l (NonceState seen ts) (NonceState (nl_idx l' :: seen) (ts ++ [NtDone n])).
Proof.
  unfold next_nonce. cbn [nl_idx nl_list]. destruct (nth_error l (N.to_nat ((i + 1) mod nonces_cap))) as [m|] eqn:E; [|discriminate].
  intros K I. apply Ok_inj in K. injection K as <- <-. cbn [nl_idx].
  eapply NsMore; [eapply NsMore; [eapply NsMore; [eapply NsMore; [apply NsNone|apply NsSpawn]|]|]|].
  - apply (NsRead l seen ts [] i I).
  - apply (NsStore l seen ts [] i).
  - eapply (NsIndex l _ ts [] _ m); [left; reflexivity|exact E].
Qed.

Lemma nonce_known l s : List.length l = 100%nat -> nonce_steps l nonce_start s ->
  ~ In NtPanic (ix_threads s) /\ forall n, In (NtDone n) (ix_threads s) -> In n l.
Proof.
  intros L R. destruct (nonce_inv l s L R) as (_ & F). rewrite Forall_forall in F. split.
  - intro I. exact (F _ I).
  - intros n I. exact (F _ I).
Qed.

(** ** The handshake *)
Section WithExt.
Context (X : Ext) (lenient : bool).

Definition t4_proof_bytes : res bytes := proof_bytes (Proof 29 testnet4_nonces).
Lemma t4_bytes : exists e, proof_bytes (Proof 29 testnet4_nonces) = Ok e.
Proof. eexists. vm_compute. reflexivity. Qed.
Lemma testnet4_hash : exists g, block_hash X (testnet4 X) = Ok g /\ (hash_laws X -> List.length g = 32%nat).
Proof.
  destruct t4_bytes as (e & E). exists (blake2b X e). split.
  - unfold block_hash, header_hash. change (h_pow (b_header (testnet4 X))) with (Proof 29 testnet4_nonces).
    now rewrite E.
  - intro H. apply H.
Qed.

Lemma read_frame_err t b e rest : t < 256 -> msg_read X lenient t b = Err e -> lenN b <= 20000000 ->
  read_message X lenient t (frame_of t b ++ rest) = (11 + lenN b, Err e).
Proof.
  intros Ht R L. unfold read_message, frame_of. rewrite <- !app_assoc.
  rewrite header_rt by (auto; unfold is_u64; lia). rewrite N.eqb_refl. cbn [negb]. unfold max_msg_len.
  replace (20000000 <? lenN b) with false by (symmetry; apply N.ltb_ge; lia).
  unfold limit_reader. rewrite takeN_app_exact, R. f_equal.
  rewrite w64_mod. unfold msg_header_len. apply N.mod_small. lia.
Qed.

Lemma read_sent t b m rest : t < 256 -> (forall rest, msg_read X lenient t (b ++ rest) = Ok (m, rest)) ->
  lenN b <= 20000000 -> read_message X lenient t (frame_of t b ++ rest) = (11 + lenN b, Ok (m, rest)).
Proof.
  intros Ht R L. specialize (R []). pose proof (read_frame X lenient t b m [] rest Ht) as K.
  rewrite app_nil_r in K, R. cbn [app] in K. now apply K.
Qed.

(** Hands and shakes of any origin. *)
Lemma hand_received h b : sendable X (fun _ => True) (fun _ => True) (MHand h) -> hand_bytes h = Ok b -> lenN b <= 20000000 ->
  exists h', received_as X (MHand h) (MHand h') /\
    forall rest, read_message X lenient 1 (frame_of 1 b ++ rest) = (11 + lenN b, Ok (MHand h', rest)).
Proof.
  intros W E L. destruct (hand_rt X _ _ lenient h W) as (b' & h' & E' & Rc & R). rewrite E in E'. apply Ok_inj in E'. subst b'.
  exists h'. split; [exact Rc|]. intro rest. apply read_sent; [reflexivity| |exact L].
  intro r. change (msg_read X lenient 1) with (do h <- hand_read lenient; rret (@MHand X h)).
  unfold pbind. rewrite R. reflexivity.
Qed.
Lemma shake_received s : sendable X (fun _ => True) (fun _ => True) (MShake s) -> lenN (shake_bytes s) <= 20000000 ->
  forall rest, read_message X lenient 2 (frame_of 2 (shake_bytes s) ++ rest) =
    (11 + lenN (shake_bytes s), Ok (MShake s, rest)).
Proof.
  intros W L rest. apply read_sent; [reflexivity| |exact L].
  intro r. change (msg_read X lenient 2) with (do h <- shake_read; rret (@MShake X h)).
  unfold pbind. rewrite (shake_rt X _ _ s W). reflexivity.
Qed.

(** What the listener answers. *)
Definition our_shake_frame : bytes := frame_of 2 (shake_bytes our_shake).
Lemma send_shake wr : send X wr (MShake our_shake) = match wr with None => Ok [Sent our_shake_frame] | Some e => Err e end.
Proof. unfold send. rewrite (write_frame X (MShake our_shake) (shake_bytes our_shake) eq_refl); [reflexivity|]. vm_compute. discriminate. Qed.

Lemma listener_cases nonces wr input :
  (forall h rest ops, hand_by_shake X lenient nonces wr input = (Ok (h, rest), ops) ->
     ops = [Sent our_shake_frame] /\ wr = None /\ ~ In (hd_nonce h) nonces /\
     exists c, read_message X lenient 1 input = (c, Ok (MHand h, rest))) /\
  (forall c h rest, read_message X lenient 1 input = (c, Ok (MHand h, rest)) ->
     (In (hd_nonce h) nonces ->
        hand_by_shake X lenient nonces wr input = (Err (Msg "detect connection to ourselves by nonce"), [])) /\
     (~ In (hd_nonce h) nonces -> wr = None ->
        hand_by_shake X lenient nonces wr input = (Ok (h, rest), [Sent our_shake_frame]))).
Proof.
  unfold hand_by_shake. rewrite send_shake. change type_hand with 1. split.
  - intros h rest ops. destruct (read_message X lenient 1 input) as [c [[m r]|e| |]]; cbn [snd]; try discriminate.
    destruct m; try discriminate. destruct (consist nonces (hd_nonce h0)) eqn:K; [discriminate|].
    destruct wr; [discriminate|]. intro E. injection E as <- <- <-.
    split; [reflexivity|]. split; [reflexivity|]. split; [|now exists c].
    intro I. apply consist_iff in I. congruence.
  - intros c h rest E. rewrite E. cbn [snd]. split.
    + intro I. apply consist_iff in I. now rewrite I.
    + intros I ->. destruct (consist nonces (hd_nonce h)) eqn:K; [now apply consist_iff in K|reflexivity].
Qed.

(** Reading it back. *)
Lemma our_shake_unreadable rest : read_message X lenient 2 (our_shake_frame ++ rest) = (48, Err EOF).
Proof.
  unfold our_shake_frame. rewrite (read_frame_err 2 (shake_bytes our_shake) EOF rest); [reflexivity|reflexivity| |vm_compute; discriminate].
  change (msg_read X lenient 2) with (do h <- shake_read; rret (@MShake X h)).
  unfold pbind. replace (shake_read (shake_bytes our_shake)) with (@Err (shake * bytes) EOF) by (vm_compute; reflexivity). reflexivity.
Qed.

Lemma addr_len a b : addr_bytes a = Ok b -> lenN b <= 11.
Proof.
  unfold addr_bytes. cbv zeta. set (i := match to4 (ip a) with Some b => b | None => ip a end).
  destruct (lenN i =? 4) eqn:E4; [|destruct (lenN i =? 16); [|discriminate]]; intro E; apply Ok_inj in E; subst b;
    unfold lenN; rewrite app_length, be_length; cbn [List.length].
  - apply N.eqb_eq in E4. unfold lenN in E4. lia.
  - unfold slice. rewrite firstn_length. lia.
Qed.
Lemma addr_cases a : addr_bytes a = Fatal \/ exists b, addr_bytes a = Ok b.
Proof.
  unfold addr_bytes. cbv zeta. set (i := match to4 (ip a) with Some b => b | None => ip a end).
  destruct (lenN i =? 4); [right; eexists; reflexivity|].
  destruct (lenN i =? 16); [right; eexists; reflexivity|left; reflexivity].
Qed.

(** The dialling side. *)
Lemma dial_cases nonce receiver wr input :
  (forall e, snd (read_message X lenient 2 input) = Err e ->
     exists e' ops, shake_by_hand X lenient nonce receiver wr input = (e', ops) /\
       (e' = Err e \/ e' = Fatal \/ exists e2, wr = Some e2 /\ e' = Err e2) /\ ~ In Closed ops) /\
  (forall s rest ops, shake_by_hand X lenient nonce receiver wr input = (Ok (s, rest), ops) ->
     snd (read_message X lenient 2 input) = Ok (MShake s, rest)).
Proof.
  unfold shake_by_hand. change type_shake with 2. split.
  - intros e E. rewrite E.
    unfold our_hand. destruct testnet4_hash as (g & Eg & _). rewrite Eg. cbn [rbind].
    unfold send. unfold write_message. cbn [msg_bytes]. unfold hand_bytes. cbn [hd_sender hd_receiver].
    assert (A : exists sb, addr_bytes any_addr = Ok sb) by (eexists; vm_compute; reflexivity).
    destruct A as (sb & ->). cbn [rbind].
    pose proof (addr_cases receiver) as Ar.
    destruct Ar as [->|(rb & ->)]; cbn [rbind].
    + eexists. eexists. split; [reflexivity|]. auto.
    + destruct wr as [e2|]; cbn [fst].
      * eexists. eexists. split; [reflexivity|]. split; [|auto]. right. right. exact (ex_intro _ e2 (conj eq_refl eq_refl)).
      * eexists. eexists. split; [reflexivity|]. split; [auto|]. intros [D|[]]. discriminate D.
  - intros s rest ops. destruct (let! m := our_hand X nonce receiver in send X wr m); try discriminate.
    destruct (snd (read_message X lenient 2 input)) as [[m r]|e| |]; try discriminate.
    destruct m; try discriminate. intro E. injection E as <- <- <-. reflexivity.
Qed.

(** The hand sent to an IPv4 address. *)
Definition our_hand_of (g : bytes) (nonce : N) (receiver : addr) : hand :=
  Hand 1 7 nonce g 1 (Some any_addr) (Some receiver) user_agent.
Lemma our_hand_sendable g nonce receiver : List.length g = 32%nat -> is_u64 nonce -> ipv4 receiver -> port_ok receiver ->
  sendable X (fun _ => True) (fun _ => True) (MHand (our_hand_of g nonce receiver)).
Proof.
  intros Lg Hn V P. cbn [sendable our_hand_of hd_version hd_caps hd_nonce hd_difficulty hd_sender hd_receiver hd_agent hd_genesis].
  split; [reflexivity|]. split; [reflexivity|]. split; [exact Hn|]. split; [reflexivity|].
  split. { exists any_addr. split; [reflexivity|]. split; [|split; cbn; lia]. exists [x00; x00; x00; x00]. split; [reflexivity|left; reflexivity]. }
  split. { exists receiver. auto. }
  split; [vm_compute; discriminate|exact Lg].
Qed.

Lemma our_hand_len g nonce receiver b : List.length g = 32%nat -> hand_bytes (our_hand_of g nonce receiver) = Ok b ->
  lenN b <= 1000.
Proof.
  intros Lg E. unfold hand_bytes in E. cbn [our_hand_of hd_sender hd_receiver] in E.
  apply bind_ok in E. destruct E as (sb & Es & E). apply bind_ok in E. destruct E as (rb & Er & E). apply Ok_inj in E. subst b.
  apply addr_len in Es. apply addr_len in Er. unfold lenN in *. rewrite !app_length, !be_length.
  cbn [hd_agent hd_genesis our_hand_of]. rewrite Lg. change (List.length user_agent) with 13%nat. lia.
Qed.

(** The frame the dialler sends, and what it does with the answer. *)
Lemma dial_v4 nonce receiver input : hash_laws X -> is_u64 nonce -> ipv4 receiver -> port_ok receiver ->
  exists g b h', block_hash X (testnet4 X) = Ok g /\ hand_bytes (our_hand_of g nonce receiver) = Ok b /\
    received_as X (MHand (our_hand_of g nonce receiver)) (MHand h') /\
    (forall rest, read_message X lenient 1 (frame_of 1 b ++ rest) = (11 + lenN b, Ok (MHand h', rest))) /\
    (forall s rest, snd (read_message X lenient 2 input) = Ok (MShake s, rest) ->
       shake_by_hand X lenient nonce receiver None input = (Ok (s, rest), [Sent (frame_of 1 b)])) /\
    (forall e, snd (read_message X lenient 2 input) = Err e ->
       shake_by_hand X lenient nonce receiver None input = (Err e, [Sent (frame_of 1 b)])).
Proof.
  intros HL Hn V P. destruct testnet4_hash as (g & Eg & Lg). specialize (Lg HL).
  pose proof (our_hand_sendable g nonce receiver Lg Hn V P) as W.
  destruct (hand_rt X _ _ lenient _ W) as (b & _ & Eb & _).
  assert (Lb : lenN b <= 20000000) by (pose proof (our_hand_len g nonce receiver b Lg Eb); lia).
  destruct (hand_received _ b W Eb Lb) as (h' & Rc & R).
  exists g, b, h'. split; [exact Eg|]. split; [exact Eb|]. split; [exact Rc|]. split; [exact R|].
  assert (Sd : (let! m := our_hand X nonce receiver in send X None m) = Ok [Sent (frame_of 1 b)]).
  { unfold our_hand. rewrite Eg. cbn [rbind].
    change (send X None (MHand (our_hand_of g nonce receiver)) = Ok [Sent (frame_of 1 b)]). unfold send.
    rewrite (write_frame X (MHand (our_hand_of g nonce receiver)) b Eb Lb). reflexivity. }
  unfold shake_by_hand. rewrite Sd. change type_shake with 2. split.
  - intros s rest E. now rewrite E.
  - intros e E. now rewrite E.
Qed.
End WithExt.

Section Both.
Context (X : Ext) (lenient : bool).
Lemma tcp_bytes a : tcp_ip a -> exists b, addr_bytes a = Ok b.
Proof.
  intro T.
  assert (K : let i := match to4 (ip a) with Some b => b | None => ip a end in lenN i = 4 \/ lenN i = 16).
  { cbv zeta. unfold to4. destruct (lenN (ip a) =? 4) eqn:E4; [left; now apply N.eqb_eq|].
    destruct T as [T|T]; [exfalso; apply N.eqb_neq in E4; apply E4; unfold lenN; now rewrite T|].
    match goal with |- context [if ?c then _ else _] => destruct c end.
    - left. unfold slice, lenN. rewrite firstn_length, skipn_length, T. reflexivity.
    - right. unfold lenN. now rewrite T. }
  cbv zeta in K. unfold addr_bytes. cbv zeta. destruct K as [-> | ->]; eexists; reflexivity.
Qed.
Lemma dial_error nonce receiver input e : tcp_ip receiver -> snd (read_message X lenient 2 input) = Err e ->
  exists f, shake_by_hand X lenient nonce receiver None input = (Err e, [Sent f]).
Proof.
  intros T E. unfold shake_by_hand. change type_shake with 2. rewrite E.
  unfold our_hand. destruct (testnet4_hash X) as (g & Eg & _). rewrite Eg. cbn [rbind].
  unfold send, write_message. cbn [msg_bytes]. unfold hand_bytes. cbn [hd_sender hd_receiver].
  destruct (tcp_bytes any_addr (or_introl eq_refl)) as (sb & ->). cbn [rbind].
  destruct (tcp_bytes receiver T) as (rb & ->). cbn [rbind fst]. eexists. reflexivity.
Qed.
Lemma dial_fails nonces wr input h rest ops nonce receiver :
  hand_by_shake X lenient nonces wr input = (Ok (h, rest), ops) -> tcp_ip receiver ->
  exists f, ops = [Sent f] /\
    forall more, exists sent, shake_by_hand X lenient nonce receiver None (f ++ more) = (Err EOF, [Sent sent]).
Proof.
  intros E T. destruct (listener_cases X lenient nonces wr input) as (A & _). destruct (A h rest ops E) as (-> & _).
  exists our_shake_frame. split; [reflexivity|]. intro more. apply dial_error; [exact T|].
  now rewrite our_shake_unreadable.
Qed.
Lemma both_ends nonces nonce receiver : hash_laws X -> is_u64 nonce -> ipv4 receiver -> port_ok receiver -> ~ In nonce nonces ->
  exists f1 f2 g h, block_hash X (testnet4 X) = Ok g /\
    (forall input, snd (shake_by_hand X lenient nonce receiver None input) = [Sent f1]) /\
    (forall rest, hand_by_shake X lenient nonces None (f1 ++ rest) = (Ok (h, rest), [Sent f2])) /\
    received_as X (MHand (Hand 1 7 nonce g 1 (Some (Addr [x00; x00; x00; x00] 0)) (Some receiver) user_agent)) (MHand h) /\
    (forall rest, shake_by_hand X lenient nonce receiver None (f2 ++ rest) = (Err EOF, [Sent f1])).
Proof.
  intros HL Hn V P NI.
  destruct (dial_v4 X lenient nonce receiver [] HL Hn V P) as (g & b & h & Eg & Eb & Rc & R & _ & _).
  exists (frame_of 1 b), our_shake_frame, g, h. split; [exact Eg|].
  assert (Lg : List.length g = 32%nat).
  { destruct (testnet4_hash X) as (g' & Eg' & L). rewrite Eg in Eg'. apply Ok_inj in Eg'. subst g'. now apply L. }
  assert (Lb : lenN b <= 20000000) by (pose proof (our_hand_len g nonce receiver b Lg Eb); lia).
  assert (Sd : (let! m := our_hand X nonce receiver in send X None m) = Ok [Sent (frame_of 1 b)]).
  { unfold our_hand. rewrite Eg. cbn [rbind].
    change (send X None (MHand (our_hand_of g nonce receiver)) = Ok [Sent (frame_of 1 b)]). unfold send.
    rewrite (write_frame X (MHand (our_hand_of g nonce receiver)) b Eb Lb). reflexivity. }
  split; [|split; [|split]].
  - intro input. unfold shake_by_hand. rewrite Sd. destruct (snd (read_message X lenient type_shake input)) as [[m r]|e| |]; try reflexivity.
    now destruct m.
  - intro rest. destruct (listener_cases X lenient nonces None (frame_of 1 b ++ rest)) as (_ & B).
    apply (B _ h rest (R rest)); [|reflexivity].
    destruct Rc as (_ & _ & -> & _). exact NI.
  - exact Rc.
  - intro rest. unfold shake_by_hand. rewrite Sd. change type_shake with 2. rewrite our_shake_unreadable. reflexivity.
Qed.
Lemma conforming nonce receiver s : hash_laws X -> is_u64 nonce -> ipv4 receiver -> port_ok receiver ->
  sendable X (fun _ => True) (fun _ => True) (MShake s) -> lenN (shake_bytes s) <= 20000000 ->
  forall rest, exists f, shake_by_hand X lenient nonce receiver None (frame_of 2 (shake_bytes s) ++ rest) =
    (Ok (s, rest), [Sent f]).
Proof.
  intros HL Hn V P W L rest.
  destruct (dial_v4 X lenient nonce receiver (frame_of 2 (shake_bytes s) ++ rest) HL Hn V P) as (g & b & h & _ & _ & _ & _ & K & _).
  exists (frame_of 1 b). apply K. now rewrite (shake_received X lenient s W L rest).
Qed.
Lemma any_hand nonces h b : sendable X (fun _ => True) (fun _ => True) (MHand h) -> hand_bytes h = Ok b -> lenN b <= 20000000 ->
  ~ In (hd_nonce h) nonces ->
  exists h', received_as X (MHand h) (MHand h') /\
    forall rest, accept_new_peer X lenient nonces None (frame_of 1 b ++ rest) =
      (Ok (PeerOf [] false 1 (hd_caps h) (hd_difficulty h) (hd_agent h) 0, rest), [Sent our_shake_frame]).
Proof.
  intros W E L NI. destruct (hand_received X lenient h b W E L) as (h' & Rc & R). exists h'. split; [exact Rc|]. intro rest.
  unfold accept_new_peer. destruct (listener_cases X lenient nonces None (frame_of 1 b ++ rest)) as (_ & B).
  destruct W as (V & _). destruct Rc as (R1 & R2 & R3 & _ & R5 & R6 & _).
  destruct (B _ h' rest (R rest)) as (_ & B2). rewrite B2; [|now rewrite R3|reflexivity].
  now rewrite R1, R2, R5, R6, V.
Qed.
Lemma any_shake name nonce receiver s : hash_laws X -> is_u64 nonce -> ipv4 receiver -> port_ok receiver ->
  sendable X (fun _ => True) (fun _ => True) (MShake s) -> lenN (shake_bytes s) <= 20000000 ->
  forall rest, fst (new_peer X lenient name nonce receiver None (frame_of 2 (shake_bytes s) ++ rest)) =
    Ok (PeerOf name true 1 (sk_caps s) (sk_difficulty s) (sk_agent s) 0, rest).
Proof.
  intros HL Hn V P W L rest. destruct (conforming nonce receiver s HL Hn V P W L rest) as (f & E).
  unfold new_peer. rewrite E. destruct W as (Vs & _). now rewrite Vs.
Qed.

(** Connections to ourselves. *)
Lemma self_refused l s n : List.length l = 100%nat -> nonce_steps l nonce_start s -> In (NtDone n) (ix_threads s) ->
  forall wr input c h rest, read_message X lenient 1 input = (c, Ok (MHand h, rest)) -> hd_nonce h = n ->
  hand_by_shake X lenient l wr input = (Err (Msg "detect connection to ourselves by nonce"), []).
Proof.
  intros L R I wr input c h rest E En. destruct (nonce_known l s L R) as (_ & K). apply K in I.
  destruct (listener_cases X lenient l wr input) as (_ & B). apply (B c h rest E). now rewrite En.
Qed.
Lemma self_dial l s n receiver : hash_laws X -> Forall is_u64 l ->
  List.length l = 100%nat -> nonce_steps l nonce_start s -> In (NtDone n) (ix_threads s) ->
  ipv4 receiver -> port_ok receiver ->
  exists f, (forall input, snd (shake_by_hand X lenient n receiver None input) = [Sent f]) /\
    forall wr rest, hand_by_shake X lenient l wr (f ++ rest) = (Err (Msg "detect connection to ourselves by nonce"), []).
Proof.
  intros HL U L R I V P. destruct (nonce_known l s L R) as (_ & K). pose proof (K n I) as In_l.
  assert (Hn : is_u64 n) by (rewrite Forall_forall in U; now apply U).
  destruct (both_ends [] n receiver HL Hn V P (fun x => x)) as (f1 & f2 & g & h & _ & Sd & _).
  exists f1. split; [exact Sd|].
  destruct (dial_v4 X lenient n receiver [] HL Hn V P) as (g' & b & h' & _ & _ & Rc & Rd & _ & Er).
  assert (f1 = frame_of 1 b).
  { specialize (Sd []). rewrite (Er EOF) in Sd by reflexivity. cbn [snd] in Sd. now injection Sd as <-. }
  subst f1. intros wr rest. apply (self_refused l s n L R I wr _ _ h' rest (Rd rest)).
  now destruct Rc as (_ & _ & -> & _).
Qed.

(** Failed handshakes. *)
Lemma new_peer_open name nonce receiver wr input : ~ In Closed (snd (new_peer X lenient name nonce receiver wr input)).
Proof.
  assert (A : ~ In Closed (snd (shake_by_hand X lenient nonce receiver wr input))).
  { unfold shake_by_hand. destruct (let! m := our_hand X nonce receiver in send X wr m) as [ops|e| |] eqn:E; try (intros []).
    assert (B : ~ In Closed ops).
    { apply bind_ok in E. destruct E as (m & _ & E). unfold send in E. apply bind_ok in E. destruct E as (f & _ & E).
      destruct wr; [discriminate|]. apply Ok_inj in E. subst ops. intros [D|[]]. discriminate D. }
    destruct (snd (read_message X lenient type_shake input)) as [[m r]|e| |]; try exact B. now destruct m. }
  unfold new_peer. destruct (shake_by_hand X lenient nonce receiver wr input) as [[[s r]|e| |] ops]; exact A.
Qed.
Lemma leak nonces wr input h rest ops name nonce receiver :
  hand_by_shake X lenient nonces wr input = (Ok (h, rest), ops) -> tcp_ip receiver ->
  exists f, ops = [Sent f] /\ forall more, exists sent,
    new_peer X lenient name nonce receiver None (f ++ more) = (Err EOF, [Sent sent]).
Proof.
  intros E T. destruct (dial_fails nonces wr input h rest ops nonce receiver E T) as (f & -> & K).
  exists f. split; [reflexivity|]. intro more. destruct (K more) as (sent & Q). exists sent. unfold new_peer. now rewrite Q.
Qed.
End Both.
