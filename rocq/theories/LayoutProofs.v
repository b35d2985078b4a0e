(** Proofs for the wire formats of SpecLayout.v. *)
From Coq Require Import Permutation Sorted.
From Verif Require Import Messages SpecCodec SpecConsensus SpecMessages SpecLayout CodecProofs BlockCodecProofs MessageProofs.

Ltac szs := repeat (rewrite ?app_length, ?be_length in *; cbn [List.length] in *;
  try match goal with H : List.length ?l = _ |- context [List.length ?l] => rewrite H end).
Ltac at_ := rewrite <- ?app_assoc; repeat (rewrite field_skip by (szs; lia));
  match goal with |- context [field ?o _ _] => replace o with 0%nat by (szs; lia) end;
  first [rewrite field_here by (szs; lia) | unfold field; cbn [skipn]; rewrite firstn_all2 by (szs; lia)].
Ltac num H := at_; first [apply unbe_be; exact H | rewrite unbe_be by exact H; try reflexivity].

Lemma skipn_at n (a b : bytes) : List.length a = n -> skipn n (a ++ b) = b.
Proof. intros <-. rewrite skipn_skip by lia. now rewrite Nat.sub_diag. Qed.

(** ** Addresses *)
Lemma addr_bytes_v4 a : ipv4 a -> port_ok a -> exists b, addr_bytes a = Ok b /\ List.length b = 7%nat /\ addr_at 0 a b.
Proof.
  intros (d & Ld & E) Hp. unfold port_ok in Hp.
  assert (T : to4 (ip a) = Some d) by (destruct E as [-> | ->]; [apply to4_4|apply to4_mapped]; exact Ld).
  unfold addr_bytes. rewrite T. unfold lenN at 1. rewrite Ld. cbn [N.of_nat Pos.of_succ_nat Pos.succ N.eqb Pos.eqb rbind].
  eexists. split; [reflexivity|]. change (x00 :: d) with ([x00] ++ d). rewrite <- app_assoc.
  split; [szs; lia|]. unfold addr_at.
  split; [at_; reflexivity|]. split.
  - at_. unfold as16 at 1. rewrite Ld. cbn [Nat.eqb]. destruct E as [-> | ->].
    + unfold as16. now rewrite Ld.
    + unfold as16. szs. cbn. reflexivity.
  - at_. rewrite unbe_be by (change (256 ^ N.of_nat 2) with 65536; lia). rewrite Z2N.id by lia. apply Z.mod_small. lia.
Qed.

Lemma field_inside off len (a b : bytes) : (off + len <= List.length a)%nat -> field off len (a ++ b) = field off len a.
Proof.
  intro H. unfold field. rewrite skipn_app. replace (off - List.length a)%nat with 0%nat by lia. cbn [skipn].
  rewrite firstn_app, skipn_length. replace (len - (List.length a - off))%nat with 0%nat by lia. cbn [firstn]. apply app_nil_r.
Qed.

Lemma addr_at_shift n off a (x b : bytes) : List.length x = n -> addr_at off a b -> addr_at (n + off) a (x ++ b).
Proof.
  intros L (A & B & C). unfold addr_at.
  rewrite !field_skip by lia. rewrite !L.
  replace (n + off - n)%nat with off by lia. replace (n + off + 1 - n)%nat with (off + 1)%nat by lia.
  replace (n + off + 5 - n)%nat with (off + 5)%nat by lia. auto.
Qed.

Lemma addr_at_front off a (b c : bytes) : (off + 7 <= List.length b)%nat -> addr_at off a b -> addr_at off a (b ++ c).
Proof. intros L (A & B & C). unfold addr_at. rewrite !field_inside by lia. auto. Qed.

Lemma addrs_at l : Forall (fun a => ipv4 a /\ port_ok a) l ->
  exists b, addrs_bytes l = Ok b /\ List.length b = (7 * List.length l)%nat /\
    forall i a, nth_error l i = Some a -> addr_at (7 * i) a b.
Proof.
  induction 1 as [|x l [H4 Hp] _ (b & E & L & F)].
  - exists []. split; [reflexivity|]. split; [reflexivity|]. intros [|i] a H; discriminate.
  - destruct (addr_bytes_v4 x H4 Hp) as (y & Ey & Ly & Ay). exists (y ++ b). cbn [addrs_bytes]. rewrite Ey, E. cbn [rbind].
    split; [reflexivity|]. split; [szs; lia|]. intros [|i] a H; cbn [nth_error] in H.
    + injection H as <-. apply addr_at_front; [lia|exact Ay].
    + replace (7 * S i)%nat with (7 + 7 * i)%nat by lia. apply addr_at_shift; [exact Ly|apply F, H].
Qed.

Lemma fields32 (hs : list bytes) : Forall (fun h : bytes => List.length h = 32%nat) hs ->
  List.length (concat hs) = (32 * List.length hs)%nat /\
  forall i h, nth_error hs i = Some h -> field (32 * i) 32 (concat hs) = h.
Proof.
  induction 1 as [|x l Hx _ [L F]]; cbn [concat List.length].
  - split; [reflexivity|]. intros [|i] h H; discriminate.
  - split; [rewrite app_length, L, Hx; lia|]. intros [|i] h H; cbn [nth_error] in H.
    + injection H as <-. change (32 * 0)%nat with 0%nat. apply field_here, Hx.
    + rewrite field_skip by lia. rewrite Hx. replace (32 * S i - 32)%nat with (32 * i)%nat by lia. apply F, H.
Qed.

Lemma headers_parts l : Forall header_wf l ->
  exists parts, headers_concat l = Ok (concat parts) /\ Forall2 header_layout l parts.
Proof.
  induction 1 as [|h l (T & S & C) _ (parts & E & F)].
  - exists []. split; [reflexivity|constructor].
  - destruct (header_layout_ok h T S (proj1 (proj2 C))) as (b & Eb & Lb).
    exists (b :: parts). cbn [headers_concat concat]. rewrite Eb, E. cbn [rbind]. split; [reflexivity|now constructor].
Qed.

Section Items.
Context (X : Ext) (P : point -> Prop) (Q : rproof X -> Prop) (CL : codec_laws X P Q) (SL : sort_laws X).

Lemma input_laid i : input_wf i -> input_layout i (input_bytes i).
Proof.
  intros (F & L). unfold input_layout, input_bytes. split; [szs; lia|]. split; [num F|at_; reflexivity].
Qed.

Lemma output_laid o : output_wf X P Q o -> output_layout X o (output_bytes X o).
Proof.
  intros (F & Po & Qo). unfold output_layout, output_bytes, output_bytes_without_proof.
  pose proof (point_len _ _ _ CL _ Po) as LP. pose proof (rproof_len _ _ _ CL _ Qo) as LR.
  assert (R : lenN (rproof_enc X (out_proof o)) < 256 ^ N.of_nat 8) by (change (256 ^ N.of_nat 8) with (2 ^ 64); lia).
  split; [num F|]. split; [at_; reflexivity|].
  rewrite <- !app_assoc. repeat (rewrite skipn_skip by (szs; lia)).
  match goal with |- context [skipn ?o _] => replace o with 0%nat by (szs; lia) end. cbn [skipn].
  split; [num R|reflexivity].
Qed.

Lemma kernel_laid k : kernel_wf P k -> kernel_layout X k (kernel_bytes X k).
Proof.
  intros (F & Fe & Lo & Po & Ls). unfold kernel_layout, kernel_bytes. pose proof (point_len _ _ _ CL _ Po) as LP.
  split; [szs; lia|]. split; [num F|]. split; [num Fe|]. split; [num Lo|]. split; at_; reflexivity.
Qed.

Lemma items_laid {A} (key : A -> bytes) (lay : A -> bytes -> Prop) (enc : A -> bytes) (wf : A -> Prop) l :
  (forall a, wf a -> lay a (enc a)) -> Forall wf l -> items key lay l (flat_map enc (go_sort X key l)).
Proof.
  intros W F. destruct (SL A key l) as [Pm S]. exists (go_sort X key l), (map enc (go_sort X key l)).
  split; [exact Pm|]. split; [exact S|]. split; [|apply flat_map_concat_map].
  assert (F' : Forall wf (go_sort X key l)) by (eapply Permutation_Forall; [symmetry; exact Pm|exact F]).
  clear -W F'. induction F'; cbn [map]; constructor; auto.
Qed.

Lemma body_laid (lay : input -> bytes -> Prop) enc ins outs kers : (forall i, input_wf i -> lay i (enc i)) ->
  Forall input_wf ins -> Forall (output_wf X P Q) outs -> Forall (kernel_wf P) kers ->
  lenN ins <= 1000000 -> lenN outs <= 1000000 -> lenN kers <= 1000000 ->
  body_layout X lay ins outs kers (be 8 (lenN ins) ++ be 8 (lenN outs) ++ be 8 (lenN kers) ++
    flat_map enc (go_sort X (input_hash X) ins) ++ flat_map (output_bytes X) (go_sort X (output_hash X) outs) ++
    flat_map (kernel_bytes X) (go_sort X (kernel_hash X) kers)).
Proof.
  intros W Wi Wo Wk Li Lo Lk. apply le_u64 in Li, Lo, Lk. unfold body_layout.
  split; [num Li|]. split; [num Lo|]. split; [num Lk|].
  do 3 eexists. split; [|split; [|split]].
  - rewrite !skipn_skip by (szs; lia). szs. cbn [Nat.sub skipn]. reflexivity.
  - apply (items_laid (input_key X) lay enc input_wf); assumption.
  - apply (items_laid (output_key X) _ (output_bytes X) (output_wf X P Q)); [exact output_laid|assumption].
  - apply (items_laid (kernel_key X) _ (kernel_bytes X) (kernel_wf P)); [exact kernel_laid|assumption].
Qed.

Lemma laid m : laid_out X P Q m -> exists b, msg_bytes X m = Ok b /\ layout X m b.
Proof.
  destruct m as [e|h|s|p|p|c|l|hs|h|l|h|b|b|t]; cbn [laid_out sendable msg_bytes layout].
  - intros (C & T). eexists. split; [reflexivity|]. unfold peer_error_bytes.
    assert (R : lenN (pe_text e) < 256 ^ N.of_nat 8) by (change (256 ^ N.of_nat 8) with (2 ^ 64); lia).
    split; [num C|]. split; [num R|]. rewrite !skipn_skip by (szs; lia). szs. reflexivity.
  - intros (V & C & No & D & (s & Es & S4 & Sp) & (r & Er & R4 & Rp) & A & G).
    destruct (addr_bytes_v4 s S4 Sp) as (sb & Esb & Lsb & Asb). destruct (addr_bytes_v4 r R4 Rp) as (rb & Erb & Lrb & Arb).
    unfold hand_bytes. rewrite Es, Er, Esb, Erb. cbn [rbind]. eexists. split; [reflexivity|].
    assert (R : lenN (hd_agent h) < 256 ^ N.of_nat 8) by (change (256 ^ N.of_nat 8) with (2 ^ 64); lia).
    assert (V' : hd_version h < 256 ^ N.of_nat 4) by (rewrite V; reflexivity).
    set (n := List.length (hd_agent h)). assert (En : List.length (hd_agent h) = n) by reflexivity.
    split; [szs; lia|]. split; [num V'|]. split; [num C|]. split; [num No|]. split; [num D|].
    split; [exists s; split; [reflexivity|]|]. 
    { change 24%nat with (4 + (4 + (8 + (8 + 0))))%nat. do 4 (apply addr_at_shift; [apply be_length|]).
      apply addr_at_front; [lia|exact Asb]. }
    split; [exists r; split; [reflexivity|]|].
    { change 31%nat with (4 + (4 + (8 + (8 + (7 + 0)))))%nat. do 4 (apply addr_at_shift; [apply be_length|]).
      apply addr_at_shift; [exact Lsb|]. apply addr_at_front; [lia|exact Arb]. }
    split; [num R|]. split; at_; reflexivity.
  - intros (V & C & D & A & G). eexists. split; [reflexivity|]. unfold shake_bytes.
    assert (R : lenN (sk_agent s) < 256 ^ N.of_nat 8) by (change (256 ^ N.of_nat 8) with (2 ^ 64); lia).
    assert (V' : sk_version s < 256 ^ N.of_nat 4) by (rewrite V; reflexivity).
    set (n := List.length (sk_agent s)). assert (En : List.length (sk_agent s) = n) by reflexivity.
    split; [szs; lia|]. split; [num V'|]. split; [num C|]. split; [num D|]. split; [num R|]. split; at_; reflexivity.
  - intros (D & H). eexists. split; [reflexivity|]. unfold ping_bytes. split; [szs; lia|]. split; [num D|num H].
  - intros (D & H). eexists. split; [reflexivity|]. unfold ping_bytes. split; [szs; lia|]. split; [num D|num H].
  - intro H. eexists. split; [reflexivity|]. unfold get_peers_bytes. split; [apply be_length|apply unbe_be, H].
  - intros (L & F). destruct (addrs_at l F) as (b & E & Lb & A). unfold peer_addrs_bytes, max_peer_addrs.
    rewrite (ltb_false 256 (lenN l)) by exact L. rewrite E. cbn [rbind]. eexists. split; [reflexivity|].
    assert (R : lenN l < 256 ^ N.of_nat 4) by (change (256 ^ N.of_nat 4) with (2 ^ 32); lia).
    split; [szs; lia|]. split; [num R|]. intros i a H. apply addr_at_shift; [apply be_length|apply A, H].
  - intros (L & F). destruct (fields32 hs F) as [Lc Fc]. unfold locator_bytes, max_locators.
    rewrite (ltb_false 14 (lenN hs)) by exact L. eexists. split; [reflexivity|].
    assert (R : lenN hs < 256 ^ N.of_nat 1) by (change (256 ^ N.of_nat 1) with 256; lia).
    split; [szs; lia|]. split; [num R|]. intros i h H. rewrite field_skip by (szs; lia). szs.
    replace (1 + 32 * i - 1)%nat with (32 * i)%nat by lia. apply Fc, H.
  - intros (T & S & C). exact (header_layout_ok h T S (proj1 (proj2 C))).
  - intros (L & F). destruct (headers_parts l F) as (parts & E & Fp). unfold headers_bytes, max_block_headers.
    rewrite (ltb_false 512 (lenN l)) by exact L. rewrite E. cbn [rbind]. eexists. split; [reflexivity|].
    assert (R : lenN l < 256 ^ N.of_nat 2) by (change (256 ^ N.of_nat 2) with 65536; lia).
    split; [num R|]. exists parts. split; [|exact Fp]. apply skipn_at, be_length.
  - intro L. unfold get_block_bytes, block_hash_size, lenN. rewrite L. cbn. eexists. split; reflexivity.
  - intros (H & Wi & Wo & Wk & Li & Lo & Lk). destruct H as (T & S & C).
    destruct (header_layout_ok _ T S (proj1 (proj2 C))) as (hb & Eh & Lh).
    unfold block_bytes. rewrite Eh. cbn [rbind rmap fst]. eexists. split; [reflexivity|].
    exists hb. eexists. split; [reflexivity|]. split; [exact Lh|].
    apply (body_laid input_layout input_bytes); try assumption. exact input_laid.
  - intros ((H & Wo & Wk & Wi) & Lo & Lk & Li). destruct H as (T & S & C).
    destruct (header_layout_ok _ T S (proj1 (proj2 C))) as (hb & Eh & Lh).
    unfold compact_bytes. rewrite Eh. cbn [rbind rmap fst]. eexists. split; [reflexivity|].
    exists hb. eexists. split; [reflexivity|]. split; [exact Lh|].
    assert (R : lenN (cb_ids b) < 256 ^ N.of_nat 8) by (change (256 ^ N.of_nat 8) with (2 ^ 64); lia).
    assert (Ro : lenN (cb_outputs b) < 256 ^ N.of_nat 1) by exact Lo.
    assert (Rk : lenN (cb_kernels b) < 256 ^ N.of_nat 1) by exact Lk.
    split; [num Ro|]. split; [num Rk|]. split; [num R|]. do 3 eexists. split; [|split; [|split]].
    + rewrite !skipn_skip by (szs; lia). szs. cbn [Nat.sub skipn]. reflexivity.
    + apply (items_laid (output_key X) _ (output_bytes X) (output_wf X P Q)); [exact output_laid|assumption].
    + apply (items_laid (kernel_key X) _ (kernel_bytes X) (kernel_wf P)); [exact kernel_laid|assumption].
    + rewrite concat_flat_map_id. apply (items_laid (fun i => i) _ (fun i => i) (fun i => List.length i = 6%nat)); [auto|assumption].
  - intros (Lf & Wi & Wo & Wk & Li & Lo & Lk). eexists. split; [reflexivity|]. unfold tx_bytes. cbn [fst].
    split; [at_; reflexivity|]. rewrite (skipn_at 32) by exact Lf.
    apply (body_laid bare_input_layout in_commit); try assumption. reflexivity.
Qed.
End Items.

Lemma laid_read X P Q lenient (CL : codec_laws X P Q) (SL : sort_laws X) m : sendable X P Q m ->
  exists b m', msg_bytes X m = Ok b /\ layout X m b /\ received_as X m m' /\
    forall rest, msg_read X lenient (type_number X m) (b ++ rest) = Ok (m', rest).
Proof.
  intro W. destruct (msg_rt X P Q lenient CL SL m W) as (b & m' & E & R & F).
  assert (W' : laid_out X P Q m) by (destruct m; try exact W; exact (proj1 W)).
  destruct (laid X P Q CL SL m W') as (b' & E' & L). rewrite E in E'. injection E' as <-.
  exists b, m'. rewrite <- type_number_eq. auto.
Qed.
