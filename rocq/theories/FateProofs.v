(** Lemmas for C136. *)
From Verif Require Import Sync SpecPow SpecCodec SpecConsensus SpecRules SpecChain SpecPool SpecSync SpecFate
  CodecProofs BlockCodecProofs RulesProofs ChainProofs PoolProofs SyncProofs.

Section Fate.
Context (X : Ext) (S : storage X).
Implicit Types (c : context) (n : node X S) (m : message X).

Lemma ban_fate c n k : NoDup (map fst (pl_table (nd_pool n))) -> valid_table (nd_pool n) -> (forall n', o_end (k n') = HDone) ->
  (o_end (banning c n k) = HPanic <-> ban_panics c n) /\ (o_end (banning c n k) = HHang <-> ban_hangs c n) /\
  o_end (banning c n k) <> HFatal.
Proof.
  intros Nd V K.
  assert (U : forall j x, lookup (x_remote c) (pl_table (nd_pool n)) = Some j -> nth_error (pl_infos (nd_pool n)) j = Some x ->
    forall y, reported c n y -> y = x).
  { intros j x L Nx y (j' & I & Ny). rewrite (lookup_unique _ _ _ Nd I) in L. congruence. }
  unfold banning, pool_ban. destruct (lookup (x_remote c) (pl_table (nd_pool n))) as [j|] eqn:L.
  - pose proof (lookup_in _ _ _ L) as I. destruct (nth_error (pl_infos (nd_pool n)) j) as [x|] eqn:Nx.
    2:{ apply nth_error_None in Nx. pose proof (V _ _ I). lia. }
    assert (R : reported c n x) by (exists j; auto).
    assert (Nu : nth_error (pl_infos (upd (nd_pool n) j (with_status StBanned))) j = Some (with_status StBanned x))
      by (unfold upd; cbn [pl_infos set_infos]; now rewrite update_nth, Nat.eqb_refl, Nx).
    cbv zeta. rewrite Nu. change (i_peer (with_status StBanned x)) with (i_peer x).
    destruct (i_peer x) as [k'|] eqn:P.
    + destruct (x_closes c k') eqn:C.
      * change (pl_bans (upd (nd_pool n) j (with_status StBanned))) with (pl_bans (nd_pool n)).
        destruct (pl_bans (nd_pool n)) as [l|] eqn:B.
        -- rewrite K. split; [|split; [|discriminate]]; (split; [discriminate|]).
           ++ intros (y & Ry & Y). rewrite (U j x eq_refl Nx y Ry) in Y. destruct Y as [Y|(q & _ & _ & Y)]; congruence.
           ++ intros (y & q & Ry & Y & Z). rewrite (U j x eq_refl Nx y Ry) in Y. congruence.
        -- cbn [o_end]. split; [|split; [|discriminate]].
           ++ split; [intros _|reflexivity]. exists x. split; [exact R|]. right. eauto.
           ++ split; [discriminate|]. intros (y & q & Ry & Y & Z). rewrite (U j x eq_refl Nx y Ry) in Y. congruence.
      * cbn [o_end]. split; [|split; [|discriminate]].
        -- split; [discriminate|]. intros (y & Ry & Y). rewrite (U j x eq_refl Nx y Ry) in Y. destruct Y as [Y|(q & Y & Z & _)]; congruence.
        -- split; [intros _|reflexivity]. exists x, k'. auto.
    + cbn [o_end]. split; [|split; [|discriminate]].
      * split; [intros _|reflexivity]. exists x. auto.
      * split; [discriminate|]. intros (y & q & Ry & Y & Z). rewrite (U j x eq_refl Nx y Ry) in Y. congruence.
  - assert (N : forall y, ~ reported c n y).
    { intros y (j & I & _). rewrite (lookup_unique _ _ _ Nd I) in L. discriminate L. }
    rewrite K. split; [|split; [|discriminate]]; (split; [discriminate|]).
    + intros (y & R & _). elim (N y R).
    + intros (y & q & R & _). elim (N y R).
Qed.

(** What a block read off the wire has. *)
Lemma received_block lenient (b : block X) : received lenient (MBlock b) ->
  header_wf (b_header b) /\ exists d, block_hash X b = Ok d.
Proof.
  intro R. destruct (received_ok X lenient _ R) as (_ & D). split; [|exact D].
  destruct R as (t & body & E). unfold decode_frame in E. destruct (existsb _ _) eqn:Ex.
  - destruct (msg_read X lenient t body) as [(m0, rest)|e| |] eqn:R; try discriminate E. cbn in E. injection E as ->.
    apply existsb_exists in Ex. destruct Ex as (u & I & Eu). apply N.eqb_eq in Eu. subst u.
    destruct I as [<-|[<-|[<-|[<-|[<-|[<-|[<-|[<-|[<-|[]]]]]]]]]]; unfold msg_read in R;
      repeat match type of R with (if ?b then _ else _) _ = _ => let v := eval vm_compute in b in change b with v in R; cbv iota in R end;
      apply pbind_inv in R as (v & m1 & R1 & R); discriminate R.
  - destruct (t =? type_block).
    + destruct (block_read X body) as [(b0, rest)|e| |] eqn:R; try discriminate E. cbn [rbind fst] in E.
      destruct (header_hash X (b_header b0)) eqn:Hh; try discriminate E. injection E as ->.
      destruct (block_read_header X _ _ _ R) as (rest' & Rh). exact (proj1 (header_read_inv _ _ _ Rh)).
    + destruct (t =? type_get_compact_block); [discriminate E|]. destruct (t =? type_compact_block); [|discriminate E].
      destruct (compact_read X body) as [r|e| |]; try discriminate E. cbn [rbind] in E. destruct (header_hash X _); discriminate E.
Qed.

Lemma block_panics now (ch : chain X S) (b : block X) : hash_laws X -> clock_ok now -> hashable ch -> header_wf (b_header b) ->
  (exists d, block_hash X b = Ok d) ->
  (fst (process_block now ch b) = Panic <-> on_zero now ch b) /\ fst (process_block now ch b) <> Fatal.
Proof.
  intros HL C ((hh & Hh) & St) (T & Z & _ & L & _) (bh & Bh).
  unfold on_zero. rewrite Hh, Bh.
  destruct (bytes_eqb hh bh) eqn:Eq.
  - apply bytes_eqb_eq in Eq. rewrite (process_tip X S ch b now hh bh Hh Bh Eq). split; [|discriminate].
    split; [discriminate|]. intros (D & _). now elim D; rewrite Eq.
  - assert (N : hh <> bh) by (intros ->; rewrite bytes_eqb_refl in Eq; discriminate).
    assert (N' : Ok bh <> Ok hh) by congruence.
    pose proof (block_survives X now b Z) as (Bp & Bf).
    pose proof (block_iff X now b C T Z L) as BI.
    rewrite (process_other X S ch b now hh bh Hh Bh N).
    destruct (block_validate X now b) as [[]|e| |] eqn:V; try contradiction; cbn [rbind].
    + destruct (st_get S (c_store ch) (parent_id (b_header b))) as [prev|] eqn:G.
      2:{ split; [|discriminate]. split; [discriminate|]. intros (_ & _ & p & E & _). discriminate E. }
      destruct (St _ _ G) as (W & top & e & Ee & Et).
      pose proof (after_iff (h_time (b_header b)) (h_time (b_header prev)) (proj1 (proj2 (proj2 T))) W) as A.
      destruct (time_after (h_time (b_header b)) (h_time (b_header prev))); cbn [negb].
      * rewrite (to_difficulty_eq X _ e HL Ee). cbv zeta. rewrite <- Et. destruct (N.eqb_spec top 0) as [T0|T0].
        -- cbn [rbind]. split; [|discriminate]. split; [intros _|reflexivity]. split; [exact N'|]. split; [now apply BI|].
           exists prev. split; [reflexivity|]. split; [exists e; now rewrite <- T0|]. now apply A.
        -- cbn [rbind]. split.
           ++ split; [|intros (_ & _ & p & E & (e' & Ee' & Et') & _); injection E as <-; congruence].
              destruct (negb _); [discriminate|]. destruct (_ <? _); discriminate.
           ++ destruct (negb _); [discriminate|]. destruct (_ <? _); discriminate.
      * split; [|discriminate]. split; [discriminate|]. intros (_ & _ & p & E & _ & I). injection E as <-. apply A in I. discriminate I.
    + split; [|discriminate]. split; [discriminate|]. intros (_ & R & _). apply BI in R. discriminate R.
Qed.

Lemma unlisted_fatal c n m : ~ In (x_me c) (map fst (pl_table (nd_pool n))) -> o_end (process_message c n m) = HFatal.
Proof. intro H. unfold process_message, peer_info. now rewrite (proj2 (lookup_none _ _) H). Qed.

Lemma fate lenient c n m i x : hash_laws X -> clock_ok (x_clock c 0%nat) -> sender c n i x -> valid_table (nd_pool n) ->
  hashable (nd_chain n) -> received lenient m ->
  (o_end (process_message c n m) = HPanic <-> panics c n m) /\
  (o_end (process_message c n m) = HHang <-> hangs c n m) /\
  (o_end (process_message c n m) = HFatal <-> ends_process n m).
Proof.
  intros HL Ck H V Hc R.
  assert (Fine : o_end (process_message c n m) = HDone -> ~ panics c n m -> ~ refused c n m -> ~ ends_process n m ->
    (o_end (process_message c n m) = HPanic <-> panics c n m) /\ (o_end (process_message c n m) = HHang <-> hangs c n m) /\
    (o_end (process_message c n m) = HFatal <-> ends_process n m)).
  { intros E A B D. rewrite E. split; [|split]; (split; [discriminate|]); try contradiction. now intros (? & _). }
  assert (Ref : refused c n m ->
    ~ (match m with MTx t => match nd_mempool n with None => True | Some f => f t = Panic end
        | MBlock b => on_zero (x_clock c 0%nat) (nd_chain n) b | _ => False end) -> ~ ends_process n m ->
    (o_end (process_message c n m) = HPanic <-> panics c n m) /\ (o_end (process_message c n m) = HHang <-> hangs c n m) /\
    (o_end (process_message c n m) = HFatal <-> ends_process n m)).
  { intros Rf A B. destruct (refused_ends X S c n m i x H Rf) as (k & E & K). rewrite E.
    destruct (ban_fate c n k (proj1 (proj2 H)) V K) as (P & Q & F). unfold panics, hangs. rewrite P, Q. tauto. }
  pose proof (received_ok X lenient m R) as W.
  destruct m; cbn [wire_ok] in W; try contradiction;
    try (apply Fine; [unfold process_message; rewrite (sender_info X S c n i x H); reflexivity|
      now intros [[]|([] & _)]|intros []|now intros (? & ? & ? & _)]).
  - destruct (headers_answer X S (nd_chain n) hs (proj1 Hc)) as (l & E).
    apply Fine; [now rewrite (get_headers_handled X S c n i x hs l H E)|now intros [[]|([] & _)]|intros []|now intros (? & ? & ? & _)].
  - apply Fine; [|now intros [[]|([] & _)]|intros []|now intros (? & ? & ? & _)].
    destruct W as (Hs & d & Ed). unfold process_message. rewrite (sender_info X S c n i x H).
    pose proof (headers_survive X (x_clock c) [h] 0 (Forall_cons _ Hs (Forall_nil _))) as (A & B).
    unfold process_headers. cbn [fst]. destruct (process_headers_from X (x_clock c) 0 [h]); try contradiction; now rewrite Ed.
  - pose proof (headers_survive X (x_clock c) l 0 W) as (A & B). destruct (process_headers_from X (x_clock c) 0 l) as [u|e| |] eqn:E; try contradiction.
    + assert (Nr : ~ refused c n (MHeaders l)) by (intros (e & K); unfold process_headers in K; cbn [fst] in K; congruence).
      apply Fine; [|intros [[]|(K & _)]; contradiction|exact Nr|now intros (? & ? & ? & _)].
      unfold process_message. rewrite (sender_info X S c n i x H). unfold process_headers. cbn [fst]. now rewrite E.
    + apply Ref; [now exists e|intros []|now intros (? & ? & ? & _)].
  - apply Fine; [now rewrite (get_block_handled X S c n i x h H)|now intros [[]|([] & _)]|intros []|now intros (? & ? & ? & _)].
  - destruct (received_block lenient b R) as (Wf & D).
    destruct (block_panics (x_clock c 0%nat) (nd_chain n) b HL Ck Hc Wf D) as (P & F).
    assert (Ne : ~ ends_process n (MBlock b)) by now intros (? & ? & ? & _).
    destruct (fst (process_block (x_clock c 0%nat) (nd_chain n) b)) as [u|e| |] eqn:E; try contradiction.
    + assert (Nr : ~ refused c n (MBlock b)) by (intros (e & K); congruence).
      apply Fine; auto.
      * unfold process_message. now rewrite (sender_info X S c n i x H), E.
      * intros [K|(K & _)]; [|contradiction]. apply P in K. discriminate K.
    + apply Ref; auto; [now exists e|]. intro K. apply P in K. discriminate K.
    + assert (Nr : ~ refused c n (MBlock b)) by (intros (e & K); congruence).
      assert (En : o_end (process_message c n (MBlock b)) = HPanic) by (unfold process_message; now rewrite (sender_info X S c n i x H), E).
      rewrite En. split; [|split]; (split; [|try reflexivity]); try discriminate; try contradiction.
      * intros _. left. now apply P.
      * now intros (? & _).
  - destruct (nd_mempool n) as [f|] eqn:Em.
    + destruct (f t) as [u|e| |] eqn:E.
      * assert (Nr : ~ refused c n (MTx t)) by (intros (g & e & K1 & K2); congruence).
        apply Fine; auto.
        -- unfold process_message. now rewrite (sender_info X S c n i x H), Em, E.
        -- unfold panics. rewrite Em, E. intros [K|(K & _)]; [discriminate K|contradiction].
        -- intros (t' & g & K1 & K2 & K3). injection K1 as <-. congruence.
      * apply Ref; [exists f, e; auto|try rewrite Em, E; try discriminate; congruence|].
        intros (t' & g & K1 & K2 & K3). injection K1 as <-. congruence.
      * assert (Nr : ~ refused c n (MTx t)) by (intros (g & e & K1 & K2); congruence).
        assert (En : o_end (process_message c n (MTx t)) = HPanic) by (unfold process_message; now rewrite (sender_info X S c n i x H), Em, E).
        rewrite En. split; [|split]; (split; [|try reflexivity]); try discriminate.
        -- intros _. left. now rewrite Em.
        -- now intros (? & _).
        -- intros (t' & g & K1 & K2 & K3). injection K1 as <-. congruence.
      * assert (Nr : ~ refused c n (MTx t)) by (intros (g & e & K1 & K2); congruence).
        assert (En : o_end (process_message c n (MTx t)) = HFatal) by (unfold process_message; now rewrite (sender_info X S c n i x H), Em, E).
        rewrite En. split; [|split]; (split; [|try reflexivity]); try discriminate.
        -- unfold panics. rewrite Em, E. intros [K|(K & _)]; [discriminate K|contradiction].
        -- now intros (? & _).
        -- intros _. exists t, f. auto.
    + assert (Nr : ~ refused c n (MTx t)) by (intros (g & e & K1 & K2); congruence).
      assert (En : o_end (process_message c n (MTx t)) = HPanic) by (unfold process_message; now rewrite (sender_info X S c n i x H), Em).
      rewrite En. split; [|split]; (split; [|try reflexivity]); try discriminate.
      * intros _. left. now rewrite Em.
      * now intros (? & _).
      * intros (t' & g & K1 & K2 & K3). congruence.
Qed.
End Fate.
