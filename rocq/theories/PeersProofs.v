(** Proofs for C117: Peers while the records change. *)
From Coq Require Import Lia.
From Verif Require Import Pool SpecPool SpecDial PoolProofs PoolExamples DialExamples.

Definition seen_ok (caps : N) (see : nat -> status * status * N) (i : nat) : bool :=
  let '(st1, st2, c) := see i in
  negb (match st1 with StBanned => true | _ => false end || match st2 with StFailedConn => true | _ => false end || negb (N.land c caps =? caps)).
Definition seen_offers resolve caps see (order : list (bytes * nat)) : list addr :=
  flat_map (fun kv => if seen_ok caps see (snd kv) then match resolve (fst kv) with Some n => [n] | None => [] end else []) order.
Lemma seen_prefix resolve caps see order : forall acc, lenN acc < 256 ->
  exists k, peers_seen resolve caps see order acc = firstn k (acc ++ seen_offers resolve caps see order) /\
    lenN (peers_seen resolve caps see order acc) <= 256 /\
    (lenN (peers_seen resolve caps see order acc) < 256 ->
     peers_seen resolve caps see order acc = acc ++ seen_offers resolve caps see order).
Proof.
  induction order as [|(a, i) t IH]; intros acc L; cbn [peers_seen seen_offers flat_map fst snd].
  - exists (List.length acc). rewrite app_nil_r, firstn_all. repeat split; lia.
  - fold (seen_offers resolve caps see t). destruct (see i) as ((st1, st2), c) eqn:Es.
    replace (seen_ok caps see i) with (negb (match st1 with StBanned => true | _ => false end || match st2 with StFailedConn => true | _ => false end
      || negb (N.land c caps =? caps))) by (unfold seen_ok; now rewrite Es).
    destruct (_ || _ || _); cbn [negb]; [now apply IH|].
    destruct (resolve a) as [n|].
    + cbv zeta. destruct (N.eqb_spec (lenN (acc ++ [n])) max_peer_addrs) as [E|E].
      * exists (List.length (acc ++ [n])).
        replace (acc ++ [n] ++ seen_offers resolve caps see t) with ((acc ++ [n]) ++ seen_offers resolve caps see t) by (now rewrite <- app_assoc).
        rewrite firstn_app, firstn_all, Nat.sub_diag. cbn [firstn]. rewrite app_nil_r. unfold max_peer_addrs in E. repeat split; lia.
      * assert (L' : lenN (acc ++ [n]) < 256).
        { unfold max_peer_addrs in E. rewrite lenN_app in *. change (lenN [n]) with 1 in *. lia. }
        destruct (IH _ L') as (k & A & B & C). exists k.
        rewrite <- app_assoc in A, C. cbn [app] in A, C. auto.
    + cbv zeta. destruct (N.eqb_spec (lenN acc) max_peer_addrs) as [E|E]; [unfold max_peer_addrs in E; lia|]. now apply IH.
Qed.
Lemma land_all c caps : (N.land c caps =? caps) = true <-> forall k, N.testbit caps k = true -> N.testbit c k = true.
Proof.
  rewrite N.eqb_eq. split.
  - intros E k H. rewrite <- E, N.land_spec in H. now apply andb_prop in H.
  - intro H. apply N.bits_inj. intro k. rewrite N.land_spec. destruct (N.testbit caps k) eqn:E; [now rewrite (H k E)|apply andb_false_r].
Qed.
Lemma seen_ok_iff caps see i st1 st2 c : see i = (st1, st2, c) ->
  seen_ok caps see i = true <-> st1 <> StBanned /\ st2 <> StFailedConn /\ (forall k, N.testbit caps k = true -> N.testbit c k = true).
Proof.
  intro E. unfold seen_ok. rewrite E, negb_true_iff, !orb_false_iff, negb_false_iff, land_all. rewrite <- and_assoc.
  assert (K1 : match st1 with StBanned => true | _ => false end = false <-> st1 <> StBanned) by (destruct st1; split; congruence).
  assert (K2 : match st2 with StFailedConn => true | _ => false end = false <-> st2 <> StFailedConn) by (destruct st2; split; congruence).
  rewrite K1, K2. tauto.
Qed.

Lemma seen_during resolve caps l order see : (forall v, In v l -> Permutation order (pl_table (y_pool v))) ->
  (forall a i, In (a, i) order -> exists st1 st2 c, see i = (st1, st2, c) /\ read_during l i st1 st2 c) ->
  lenN (peers_seen resolve caps see order []) <= 256 /\
  (forall n, In n (peers_seen resolve caps see order []) -> exists a i v1 v2 v3 x3, In (a, i) (pl_table (y_pool v1)) /\ resolve a = Some n /\
     (In v1 l /\ In v2 l /\ In v3 l) /\ status_of (y_pool v1) i <> Some StBanned /\ status_of (y_pool v2) i <> Some StFailedConn /\
     nth_error (pl_infos (y_pool v3)) i = Some x3 /\ forall k, N.testbit caps k = true -> N.testbit (i_caps x3) k = true) /\
  (lenN (peers_seen resolve caps see order []) < 256 -> forall a i n v0, In v0 l -> In (a, i) (pl_table (y_pool v0)) -> resolve a = Some n ->
     (forall v, In v l -> exists x, nth_error (pl_infos (y_pool v)) i = Some x /\ eligible caps x) ->
     In n (peers_seen resolve caps see order [])).
Proof.
  intros Pm Hs. destruct (seen_prefix resolve caps see order []) as (k & A & B & C); [reflexivity|]. cbn [app] in A, C. split; [exact B|].
  assert (R : forall i st1 st2 c, read_during l i st1 st2 c -> exists v1 v2 v3 x3, (In v1 l /\ In v2 l /\ In v3 l) /\ status_of (y_pool v1) i = Some st1 /\
    status_of (y_pool v2) i = Some st2 /\ nth_error (pl_infos (y_pool v3)) i = Some x3 /\ i_caps x3 = c).
  { intros i st1 st2 c (l1 & v1 & l2 & v2 & l3 & v3 & l4 & x3 & (E1 & E2) & I3 & H1 & H2 & H3 & H4). exists v1, v2, v3, x3.
    assert (J : forall v, In v (v1 :: l2) -> In v l) by (intros v Iv; rewrite E1; apply in_or_app; now right).
    assert (J2 : forall v, In v (v2 :: l4) -> In v l) by (intros v Iv; apply J; rewrite E2; apply in_or_app; now right).
    split; [|auto]. split; [apply J; now left|]. split; [apply J2; now left|now apply J2]. }
  split.
  - intros n I. rewrite A in I. apply in_firstn in I. unfold seen_offers in I. apply in_flat_map in I as ((a & i) & I & H).
    cbn [fst snd] in H. destruct (seen_ok caps see i) eqn:O; [|elim H]. destruct (resolve a) as [n'|] eqn:Ra; [|elim H]. destruct H as [<-|[]].
    destruct (Hs a i I) as (st1 & st2 & c & E & Rd). apply (seen_ok_iff caps see i st1 st2 c E) in O as (O1 & O2 & O3).
    destruct (R i st1 st2 c Rd) as (v1 & v2 & v3 & x3 & Iv & H1 & H2 & H3 & H4). exists a, i, v1, v2, v3, x3.
    split; [apply (Permutation_in _ (Pm v1 (proj1 Iv))); exact I|]. split; [exact Ra|]. split; [exact Iv|]. split; [congruence|]. split; [congruence|]. split; [exact H3|]. now rewrite H4.
  - intros L a i n v0 I0 I' Ra El. pose proof (Permutation_in _ (Permutation_sym (Pm v0 I0)) I') as I. rewrite (C L). unfold seen_offers. apply in_flat_map. exists (a, i). split; [exact I|]. cbn [fst snd].
    destruct (Hs a i I) as (st1 & st2 & c & E & Rd). destruct (R i st1 st2 c Rd) as (v1 & v2 & v3 & x3 & (I1 & I2 & I3) & H1 & H2 & H3 & H4).
    assert (O : seen_ok caps see i = true).
    { apply (seen_ok_iff caps see i st1 st2 c E). destruct (El v1 I1) as (x1 & Nx1 & (E1 & _)). destruct (El v2 I2) as (x2 & Nx2 & (_ & E2 & _)).
      destruct (El v3 I3) as (x3' & Nx3 & (_ & _ & E3)). unfold status_of in H1, H2. rewrite Nx1 in H1. rewrite Nx2 in H2. rewrite Nx3 in H3.
      injection H1 as <-. injection H2 as <-. injection H3 as ->. rewrite <- H4. auto. }
    rewrite O, Ra. now left.
Qed.

(** Undisturbed, it is [pool_peers]. *)
Lemma seen_alone resolve caps order p see : (forall a i, In (a, i) order -> exists x, nth_error (pl_infos p) i = Some x /\ see i = (i_status x, i_status x, i_caps x)) ->
  peers_seen resolve caps see order [] = pool_peers resolve caps order p.
Proof.
  intro H. unfold pool_peers. generalize (@nil addr) as acc. induction order as [|(a, i) t IH]; intro acc; [reflexivity|].
  cbn [peers_seen peers_loop]. destruct (H a i) as (x & Nx & ->); [now left|]. rewrite Nx.
  assert (IH' : forall acc, peers_seen resolve caps see t acc = peers_loop resolve caps (pl_infos p) t acc) by (apply IH; intros b j I; apply (H b j); now right).
  unfold offered. rewrite negb_andb, negb_involutive.
  replace (match i_status x with StBanned => true | _ => false end || match i_status x with StFailedConn => true | _ => false end)
    with (match i_status x with StBanned | StFailedConn => true | _ => false end) by (now destruct (i_status x)).
  destruct (_ || _); [apply IH'|]. cbv zeta. rewrite !IH'. reflexivity.
Qed.

(** A failed address that is being banned is handed out, though it is failed until it is banned. *)
Lemma failed_then_banned bans : exists s l t, sys_steps (sys_start bans) s /\ trace s l t /\
  (forall v, In v l -> pl_table (y_pool v) = [(addr_a, 0%nat)]) /\
  (forall v, In v l -> status_of (y_pool v) 0 = Some StFailedConn \/ status_of (y_pool v) 0 = Some StBanned) /\
  read_during l 0 StFailedConn StBanned 0 /\
  peers_seen (fun _ => home) 0 (fun _ => (StFailedConn, StBanned, 0)) [(addr_a, 0%nat)] [] = [Addr [x7f; x00; x00; x01] 13414].
Proof.
  eexists. eexists. eexists. split.
  { add addr_a. run_dial [(addr_a, 0%nat)] addr_a 0%nat StNew.
    r ltac:(apply (RnDialFailed _ addr_a 0%nat); reflexivity). r ltac:(eapply RnRelease; reflexivity).
    step ltac:(apply YsEnv; [reflexivity|]; apply (EnBan _ addr_a)).
    b ltac:(apply (BaFound _ [] addr_a 0%nat []); [reflexivity|exact I|reflexivity]). apply YsNone. }
  split.
  { settle. qb ltac:(apply (BaStatus _ [] addr_a 0%nat []); reflexivity). apply TraceOne. }
  split. { intros v [<-|[<-|[]]]; reflexivity. }
  split. { intros v [<-|[<-|[]]]; [left|right]; reflexivity. }
  split; [|reflexivity].
  exists []. eexists. eexists. eexists. eexists [_]. eexists. exists []. eexists. split; [split; reflexivity|]. split; [now left|].
  split; [reflexivity|]. split; [reflexivity|]. split; reflexivity.
Qed.

Definition two_peers : pool := Pool 0 0
  [Info StConnected (Some 0%nat) 1 5 9 7 false; Info StBanned None 1 5 9 7 false] [(addr_a, 0%nat); (addr_b, 1%nat)] [] None.
Lemma two_seen : (forall a i, In (a, i) (pl_table two_peers) -> exists x, nth_error (pl_infos two_peers) i = Some x /\
    (fun i => match i with O => (StConnected, StConnected, 7) | _ => (StBanned, StBanned, 7) end) i = (i_status x, i_status x, i_caps x)) /\
  peers_seen (fun _ => home) 3 (fun i => match i with O => (StConnected, StConnected, 7) | _ => (StBanned, StBanned, 7) end) (pl_table two_peers) [] =
    [Addr [x7f; x00; x00; x01] 13414].
Proof.
  split; [|reflexivity]. intros a i I. cbn in I. destruct I as [E|[E|[]]]; injection E as <- <-; eexists; split; reflexivity.
Qed.
