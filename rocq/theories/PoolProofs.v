(** Lemmas about the pool of peers. *)
From Verif Require Import Pool SpecCodec SpecMessages MessageProofs SpecPool.

(** ** Maps *)
Lemma lookup_in {A} k (l : list (bytes * A)) v : lookup k l = Some v -> In (k, v) l.
Proof.
  induction l as [|(k', v') l IH]; cbn; [discriminate|]. destruct (bytes_eqb k k') eqn:E; intro H.
  - apply bytes_eqb_eq in E. subst. injection H as ->. auto.
  - auto.
Qed.
Lemma lookup_none {A} k (l : list (bytes * A)) : lookup k l = None <-> ~ In k (map fst l).
Proof.
  induction l as [|(k', v') l IH]; cbn; [tauto|]. destruct (bytes_eqb k k') eqn:E.
  - apply bytes_eqb_eq in E. subst. split; [discriminate|]. intro H. elim H. auto.
  - rewrite IH. assert (k' <> k) by (intros ->; rewrite bytes_eqb_refl in E; discriminate). tauto.
Qed.
Lemma in_lookup {A} k (l : list (bytes * A)) v : NoDup (map fst l) -> In (k, v) l -> lookup k l = Some v.
Proof.
  induction l as [|(k', v') l IH]; cbn; [tauto|]. intros N [E|I].
  - injection E as -> ->. now rewrite bytes_eqb_refl.
  - inversion N; subst. destruct (bytes_eqb k k') eqn:E; [|auto].
    apply bytes_eqb_eq in E. subst. elim H1. apply in_map_iff. now exists (k', v).
Qed.
Lemma remove_in {A} k (l : list (bytes * A)) kv : In kv (remove k l) <-> In kv l /\ fst kv <> k.
Proof.
  unfold remove. rewrite filter_In. destruct (bytes_eqb k (fst kv)) eqn:E; cbn.
  - apply bytes_eqb_eq in E. subst. split; [easy|tauto].
  - assert (fst kv <> k) by (intros <-; rewrite bytes_eqb_refl in E; discriminate). tauto.
Qed.
Lemma remove_nodup {A} k (l : list (bytes * A)) : NoDup (map fst l) -> NoDup (map fst (remove k l)).
Proof.
  induction l as [|kv l IH]; cbn; [auto|]. intro N. inversion N; subst.
  destruct (negb (bytes_eqb k (fst kv))); cbn; [|auto]. constructor; [|auto].
  intro I. apply in_map_iff in I. destruct I as (kv' & E & I). apply remove_in in I. elim H1. apply in_map_iff. exists kv'. tauto.
Qed.
Lemma remove_absent {A} k (l : list (bytes * A)) : ~ In k (map fst l) -> remove k l = l.
Proof.
  induction l as [|kv l IH]; cbn; [auto|]. intro N. destruct (bytes_eqb k (fst kv)) eqn:E; cbn.
  - apply bytes_eqb_eq in E. subst. elim N. auto.
  - f_equal. auto.
Qed.
Lemma remove_length {A} k (l : list (bytes * A)) : (List.length (remove k l) <= List.length l)%nat.
Proof. unfold remove. induction l as [|x l IH]; cbn; [lia|]. destruct (negb _); cbn; lia. Qed.
Lemma update_length i f l : List.length (update i f l) = List.length l.
Proof.
  unfold update. destruct (nth_error l i) eqn:E; [|reflexivity].
  assert (i < List.length l)%nat by (apply nth_error_Some; congruence).
  rewrite app_length. cbn [List.length]. rewrite firstn_length, skipn_length. lia.
Qed.
Lemma update_nth i f l j : nth_error (update i f l) j =
  if (i =? j)%nat then match nth_error l j with Some x => Some (f x) | None => None end else nth_error l j.
Proof.
  unfold update. destruct (nth_error l i) as [x|] eqn:E.
  - assert (L : (i < List.length l)%nat) by (apply nth_error_Some; congruence).
    destruct (Nat.eqb_spec i j) as [->|N].
    + rewrite E. rewrite nth_error_app2; rewrite firstn_length_le by lia; [|lia]. now rewrite Nat.sub_diag.
    + destruct (Nat.lt_ge_cases j i) as [H|H].
      * rewrite nth_error_app1 by (rewrite firstn_length_le; lia).
        rewrite <- (firstn_skipn i l) at 2. rewrite nth_error_app1; [reflexivity|rewrite firstn_length_le; lia].
      * rewrite nth_error_app2 by (rewrite firstn_length_le; lia). rewrite firstn_length_le by lia.
        destruct (j - i)%nat as [|k] eqn:K; [lia|]. cbn [nth_error].
        rewrite <- (firstn_skipn (S i) l) at 2. rewrite nth_error_app2; rewrite firstn_length_le by lia; [|lia].
        f_equal. lia.
  - destruct (Nat.eqb_spec i j) as [->|N]; [now rewrite E|reflexivity].
Qed.

(** ** Add: C48 *)
Lemma to4_of i v4 : ipv4_part i v4 -> to4 i = Some v4.
Proof. intros [(-> & L)|(-> & L)]; [now apply to4_4|now apply to4_mapped]. Qed.
Lemma to4_inv i v4 : to4 i = Some v4 -> ipv4_part i v4.
Proof.
  intro T. destruct (Nat.eq_dec (List.length i) 4) as [L|L4].
  - rewrite (to4_4 i L) in T. injection T as <-. left. auto.
  - destruct (Nat.eq_dec (List.length i) 16) as [L|L16].
    + assert (D : {l | i = brepeat x00 10 ++ [xff; xff] ++ l} + {~ exists l, i = brepeat x00 10 ++ [xff; xff] ++ l}).
      { destruct (bytes_eqb (firstn 12 i) (brepeat x00 10 ++ [xff; xff])) eqn:E.
        - left. exists (skipn 12 i). apply bytes_eqb_eq in E. rewrite app_assoc, <- E. symmetry. apply firstn_skipn.
        - right. intros (l & ->). cbn in E. discriminate. }
      destruct D as [(l & E)|N].
      * assert (Ll : List.length l = 4%nat) by (rewrite E, !app_length in L; cbn in L; lia).
        rewrite E, (to4_mapped l Ll) in T. injection T as <-. right. auto.
      * pose proof (to4_none (Addr i 0)) as K. cbn [ip] in K. rewrite K in T; [discriminate|]. split; [exact L|]. intros (d & Ld & [E|E]); cbn [ip] in E; [congruence|].
        apply N. now exists d.
    + unfold to4, lenN in T. destruct (N.eqb_spec (N.of_nat (List.length i)) 4); [lia|].
      destruct (N.eqb_spec (N.of_nat (List.length i)) 16); [lia|]. discriminate T.
Qed.
Lemma is_multicast_iff i : is_multicast i = true <-> multicast i.
Proof.
  unfold is_multicast, multicast. destruct (to4 i) as [[|b r]|] eqn:T.
  - apply to4_inv in T. destruct T as [(_ & L)|(_ & L)]; discriminate L.
  - pose proof (to4_inv _ _ T) as I. rewrite andb_true_iff, N.leb_le, N.ltb_lt. split.
    + intro H. left. exists b, r. split; [exact I|lia].
    + intros [(b' & r' & I' & H)|(L & r' & E)].
      * apply to4_of in I'. rewrite T in I'. injection I' as <- <-. lia.
      * destruct I as [(E2 & L2)|(E2 & L2)]; rewrite E2 in *; [lia|discriminate E].
  - rewrite andb_true_iff, N.eqb_eq. unfold lenN. split.
    + intros (L & B). right. split; [lia|]. destruct i as [|b i]; [discriminate|]. apply Byte.byte_dec_bl in B. subst. now exists i.
    + intros [(b' & r' & I' & H)|(L & r' & ->)].
      * apply to4_of in I'. congruence.
      * split; [lia|reflexivity].
Qed.

Lemma add_cases r a p : pool_add r a p = p \/
  (usable r /\ ~ In a (map fst (pl_table p)) /\ lenN (pl_table p) <= 10000 /\
   pool_add r a p = set_table (set_infos p (pl_infos p ++ [fresh_info])) ((a, List.length (pl_infos p)) :: pl_table p)).
Proof.
  unfold pool_add. destruct r as [n|]; [|auto]. destruct (is_multicast (ip n)) eqn:M; [auto|].
  destruct (Z.eqb_spec (port n) 0) as [|Hp]; [auto|]. destruct (max_table <? lenN (pl_table p)) eqn:L; [auto|].
  destruct (lookup a (pl_table p)) eqn:K; [auto|]. right. apply lookup_none in K. apply N.ltb_ge in L.
  split; [|split; [exact K|split; [exact L|]]].
  - exists n. split; [reflexivity|]. split; [|exact Hp]. intro H. apply is_multicast_iff in H. congruence.
  - unfold assign. now rewrite (remove_absent a _ K).
Qed.
Lemma add_new r a p : usable r -> ~ In a (map fst (pl_table p)) -> lenN (pl_table p) <= 10000 ->
  pool_add r a p = set_table (set_infos p (pl_infos p ++ [fresh_info])) ((a, List.length (pl_infos p)) :: pl_table p).
Proof.
  intros (n & -> & M & Hp) K L. unfold pool_add. destruct (is_multicast (ip n)) eqn:E; [apply is_multicast_iff in E; contradiction|].
  destruct (Z.eqb_spec (port n) 0) as [|_]; [contradiction|].
  replace (max_table <? lenN (pl_table p)) with false by (symmetry; apply N.ltb_ge; exact L).
  rewrite (proj2 (lookup_none a (pl_table p)) K). unfold assign. now rewrite (remove_absent a _ K).
Qed.

(** What holds of the tables of every pool there can be. *)
Definition table_ok p : Prop := NoDup (map fst (pl_table p)) /\ lenN (pl_table p) <= 10001 /\ valid_table p.
Lemma add_ok r a p : table_ok p -> table_ok (pool_add r a p).
Proof.
  intros (N & L & V). destruct (add_cases r a p) as [->|(_ & K & Ln & ->)]; [split; auto|].
  unfold table_ok, valid_table. cbn [pl_table pl_infos set_table set_infos map fst]. split; [now constructor|]. split.
  - unfold lenN in *. cbn [List.length]. lia.
  - rewrite app_length. cbn [List.length]. intros a' i [E|I]; [injection E as <- <-; lia|]. specialize (V a' i I). lia.
Qed.
Lemma add_keeps r a p b i x : valid_table p -> In (b, i) (pl_table p) -> nth_error (pl_infos p) i = Some x ->
  In (b, i) (pl_table (pool_add r a p)) /\ nth_error (pl_infos (pool_add r a p)) i = Some x.
Proof.
  intros V I E. destruct (add_cases r a p) as [->|(_ & _ & _ & ->)]; [auto|]. cbn [pl_table pl_infos set_table set_infos].
  split; [right; exact I|]. rewrite nth_error_app1; [exact E|]. exact (V b i I).
Qed.
Lemma add_only r a p b i : In (b, i) (pl_table (pool_add r a p)) -> In (b, i) (pl_table p) \/
  (b = a /\ usable r /\ nth_error (pl_infos (pool_add r a p)) i = Some fresh_info).
Proof.
  destruct (add_cases r a p) as [->|(U & _ & _ & ->)]; [auto|]. cbn [pl_table pl_infos set_table set_infos].
  intros [E|I]; [|auto]. injection E as <- <-. right. split; [reflexivity|]. split; [exact U|].
  rewrite nth_error_app2 by lia. now rewrite Nat.sub_diag.
Qed.

Lemma adds_ok l : table_ok (adds l pool_new).
Proof.
  assert (G : forall p, table_ok p -> table_ok (adds l p)).
  { induction l as [|c l IH]; intros p H; [exact H|]. apply IH. now apply add_ok. }
  apply G. split; [constructor|]. split; [apply N.le_0_l|]. intros a i [].
Qed.
Lemma adds_keep l p b i x : table_ok p -> In (b, i) (pl_table p) -> nth_error (pl_infos p) i = Some x ->
  In (b, i) (pl_table (adds l p)) /\ nth_error (pl_infos (adds l p)) i = Some x.
Proof.
  revert p. induction l as [|c l IH]; intros p H I E; [auto|]. cbn. destruct (add_keeps (fst c) (snd c) p b i x) as (I' & E'); auto.
  - apply H.
  - apply IH; auto. now apply add_ok.
Qed.
Lemma adds_only l b : In b (map fst (pl_table (adds l pool_new))) -> exists r, In (r, b) l /\ usable r.
Proof.
  assert (G : forall p, In b (map fst (pl_table (adds l p))) -> In b (map fst (pl_table p)) \/ exists r, In (r, b) l /\ usable r).
  { induction l as [|c l IH]; intros p H; [auto|]. cbn in H. destruct (IH _ H) as [H'|(r & I & U)].
    - apply in_map_iff in H'. destruct H' as ((b' & i) & E & I). cbn in E. subst b'.
      destruct (add_only _ _ _ _ _ I) as [I'|(-> & U & _)].
      + left. apply in_map_iff. now exists (b, i).
      + right. exists (fst c). split; [left; now destruct c|exact U].
    - right. exists r. split; [now right|exact U]. }
  intro H. destruct (G _ H) as [[]|K]. exact K.
Qed.
Lemma adds_all l p : Forall (fun c => usable (fst c)) l -> NoDup (map snd l) ->
  (forall a, In a (map snd l) -> ~ In a (map fst (pl_table p))) -> lenN (pl_table p) + lenN l <= 10001 ->
  lenN (pl_table (adds l p)) = lenN (pl_table p) + lenN l.
Proof.
  revert p. induction l as [|c l IH]; intros p U N D L; [unfold lenN; cbn [List.length adds fold_left]; lia|]. inversion U; subst. inversion N; subst.
  assert (Lc : lenN (c :: l) = 1 + lenN l) by (unfold lenN; cbn [List.length]; lia).
  cbn [adds fold_left]. change (lenN (pl_table (adds l (pool_add (fst c) (snd c) p))) = lenN (pl_table p) + lenN (c :: l)).
  rewrite add_new; [|assumption|apply D; left; reflexivity|lia]. rewrite IH; auto; cbn [pl_table set_table set_infos map fst].
  - unfold lenN. cbn [List.length]. lia.
  - intros a I [E|I']; [subst; contradiction|]. exact (D a (or_intror I) I').
  - unfold lenN in *. cbn [List.length]. lia.
Qed.

(** ** Peers: C49 *)
Lemma offered_iff caps x : offered caps x = true <-> eligible caps x.
Proof.
  unfold offered, eligible. rewrite andb_true_iff, N.eqb_eq, negb_true_iff.
  assert (B : N.land (i_caps x) caps = caps <-> forall k, N.testbit caps k = true -> N.testbit (i_caps x) k = true).
  { split.
    - intros E k K. rewrite <- E, N.land_spec, andb_true_iff in K. apply K.
    - intro H. apply N.bits_inj. intro k. rewrite N.land_spec. specialize (H k). destruct (N.testbit caps k), (N.testbit (i_caps x) k); auto. }
  rewrite B. destruct (i_status x); split; intro H; try (destruct H as (A & H)); try discriminate; try congruence;
    try (split; [discriminate|]; split; [discriminate|]; exact H); try (split; [reflexivity|]; apply H).
  destruct H as (H & _). congruence.
Qed.

(** The addresses [order] has to offer. *)
Definition all_offers (resolve : bytes -> option addr) caps infos (order : list (bytes * nat)) : list addr :=
  flat_map (fun kv => match nth_error infos (snd kv) with
                      | Some x => if offered caps x then match resolve (fst kv) with Some n => [n] | None => [] end else []
                      | None => [] end) order.
Lemma peers_prefix resolve caps infos order acc : lenN acc < 256 ->
  exists k, peers_loop resolve caps infos order acc = firstn k (acc ++ all_offers resolve caps infos order) /\
    lenN (peers_loop resolve caps infos order acc) <= 256 /\
    (lenN (peers_loop resolve caps infos order acc) < 256 ->
     peers_loop resolve caps infos order acc = acc ++ all_offers resolve caps infos order).
Proof.
  revert acc. induction order as [|(a, i) t IH]; intros acc L; cbn [peers_loop all_offers flat_map fst snd].
  - exists (List.length acc). rewrite app_nil_r, firstn_all. repeat split; lia.
  - destruct (nth_error infos i) as [x|]; [|now apply IH]. destruct (offered caps x); cbn [negb]; [|now apply IH].
    destruct (resolve a) as [n|].
    + cbv zeta. destruct (N.eqb_spec (lenN (acc ++ [n])) max_peer_addrs) as [E|E].
      * exists (List.length (acc ++ [n])). fold (all_offers resolve caps infos t).
        replace (acc ++ [n] ++ all_offers resolve caps infos t) with ((acc ++ [n]) ++ all_offers resolve caps infos t) by (now rewrite <- app_assoc).
        rewrite firstn_app, firstn_all, Nat.sub_diag. cbn [firstn]. rewrite app_nil_r. unfold max_peer_addrs in E. repeat split; lia.
      * assert (L' : lenN (acc ++ [n]) < 256).
        { unfold max_peer_addrs in E. rewrite lenN_app in *. change (lenN [n]) with 1 in *. lia. }
        destruct (IH _ L') as (k & A & B & C). exists k. fold (all_offers resolve caps infos t).
        rewrite <- app_assoc in A, C. cbn [app] in A, C. auto.
    + cbv zeta. destruct (N.eqb_spec (lenN acc) max_peer_addrs) as [E|E]; [unfold max_peer_addrs in E; lia|]. now apply IH.
Qed.

Lemma in_firstn {A} k (l : list A) x : In x (firstn k l) -> In x l.
Proof. intro I. rewrite <- (firstn_skipn k l). apply in_or_app. now left. Qed.
Lemma peers_ok resolve caps order p : valid_table p -> Permutation order (pl_table p) ->
  lenN (pool_peers resolve caps order p) <= 256 /\
  (forall n, In n (pool_peers resolve caps order p) ->
     exists a i x, In (a, i) (pl_table p) /\ nth_error (pl_infos p) i = Some x /\ eligible caps x /\ resolve a = Some n) /\
  (lenN (pool_peers resolve caps order p) < 256 ->
     forall a i x n, In (a, i) (pl_table p) -> nth_error (pl_infos p) i = Some x -> eligible caps x -> resolve a = Some n ->
       In n (pool_peers resolve caps order p)).
Proof.
  intros V Pm. destruct (peers_prefix resolve caps (pl_infos p) order []) as (k & A & B & C); [reflexivity|].
  unfold pool_peers. cbn [app] in A, C. split; [exact B|]. split.
  - intros n I. rewrite A in I. apply in_firstn in I. unfold all_offers in I. apply in_flat_map in I. destruct I as ((a & i) & I & H).
    cbn [fst snd] in H. destruct (nth_error (pl_infos p) i) as [x|] eqn:E; [|elim H]. destruct (offered caps x) eqn:O; [|elim H].
    destruct (resolve a) as [n'|] eqn:R; [|elim H]. destruct H as [<-|[]]. exists a, i, x.
    split; [now apply (Permutation_in _ Pm)|]. split; [exact E|]. split; [now apply offered_iff|exact R].
  - intros L a i x n I E El R. rewrite (C L). unfold all_offers. apply in_flat_map. exists (a, i).
    split; [apply (Permutation_in _ (Permutation_sym Pm)); exact I|]. cbn [fst snd]. rewrite E.
    apply offered_iff in El. rewrite El, R. now left.
Qed.

(** Entries that were only added. *)
Lemma adds_fresh l p : Forall (fun x => i_status x = StNew /\ i_caps x = 0) (pl_infos p) ->
  Forall (fun x => i_status x = StNew /\ i_caps x = 0) (pl_infos (adds l p)).
Proof.
  revert p. induction l as [|(r, a) l IH]; intros p F; [exact F|]. cbn [adds fold_left fst snd]. apply IH.
  unfold pool_add. destruct r as [n|]; [|exact F]. destruct (is_multicast _); [exact F|]. destruct (_ =? _)%Z; [exact F|].
  destruct (_ <? _); [exact F|]. destruct (lookup _ _); [exact F|]. cbn [set_table set_infos pl_infos].
  apply Forall_app. split; [exact F|]. repeat constructor.
Qed.
Lemma added_entry l a i : In (a, i) (pl_table (adds l pool_new)) ->
  exists x, nth_error (pl_infos (adds l pool_new)) i = Some x /\ i_status x = StNew /\ i_caps x = 0.
Proof.
  intro I. destruct (adds_ok l) as (_ & _ & V). specialize (V a i I).
  destruct (nth_error (pl_infos (adds l pool_new)) i) as [x|] eqn:E; [|apply nth_error_None in E; lia].
  exists x. split; [reflexivity|]. pose proof (adds_fresh l pool_new (Forall_nil _)) as F. rewrite Forall_forall in F.
  apply F. now apply nth_error_In in E.
Qed.
Lemma unheard l resolve caps order : caps <> 0 -> Permutation order (pl_table (adds l pool_new)) ->
  pool_peers resolve caps order (adds l pool_new) = [].
Proof.
  intros C Pm. destruct (adds_ok l) as (_ & _ & V). destruct (peers_ok resolve caps order _ V Pm) as (_ & H & _).
  destruct (pool_peers resolve caps order (adds l pool_new)) as [|n t]; [reflexivity|].
  destruct (H n (or_introl eq_refl)) as (a & i & x & I & E & (_ & _ & K) & _).
  destruct (added_entry l a i I) as (x' & E' & _ & Z). rewrite E' in E. injection E as ->. elim C.
  apply N.bits_inj_0. intro k. destruct (N.testbit caps k) eqn:B; [|reflexivity]. apply K in B. rewrite Z, N.bits_0 in B. discriminate B.
Qed.
Lemma heard_all l resolve order a n : Permutation order (pl_table (adds l pool_new)) ->
  lenN (pool_peers resolve 0 order (adds l pool_new)) < 256 -> In a (map fst (pl_table (adds l pool_new))) -> resolve a = Some n ->
  In n (pool_peers resolve 0 order (adds l pool_new)).
Proof.
  intros Pm L I R. destruct (adds_ok l) as (_ & _ & V). destruct (peers_ok resolve 0 order _ V Pm) as (_ & _ & H).
  apply in_map_iff in I as ((a' & i) & <- & I). destruct (added_entry l a' i I) as (x & E & S & _).
  apply (H L a' i x n I E); [|exact R]. repeat split; try congruence. intros k K. rewrite N.bits_0 in K. discriminate K.
Qed.

(** ** notConnected *)
Lemma first_with_some good infos order a : first_with good infos order = Some a ->
  exists i x, In (a, i) order /\ nth_error infos i = Some x /\ good (i_status x) = true.
Proof.
  unfold first_with. destruct (find _ order) as [(a', i)|] eqn:F; [|discriminate]. intro E. injection E as <-.
  apply find_some in F. destruct F as (I & G). cbn [fst snd] in *. destruct (nth_error infos i) as [x|] eqn:N; [|discriminate].
  exists i, x. auto.
Qed.
Lemma first_with_none good infos order : first_with good infos order = None ->
  forall a i x, In (a, i) order -> nth_error infos i = Some x -> good (i_status x) = false.
Proof.
  unfold first_with. destruct (find _ order) as [(a', i)|] eqn:F; [discriminate|]. intros _ a i x I N.
  pose proof (find_none _ _ F _ I) as G. cbn [snd] in G. now rewrite N in G.
Qed.
Lemma not_connected_spec o1 o2 p : Permutation o1 (pl_table p) -> Permutation o2 (pl_table p) -> valid_table p ->
  (exists i st, In (not_connected o1 o2 p, i) (pl_table p) /\ status_of p i = Some st /\ (st = StNew \/ st = StDisconnected)) \/
  ((forall a i, In (a, i) (pl_table p) -> status_of p i <> Some StNew /\ status_of p i <> Some StDisconnected) /\
   exists i, In (not_connected o1 o2 p, i) (pl_table p) /\ status_of p i = Some StFailedConn) \/
  (nobody_to_connect p /\ not_connected o1 o2 p = []).
Proof.
  intros P1 P2 V. unfold not_connected.
  destruct (first_with _ (pl_infos p) o1) as [a|] eqn:F1.
  - left. apply first_with_some in F1. destruct F1 as (i & x & I & N & G). exists i, (i_status x).
    split; [exact (Permutation_in _ P1 I)|]. unfold status_of. rewrite N. split; [reflexivity|]. destruct (i_status x); auto; discriminate.
  - pose proof (first_with_none _ _ _ F1) as N1. right.
    assert (K : forall a i, In (a, i) (pl_table p) -> status_of p i <> Some StNew /\ status_of p i <> Some StDisconnected).
    { intros a i I. apply (Permutation_in _ (Permutation_sym P1)) in I. unfold status_of. destruct (nth_error (pl_infos p) i) as [x|] eqn:N; [|split; discriminate].
      specialize (N1 a i x I N). destruct (i_status x); split; congruence. }
    destruct (first_with _ (pl_infos p) o2) as [a|] eqn:F2.
    + left. split; [exact K|]. apply first_with_some in F2. destruct F2 as (i & x & I & N & G). exists i.
      split; [exact (Permutation_in _ P2 I)|]. unfold status_of. rewrite N. destruct (i_status x); congruence.
    + pose proof (first_with_none _ _ _ F2) as N2. right. split; [|reflexivity]. intros a i I. destruct (K a i I) as (K1 & K2).
      pose proof (V a i I) as L. apply (Permutation_in _ (Permutation_sym P2)) in I. unfold status_of in *.
      destruct (nth_error (pl_infos p) i) as [x|] eqn:N; [|apply nth_error_None in N; lia].
      specialize (N2 a i x I N). destruct (i_status x); auto; congruence.
Qed.
Lemma nobody_empty o1 o2 p : Permutation o1 (pl_table p) -> Permutation o2 (pl_table p) -> nobody_to_connect p ->
  not_connected o1 o2 p = [].
Proof.
  intros P1 P2 Nb. unfold not_connected.
  destruct (first_with _ (pl_infos p) o1) as [a|] eqn:F1.
  { exfalso. apply first_with_some in F1. destruct F1 as (i & x & I & N & G). apply (Permutation_in _ P1) in I.
    destruct (Nb a i I) as [E|E]; unfold status_of in E; rewrite N in E; injection E as E; rewrite E in G; discriminate. }
  destruct (first_with _ (pl_infos p) o2) as [a|] eqn:F2; [|reflexivity].
  exfalso. apply first_with_some in F2. destruct F2 as (i & x & I & N & G). apply (Permutation_in _ P2) in I.
  destruct (Nb a i I) as [E|E]; unfold status_of in E; rewrite N in E; injection E as E; rewrite E in G; discriminate.
Qed.

(** ** The system *)
Ltac run_cases H :=
  destruct H as [s Er Q|s Er L|s o Er P1|s sec a i l Er G|s sec a i l Er G|s o Er P1|s Er|s Er|s a Er Na Cn|s a Er Na Cn|s a Er K|s a i Er K|s a i Er U|s a i st Er K S|s a i st Er K S1 S2
    |s a i Er|s a i d Er|s a i d Er Vd|s a i d Er Vd|s a i d Er|s a i d v Er|s a i d Er|s a i d Er|s a i Er|s a i Er|s a i Er|s n Er K].
Ltac watch_cases H :=
  destruct H as [s pre a i post E|s pre a i post E U|s pre a i post E|s pre a i v post E|s pre a i post E|s pre a i n post E K].
Ltac ban_cases H :=
  destruct H as [s pre a post E Tf K|s pre a i post E Tf K|s pre a i post E|s pre a i post x E N K|s pre a i post x c E N K
    |s pre a post E K|s pre a post l E K|s pre a post E Tf].
Ltac close_cases H :=
  destruct H as [s pre i post E U|s pre i post x E N K|s pre i post x c E N K|s pre i post E].
Ltac env_cases H := destruct H as [s r a Tf|s a|s i td h U|s Q|s Q].

Lemma sys_cons s t u : sys_step s t -> sys_steps t u -> sys_steps s u.
Proof. intros St R. induction R as [t|t u v R IH Sx]; [exact (YsMore s s t (YsNone s) St)|exact (YsMore s u v (IH St) Sx)]. Qed.
Lemma sys_app s t u : sys_steps s t -> sys_steps t u -> sys_steps s u.
Proof. intros A B. induction B as [t|t u v B IH Sx]; [exact A|]. exact (YsMore s u v (IH A) Sx). Qed.
Lemma sys_ind' (P : sys -> Prop) s : P s -> (forall t u, P t -> sys_step t u -> P u) -> forall t, sys_steps s t -> P t.
Proof. intros P0 St t R. induction R as [t|s t u R IH Sx]; [exact P0|]. exact (St t u (IH P0) Sx). Qed.

(** Tokens. *)
Definition holds (r : run_pc) : nat := match r with RuSelect | RuStopped => 0 | _ => 1 end.
Definition act (ws : list watch) : nat := List.length (filter running ws).
Lemma act_app a b : act (a ++ b) = (act a + act b)%nat.
Proof. unfold act. now rewrite filter_app, app_length. Qed.
Lemma act_cons w b : act (w :: b) = ((if running w then 1 else 0) + act b)%nat.
Proof. unfold act. cbn. now destruct (running w). Qed.
Lemma wait_app a b : List.length (filter waiting (a ++ b)) = (List.length (filter waiting a) + List.length (filter waiting b))%nat.
Proof. now rewrite filter_app, app_length. Qed.

Definition slots_inv s : Prop :=
  pl_slots (y_pool s) = (holds (y_run s) + act (y_watch s) + y_leaked s)%nat /\ (pl_slots (y_pool s) <= 15)%nat.
Lemma add_slots r a p : pl_slots (pool_add r a p) = pl_slots p.
Proof. destruct (add_cases r a p) as [->|(_ & _ & _ & ->)]; reflexivity. Qed.
Ltac fields := cbn [go leak set_pool set_watch set_ban set_close stop down y_pool y_run y_watch y_leaked y_bans y_close y_quits y_crash pl_slots
  set_slots set_connected set_infos set_table set_up set_banned upd pl_connected pl_infos pl_table pl_up pl_bans holds] in *.
Ltac slots := rewrite ?act_app, ?act_cons in *; cbn [running wt_pc] in *; unfold max_online in *; split; lia.
Lemma slots_step s t : slots_inv s -> sys_step s t -> slots_inv t.
Proof.
  unfold slots_inv. intros Hi [C St|C St|C St|C St|C St].
  - run_cases St; rewrite Er in Hi; fields; try slots.
    + rewrite act_app. cbn [act filter running wt_pc List.length]. split; lia.
  - watch_cases St; rewrite E in Hi; fields; slots.
  - ban_cases St; fields; exact Hi.
  - close_cases St; fields; exact Hi.
  - env_cases St; fields; try exact Hi. rewrite add_slots. exact Hi.
Qed.
Lemma slots_reach bans s : sys_steps (sys_start bans) s -> slots_inv s.
Proof. apply sys_ind'; [split; cbn; lia|exact slots_step]. Qed.

Lemma wait_le ws : (List.length (filter waiting ws) <= act ws)%nat.
Proof. unfold act. induction ws as [|w ws IH]; cbn; [lia|]. unfold waiting at 1, running at 1. destruct (wt_pc w); cbn; lia. Qed.
Lemma live_leaked s : slots_inv s -> (live s + y_leaked s <= 15)%nat.
Proof.
  intros (A & B). unfold live. pose proof (wait_le (y_watch s)). assert (setting_up (y_run s) <= holds (y_run s))%nat by (destruct (y_run s); cbn; lia). lia.
Qed.
Lemma leaked_step s t : sys_step s t -> (y_leaked s <= y_leaked t)%nat.
Proof.
  intros [C St|C St|C St|C St|C St]; [run_cases St|watch_cases St|ban_cases St|close_cases St|env_cases St]; fields; lia.
Qed.
Lemma leaked_steps s t : sys_steps s t -> (y_leaked s <= y_leaked t)%nat.
Proof. intro R. induction R as [|s t u R IH St]; [lia|]. pose proof (leaked_step t u St). lia. Qed.

Lemma limit bans s : sys_steps (sys_start bans) s -> (live s <= 15)%nat /\ (pl_slots (y_pool s) <= 15)%nat.
Proof. intro R. pose proof (slots_reach bans s R) as Hi. pose proof (live_leaked s Hi). destruct Hi. split; lia. Qed.
Lemma capacity bans s t : sys_steps (sys_start bans) s -> sys_steps s t -> (live t + y_leaked s <= 15)%nat.
Proof.
  intros R1 R2. pose proof (live_leaked t (slots_reach bans t (sys_app _ _ _ R1 R2))). pose proof (leaked_steps s t R2). lia.
Qed.
Lemma dead bans s t : sys_steps (sys_start bans) s -> y_leaked s = 15%nat -> sys_steps s t -> idle (y_run t) /\ live t = 0%nat.
Proof.
  intros R1 L R2. pose proof (slots_reach bans t (sys_app _ _ _ R1 R2)) as (A & B). pose proof (leaked_steps s t R2).
  pose proof (capacity bans s t R1 R2). split; [|lia]. unfold idle. destruct (y_run t); auto; cbn in A; lia.
Qed.

(** notConnected when nobody interferes. *)
Lemma run_app s t u : run_steps s t -> run_steps t u -> run_steps s u.
Proof. induction 1 as [|s t v St R IH]; [auto|]. intro. eapply RsMore; [exact St|auto]. Qed.
Lemma run_keeps s t : run_step s t -> y_crash t = y_crash s /\ y_quits t = y_quits s.
Proof. intro St. run_cases St; fields; auto. Qed.
Lemma run_all s t : y_crash s = None -> run_steps s t -> sys_steps s t.
Proof.
  intros C R. induction R as [|s t u St R IH]; [apply YsNone|]. destruct (run_keeps s t St) as (C' & _).
  eapply sys_cons; [exact (YsRun s t C St)|]. apply IH. congruence.
Qed.
Lemma scan_loop s sec o : run_steps (go s (y_pool s) (RuScan sec o))
  (go s (y_pool s) (match first_with (wanted sec) (pl_infos (y_pool s)) o with Some a => RuTest a | None => RuScan sec [] end)).
Proof.
  induction o as [|(a, i) o IH]; [apply RsNone|].
  unfold first_with. cbn [find snd]. fold (wanted_at sec (y_pool s) i).
  destruct (wanted_at sec (y_pool s) i) eqn:G.
  - eapply RsMore; [apply (RnHit _ sec a i o); [reflexivity|exact G]|apply RsNone].
  - eapply RsMore; [apply (RnPass _ sec a i o); [reflexivity|exact G]|exact IH].
Qed.
Lemma scan_alone s o1 o2 : y_run s = RuPick -> Permutation o1 (pl_table (y_pool s)) -> Permutation o2 (pl_table (y_pool s)) ->
  run_steps s (go s (y_pool s) (RuTest (not_connected o1 o2 (y_pool s)))).
Proof.
  intros E P1 P2. eapply RsMore; [apply (RnScan _ o1 E P1)|]. eapply run_app; [apply scan_loop|].
  unfold not_connected. change (fun s0 => match s0 with StNew | StDisconnected => true | _ => false end) with (wanted false).
  destruct (first_with (wanted false) _ o1); [apply RsNone|].
  eapply RsMore; [apply (RnAgain _ o2); [reflexivity|exact P2]|]. eapply run_app; [apply (scan_loop s)|].
  change (fun s0 => match s0 with StFailedConn => true | _ => false end) with (wanted true).
  destruct (first_with (wanted true) _ o2); [apply RsNone|]. eapply RsMore; [now apply RnNone|apply RsNone].
Qed.

(** An iteration that finds nobody. *)
Lemma idle_iteration s : y_crash s = None -> y_run s = RuSelect -> (pl_slots (y_pool s) < 15)%nat -> nobody_to_connect (y_pool s) ->
  sys_steps s (leak (go s (set_slots (y_pool s) (S (pl_slots (y_pool s)))) RuSelect)).
Proof.
  intros C E L Nb.
  eapply sys_cons. { apply YsRun; [exact C|]. apply RnToken; [exact E|exact L]. }
  eapply sys_app. { apply run_all; [exact C|]. apply (scan_alone _ (pl_table (y_pool s)) (pl_table (y_pool s))); reflexivity. }
  replace (not_connected _ _ _) with (@nil byte).
  2:{ symmetry. apply nobody_empty; [reflexivity|reflexivity|]. exact Nb. }
  eapply sys_cons. { apply YsRun; [exact C|]. apply RnNobody. reflexivity. }
  apply YsNone.
Qed.
Lemma all_leaked k : forall s, y_crash s = None -> y_run s = RuSelect -> (pl_slots (y_pool s) + k = 15)%nat -> nobody_to_connect (y_pool s) ->
  exists t, sys_steps s t /\ pl_slots (y_pool t) = 15%nat /\ y_leaked t = (y_leaked s + k)%nat /\ y_run t = RuSelect /\
    y_watch t = y_watch s /\ pl_table (y_pool t) = pl_table (y_pool s) /\ pl_infos (y_pool t) = pl_infos (y_pool s) /\ y_crash t = None.
Proof.
  induction k as [|k IH]; intros s C E L Nb.
  - exists s. repeat split; auto; try lia. apply YsNone.
  - assert (L' : (pl_slots (y_pool s) < 15)%nat) by lia. pose proof (idle_iteration s C E L' Nb) as R.
    destruct (IH (leak (go s (set_slots (y_pool s) (S (pl_slots (y_pool s)))) RuSelect)) C eq_refl) as (t & Rt & A1 & A2 & A3 & A4 & A5 & A6 & A7).
    + fields. lia.
    + exact Nb.
    + exists t. fields. split; [exact (sys_app _ _ _ R Rt)|]. repeat split; auto. lia.
Qed.
Lemma starved s : y_crash s = None -> y_run s = RuSelect -> (pl_slots (y_pool s) <= 15)%nat -> nobody_to_connect (y_pool s) ->
  exists t, sys_steps s t /\ pl_slots (y_pool t) = 15%nat /\ y_leaked t = (y_leaked s + (15 - pl_slots (y_pool s)))%nat /\
    y_watch t = y_watch s /\ pl_table (y_pool t) = pl_table (y_pool s) /\ pl_infos (y_pool t) = pl_infos (y_pool s) /\ y_crash t = None.
Proof.
  intros C E L Nb. destruct (all_leaked (15 - pl_slots (y_pool s)) s C E) as (t & R & A1 & A2 & _ & A4 & A5 & A6 & A7); [lia|exact Nb|].
  exists t. auto 10.
Qed.
(** From the very start, with an empty table. *)
Lemma starved_start bans : exists t, sys_steps (sys_start bans) t /\ y_leaked t = 15%nat /\ y_watch t = [] /\ y_crash t = None.
Proof.
  destruct (starved (sys_start bans)) as (t & R & _ & L & W & _ & _ & C); try reflexivity.
  - cbn. lia.
  - intros a i [].
  - exists t. auto.
Qed.

(** ** The table in every state *)
Definition sys_table s : Prop := table_ok (y_pool s).
Lemma table_step s t : sys_table s -> sys_step s t -> sys_table t.
Proof.
  unfold sys_table. intros Hi [C St|C St|C St|C St|C St].
  - run_cases St; fields; try exact Hi; unfold table_ok, valid_table in *; fields; rewrite ?update_length; exact Hi.
  - watch_cases St; fields; try exact Hi; unfold table_ok, valid_table in *; fields; rewrite ?update_length; exact Hi.
  - ban_cases St; fields; try exact Hi; unfold table_ok, valid_table in *; fields; rewrite ?update_length; try exact Hi.
    destruct Hi as (N & L & V). split; [now apply remove_nodup|]. split.
    + pose proof (remove_length a (pl_table (y_pool s))). unfold lenN in *. lia.
    + intros b j I. apply remove_in in I. apply (V b j). apply I.
  - close_cases St; fields; try exact Hi; unfold table_ok, valid_table in *; fields; rewrite ?update_length; exact Hi.
  - env_cases St; fields; try exact Hi.
    + now apply add_ok.
    + unfold table_ok, valid_table in *; fields; rewrite ?update_length; exact Hi.
Qed.
Lemma table_reach bans s : sys_steps (sys_start bans) s -> table_ok (y_pool s).
Proof.
  apply (sys_ind' sys_table); [|exact table_step]. split; [constructor|]. split; [apply N.le_0_l|]. intros a i [].
Qed.

(** ** Bans *)
Lemma bans_none_step s t : pl_bans (y_pool s) = None -> sys_step s t -> pl_bans (y_pool t) = None.
Proof.
  intros Hi [C St|C St|C St|C St|C St]; [run_cases St|watch_cases St|ban_cases St|close_cases St|env_cases St]; fields; try exact Hi; try congruence.
  destruct (add_cases r a (y_pool s)) as [->|(_ & _ & _ & ->)]; exact Hi.
Qed.
Lemma bans_none_reach s : sys_steps (sys_start None) s -> pl_bans (y_pool s) = None.
Proof. apply (sys_ind' (fun s => pl_bans (y_pool s) = None)); [reflexivity|exact bans_none_step]. Qed.
Lemma add_ignores r a p b : pl_table (pool_add r a (set_banned p b)) = pl_table (pool_add r a p) /\
  pl_infos (pool_add r a (set_banned p b)) = pl_infos (pool_add r a p).
Proof.
  unfold pool_add. destruct r as [n|]; [|auto]. destruct (is_multicast (ip n)); [auto|]. destruct (port n =? 0)%Z; [auto|].
  cbn [pl_table set_banned]. destruct (max_table <? lenN (pl_table p)); [auto|]. destruct (lookup a (pl_table p)); auto.
Qed.
Lemma pick_ignores o1 o2 p b : not_connected o1 o2 (set_banned p b) = not_connected o1 o2 p.
Proof. reflexivity. Qed.

(** ** ConnectedPeers *)
Definition up_inv s : Prop := forall a i, In (a, i) (pl_up (y_pool s)) ->
  (exists w, In w (y_watch s) /\ wt_addr w = a /\ before_delete w = true) \/ (exists j, y_run s = RuGo a j \/ y_run s = RuWatch a j).
Lemma mid_in {A} (x : A) pre y post : In x (pre ++ y :: post) <-> x = y \/ In x (pre ++ post).
Proof. rewrite !in_app_iff. cbn. intuition auto. Qed.
Lemma up_add r a p : pl_up (pool_add r a p) = pl_up p.
Proof. destruct (add_cases r a p) as [->|(_ & _ & _ & ->)]; reflexivity. Qed.
Lemma up_step s t : up_inv s -> sys_step s t -> up_inv t.
Proof.
  unfold up_inv. intros Hi [C St|C St|C St|C St|C St].
  - run_cases St; fields; intros b j I;
      try (destruct (Hi b j I) as [H|(k & [H|H])]; [left; exact H|congruence|congruence]).
    + destruct I as [I|I]; [injection I as <- <-; right; exists i; now left|]. apply remove_in in I. destruct I as (I & _).
      destruct (Hi b j I) as [H|(k & [H|H])]; [left; exact H|congruence|congruence].
    + destruct (Hi b j I) as [H|(k & [H|H])]; [left; exact H| |congruence].
      rewrite Er in H. injection H as <- <-. right. exists i. now right.
    + destruct (Hi b j I) as [(w & Iw & H)|(k & [H|H])]; [| congruence |].
      * left. exists w. split; [apply in_or_app; now left|exact H].
      * rewrite Er in H. injection H as <- <-. left. exists (Watch a i WtWait).
        split; [apply in_or_app; right; left; reflexivity|]. split; reflexivity.
  - watch_cases St; fields; intros b j I; rewrite E in Hi;
    try (destruct (Hi b j I) as [(w & Iw & Ha & Hb)|H]; [left|right; exact H]; apply mid_in in Iw; destruct Iw as [->|Iw];
      [eexists; split; [apply mid_in; left; reflexivity|]; split; [exact Ha|reflexivity]|
       exists w; split; [apply mid_in; right; exact Iw|auto]]).
    + apply remove_in in I. destruct I as (I & Nb). cbn [fst] in Nb.
      destruct (Hi b j I) as [(w & Iw & Ha & Hb)|H]; [left|right; exact H]. apply mid_in in Iw. destruct Iw as [->|Iw]; [cbn in Ha; congruence|].
      exists w. split; [apply mid_in; right; exact Iw|auto].
    + destruct (Hi b j I) as [(w & Iw & Ha & Hb)|H]; [left|right; exact H]. apply mid_in in Iw. destruct Iw as [->|Iw]; [discriminate Hb|].
      exists w. split; [apply mid_in; right; exact Iw|auto].
  - ban_cases St; fields; exact Hi.
  - close_cases St; fields; exact Hi.
  - env_cases St; fields; try exact Hi. rewrite up_add. exact Hi.
Qed.
Lemma up_reach bans s a i : sys_steps (sys_start bans) s -> In (a, i) (pl_up (y_pool s)) ->
  (exists w, In w (y_watch s) /\ wt_addr w = a /\ before_delete w = true) \/ (exists j, y_run s = RuGo a j \/ y_run s = RuWatch a j).
Proof. intros R. revert a i. revert s R. apply (sys_ind' up_inv); [intros a i []|exact up_step]. Qed.

(** ** No entry is dialled while it has a connection *)
Definition up_status p i : Prop := status_of p i = Some StConnected \/ status_of p i = Some StBanned.
Definition early (w : watch) : bool := match wt_pc w with WtWait | WtStatus => true | _ => false end.
Definition early_infos (ws : list watch) : list nat := map wt_info (filter early ws).
Definition run_info (r : run_pc) : option nat :=
  match r with
  | RuDial _ i | RuVersion _ i _ | RuRead _ i _ | RuWrite _ i _ _ | RuUpdate _ i _ | RuFill _ i _ | RuUp _ i | RuGo _ i | RuWatch _ i => Some i
  | _ => None end.
Definition run_up (r : run_pc) : option nat := match r with RuFill _ i _ | RuUp _ i | RuGo _ i | RuWatch _ i => Some i | _ => None end.
Definition dial_inv s : Prop := y_run s <> RuStopped ->
  y_close s = [] /\ NoDup (early_infos (y_watch s)) /\ (forall i, In i (early_infos (y_watch s)) -> up_status (y_pool s) i) /\
  (forall i, run_info (y_run s) = Some i -> ~ In i (early_infos (y_watch s)) /\ (i < List.length (pl_infos (y_pool s)))%nat) /\
  (forall i, run_up (y_run s) = Some i -> up_status (y_pool s) i).
Lemma early_app a b : early_infos (a ++ b) = early_infos a ++ early_infos b.
Proof. unfold early_infos. now rewrite filter_app, map_app. Qed.
Lemma status_upd p i f j : status_of (upd p i f) j =
  if (i =? j)%nat then match nth_error (pl_infos p) j with Some x => Some (i_status (f x)) | None => None end else status_of p j.
Proof.
  unfold status_of, upd. cbn [pl_infos set_infos]. rewrite update_nth. destruct (i =? j)%nat; [|reflexivity]. now destruct (nth_error (pl_infos p) j).
Qed.
Lemma status_upd_same p i f j : (forall x, i_status (f x) = i_status x) -> status_of (upd p i f) j = status_of p j.
Proof.
  intro H. rewrite status_upd. destruct (i =? j)%nat; [|reflexivity]. unfold status_of. destruct (nth_error (pl_infos p) j); [now rewrite H|reflexivity].
Qed.
Lemma status_add r a p i : up_status p i -> up_status (pool_add r a p) i.
Proof.
  unfold up_status, status_of. destruct (add_cases r a p) as [->|(_ & _ & _ & ->)]; [auto|]. cbn [pl_infos set_table set_infos].
  destruct (nth_error (pl_infos p) i) eqn:E; [|intros [H|H]; discriminate]. rewrite nth_error_app1; [now rewrite E|]. apply nth_error_Some. congruence.
Qed.
Lemma add_length r a p : (List.length (pl_infos p) <= List.length (pl_infos (pool_add r a p)))%nat.
Proof. destruct (add_cases r a p) as [->|(_ & _ & _ & ->)]; [lia|]. cbn [pl_infos set_table set_infos]. rewrite app_length. lia. Qed.

(** Steps that keep the goroutines of interest. *)
Lemma dial_same s t : y_close t = y_close s -> y_watch t = y_watch s -> y_run t = y_run s ->
  (forall i, up_status (y_pool s) i -> up_status (y_pool t) i) -> (List.length (pl_infos (y_pool s)) <= List.length (pl_infos (y_pool t)))%nat ->
  dial_inv s -> dial_inv t.
Proof.
  intros E1 E2 E3 U L Hi. unfold dial_inv in *. rewrite E1, E2, E3. intro N. destruct (Hi N) as (A & B & D & F & G).
  split; [exact A|]. split; [exact B|]. split; [auto|]. split; [|auto]. intros i H. destruct (F i H) as (F1 & F2). split; [exact F1|lia].
Qed.
Lemma dial_run s p r : dial_inv s -> y_run s <> RuStopped -> (forall i, up_status (y_pool s) i -> up_status p i) ->
  (List.length (pl_infos (y_pool s)) <= List.length (pl_infos p))%nat ->
  (forall i, run_info r = Some i -> run_info (y_run s) = Some i) -> (forall i, run_up r = Some i -> run_up (y_run s) = Some i) ->
  dial_inv (go s p r).
Proof.
  intros Hi N U L R1 R2 _. destruct (Hi N) as (A & B & D & F & G). fields. split; [exact A|]. split; [exact B|].
  split; [auto|]. split.
  - intros i H. destruct (F i (R1 i H)) as (F1 & F2). split; [exact F1|lia].
  - intros i H. apply U. apply G. auto.
Qed.
Lemma up_lock p i b j : up_status p j -> up_status (upd p i (with_lock b)) j.
Proof. unfold up_status. now rewrite status_upd_same. Qed.
Lemma up_mono p i f j : (forall x, i_status (f x) = StConnected \/ i_status (f x) = StBanned) -> up_status p j -> up_status (upd p i f) j.
Proof.
  unfold up_status. rewrite status_upd. intros H U. destruct (i =? j)%nat; [|exact U]. unfold status_of in U.
  destruct (nth_error (pl_infos p) j) as [x|]; [|destruct U; discriminate]. destruct (H x) as [-> | ->]; auto.
Qed.
Lemma up_other p i f j : i <> j -> up_status p j -> up_status (upd p i f) j.
Proof. unfold up_status. rewrite status_upd. intros N U. destruct (Nat.eqb_spec i j); [contradiction|exact U]. Qed.
Lemma upd_len p i f : List.length (pl_infos (upd p i f)) = List.length (pl_infos p).
Proof. unfold upd. cbn [pl_infos set_infos]. apply update_length. Qed.

Lemma dial_step s t : dial_inv s -> sys_step s t -> dial_inv t.
Proof.
  intros Hi [C St|C St|C St|C St|C St].
  - run_cases St.
    + intro N. now elim N.
    + apply dial_run; auto; try congruence; discriminate.
    + apply dial_run; auto; try congruence; discriminate.
    + apply dial_run; auto; try congruence; discriminate.
    + apply dial_run; auto; try congruence; discriminate.
    + apply dial_run; auto; try congruence; discriminate.
    + apply dial_run; auto; try congruence; discriminate.
    + change (dial_inv (go s (y_pool s) RuSelect)). apply dial_run; auto; try congruence; discriminate.
    + apply dial_run; auto; try congruence; discriminate.
    + apply dial_run; auto; try congruence; discriminate.
    + apply dial_run; auto; try congruence; discriminate.
    + apply dial_run; auto; try congruence; discriminate.
    + apply dial_run; auto; try congruence; try discriminate; [intros; now apply up_lock|now rewrite upd_len].
    + change (dial_inv (go s (upd (y_pool s) i (with_lock false)) RuSelect)).
      apply dial_run; auto; try congruence; try discriminate; [intros; now apply up_lock|now rewrite upd_len].
    + intros _. destruct (Hi ltac:(congruence)) as (A & B & D & F & G). fields. split; [exact A|]. split; [exact B|]. split; [exact D|].
      split; [|discriminate]. intros j E. injection E as <-. split.
      * intro I. destruct (D i I) as [H|H]; congruence.
      * unfold status_of in K. apply nth_error_Some. destruct (nth_error (pl_infos (y_pool s)) i); congruence.
    + intros _. destruct (Hi ltac:(congruence)) as (A & B & D & F & G). fields. split; [exact A|]. split; [exact B|].
      destruct (F i) as (F1 & F2); [now rewrite Er|].
      split; [|split; discriminate]. intros j I. apply up_other; [congruence|]. now apply D.
    + apply dial_run; auto; try congruence; try discriminate. rewrite Er. auto.
    + apply dial_run; auto; try congruence; try discriminate; [intros; now apply up_lock|now rewrite upd_len].
    + apply dial_run; auto; try congruence; try discriminate. rewrite Er. auto.
    + apply dial_run; auto; try congruence; try discriminate. rewrite Er. auto.
    + apply dial_run; auto; try congruence; try discriminate. rewrite Er. auto.
    + intros _. destruct (Hi ltac:(congruence)) as (A & B & D & F & G). fields. split; [exact A|]. split; [exact B|].
      destruct (F i) as (F1 & F2); [now rewrite Er|].
      split; [|split].
      * intros j I. apply up_mono; [auto|]. now apply D.
      * intros j E. injection E as <-. split; [exact F1|]. now rewrite update_length.
      * intros j E. injection E as <-. left. rewrite status_upd, Nat.eqb_refl.
        destruct (nth_error (pl_infos (y_pool s)) i) as [x|] eqn:Nx; [reflexivity|]. apply nth_error_None in Nx. lia.
    + apply dial_run; auto; try congruence; try (rewrite Er; auto); [intros j U; unfold up_status; now rewrite status_upd_same|now rewrite upd_len].
    + apply dial_run; auto; try congruence; rewrite Er; auto.
    + apply dial_run; auto; try congruence; rewrite Er; auto.
    + intros _. destruct (Hi ltac:(congruence)) as (A & B & D & F & G). fields.
      destruct (F i) as (F1 & F2); [now rewrite Er|]. pose proof (G i ltac:(now rewrite Er)) as G1.
      split; [exact A|]. rewrite early_app. change (early_infos [Watch a i WtWait]) with [i]. split; [|split; [|split; discriminate]].
      * apply (Permutation_NoDup (Permutation_cons_append _ _)). now constructor.
      * intros j I. apply up_lock. apply in_app_or in I. destruct I as [I|[<-|[]]]; auto.
    + apply dial_run; auto; try congruence; discriminate.
  - watch_cases St.
    + intro N. destruct (Hi N) as (A & B & D & F & G). fields. rewrite E in *. rewrite early_app in *.
      split; [exact A|]. split; [exact B|]. split; [exact D|]. split; [exact F|exact G].
    + intro N. fields. destruct (Hi N) as (A & B & D & F & G). rewrite E in *. rewrite early_app in *.
      change (early_infos (Watch a i WtStatus :: post)) with (i :: early_infos post) in *.
      change (early_infos (Watch a i WtRead :: post)) with (early_infos post).
      pose proof (NoDup_remove_1 _ _ _ B) as B1. pose proof (NoDup_remove_2 _ _ _ B) as B2.
      split; [exact A|]. split; [exact B1|]. split; [|split].
      * intros j I. apply up_other; [intros ->; contradiction|]. apply D. apply mid_in. now right.
      * intros j Ej. destruct (F j Ej) as (F1 & F2). split; [|now rewrite update_length]. intro I. apply F1. apply mid_in. now right.
      * intros j Ej. assert (Ej' : run_info (y_run s) = Some j) by (destruct (y_run s); try discriminate Ej; exact Ej).
        apply up_other; [|now apply G]. intros ->. destruct (F j Ej') as (F1 & _). apply F1. apply mid_in. now left.
    + intro N. fields. destruct (Hi N) as (A & B & D & F & G). rewrite E in *. rewrite early_app in *. repeat split; auto; now apply F.
    + intro N. fields. destruct (Hi N) as (A & B & D & F & G). rewrite E in *. rewrite early_app in *. repeat split; auto; now apply F.
    + intro N. fields. destruct (Hi N) as (A & B & D & F & G). rewrite E in *. rewrite early_app in *. repeat split; auto; now apply F.
    + intro N. fields. destruct (Hi N) as (A & B & D & F & G). rewrite E in *. rewrite early_app in *. repeat split; auto; now apply F.
  - ban_cases St; apply (dial_same s); auto; fields.
    + intros j U. apply up_mono; auto.
    + now rewrite update_length.
  - close_cases St; intro Nr; fields; destruct (Hi Nr) as (A & _); rewrite E in A; symmetry in A; now apply app_cons_not_nil in A.
  - env_cases St; apply (dial_same s); auto; fields.
    + intros j U. now apply status_add.
    + apply add_length.
    + intros j Uj. unfold up_status in *. now rewrite status_upd_same.
    + now rewrite update_length.
Qed.
Lemma dial_alone bans s a i w : sys_steps (sys_start bans) s -> y_run s = RuDial a i -> In w (y_watch s) -> wt_info w = i -> waiting w = false.
Proof.
  intros R E I W. assert (Hi : dial_inv s).
  { revert R. apply (sys_ind' dial_inv); [|exact dial_step]. intros _. cbn. split; [reflexivity|]. split; [constructor|].
    split; [intros j []|]. split; discriminate. }
  destruct (Hi ltac:(congruence)) as (_ & _ & _ & F & _). destruct (F i) as (F1 & _); [now rewrite E|].
  destruct (waiting w) eqn:Ww; [|reflexivity]. elim F1. unfold early_infos. apply in_map_iff. exists w. split; [exact W|].
  apply filter_In. split; [exact I|]. unfold waiting, early in *. destruct (wt_pc w); auto; discriminate.
Qed.

(** ** The counter *)
Definition passed (r : run_pc) : Prop :=
  match r with RuLookup _ | RuLock _ _ | RuCheck _ _ | RuDial _ _ | RuVersion _ _ _ | RuRead _ _ _ => True | _ => False end.
Definition count_inv s : Prop :=
  (pl_connected (y_pool s) <= 16)%Z /\
  (forall w v, In w (y_watch s) -> wt_pc w = WtWrite v -> (v <= 16)%Z) /\
  (passed (y_run s) -> (pl_connected (y_pool s) <= 15)%Z) /\
  (forall a i d v, y_run s = RuWrite a i d v -> (v <= 15)%Z).
Lemma add_connected r a p : pl_connected (pool_add r a p) = pl_connected p.
Proof. destruct (add_cases r a p) as [->|(_ & _ & _ & ->)]; reflexivity. Qed.
Lemma count_watch pre w w' post : (forall x v, In x (pre ++ w :: post) -> wt_pc x = WtWrite v -> (v <= 16)%Z) ->
  (forall v, wt_pc w' = WtWrite v -> (v <= 16)%Z) -> forall x v, In x (pre ++ w' :: post) -> wt_pc x = WtWrite v -> (v <= 16)%Z.
Proof. intros H H' x v I E. apply mid_in in I. destruct I as [->|I]; [now apply H'|]. apply (H x v); [|exact E]. apply mid_in. now right. Qed.
Lemma count_step s t : count_inv s -> sys_step s t -> count_inv t.
Proof.
  intros (A & B & D & F) [C St|C St|C St|C St|C St].
  - run_cases St; rewrite Er in *; unfold count_inv; fields; cbn [passed] in *; unfold max_online in *;
      (split; [try exact A|split; [try exact B|split; [try tauto; try (intros _; apply D; exact I)|try discriminate]]]).
    + intros a0 i0 d0 v0 E. replace v0 with (pl_connected (y_pool s)) by congruence. now apply D.
    + pose proof (F _ _ _ _ eq_refl). lia.
    + intros w v I E. apply in_app_or in I. destruct I as [I|[<-|[]]]; [now apply (B w)|discriminate E].
  - watch_cases St; unfold count_inv; fields; rewrite E in B;
      (split; [|split; [apply (count_watch pre _ _ post B); cbn [wt_pc]; try discriminate|split; [|exact F]]]);
      try exact A; try exact D.
    + intros v Ev. injection Ev as <-. exact A.
    + pose proof (B (Watch a i (WtWrite v)) v ltac:(apply mid_in; now left) eq_refl). lia.
    + intros _. pose proof (B (Watch a i (WtWrite v)) v ltac:(apply mid_in; now left) eq_refl). lia.
  - ban_cases St; unfold count_inv; fields; auto.
  - close_cases St; unfold count_inv; fields; auto.
  - env_cases St; unfold count_inv; fields; auto. rewrite add_connected. auto.
Qed.
Lemma count_reach bans s : sys_steps (sys_start bans) s -> (pl_connected (y_pool s) <= 16)%Z.
Proof.
  intro R. apply (sys_ind' count_inv (sys_start bans)); [|exact count_step|exact R].
  split; [cbn; lia|]. split; [intros w v []|]. split; [intros []|discriminate].
Qed.

(** Each connection that was made has taken at most one from it. *)
Definition counted_down (w : watch) : bool := match wt_pc w with WtDelete | WtRelease | WtEnd => true | _ => false end.
Definition downs (ws : list watch) : Z := Z.of_nat (List.length (filter counted_down ws)).
Definition low_inv s : Prop :=
  (- downs (y_watch s) <= pl_connected (y_pool s))%Z /\
  (forall w v, In w (y_watch s) -> wt_pc w = WtWrite v -> (- downs (y_watch s) <= v)%Z) /\
  (forall a i d v, y_run s = RuWrite a i d v -> (- downs (y_watch s) <= v)%Z).
Lemma downs_mid pre w post : downs (pre ++ w :: post) = (downs (pre ++ post) + if counted_down w then 1 else 0)%Z.
Proof. unfold downs. rewrite !filter_app, !app_length. cbn [filter]. destruct (counted_down w); cbn [List.length]; lia. Qed.
Lemma downs_app a b : downs (a ++ b) = (downs a + downs b)%Z.
Proof. unfold downs. rewrite filter_app, app_length. lia. Qed.
Lemma low_step s t : low_inv s -> sys_step s t -> low_inv t.
Proof.
  intros (A & B & F) [C St|C St|C St|C St|C St].
  - run_cases St; rewrite Er in *; unfold low_inv; fields;
      (split; [try exact A|split; [try exact B|try discriminate]]).
    + intros a0 i0 d0 v0 E. replace v0 with (pl_connected (y_pool s)) by congruence. exact A.
    + pose proof (F _ _ _ _ eq_refl). lia.
    + rewrite downs_app. cbn. lia.
    + intros w v I E. rewrite downs_app. cbn. apply in_app_or in I. destruct I as [I|[<-|[]]]; [|discriminate E].
      pose proof (B w v I E). lia.
  - watch_cases St; unfold low_inv; fields; rewrite E in A, B, F; rewrite downs_mid in A, B, F |- *; cbn [counted_down wt_pc] in *.
    all: try (pose proof (B (Watch a i (WtWrite v)) v ltac:(apply mid_in; now left) eq_refl)).
    all: split; [lia|split].
    all: try (intros a0 i0 d0 v0 Ev; pose proof (F a0 i0 d0 v0 Ev); lia).
    all: intros w0 v0 I0 E0; apply mid_in in I0; destruct I0 as [->|I0];
      [try discriminate E0; injection E0 as <-; lia|
       pose proof (B w0 v0 ltac:(apply mid_in; now right) E0); lia].
  - ban_cases St; unfold low_inv; fields; auto.
  - close_cases St; unfold low_inv; fields; auto.
  - env_cases St; unfold low_inv; fields; auto. rewrite add_connected. auto.
Qed.
Lemma low_reach bans s : sys_steps (sys_start bans) s -> (- downs (y_watch s) <= pl_connected (y_pool s))%Z.
Proof.
  intro R. apply (sys_ind' low_inv (sys_start bans)); [|exact low_step|exact R].
  split; [cbn; lia|]. split; [intros w v []|discriminate].
Qed.
Lemma downs_le ws : (downs ws <= Z.of_nat (List.length ws))%Z.
Proof. unfold downs. induction ws as [|w ws IH]; cbn [filter List.length]; [lia|]. destruct (counted_down w); cbn [List.length]; lia. Qed.
Lemma range_reach bans s : sys_steps (sys_start bans) s -> (Z.of_nat (List.length (y_watch s)) <= 2 ^ 31)%Z ->
  (- Z.of_nat (List.length (y_watch s)) <= pl_connected (y_pool s) <= 16)%Z /\ (- 2 ^ 31 <= pl_connected (y_pool s) < 2 ^ 31)%Z.
Proof.
  intros R L. pose proof (low_reach bans s R). pose proof (downs_le (y_watch s)). pose proof (count_reach bans s R). lia.
Qed.

(** ** Stopping *)
Lemma stop_closers s t : y_run s = RuSelect -> run_step s t -> y_run t = RuStopped ->
  forall b j, In (b, j) (pl_table (y_pool s)) -> In (ClLock j) (y_close t).
Proof.
  intros Er0 St Et b j I. run_cases St; fields; try discriminate Et. apply in_or_app. right.
  apply in_map_iff. now exists (b, j).
Qed.

(** An entry without a peer: its goroutine never ends. *)
Definition hopeless i s : Prop :=
  y_run s = RuStopped /\ no_peer (y_pool s) i /\ (In (ClLock i) (y_close s) \/ In (ClClose i) (y_close s)).
Lemma no_peer_upd p i j f : (forall x, i_peer (f x) = i_peer x) -> no_peer p i -> no_peer (upd p j f) i.
Proof.
  intros H (x & N & E). unfold no_peer, upd. cbn [pl_infos set_infos]. rewrite update_nth.
  destruct (j =? i)%nat; [rewrite N; exists (f x); rewrite H; auto|exists x; auto].
Qed.
Lemma no_peer_add r a p i : no_peer p i -> no_peer (pool_add r a p) i.
Proof.
  intros (x & N & E). destruct (add_cases r a p) as [->|(_ & _ & _ & ->)]; [now exists x|]. exists x. cbn [pl_infos set_table set_infos].
  split; [|exact E]. rewrite nth_error_app1; [exact N|]. apply nth_error_Some. congruence.
Qed.
Lemma hopeless_step e s t : hopeless e s -> sys_step s t -> hopeless e t.
Proof.
  intros (A & B & D) [C St|C St|C St|C St|C St].
  - run_cases St; congruence.
  - watch_cases St; unfold hopeless; fields; split; auto; split; auto. now apply no_peer_upd.
  - ban_cases St; unfold hopeless; fields; split; auto; split; auto. now apply no_peer_upd.
  - destruct B as (x0 & Nx & Ex). assert (B : no_peer (y_pool s) e) by (now exists x0).
    close_cases St; unfold hopeless; fields; rewrite E in D; (split; [exact A|]); (split; [try exact B; try (now apply no_peer_upd)|]).
    + rewrite !mid_in in *. destruct D as [[D|D]|[D|D]]; try discriminate D; [|tauto..]. injection D as ->. auto.
    + rewrite E. exact D.
    + rewrite !mid_in in *. destruct D as [[D|D]|[D|D]]; try discriminate D; [tauto| |tauto]. injection D as ->. congruence.
    + rewrite !mid_in in *. destruct D as [[D|D]|[D|D]]; try discriminate D; tauto.
  - env_cases St; unfold hopeless; fields; split; auto; split; auto; [now apply no_peer_add|now apply no_peer_upd].
Qed.
Lemma never_stopped i s t : hopeless i s -> sys_steps s t -> ~ Forall (fun c => c = ClEnd) (y_close t).
Proof.
  intros H R F. assert (G : hopeless i t) by (revert R; apply (sys_ind' (hopeless i)); [exact H|apply hopeless_step]).
  destruct G as (_ & _ & D). rewrite Forall_forall in F. destruct D as [D|D]; specialize (F _ D); discriminate.
Qed.
Lemma stop_hangs s t nm e : y_run s = RuSelect -> In (nm, e) (pl_table (y_pool s)) -> no_peer (y_pool s) e ->
  run_step s t -> y_run t = RuStopped -> forall u, sys_steps t u -> ~ Forall (fun c => c = ClEnd) (y_close u).
Proof.
  intros E I N St Et u R. apply (never_stopped e t u); [|exact R]. pose proof (stop_closers s t E St Et nm e I) as Ic.
  split; [exact Et|]. split; [|now left]. run_cases St; fields; try discriminate Et. exact N.
Qed.
Lemma stop_crashes s t nm e : y_crash s = None -> y_run s = RuSelect -> In (nm, e) (pl_table (y_pool s)) -> no_peer (y_pool s) e ->
  unlocked (y_pool s) e -> run_step s t -> y_run t = RuStopped -> exists u, sys_steps t u /\ y_crash u = Some NilPeer.
Proof.
  intros C E I (x & Nx & Ex) Ul St Et. pose proof (stop_closers s t E St Et nm e I) as Ic.
  apply in_split in Ic. destruct Ic as (pre & post & Ec).
  assert (P : y_pool t = y_pool s /\ y_crash t = y_crash s) by (clear Ec Ul; run_cases St; fields; try discriminate Et; auto).
  destruct P as (P & Cr).
  eexists. split.
  - eapply sys_cons. { apply YsClose; [now rewrite Cr|]. apply (CsLock t pre e post); [exact Ec|now rewrite P]. }
    eapply sys_cons. { apply YsClose; [fields; now rewrite Cr|]. apply (CsNil _ pre e post (with_lock true x)); [reflexivity| |exact Ex].
      fields. rewrite P, update_nth, Nat.eqb_refl, Nx. reflexivity. }
    apply YsNone.
  - reflexivity.
Qed.

(** Entries that all have peers. *)
Lemma has_peer_upd p i j st : has_peer p i -> has_peer (upd (upd p j (with_lock true)) j (fun x => with_lock false (with_status st x))) i.
Proof.
  intros (x & c & N & E & L). unfold has_peer, upd. cbn [pl_infos set_infos]. rewrite !update_nth.
  destruct (j =? i)%nat; [rewrite N; eexists; exists c; split; [reflexivity|]; cbn; auto|exists x, c; auto].
Qed.
Lemma stop_clean is : forall s done, y_crash s = None -> y_run s = RuStopped -> y_close s = done ++ map ClLock is ->
  Forall (fun c => c = ClEnd) done -> (forall i, In i is -> has_peer (y_pool s) i) ->
  exists t, sys_steps s t /\ y_crash t = None /\ Forall (fun c => c = ClEnd) (y_close t) /\
    (forall i, In i is -> status_of (y_pool t) i = Some StDisconnected) /\
    (forall i, status_of (y_pool s) i = Some StDisconnected -> status_of (y_pool t) i = Some StDisconnected).
Proof.
  induction is as [|i is IH]; intros s done C E Ec F H.
  - exists s. rewrite Ec, app_nil_r. split; [apply YsNone|]. split; [exact C|]. split; [exact F|]. split; [intros i []|auto].
  - destruct (H i (or_introl eq_refl)) as (x & c & N & Ep & L).
    set (s1 := set_close s (upd (y_pool s) i (with_lock true)) (done ++ ClClose i :: map ClLock is)).
    set (s2 := set_close s1 (y_pool s1) (done ++ ClStatus i :: map ClLock is)).
    set (s3 := set_close s2 (upd (y_pool s2) i (fun x => with_lock false (with_status StDisconnected x))) (done ++ ClEnd :: map ClLock is)).
    destruct (IH s3 (done ++ [ClEnd])) as (t & R & Ct & Ft & St & Kt).
    + exact C.
    + exact E.
    + cbn [s3 set_close y_close]. now rewrite <- app_assoc.
    + apply Forall_app. split; [exact F|]. constructor; [reflexivity|constructor].
    + intros j I. apply has_peer_upd. apply H. now right.
    + exists t. assert (K3 : status_of (y_pool s3) i = Some StDisconnected).
      { cbn [s3 s2 s1 set_close y_pool]. rewrite status_upd, Nat.eqb_refl. unfold upd. cbn [pl_infos set_infos]. now rewrite update_nth, Nat.eqb_refl, N. }
      split; [|split; [exact Ct|split; [exact Ft|split]]].
      * eapply sys_cons. { apply YsClose; [exact C|]. apply (CsLock s done i (map ClLock is)); [exact Ec|]. exists x. auto. }
        eapply sys_cons. { apply YsClose; [exact C|]. apply (CsClosed s1 done i (map ClLock is) (with_lock true x) c); [reflexivity| |exact Ep].
          cbn [s1 set_close y_pool upd pl_infos set_infos]. rewrite update_nth, Nat.eqb_refl, N. reflexivity. }
        eapply sys_cons. { apply YsClose; [exact C|]. apply (CsStatus s2 done i (map ClLock is)). reflexivity. }
        exact R.
      * intros j [<-|I]; [now apply Kt|now apply St].
      * intros j Ej. apply Kt. cbn [s3 s2 s1 set_close y_pool]. rewrite status_upd. destruct (i =? j)%nat eqn:Eij.
        -- apply Nat.eqb_eq in Eij. subst j. unfold upd. cbn [pl_infos set_infos]. rewrite update_nth, Nat.eqb_refl, N. reflexivity.
        -- rewrite status_upd, Eij. exact Ej.
Qed.
Lemma stop_clean_all bans s t : sys_steps (sys_start bans) s -> y_crash s = None -> y_run s = RuSelect ->
  (forall a i, In (a, i) (pl_table (y_pool s)) -> has_peer (y_pool s) i) -> run_step s t -> y_run t = RuStopped ->
  exists u, sys_steps t u /\ y_crash u = None /\ all_closed u /\
    forall a i, In (a, i) (pl_table (y_pool s)) -> status_of (y_pool u) i = Some StDisconnected.
Proof.
  intros R C E H St Et. assert (Hi : dial_inv s).
  { revert R. apply (sys_ind' dial_inv); [|exact dial_step]. intros _. cbn. split; [reflexivity|]. split; [constructor|].
    split; [intros j []|]. split; discriminate. }
  destruct (Hi ltac:(congruence)) as (Ec & _).
  run_cases St; fields; try discriminate Et.
  destruct (stop_clean (map snd (pl_table (y_pool s))) (Sys (y_pool s) (y_quits s) RuStopped (y_watch s) (y_bans s)
     (y_close s ++ map (fun kv => ClLock (snd kv)) (pl_table (y_pool s))) (y_leaked s) (y_crash s)) []) as (u & Ru & Cu & Fu & Su & _).
  - exact C.
  - reflexivity.
  - cbn [y_close]. rewrite Ec, map_map. reflexivity.
  - constructor.
  - intros i I. apply in_map_iff in I. destruct I as ((a & j) & <- & I). exact (H a j I).
  - exists u. split; [exact Ru|]. split; [exact Cu|]. split; [exact Fu|]. intros a i I. apply Su. apply in_map_iff. now exists (a, i).
Qed.
Lemma slots_exact bans s : sys_steps (sys_start bans) s -> idle (y_run s) ->
  pl_slots (y_pool s) = (List.length (filter running (y_watch s)) + y_leaked s)%nat.
Proof. intros R I. destruct (slots_reach bans s R) as (E & _). destruct I as [I|I]; rewrite I in E; exact E. Qed.

(** ** A full table *)
Definition many (n : N) : list (option addr * bytes) :=
  map (fun k => (Some (Addr [x7f; x00; x00; x01] 13414), be 4 (N.of_nat k))) (seq 0 (N.to_nat n)).
Lemma many_all n : n <= 10001 -> lenN (pl_table (adds (many n) pool_new)) = n.
Proof.
  intro L. rewrite adds_all.
  - unfold lenN, many. rewrite map_length, seq_length. cbn [pl_table pool_new List.length]. lia.
  - apply Forall_forall. intros c I. apply in_map_iff in I. destruct I as (k & <- & _). eexists. split; [reflexivity|].
    split; [|discriminate]. intros [(b & rest & [(E & _)|(E & _)] & B)|(E & _)]; [|discriminate E|discriminate E].
    injection E as <- <-. change (Byte.to_N x7f) with 127 in B. lia.
  - unfold many. rewrite map_map. cbn [snd].
    assert (G : forall l, NoDup l -> (forall k, In k l -> N.of_nat k < n) -> NoDup (map (fun k => be 4 (N.of_nat k)) l)).
    { induction l as [|k l IH]; intros Nd B; [constructor|]. inversion Nd; subst. cbn [map]. constructor.
      - intro I. apply in_map_iff in I. destruct I as (j & E & I). apply be_inj in E.
        + apply Nat2N.inj in E. now subst j.
        + pose proof (B j (or_intror I)). change (256 ^ N.of_nat 4) with 4294967296. lia.
        + pose proof (B k (or_introl eq_refl)). change (256 ^ N.of_nat 4) with 4294967296. lia.
      - apply IH; [assumption|]. intros j I. apply B. now right. }
    apply G; [apply seq_NoDup|]. intros k I. apply in_seq in I. lia.
  - intros a _ [].
  - unfold lenN, many. rewrite map_length, seq_length. cbn [pl_table pool_new List.length]. lia.
Qed.

(** ** Connected peers stay in the table, as long as there is no map of banned ones *)
Definition run_entry (r : run_pc) : option (bytes * nat) :=
  match r with
  | RuLock a i | RuCheck a i | RuDial a i | RuVersion a i _ | RuRead a i _ | RuWrite a i _ _ | RuUpdate a i _ | RuFill a i _ | RuUp a i | RuGo a i | RuWatch a i => Some (a, i)
  | _ => None
  end.
Definition listed_inv s : Prop :=
  pl_bans (y_pool s) = None /\ (forall a, ~ In (BnDelete a) (y_bans s)) /\
  (forall w, In w (y_watch s) -> lookup (wt_addr w) (pl_table (y_pool s)) = Some (wt_info w)) /\
  (forall a i, run_entry (y_run s) = Some (a, i) -> lookup a (pl_table (y_pool s)) = Some i).
Lemma add_lookup r a p b j : lookup b (pl_table p) = Some j -> lookup b (pl_table (pool_add r a p)) = Some j.
Proof.
  intro H. destruct (add_cases r a p) as [->|(_ & K & _ & ->)]; [exact H|]. cbn [pl_table set_table set_infos lookup].
  destruct (bytes_eqb b a) eqn:E; [|exact H]. apply bytes_eqb_eq in E. subst b. apply lookup_in in H. elim K. apply in_map_iff. now exists (a, j).
Qed.
Lemma mid_watch pre w w' post (P : watch -> Prop) : (forall x, In x (pre ++ w :: post) -> P x) -> P w' -> forall x, In x (pre ++ w' :: post) -> P x.
Proof. intros H H' x I. apply mid_in in I. destruct I as [->|I]; [exact H'|]. apply H. apply mid_in. now right. Qed.
Lemma mid_ban pre b b' post : (forall a, ~ In (BnDelete a) (pre ++ b :: post)) -> (forall a, b' <> BnDelete a) -> forall a, ~ In (BnDelete a) (pre ++ b' :: post).
Proof. intros H H' a I. apply mid_in in I. destruct I as [I|I]; [now apply (H' a)|]. apply (H a). apply mid_in. now right. Qed.
Lemma listed_step s t : listed_inv s -> sys_step s t -> listed_inv t.
Proof.
  intros (Bn & Bd & Lw & Lr) [C St|C St|C St|C St|C St].
  - run_cases St; unfold listed_inv; fields; (split; [exact Bn|]); (split; [exact Bd|]); rewrite ?Er in Lr;
      try (split; [exact Lw|]; cbn [run_entry] in *; first [discriminate|exact Lr]).
    + split; [exact Lw|]. intros b j E. injection E as <- <-. exact K.
    + split; [|discriminate]. intros w I. apply in_app_or in I. destruct I as [I|[<-|[]]]; [now apply Lw|]. now apply Lr.
  - watch_cases St; unfold listed_inv; fields; (split; [exact Bn|]); (split; [exact Bd|]); (split; [|exact Lr]); rewrite E in Lw;
      refine (mid_watch _ _ _ _ _ Lw _); cbn [wt_addr wt_info]; apply (Lw _ (proj2 (mid_in _ _ _ _) (or_introl eq_refl))).
  - ban_cases St; unfold listed_inv; fields; rewrite ?E in Bd; try congruence.
    + split; [exact Bn|]. split; [refine (mid_ban _ _ _ _ Bd _); discriminate|auto].
    + split; [exact Bn|]. split; [refine (mid_ban _ _ _ _ Bd _); discriminate|auto].
    + split; [exact Bn|]. split; [refine (mid_ban _ _ _ _ Bd _); discriminate|auto].
    + split; [exact Bn|]. split; [rewrite E; exact Bd|auto].
    + split; [exact Bn|]. split; [refine (mid_ban _ _ _ _ Bd _); discriminate|auto].
    + split; [exact Bn|]. split; [rewrite E; exact Bd|auto].
    + elim (Bd a). apply mid_in. now left.
  - close_cases St; unfold listed_inv; fields; auto.
  - env_cases St; unfold listed_inv; fields; auto.
    + split; [destruct (add_cases r a (y_pool s)) as [->|(_ & _ & _ & ->)]; exact Bn|]. split; [exact Bd|].
      split; [intros w I; apply add_lookup; auto|intros b j E; apply add_lookup; auto].
    + split; [exact Bn|]. split; [|auto]. intros b I. apply in_app_or in I. destruct I as [I|[I|[]]]; [now apply (Bd b)|discriminate].
Qed.
Lemma listed_reach s : sys_steps (sys_start None) s ->
  (forall w, In w (y_watch s) -> peer_info (wt_addr w) (y_pool s) = Some (wt_info w)) /\
  (forall a i, y_run s = RuGo a i \/ y_run s = RuWatch a i -> peer_info a (y_pool s) = Some i).
Proof.
  intro R. assert (H : listed_inv s).
  { revert R. apply (sys_ind' listed_inv); [|exact listed_step]. split; [reflexivity|]. split; [intros a []|]. split; [intros w []|discriminate]. }
  destruct H as (_ & _ & A & B). split; [exact A|]. intros a i [E|E]; apply B; now rewrite E.
Qed.
