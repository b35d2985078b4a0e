(** Cases for C124. *)
From Verif Require Import Sync Serve Send SpecPool SpecMessages SpecSync SpecServe SpecSend SpecCodec SpecFull PoolProofs PoolExamples
  Instance RulesExamples ChainExamples SyncExamples FullProofs PropServe PropSend.

(** Addresses written as six bytes. *)
Definition six : around := Around (fun _ => Context (fun _ => ex_now) (fun b => Some (Addr (firstn 4 b) (Z.of_N (unbe (skipn 4 b)))))
  (fun a => ip a ++ be 2 (Z.to_N (port a))) [] seed [] (fun _ => false)) (fun _ p => p).
Lemma six_names i : names (x_string (ar_context six i)) (x_resolve (ar_context six i)).
Proof.
  intros a L P. cbn [six ar_context x_string x_resolve]. eexists. split; [reflexivity|].
  rewrite firstn_app, skipn_app, L. rewrite <- L, firstn_all, skipn_all, L. cbn [Nat.sub firstn skipn]. rewrite app_nil_r.
  split; cbn [ip port]; [reflexivity|]. cbn [app]. unfold port_ok in P. rewrite unbe_be by (change (256 ^ N.of_nat 2) with 65536; lia). lia.
Qed.
Lemma six_keeping i : keeping (ar_pool six i).
Proof. intros q P. split; [exact P|intros b I; exact I]. Qed.

(** 40 messages with the addresses 10.0.0.0 to 10.0.39.255. *)
Definition ten (k : nat) : addr := Addr (be 4 (167772160 + N.of_nat k)) 13414.
Definition tens : list (list addr) := map (fun j => map ten (seq (256 * j) 256)) (seq 0 40).
Lemma seq_blocks m : concat (map (fun j => seq (256 * j) 256) (seq 0 m)) = seq 0 (256 * m).
Proof.
  induction m as [|m IH]; [reflexivity|]. rewrite seq_S, map_app, concat_app, IH. cbn [map concat]. rewrite app_nil_r.
  replace (256 * Datatypes.S m)%nat with (256 * m + 256)%nat by lia. now rewrite seq_app.
Qed.
Lemma tens_all : concat tens = map ten (seq 0 (256 * 40)).
Proof.
  unfold tens. rewrite <- seq_blocks. rewrite concat_map, map_map. reflexivity.
Qed.
Lemma ten_ok k : (k < 256 * 40)%nat -> made_up (ten k).
Proof.
  intro L. split; [apply be_length|]. split; [|cbn [port ten]; lia]. cbn [ip ten]. intros b t E.
  assert (U := f_equal unbe E). rewrite unbe_be in U by (change (256 ^ N.of_nat 4) with 4294967296; lia).
  assert (Lt : List.length t = 3%nat) by (pose proof (be_length 4 (167772160 + N.of_nat k)) as Lb; rewrite E in Lb; cbn [List.length] in Lb; lia).
  destruct t as [|t1 [|t2 [|t3 [|]]]]; try discriminate Lt. unfold unbe, b2n in U. cbn [fold_left] in U. lia.
Qed.
Lemma tens_ok : Forall made_up (concat tens) /\ NoDup (concat tens) /\ 10000 < lenN (concat tens).
Proof.
  rewrite tens_all. split; [|split].
  - apply Forall_forall. intros a I. apply in_map_iff in I. destruct I as (k & <- & I). apply in_seq in I. apply ten_ok. lia.
  - assert (G : forall l, (forall k, In k l -> (k < 256 * 40)%nat) -> NoDup l -> NoDup (map ten l)).
    { induction l as [|k l IH]; intros B N; [constructor|]. inversion N as [|? ? Nk Nl]; subst. cbn [map]. constructor; [|apply IH; [intros j Ij; apply B; right; exact Ij|exact Nl]].
      intro I. apply in_map_iff in I. destruct I as (j & E & I). apply Nk. apply (f_equal ip) in E. unfold ten in E. cbn [ip] in E.
      apply be_inj in E; [replace k with j by lia; exact I| |]; change (256 ^ N.of_nat 4) with 4294967296;
        [pose proof (B j (or_intror I))|pose proof (B k (or_introl eq_refl))]; lia. }
    apply G; [intros k I; apply in_seq in I; lia|apply seq_NoDup].
  - unfold lenN. rewrite map_length, seq_length. lia.
Qed.
Lemma made_up_bytes l : Forall made_up l -> exists b, addrs_bytes l = Ok b.
Proof.
  induction 1 as [|a l (L & _) _ (b & E)]; [exists []; reflexivity|]. cbn [addrs_bytes]. rewrite E.
  unfold addr_bytes, to4. replace (lenN (ip a) =? 4) with true by (unfold lenN; now rewrite L).
  replace (lenN (ip a) =? 4) with true by (unfold lenN; now rewrite L). eexists. reflexivity.
Qed.
Lemma tens_written X : exists encs, Forall2 (fun l e => exists k, write_message X (MPeerAddrs l) = Ok (e, k)) tens encs.
Proof.
  assert (G : forall ls, Forall (fun l => lenN l <= 256) ls -> Forall made_up (concat ls) ->
    exists encs, Forall2 (fun l e => exists k, write_message X (MPeerAddrs l) = Ok (e, k)) ls encs).
  { induction ls as [|l ls IH]; intros B F; [exists []; constructor|]. inversion B as [|? ? Bl Bs]; subst. cbn [concat] in F. apply Forall_app in F. destruct F as (Fl & Fs).
    destruct (IH Bs Fs) as (encs & H). destruct (made_up_bytes l Fl) as (b & E).
    eexists (_ :: encs). constructor; [|exact H]. unfold write_message. cbn [msg_bytes]. unfold peer_addrs_bytes, max_peer_addrs.
    replace (256 <? lenN l) with false by (symmetry; apply N.ltb_ge; exact Bl). rewrite E. cbn [rbind]. eexists. reflexivity. }
  apply G; [|apply tens_ok]. apply Forall_forall. intros l I. apply in_map_iff in I. destruct I as (j & <- & _). unfold lenN. rewrite map_length, seq_length. lia.
Qed.
Lemma busy_proper X : proper (nd_pool (busy X)).
Proof.
  split; [exact (proj1 (proj2 (busy_sender X [])))|]. split; [vm_compute; discriminate|].
  intros a i [E|[E|[]]]; injection E as _ <-; repeat constructor.
Qed.

(** A full table in the system, and Run dialling. *)
Lemma adds_steps l : sys_steps (sys_start None) (Sys (adds l pool_new) 0 RuSelect [] [] [] 0 None).
Proof.
  assert (G : forall p, sys_steps (Sys p 0 RuSelect [] [] [] 0 None) (Sys (adds l p) 0 RuSelect [] [] [] 0 None)).
  { induction l as [|c l IH]; intro p; [apply YsNone|]. apply (sys_cons _ (Sys (pool_add (fst c) (snd c) p) 0 RuSelect [] [] [] 0 None)); [|apply IH].
    apply YsEnv; [reflexivity|]. exact (EnAdd (Sys p 0 RuSelect [] [] [] 0 None) (fst c) (snd c) I). }
  exact (G pool_new).
Qed.
Lemma adds_fields l p : pl_connected (adds l p) = pl_connected p /\ pl_slots (adds l p) = pl_slots p.
Proof.
  revert p. induction l as [|c l IH]; intro p; [split; reflexivity|]. change (adds (c :: l) p) with (adds l (pool_add (fst c) (snd c) p)). destruct (IH (pool_add (fst c) (snd c) p)) as (-> & ->).
  destruct (add_cases (fst c) (snd c) p) as [->|(_ & _ & _ & ->)]; split; reflexivity.
Qed.
Lemma adds_app l l' p : adds (l ++ l') p = adds l' (adds l p).
Proof. apply fold_left_app. Qed.
Lemma dial_one l (q := adds l pool_new) (p := adds (l ++ [(Some (Addr [x7f; x00; x00; x01] 13414), [x63])]) pool_new) :
  lenN (pl_table q) = 10000 -> ~ In [x63] (map fst (pl_table q)) -> 10000 < lenN (pl_table p) /\
  exists t i, sys_steps (Sys p 0 RuSelect [] [] [] 0 None) t /\ y_run t = RuDial [x63] i.
Proof.
  intros Lq Nw. destruct (adds_fields l pool_new) as (Cn & Sl). fold q in Cn, Sl.
  assert (Us : usable (Some (Addr [x7f; x00; x00; x01] 13414))).
  { eexists. split; [reflexivity|]. split; [|discriminate]. intro M. apply is_multicast_iff in M. discriminate M. }
  assert (Ep : p = set_table (set_infos q (pl_infos q ++ [fresh_info])) (([x63], List.length (pl_infos q)) :: pl_table q)).
  { unfold p. rewrite adds_app. fold q. apply (add_new (Some (Addr [x7f; x00; x00; x01] 13414)) [x63] q); [exact Us|exact Nw|lia]. }
  clearbody p. subst p. clearbody q. set (i := List.length (pl_infos q)).
  set (p := set_table (set_infos q (pl_infos q ++ [fresh_info])) (([x63], i) :: pl_table q)).
  assert (Ni : nth_error (pl_infos p) i = Some fresh_info) by (unfold p, i; fields; rewrite nth_error_app2, Nat.sub_diag by lia; reflexivity).
  split; [unfold p; fields; unfold lenN in *; cbn [List.length]; lia|]. eexists _, i. split.
  - eapply sys_cons; [apply YsRun; [reflexivity|]; apply RnToken; [reflexivity|fields; unfold p; fields; rewrite Sl; vm_compute; repeat constructor]|]. fields.
    eapply sys_cons; [apply YsRun; [reflexivity|]; apply RnScan; [reflexivity|apply Permutation_refl]|]. fields.
    eapply sys_cons; [apply YsRun; [reflexivity|]; apply (RnHit _ false [x63] i (pl_table q)); [reflexivity|]|].
    { unfold wanted_at. fields. rewrite Ni. reflexivity. }
    fields. eapply sys_cons; [apply YsRun; [reflexivity|]; apply (RnTest _ [x63]); [reflexivity|discriminate|]|].
    { fields. unfold p. fields. rewrite Cn. vm_compute. discriminate. }
    fields. eapply sys_cons; [apply YsRun; [reflexivity|]; apply (RnFound _ [x63] i); [reflexivity|reflexivity]|].
    fields. eapply sys_cons; [apply YsRun; [reflexivity|]; apply (RnLock _ [x63] i); [reflexivity|]|].
    { exists fresh_info. fields. split; [exact Ni|reflexivity]. }
    fields. eapply sys_cons; [apply YsRun; [reflexivity|]; apply (RnCheck _ [x63] i StNew); [reflexivity| |discriminate|discriminate]|].
    { unfold status_of. fields. rewrite update_nth, Nat.eqb_refl, Ni. reflexivity. }
    apply YsNone.
  - reflexivity.
Qed.
Lemma many_keys n b : In b (map fst (pl_table (adds (many n) pool_new))) -> List.length b = 4%nat.
Proof.
  intro I. destruct (adds_only _ _ I) as (r & Ir & _). apply in_map_iff in Ir. destruct Ir as (k & E & _).
  apply (f_equal snd) in E. cbn [snd] in E. rewrite <- E. apply be_length.
Qed.
Lemma dial_many n : n = 10000 -> exists s t a i, sys_steps (sys_start None) s /\ 10000 < lenN (pl_table (y_pool s)) /\ y_run s = RuSelect /\
  sys_steps s t /\ y_run t = RuDial a i.
Proof.
  intro E. destruct (dial_one (many n)) as (L & t & i & St & R).
  - rewrite many_all by lia. exact E.
  - intro I. apply many_keys in I. discriminate I.
  - eexists _, t, [x63], i. split; [apply adds_steps|]. split; [exact L|]. split; [reflexivity|]. split; [exact St|exact R].
Qed.
Lemma full_dialling : exists s t a i, sys_steps (sys_start None) s /\ 10000 < lenN (pl_table (y_pool s)) /\ y_run s = RuSelect /\
  sys_steps s t /\ y_run t = RuDial a i.
Proof. exact (dial_many 10000 eq_refl). Qed.
