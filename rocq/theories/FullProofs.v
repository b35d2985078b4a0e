(** C124: proofs. *)
From Verif Require Import Sync Serve Send SpecPool SpecMessages SpecSync SpecServe SpecSend SpecCodec SpecFull PoolProofs SyncProofs ServeProofs CodecProofs MessageProofs SendProofs.

(** ** Nothing leaves the table *)
Definition no_bans (s : sys) : Prop := pl_bans (y_pool s) = None /\ forall a, ~ In (BnDelete a) (y_bans s).
Ltac nb := split; [assumption|]; let c := fresh in let K := fresh in intros c K; apply in_app_or in K; destruct K as [K|[K|K]];
  [eapply_nb K|discriminate K|eapply_nb K]
with eapply_nb K := match goal with N : forall a, ~ In (BnDelete a) ?l, E : ?l = _ |- _ =>
  eapply N; rewrite E; apply in_or_app; first [left; exact K|right; right; exact K] end.
Lemma no_bans_step s t : no_bans s -> sys_step s t -> no_bans t.
Proof.
  unfold no_bans. intros (B & Nb) [C St|C St|C St|C St|C St].
  - run_cases St; fields; split; assumption.
  - watch_cases St; fields; split; assumption.
  - ban_cases St; fields; try (split; assumption); try nb; try congruence.
  - close_cases St; fields; split; assumption.
  - env_cases St; fields; try (split; assumption).
    + split; [|assumption]. destruct (add_cases r a (y_pool s)) as [->|(_ & _ & _ & ->)]; assumption.
    + split; [assumption|]. intros c K. apply in_app_or in K. destruct K as [K|[K|[]]]; [exact (Nb c K)|discriminate K].
Qed.
Lemma no_bans_reach s : sys_steps (sys_start None) s -> no_bans s.
Proof. apply sys_ind'; [split; [reflexivity|intros a []]|exact no_bans_step]. Qed.

Lemma grows_step s t : no_bans s -> sys_step s t ->
  pl_table (y_pool t) = pl_table (y_pool s) \/
  (lenN (pl_table (y_pool s)) <= 10000 /\ exists kv, pl_table (y_pool t) = kv :: pl_table (y_pool s)).
Proof.
  intros (B & Nb) [C St|C St|C St|C St|C St].
  - left. run_cases St; fields; reflexivity.
  - left. watch_cases St; fields; reflexivity.
  - left. ban_cases St; fields; try reflexivity. exfalso. apply (Nb a). rewrite E. apply in_or_app. right. left. reflexivity.
  - left. close_cases St; fields; reflexivity.
  - env_cases St; fields; try (left; reflexivity).
    destruct (add_cases r a (y_pool s)) as [->|(_ & _ & L & ->)]; [left; reflexivity|]. right. split; [exact L|]. eexists. reflexivity.
Qed.
Lemma steps_no_bans s t : no_bans s -> sys_steps s t -> no_bans t.
Proof. intros N. apply (sys_ind' no_bans); [exact N|exact no_bans_step]. Qed.
Lemma permanent s t kv : sys_steps (sys_start None) s -> sys_steps s t -> In kv (pl_table (y_pool s)) -> In kv (pl_table (y_pool t)).
Proof.
  intros R St I. pose proof (no_bans_reach s R) as N. revert t St.
  assert (G : forall t, sys_steps s t -> no_bans t /\ In kv (pl_table (y_pool t))).
  { apply (sys_ind' (fun t => no_bans t /\ In kv (pl_table (y_pool t)))); [split; assumption|]. intros t u (Nt & It) Stp.
    split; [exact (no_bans_step t u Nt Stp)|]. destruct (grows_step t u Nt Stp) as [->|(_ & kv' & ->)]; [exact It|right; exact It]. }
  intros t St. exact (proj2 (G t St)).
Qed.
Lemma frozen s t : sys_steps (sys_start None) s -> 10000 < lenN (pl_table (y_pool s)) -> sys_steps s t ->
  pl_table (y_pool t) = pl_table (y_pool s).
Proof.
  intros R L. pose proof (no_bans_reach s R) as N. intro St.
  assert (G : no_bans t /\ pl_table (y_pool t) = pl_table (y_pool s)).
  { revert t St. apply (sys_ind' (fun t => no_bans t /\ pl_table (y_pool t) = pl_table (y_pool s))); [split; [assumption|reflexivity]|].
    intros t u (Nt & Et) Stp. split; [exact (no_bans_step t u Nt Stp)|].
    destruct (grows_step t u Nt Stp) as [->|(L' & _)]; [exact Et|]. rewrite Et in L'. lia. }
  exact (proj2 G).
Qed.

(** ** Dialled addresses are in the table *)
Definition found_pc (r : run_pc) : option (bytes * nat) :=
  match r with
  | RuLock a i | RuCheck a i | RuDial a i | RuVersion a i _ | RuRead a i _ | RuWrite a i _ _ | RuUpdate a i _ | RuFill a i _ | RuUp a i | RuGo a i | RuWatch a i => Some (a, i)
  | _ => None
  end.
Definition found_inv (s : sys) : Prop := no_bans s /\ forall kv, found_pc (y_run s) = Some kv -> In kv (pl_table (y_pool s)).
Lemma found_pc_step s t : sys_step s t -> forall kv, found_pc (y_run t) = Some kv -> found_pc (y_run s) = Some kv \/ In kv (pl_table (y_pool s)).
Proof.
  intros [C St|C St|C St|C St|C St].
  - run_cases St; fields; intros kv F; cbn [found_pc] in F; try discriminate F; rewrite Er; cbn [found_pc]; try (left; exact F).
    right. injection F as <-. apply lookup_in. exact K.
  - watch_cases St; fields; intros kv F; left; exact F.
  - ban_cases St; fields; intros kv F; left; exact F.
  - close_cases St; fields; intros kv F; left; exact F.
  - env_cases St; fields; intros kv F; left; exact F.
Qed.
Lemma found_reach s : sys_steps (sys_start None) s -> found_inv s.
Proof.
  apply sys_ind'; [split; [split; [reflexivity|intros a []]|intros kv F; discriminate F]|].
  intros t u (N & F) St. split; [exact (no_bans_step t u N St)|]. intros kv E.
  assert (I : In kv (pl_table (y_pool t))) by (destruct (found_pc_step t u St kv E) as [E'|I]; [exact (F kv E')|exact I]).
  destruct (grows_step t u N St) as [->|(_ & kv' & ->)]; [exact I|right; exact I].
Qed.
Lemma steps_trans s t u : sys_steps s t -> sys_steps t u -> sys_steps s u.
Proof. intros A B. induction B as [|t v u B IH St]; [exact A|]. exact (YsMore s v u (IH A) St). Qed.
Lemma eclipsed s t a i : sys_steps (sys_start None) s -> 10000 < lenN (pl_table (y_pool s)) -> sys_steps s t ->
  y_run t = RuDial a i -> In (a, i) (pl_table (y_pool s)).
Proof.
  intros R L St E. rewrite <- (frozen s t R L St). apply (proj2 (found_reach t (steps_trans _ _ _ R St))). now rewrite E.
Qed.

(** ** Filling it *)
Lemma full_add r a p : 10000 < lenN (pl_table p) -> pool_add r a p = p.
Proof. intro L. destruct (add_cases r a p) as [->|(_ & _ & Ln & _)]; [reflexivity|lia]. Qed.
Lemma full_adds l p : 10000 < lenN (pl_table p) -> adds l p = p.
Proof. intro L. induction l as [|c l IH]; [reflexivity|]. cbn [adds fold_left]. rewrite (full_add _ _ _ L). exact IH. Qed.
Lemma adds_proper l p : proper p -> proper (adds l p).
Proof. revert p. induction l as [|c l IH]; intros p H; [exact H|]. apply IH. apply add_ok. exact H. Qed.
Lemma add_keys r a p : incl (map fst (pl_table p)) (map fst (pl_table (pool_add r a p))).
Proof. destruct (add_cases r a p) as [->|(_ & _ & _ & ->)]; [intros b I; exact I|]. intros b I. right. exact I. Qed.
Lemma adds_keys l p : incl (map fst (pl_table p)) (map fst (pl_table (adds l p))).
Proof. revert p. induction l as [|c l IH]; intros p b I; [exact I|]. apply IH. apply add_keys. exact I. Qed.
Lemma add_in r a p : usable r -> 10000 < lenN (pl_table (pool_add r a p)) \/ In a (map fst (pl_table (pool_add r a p))).
Proof.
  intro U. destruct (in_dec (list_eq_dec byte_eq_dec) a (map fst (pl_table p))) as [I|I]; [right; apply add_keys; exact I|].
  destruct (N.le_gt_cases (lenN (pl_table p)) 10000) as [L|L].
  - right. rewrite (add_new r a p U I L). left. reflexivity.
  - left. now rewrite (full_add r a p L).
Qed.
Lemma longer p q : proper p -> incl (map fst (pl_table p)) (map fst (pl_table q)) -> lenN (pl_table p) <= lenN (pl_table q).
Proof.
  intros (N & _) I. pose proof (NoDup_incl_length N I) as L. rewrite !map_length in L. unfold lenN. lia.
Qed.
(** Full, or every one of these addresses is in. *)
Definition full_or (l : list bytes) (p : pool) : Prop := 10000 < lenN (pl_table p) \/ incl l (map fst (pl_table p)).
Lemma full_or_more l p q : proper p -> incl (map fst (pl_table p)) (map fst (pl_table q)) -> full_or l p -> full_or l q.
Proof.
  intros P I [L|L]; [left; pose proof (longer p q P I); lia|right; intros b Ib; apply I, L, Ib].
Qed.
Lemma adds_full_or l p : proper p -> Forall (fun c => usable (fst c)) l -> full_or (map snd l) (adds l p).
Proof.
  revert p. induction l as [|c l IH]; intros p P U; [right; intros b []|]. inversion U as [|? ? Uc Ul]; subst.
  assert (Pc : proper (pool_add (fst c) (snd c) p)) by (apply add_ok; exact P).
  destruct (IH _ Pc Ul) as [L|L]; [left; exact L|]. destruct (add_in (fst c) (snd c) p Uc) as [F|I].
  - left. cbn [adds fold_left]. fold (adds l (pool_add (fst c) (snd c) p)). rewrite (full_adds l _ F). exact F.
  - right. intros b [<-|Ib]; [|exact (L b Ib)]. apply (adds_keys l). exact I.
Qed.

Lemma same_ip a b : List.length (ip a) = 4%nat -> List.length (ip b) = 4%nat -> same_endpoint a b -> a = b.
Proof.
  intros A B (E & P). destruct a as [ia pa], b as [ib pb]. cbn [ip port] in *. subst pb. f_equal.
  unfold as16 in E. rewrite A, B in E. cbn [Nat.eqb] in E. now apply app_inv_head, app_inv_head in E.
Qed.
Lemma made_up_usable r a : made_up a -> same_endpoint r a -> usable (Some r).
Proof.
  intros (L & M & P) (E & Ep). exists r. split; [reflexivity|]. split; [|lia].
  destruct (ip a) as [|b [|b1 [|b2 [|b3 [|]]]]] eqn:Ea; try discriminate L. specialize (M b _ eq_refl).
  assert (R : ip r = [b; b1; b2; b3] \/ ip r = brepeat x00 10 ++ [xff; xff] ++ [b; b1; b2; b3]).
  { unfold as16 in E. cbn [List.length Nat.eqb] in E. destruct (List.length (ip r) =? 4)%nat; [left; now apply app_inv_head, app_inv_head in E|right; exact E]. }
  intros [(c & rest & [(F & Fl)|(F & Fl)] & C)|(Fl & rest & F)].
  - destruct R as [R|R]; rewrite R in F; [injection F as <- _; lia|]. rewrite <- F in Fl. discriminate Fl.
  - destruct R as [R|R]; rewrite R in F; [discriminate F|]. apply app_inv_head, app_inv_head in F. injection F as <- _. lia.
  - destruct R as [R|R]; rewrite R in F; [rewrite R in Fl; discriminate Fl|discriminate F].
Qed.
Lemma written_names string resolve : names string resolve -> forall l, Forall made_up l -> NoDup l -> NoDup (map string l).
Proof.
  intro H. assert (Inj : forall a b, made_up a -> made_up b -> string a = string b -> a = b).
  { intros a b (La & _ & Pa) (Lb & _ & Pb) E. destruct (H a La) as (r & R & Sa); [unfold port_ok; lia|].
    destruct (H b Lb) as (r' & R' & Sb); [unfold port_ok; lia|]. rewrite E, R' in R. injection R as <-.
    apply same_ip; auto. destruct Sa as (A1 & A2), Sb as (B1 & B2). split; congruence. }
  induction l as [|a l IH]; intros F N; [constructor|]. inversion F; subst. inversion N as [|? ? Na Nl]; subst. cbn [map]. constructor; [|auto].
  intro I. apply in_map_iff in I. destruct I as (b & E & I). apply Na. rewrite Forall_forall in *. rewrite (Inj a b); auto.
Qed.

Section Flood.
Context (X : Ext) (S : storage X) (lenient : bool) (w : around).
Hypothesis Nm : forall i, names (x_string (ar_context w i)) (x_resolve (ar_context w i)).
Hypothesis Same : forall i a, x_string (ar_context w i) a = x_string (ar_context w 0) a.
Hypothesis Me : forall i, x_me (ar_context w i) = x_me (ar_context w 0).
Hypothesis Kp : forall i, keeping (ar_pool w i).
Notation str := (x_string (ar_context w 0)).

Lemma filled ls : forall i done (n : node X S), proper (nd_pool n) -> In (x_me (ar_context w 0)) (map fst (pl_table (nd_pool n))) ->
  Forall made_up (concat ls) -> full_or done (nd_pool n) ->
  exists n', handled w i n (map MPeerAddrs ls) [] n' /\ proper (nd_pool n') /\ full_or (done ++ map str (concat ls)) (nd_pool n').
Proof.
  induction ls as [|l ls IH]; intros i done n P I F D.
  - exists n. cbn [map handled concat]. rewrite app_nil_r. repeat split; auto; apply P.
  - cbn [concat] in F. apply Forall_app in F. destruct F as (Fl & Fs). destruct (Kp i _ P) as (Pm & Km). fold (met w i n) in *.
    set (calls := map (fun a => (x_resolve (ar_context w i) (x_string (ar_context w i) a), x_string (ar_context w i) a)) l).
    set (p1 := adds calls (ar_pool w i (nd_pool n))).
    assert (U : Forall (fun c => usable (fst c)) calls).
    { apply Forall_forall. intros c Ic. apply in_map_iff in Ic. destruct Ic as (a & <- & Ia). cbn [fst]. rewrite Forall_forall in Fl. specialize (Fl a Ia).
      destruct (Nm i a) as (r & -> & Sr); [apply Fl|destruct Fl as (_ & _ & Fp); unfold port_ok; lia|]. exact (made_up_usable r a Fl Sr). }
    assert (P1 : proper p1) by (apply adds_proper; exact Pm).
    assert (K1 : incl (map fst (pl_table (nd_pool n))) (map fst (pl_table p1))) by (intros b Ib; apply (adds_keys calls), Km, Ib).
    assert (F1 : full_or (done ++ map str l) p1).
    { destruct (full_or_more done _ p1 P K1 D) as [L|L]; [left; exact L|].
      destruct (adds_full_or calls _ Pm U) as [L'|L']; [left; exact L'|]. right. intros b Ib. apply in_app_or in Ib. destruct Ib as [Ib|Ib]; [exact (L b Ib)|].
      apply L'. unfold calls. rewrite map_map. cbn [snd]. apply in_map_iff in Ib. destruct Ib as (a & <- & Ia). apply in_map_iff. exists a. split; [apply Same|exact Ia]. }
    destruct (IH (Datatypes.S i) (done ++ map str l) (Node (nd_chain n) p1 (nd_mempool n)) P1 (K1 _ I) Fs F1) as (n' & H & Pn & Fn).
    exists n'. split; [|split; [exact Pn|]].
    + cbn [map handled]. exists [].
      assert (Eo : process_message (ar_context w i) (met w i n) (MPeerAddrs l) = Outcome HDone (Node (nd_chain n) p1 (nd_mempool n)) [] []).
      { unfold process_message. destruct (peer_info _ _) as [j|] eqn:Ej.
        - unfold p1, calls, adds, met, with_pool. cbn [nd_pool nd_chain nd_mempool].
          f_equal. f_equal. generalize (ar_pool w i (nd_pool n)). clear. induction l as [|a l IH]; intro q; [reflexivity|]. cbn [map fold_left fst snd]. apply IH.
        - exfalso. unfold peer_info in Ej. apply lookup_none in Ej. apply Ej. unfold met, with_pool. cbn [nd_pool]. rewrite Me. apply Km. exact I. }
      rewrite Eo. cbn [o_end o_answers o_node app]. repeat split; auto.
    + cbn [concat]. rewrite map_app, app_assoc. exact Fn.
Qed.

Lemma addr4_rt a b rest : made_up a -> addr_bytes a = Ok b -> lenN b = 7 /\ addr_read lenient (b ++ rest) = Ok (a, rest).
Proof.
  intros (L & _ & P) E. unfold addr_bytes, to4 in E. replace (lenN (ip a) =? 4) with true in E by (unfold lenN; now rewrite L).
  replace (lenN (ip a) =? 4) with true in E by (unfold lenN; now rewrite L). cbn [rbind] in E. apply Ok_inj in E. subst b.
  assert (M : (port a mod 65536)%Z = port a) by (apply Z.mod_small; lia). rewrite M.
  split; [unfold lenN; rewrite app_length, be_length; cbn [List.length]; rewrite L; reflexivity|].
  rewrite <- app_assoc. unfold addr_read. eapply step; [change (x00 :: ip a) with (be 1 0 ++ ip a); rewrite <- app_assoc; apply (read_be_app 1); reflexivity|].
  cbn [N.eqb]. eapply step; [apply read_full_app'; unfold lenN; now rewrite L|]. eapply step; [apply (read_be_app 2); change (256 ^ N.of_nat 2) with 65536; lia|].
  unfold rret. rewrite Z2N.id by lia. now destruct a.
Qed.
Lemma addrs4_rt l : forall b rest, Forall made_up l -> addrs_bytes l = Ok b ->
  lenN b = 7 * lenN l /\ read_n (List.length l) (addr_read lenient) (b ++ rest) = Ok (l, rest).
Proof.
  induction l as [|a l IH]; intros b rest F E; [apply Ok_inj in E; subst b; split; reflexivity|]. inversion F as [|? ? Fa Fl]; subst.
  cbn [addrs_bytes] in E. destruct (addr_bytes a) as [x|?| |] eqn:Ea; try discriminate E. cbn [rbind] in E.
  destruct (addrs_bytes l) as [y|?| |] eqn:El; try discriminate E. cbn [rbind] in E. apply Ok_inj in E. subst b.
  destruct (addr4_rt a x (y ++ rest) Fa Ea) as (La & Ra). destruct (IH y rest Fl eq_refl) as (Ly & Ry). split.
  - rewrite lenN_app, La, Ly. unfold lenN. cbn [List.length]. lia.
  - rewrite <- app_assoc. cbn [List.length read_n]. eapply step; [exact Ra|]. eapply step; [exact Ry|]. reflexivity.
Qed.
Lemma framed ls encs : Forall2 (fun l e => exists k, write_message X (MPeerAddrs l) = Ok (e, k)) ls encs -> Forall made_up (concat ls) ->
  exists fs, concat encs = flat_map whole fs /\ Forall frame_ok fs /\ List.length fs = List.length ls /\
    Forall2 (fun f m => decode_frame X lenient (fst f) (snd f) = Ok (Some m)) fs (map MPeerAddrs ls).
Proof.
  induction 1 as [|l e ls encs (k & W) _ IH]; intro F; [exists []; repeat split; constructor|].
  cbn [concat] in F. apply Forall_app in F. destruct F as (Fl & Fs). destruct (IH Fs) as (fs & E & Fo & Ln & D). clear IH.
  unfold write_message in W. cbn [msg_bytes] in W. destruct (peer_addrs_bytes l) as [d|?| |] eqn:Ed; try discriminate W. cbn [rbind] in W.
  apply Ok_inj in W. assert (E1 := f_equal fst W). cbn [fst] in E1. subst e. clear W.
  unfold peer_addrs_bytes, max_peer_addrs in Ed. destruct (256 <? lenN l) eqn:L; [discriminate Ed|]. apply N.ltb_ge in L.
  destruct (addrs_bytes l) as [y|?| |] eqn:El; try discriminate Ed. cbn [rbind] in Ed. apply Ok_inj in Ed. subst d.
  exists ((6, be 4 (lenN l) ++ y) :: fs). split; [|split; [|split]].
  - cbn [concat flat_map]. rewrite E. reflexivity.
  - constructor; [|exact Fo]. split; [reflexivity|]. cbn [snd]. destruct (addrs4_rt l y [] Fl El) as (Ly & _).
    rewrite lenN_app, Ly. unfold lenN at 1. rewrite be_length. lia.
  - cbn [List.length]. now rewrite Ln.
  - cbn [map]. constructor; [|exact D]. cbn [fst snd]. apply decode_addrs. intro rest. rewrite <- app_assoc. unfold peer_addrs_read, max_peer_addrs.
    eapply step; [apply (read_be_app 4); change (256 ^ N.of_nat 4) with (2 ^ 32); lia|].
    replace (256 <? lenN l) with false by (symmetry; apply N.ltb_ge; exact L). unfold lenN. rewrite Nat2N.id. exact (proj2 (addrs4_rt l y rest Fl El)).
Qed.
Lemma flooded fuel p (n : node X S) chunks encs ls : pe_sync p = true -> Forall (fun c : bytes => c <> []) chunks ->
  Forall2 (fun l e => exists k, write_message X (MPeerAddrs l) = Ok (e, k)) ls encs -> concat chunks = concat encs ->
  Forall made_up (concat ls) -> NoDup (concat ls) -> 10000 < lenN (concat ls) ->
  proper (nd_pool n) -> In (x_me (ar_context w 0)) (map fst (pl_table (nd_pool n))) -> (List.length ls < fuel)%nat ->
  let r := run_peer lenient w fuel p n chunks in
  10000 < lenN (pl_table (nd_pool (sv_node r))) /\ proper (nd_pool (sv_node r)) /\ sv_stop r = Leave (Failed EOF).
Proof.
  intros Hs Fc W E F N L P I Fu. cbv zeta. destruct (framed ls encs W F) as (fs & Ef & Fo & Ln & D).
  destruct (filled ls 0 [] n P I F) as (n' & H & Pn & Fn); [right; intros b []|].
  destruct (run_all X S lenient w fs (map MPeerAddrs ls) fuel p n chunks [] n' Hs Fc (eq_trans E Ef) Fo D H) as (R1 & R2 & R3); [lia|].
  rewrite R1, R3. split; [|split; [exact Pn|reflexivity]]. destruct Fn as [Fn|Fn]; [exact Fn|].
  pose proof (NoDup_incl_length (written_names _ _ (Nm 0%nat) _ F N) Fn) as Lm. rewrite !map_length in Lm. unfold lenN in *. lia.
Qed.
End Flood.
