(** Proof-of-work verification (Cuckoo and Cuckaroo) against the specification. *)
From Coq Require Import Permutation Sorted.
From Verif Require Import Cuckoo SpecPow SipProofs CycleProofs.

Lemma build_edges_some ok mk prev ns es :
  build_edges ok mk prev ns = Some es ->
  es = map mk ns /\ Forall (fun n => ok n = true) ns /\ StronglySorted N.lt ns /\
  (forall p, prev = Some p -> Forall (N.lt p) ns).
Proof.
  revert prev es; induction ns as [|n t IH]; intros prev es H; cbn [build_edges] in H.
  - injection H as <-. repeat split; constructor.
  - destruct (ok n) eqn:Eo; [|discriminate]. cbn [negb orb] in H.
    destruct (match prev with Some p => n <=? p | None => false end) eqn:Ep; [discriminate|].
    destruct (build_edges ok mk (Some n) t) as [es'|] eqn:Et; [|discriminate].
    injection H as <-. destruct (IH _ _ Et) as (-> & F & S & P).
    repeat split.
    + now constructor.
    + constructor; [exact S|]. now apply P.
    + intros p ->. apply N.leb_gt in Ep. constructor; [exact Ep|].
      specialize (P n eq_refl). eapply Forall_impl; [|exact P]. intros a Ha. cbn in Ha. lia.
Qed.

Lemma build_edges_ok ok mk prev ns :
  Forall (fun n => ok n = true) ns -> StronglySorted N.lt ns ->
  (forall p, prev = Some p -> Forall (N.lt p) ns) ->
  build_edges ok mk prev ns = Some (map mk ns).
Proof.
  revert prev; induction ns as [|n t IH]; intros prev F S P; cbn [build_edges map]; [reflexivity|].
  inversion F as [|? ? F1 F2]; inversion S as [|? ? S1 S2]; subst.
  rewrite F1. cbn [negb orb].
  assert (E : match prev with Some p => n <=? p | None => false end = false).
  { destruct prev as [p|]; [|reflexivity]. apply N.leb_gt. specialize (P p eq_refl). now inversion P. }
  rewrite E, IH; auto. intros p [= <-]. exact S2.
Qed.

Lemma fresh_map (mk : N -> edge) ns : (forall n, usedU (mk n) = false /\ usedV (mk n) = false) -> fresh (map mk ns).
Proof.
  intros H s k Hk. unfold at_. rewrite map_length in Hk.
  rewrite (nth_indep _ dfl (mk 0)) by (now rewrite map_length). rewrite map_nth.
  destruct (H (nth k ns 0)). now destruct s.
Qed.

Lemma cycle_is_true es k : cycle_is es k = true <-> find_cycle_length es = Some k.
Proof.
  unfold cycle_is. destruct (find_cycle_length es) as [c|]; [|split; discriminate].
  rewrite Nat.eqb_eq. split; congruence.
Qed.

(** ** Cuckaroo *)

Lemma cuckaroo_mask_eq eb : cuckaroo_mask eb = 2 ^ N.min eb 64 - 1.
Proof.
  unfold cuckaroo_mask, shl64. rewrite !w64_mod, N.shiftl_mul_pow2, N.mul_1_l.
  destruct (N.lt_ge_cases eb 64) as [H|H].
  - rewrite N.min_l by lia. assert (P : 2 ^ eb <= 2 ^ 63) by (apply N.pow_le_mono_r; lia).
    pose proof (N.pow_nonzero 2 eb ltac:(lia)).
    rewrite (N.mod_small (2 ^ eb)) by (eapply N.le_lt_trans; [exact P|reflexivity]).
    replace (2 ^ eb + (2 ^ 64 - 1)) with (2 ^ eb - 1 + 1 * 2 ^ 64) by lia.
    rewrite N.mod_add, N.mod_small by lia. reflexivity.
  - rewrite N.min_r by lia.
    replace (2 ^ eb mod 2 ^ 64) with 0; [reflexivity|].
    replace eb with (eb - 64 + 64) by lia. rewrite N.pow_add_r, N.mod_mul by lia. reflexivity.
Qed.

Lemma cuckaroo_range eb n : is_u64 n -> n <=? cuckaroo_mask eb = true <-> n < 2 ^ eb.
Proof.
  intro Hn. unfold is_u64 in Hn. rewrite cuckaroo_mask_eq.
  pose proof (N.pow_nonzero 2 (N.min eb 64) ltac:(lia)).
  rewrite N.leb_le. destruct (N.lt_ge_cases eb 64) as [H'|H'].
  - rewrite N.min_l in * by lia. lia.
  - rewrite N.min_r in * by lia. assert (2 ^ 64 <= 2 ^ eb) by (apply N.pow_le_mono_r; lia). lia.
Qed.

Lemma land_mask e eb : e < 2 ^ 64 -> N.land e (cuckaroo_mask eb) = e mod 2 ^ eb.
Proof.
  intro He. rewrite cuckaroo_mask_eq. replace (2 ^ N.min eb 64 - 1) with (N.ones (N.min eb 64)).
  2:{ rewrite N.ones_equiv. lia. }
  rewrite N.land_ones. destruct (N.lt_ge_cases eb 64) as [H|H].
  - now rewrite N.min_l by lia.
  - rewrite N.min_r by lia. assert (2 ^ 64 <= 2 ^ eb) by (apply N.pow_le_mono_r; lia).
    rewrite !N.mod_small by lia. reflexivity.
Qed.

Lemma cuckaroo_edge_ends v eb n : sip_wf v -> is_u32 n ->
  ends (cuckaroo_edge v (cuckaroo_mask eb) n) = cuckaroo_ends (words_of v) eb n.
Proof.
  intros Hv Hn. unfold is_u32 in Hn. destruct (siphash_block_eq v n Hv) as [E L]; [lia|].
  unfold ends, cuckaroo_edge, new_edge, cuckaroo_ends. cbn [eU eV].
  rewrite <- E, !land_mask; [|now apply shr64_lt|exact L].
  unfold shr64. now rewrite N.shiftr_div_pow2.
Qed.

Lemma cuckaroo_ends_map v eb ns : sip_wf v -> Forall is_u32 ns ->
  map ends (map (cuckaroo_edge v (cuckaroo_mask eb)) ns) = map (cuckaroo_ends (words_of v) eb) ns.
Proof.
  intros Hv Hn. rewrite map_map. apply map_ext_in. intros n Hin.
  apply cuckaroo_edge_ends; [exact Hv|]. rewrite Forall_forall in Hn. now apply Hn.
Qed.

Lemma cuckaroo_verify_unfold v ns eb : Forall is_u32 ns ->
  cuckaroo_verify v ns eb = true <->
  valid_nonces (2 ^ eb) ns /\
  find_cycle_length (map (cuckaroo_edge v (cuckaroo_mask eb)) ns) = Some (List.length ns).
Proof.
  intro Hu. unfold cuckaroo_verify, valid_nonces.
  assert (Fiff : Forall (fun n => (n <=? cuckaroo_mask eb) = true) ns <-> Forall (fun n => n < 2 ^ eb) ns).
  { rewrite !Forall_forall in *. split; intros H x Hx; specialize (H x Hx);
      assert (U : is_u64 x) by (specialize (Hu x Hx); unfold is_u32, is_u64 in *; lia);
      now apply (cuckaroo_range eb x U). }
  assert (G : (match build_edges (fun n => n <=? cuckaroo_mask eb) (cuckaroo_edge v (cuckaroo_mask eb)) None ns with
          | Some es => cycle_is es (List.length ns) | None => false end) = true <->
          (StronglySorted N.lt ns /\ Forall (fun n => n < 2 ^ eb) ns) /\
          find_cycle_length (map (cuckaroo_edge v (cuckaroo_mask eb)) ns) = Some (List.length ns)).
  { split.
    - destruct (build_edges _ _ _ _) as [es|] eqn:E; [|discriminate].
      apply build_edges_some in E as (-> & F & S & _). intro H. apply cycle_is_true in H. tauto.
    - intros [[S F] H]. apply Fiff in F.
      rewrite (build_edges_ok _ _ None ns F S) by discriminate. now apply cycle_is_true. }
  destruct ns as [|a t].
  - split; [discriminate|]. intros [[N _] _]. congruence.
  - rewrite G. split; [intros [H1 H2]|intros [(_ & H1) H2]]; split; auto; split; auto; discriminate.
Qed.

Lemma cuckaroo_nonces v ns eb : Forall is_u32 ns ->
  cuckaroo_verify v ns eb = true -> valid_nonces (2 ^ eb) ns.
Proof. intros Hu H. now apply (cuckaroo_verify_unfold v ns eb Hu) in H. Qed.

Lemma cuckaroo_complete v ns eb : sip_wf v -> Forall is_u32 ns -> valid_nonces (2 ^ eb) ns ->
  simple_cycle (map (cuckaroo_ends (words_of v) eb) ns) -> cuckaroo_verify v ns eb = true.
Proof.
  intros Hv Hu Hval Hc. apply (cuckaroo_verify_unfold v ns eb Hu). split; [exact Hval|].
  rewrite <- (map_length (cuckaroo_edge v (cuckaroo_mask eb)) ns).
  apply cycle_complete; [apply fresh_map; now split|]. now rewrite cuckaroo_ends_map.
Qed.
(** The same, for the key that a digest gives. *)
Lemma cuckaroo_digest_complete d ns eb : Forall is_u32 ns -> valid_nonces (2 ^ eb) ns ->
  simple_cycle (map (cuckaroo_ends (key_words d) eb) ns) -> cuckaroo_verify (new_cuckaroo d) ns eb = true.
Proof. rewrite <- keys_words. intros Hu Hv H. apply cuckaroo_complete; [apply sip_keys_wf|exact Hu|exact Hv|exact H]. Qed.

Lemma cuckaroo_sound v ns eb : sip_wf v -> Forall is_u32 ns ->
  max_degree_2 (map (cuckaroo_ends (words_of v) eb) ns) ->
  cuckaroo_verify v ns eb = true -> simple_cycle (map (cuckaroo_ends (words_of v) eb) ns).
Proof.
  intros Hv Hu Hd H. apply (cuckaroo_verify_unfold v ns eb Hu) in H as [[Hne _] H].
  rewrite <- cuckaroo_ends_map in * by assumption. apply cycle_sound.
  - apply fresh_map. now split.
  - destruct ns; [congruence|discriminate].
  - exact Hd.
  - now rewrite map_length.
Qed.

(** ** Cuckoo *)

Lemma cuckoo_mask_eq b sh : 1 <= sh <= 63 -> ck_mask (cuckoo_new b sh) = N.ones (sh - 1) /\
  ck_size (cuckoo_new b sh) = 2 ^ sh.
Proof.
  intro H. unfold cuckoo_new, shl64. cbn [ck_mask ck_size].
  rewrite N.shiftl_mul_pow2, N.mul_1_l.
  assert (P : 2 ^ sh <= 2 ^ 63) by (apply N.pow_le_mono_r; lia).
  rewrite (w64_small (2 ^ sh)) by (eapply N.le_lt_trans; [exact P|reflexivity]).
  split; [|reflexivity].
  assert (E : 2 ^ sh / 2 = 2 ^ (sh - 1)).
  { replace sh with (N.succ (sh - 1)) at 1 by lia. rewrite N.pow_succ_r', N.mul_comm, N.div_mul; lia. }
  rewrite E, w64_mod. pose proof (N.pow_nonzero 2 (sh - 1) ltac:(lia)).
  assert (2 ^ (sh - 1) <= 2 ^ 63) by (apply N.pow_le_mono_r; lia).
  replace (2 ^ (sh - 1) + (2 ^ 64 - 1)) with (2 ^ (sh - 1) - 1 + 1 * 2 ^ 64) by lia.
  rewrite N.mod_add, N.mod_small, N.ones_equiv by lia. lia.
Qed.

Lemma cuckoo_node_eq b sh n i : 1 <= sh <= 63 -> is_u32 n -> i <= 1 ->
  cuckoo_node (cuckoo_new b sh) n i =
  2 * (siphash_2_4 (key_words b) (2 * n + i) mod 2 ^ (sh - 1)) + i.
Proof.
  intros Hs Hn Hi. unfold is_u32 in Hn. unfold cuckoo_node.
  change (ck_v (cuckoo_new b sh)) with (sip_keys b).
  replace (add64 (w64 (2 * n)) i) with (2 * n + i)
    by (unfold add64; rewrite (w64_small (2 * n)) by lia; rewrite w64_small; lia).
  rewrite (proj1 (siphash24_eq (sip_keys b) (2 * n + i) (sip_keys_wf b) ltac:(unfold is_u64; lia))), keys_words.
  rewrite (proj1 (cuckoo_mask_eq b sh Hs)), N.land_ones.
  set (h := _ mod _).
  assert (Hh : h < 2 ^ 63).
  { eapply N.lt_le_trans; [apply N.mod_lt, N.pow_nonzero; lia|]. apply N.pow_le_mono_r; lia. }
  unfold shl64. rewrite N.shiftl_mul_pow2. change (2 ^ 1) with 2.
  rewrite w64_small by lia. rewrite N.mul_comm.
  assert (Hz : i = 0 \/ i = 1) by lia. destruct Hz as [-> | ->].
  - now rewrite N.lor_0_r, N.add_0_r.
  - destruct h; reflexivity.
Qed.

Lemma cuckoo_edge_ends b sh n : 1 <= sh <= 63 -> is_u32 n ->
  ends (cuckoo_edge (cuckoo_new b sh) n) = cuckoo_ends (key_words b) sh n.
Proof.
  intros Hs Hn. unfold ends, cuckoo_edge, new_edge, cuckoo_ends. cbn [eU eV].
  rewrite !cuckoo_node_eq by (assumption || lia). now rewrite !N.add_0_r.
Qed.

(** The bound the older variant puts on nonces: easiness percent of the vertices (wrapping). *)
Definition easiness_of (ease sh : N) : N := (ease * 2 ^ sh) mod 2 ^ 64 / 100.

Lemma cuckoo_verify_unfold b sh ns ease : 1 <= sh <= 63 ->
  cuckoo_verify (cuckoo_new b sh) ns ease = true <->
  valid_nonces (easiness_of ease sh) ns /\
  find_cycle_length (map (cuckoo_edge (cuckoo_new b sh)) ns) = Some (List.length ns).
Proof.
  intro Hs. unfold cuckoo_verify, valid_nonces.
  rewrite (proj2 (cuckoo_mask_eq b sh Hs)), w64_mod. fold (easiness_of ease sh).
  set (eas := easiness_of ease sh).
  assert (Fiff : Forall (fun n => (n <? eas) = true) ns <-> Forall (fun n => n < eas) ns).
  { rewrite !Forall_forall. split; intros H x Hx; apply N.ltb_lt; auto. }
  assert (G : (match build_edges (fun n => n <? eas) (cuckoo_edge (cuckoo_new b sh)) None ns with
          | Some es => cycle_is es (List.length ns) | None => false end) = true <->
          (StronglySorted N.lt ns /\ Forall (fun n => n < eas) ns) /\
          find_cycle_length (map (cuckoo_edge (cuckoo_new b sh)) ns) = Some (List.length ns)).
  { split.
    - destruct (build_edges _ _ _ _) as [es|] eqn:E; [|discriminate].
      apply build_edges_some in E as (-> & F & S & _). intro H. apply cycle_is_true in H. tauto.
    - intros [[S F] H]. apply Fiff in F.
      rewrite (build_edges_ok _ _ None ns F S) by discriminate. now apply cycle_is_true. }
  destruct ns as [|a t].
  - split; [discriminate|]. intros [[N _] _]. congruence.
  - rewrite G. split; [intros [H1 H2]|intros [(_ & H1) H2]]; split; auto; split; auto; discriminate.
Qed.

Lemma cuckoo_ends_map b sh ns : 1 <= sh <= 63 -> Forall is_u32 ns ->
  map ends (map (cuckoo_edge (cuckoo_new b sh)) ns) = map (cuckoo_ends (key_words b) sh) ns.
Proof.
  intros Hs Hn. rewrite map_map. apply map_ext_in. intros n Hin.
  apply cuckoo_edge_ends; [exact Hs|]. rewrite Forall_forall in Hn. now apply Hn.
Qed.

Lemma cuckoo_complete b sh ns ease : 1 <= sh <= 63 -> Forall is_u32 ns ->
  valid_nonces (easiness_of ease sh) ns ->
  simple_cycle (map (cuckoo_ends (key_words b) sh) ns) ->
  cuckoo_verify (cuckoo_new b sh) ns ease = true.
Proof.
  intros Hs Hu Hval Hc. apply (cuckoo_verify_unfold b sh ns ease Hs). split; [exact Hval|].
  rewrite <- (map_length (cuckoo_edge (cuckoo_new b sh)) ns).
  apply cycle_complete; [apply fresh_map; now split|]. now rewrite cuckoo_ends_map.
Qed.

Lemma cuckoo_sound b sh ns ease : 1 <= sh <= 63 -> Forall is_u32 ns ->
  max_degree_2 (map (cuckoo_ends (key_words b) sh) ns) ->
  cuckoo_verify (cuckoo_new b sh) ns ease = true ->
  simple_cycle (map (cuckoo_ends (key_words b) sh) ns).
Proof.
  intros Hs Hu Hd H. apply (cuckoo_verify_unfold b sh ns ease Hs) in H as [[Hne _] H].
  rewrite <- cuckoo_ends_map in * by assumption. apply cycle_sound.
  - apply fresh_map. now split.
  - destruct ns; [congruence|discriminate].
  - exact Hd.
  - now rewrite map_length.
Qed.

(** ** Ranges of the end points *)

Lemma cuckaroo_ends_range key eb n :
  fst (cuckaroo_ends key eb n) < 2 ^ eb /\ snd (cuckaroo_ends key eb n) < 2 ^ eb.
Proof.
  unfold cuckaroo_ends. generalize (siphash_blocked key n) as h. intro h. cbn [fst snd].
  split; apply N.mod_lt, N.pow_nonzero; lia.
Qed.

Lemma cuckaroo_edge_range v eb n : sip_wf v -> is_u32 n ->
  let e := cuckaroo_edge v (cuckaroo_mask eb) n in eU e < 2 ^ eb /\ eV e < 2 ^ eb.
Proof.
  intros Hv Hn. pose proof (cuckaroo_edge_ends v eb n Hv Hn) as E.
  pose proof (cuckaroo_ends_range (words_of v) eb n) as R. rewrite <- E in R. unfold ends in R. cbn [fst snd] in R. exact R.
Qed.

Lemma cuckoo_ends_range key sh n : 1 <= sh ->
  fst (cuckoo_ends key sh n) < 2 ^ sh /\ N.even (fst (cuckoo_ends key sh n)) = true /\
  snd (cuckoo_ends key sh n) < 2 ^ sh /\ N.odd (snd (cuckoo_ends key sh n)) = true.
Proof.
  intro Hs. unfold cuckoo_ends.
  generalize (siphash_2_4 key (2 * n)) as h1, (siphash_2_4 key (2 * n + 1)) as h2. intros h1 h2.
  cbn [fst snd].
  assert (P : 2 ^ sh = 2 * 2 ^ (sh - 1)).
  { replace sh with (N.succ (sh - 1)) at 1 by lia. now rewrite N.pow_succ_r'. }
  pose proof (N.pow_nonzero 2 (sh - 1) ltac:(lia)) as Hz.
  pose proof (N.mod_lt h1 _ Hz). pose proof (N.mod_lt h2 _ Hz).
  split; [lia|]. split; [now rewrite N.even_mul|]. split; [lia|].
  now rewrite N.add_comm, N.odd_add_mul_2.
Qed.

Lemma ends_transfer (P : N -> N -> Prop) e p : ends e = p -> P (fst p) (snd p) -> P (eU e) (eV e).
Proof. now intros <-. Qed.

Lemma cuckoo_edge_range b sh n : 1 <= sh <= 63 -> is_u32 n ->
  let e := cuckoo_edge (cuckoo_new b sh) n in
  eU e < 2 ^ sh /\ N.even (eU e) = true /\ eV e < 2 ^ sh /\ N.odd (eV e) = true.
Proof.
  intros Hs Hn e.
  exact (ends_transfer (fun u v => u < 2 ^ sh /\ N.even u = true /\ v < 2 ^ sh /\ N.odd v = true) e _
           (cuckoo_edge_ends b sh n Hs Hn) (cuckoo_ends_range _ sh n (proj1 Hs))).
Qed.
