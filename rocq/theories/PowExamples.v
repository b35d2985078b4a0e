(** Concrete proofs of work: non-vacuity cases and counterexamples. *)
From Coq Require Import Permutation Sorted.
From Verif Require Import Cuckoo SpecPow SipProofs CycleProofs PowProofs.

(** Checking a permutation of pairs by computation. *)
Definition pair_eqb (a b : N * N) : bool := (fst a =? fst b) && (snd a =? snd b).
Fixpoint remove1 (a : N * N) (l : list (N * N)) : option (list (N * N)) :=
  match l with
  | [] => None
  | b :: t => if pair_eqb a b then Some t
              else match remove1 a t with Some t' => Some (b :: t') | None => None end
  end.
Fixpoint perm_check (l m : list (N * N)) : bool :=
  match l with
  | [] => match m with [] => true | _ => false end
  | a :: l' => match remove1 a m with Some m' => perm_check l' m' | None => false end
  end.
Lemma remove1_perm a l l' : remove1 a l = Some l' -> Permutation (a :: l') l.
Proof.
  revert l'; induction l as [|b t IH]; intros l' H; cbn in H; [discriminate|].
  destruct (pair_eqb a b) eqn:E.
  - injection H as <-. unfold pair_eqb in E. apply andb_true_iff in E as [E1 E2].
    apply N.eqb_eq in E1, E2. destruct a, b. cbn in *. now subst.
  - destruct (remove1 a t) as [t'|]; [|discriminate]. injection H as <-.
    rewrite perm_swap. apply perm_skip. now apply IH.
Qed.
Lemma perm_check_sound l m : perm_check l m = true -> Permutation l m.
Proof.
  revert m; induction l as [|a l IH]; intros m H; cbn in H.
  - destruct m; [constructor|discriminate].
  - destruct (remove1 a m) as [m'|] eqn:E; [|discriminate].
    rewrite <- (remove1_perm _ _ _ E). apply perm_skip. now apply IH.
Qed.

(** Checking strict increase and bounds by computation. *)
Fixpoint increasing (l : list N) : bool :=
  match l with a :: (b :: _) as t => (a <? b) && increasing t | _ => true end.
Lemma increasing_sound l : increasing l = true -> StronglySorted N.lt l.
Proof.
  intro H. apply Sorted_StronglySorted; [intros x y z; apply N.lt_trans|].
  induction l as [|a t IH]; [constructor|]. destruct t as [|b t]; [repeat constructor|].
  cbn in H. apply andb_true_iff in H as [H1 H2]. constructor; [now apply IH|]. constructor. now apply N.ltb_lt.
Qed.
Lemma below_sound b l : forallb (fun n => n <? b) l = true -> Forall (fun n => n < b) l.
Proof. rewrite forallb_forall, Forall_forall. intros H x Hx. apply N.ltb_lt, H, Hx. Qed.

Lemma max_degree_check es :
  forallb (fun e => (degL es (fst e) <=? 2)%nat && (degR es (snd e) <=? 2)%nat) es = true -> max_degree_2 es.
Proof.
  rewrite forallb_forall. intros H x. split.
  - destruct (in_dec N.eq_dec x (map fst es)) as [Hi|Hi].
    + apply in_map_iff in Hi as (e & <- & He). apply H, andb_true_iff in He as [He _]. now apply Nat.leb_le.
    + unfold degL. apply (count_occ_not_In N.eq_dec) in Hi. rewrite Hi. lia.
  - destruct (in_dec N.eq_dec x (map snd es)) as [Hi|Hi].
    + apply in_map_iff in Hi as (e & <- & He). apply H, andb_true_iff in He as [_ He]. now apply Nat.leb_le.
    + unfold degR. apply (count_occ_not_In N.eq_dec) in Hi. rewrite Hi. lia.
Qed.

(** ** A 6-cycle of Cuckaroo with 8 edges *)
Definition ex6_key : sip := Sip 210 2 3 4.
Definition ex6_nonces : list N := [0; 1; 2; 3; 5; 6].
Lemma ex6_wf : sip_wf ex6_key.
Proof. repeat split; reflexivity. Qed.
Lemma ex6_u32 : Forall is_u32 ex6_nonces.
Proof. repeat constructor. Qed.
Lemma ex6_edges : map (cuckaroo_ends (words_of ex6_key) 3) ex6_nonces =
  [(6, 5); (7, 7); (1, 7); (7, 4); (6, 4); (1, 5)].
Proof.
  rewrite <- (cuckaroo_ends_map ex6_key 3 ex6_nonces ex6_wf ex6_u32). vm_compute. reflexivity.
Qed.
Lemma ex6_cycle : simple_cycle (map (cuckaroo_ends (words_of ex6_key) 3) ex6_nonces).
Proof.
  rewrite ex6_edges. exists [6; 7; 1], [5; 4; 7]. split; [discriminate|]. split; [reflexivity|].
  split; [repeat constructor; cbn; intuition discriminate|].
  split; [repeat constructor; cbn; intuition discriminate|].
  apply perm_check_sound. vm_compute. reflexivity.
Qed.
Lemma ex6_hyps :
  sip_wf ex6_key /\ Forall is_u32 ex6_nonces /\ ex6_nonces <> [] /\ StronglySorted N.lt ex6_nonces /\
  Forall (fun n => n < 2 ^ 3) ex6_nonces /\
  simple_cycle (map (cuckaroo_ends (words_of ex6_key) 3) ex6_nonces).
Proof.
  split; [exact ex6_wf|]. split; [exact ex6_u32|]. split; [discriminate|].
  split; [apply increasing_sound; reflexivity|].
  split; [apply below_sound; reflexivity|exact ex6_cycle].
Qed.
Lemma ex6_accepted : cuckaroo_verify ex6_key ex6_nonces 3 = true.
Proof.
  destruct ex6_hyps as (H1 & H2 & H3 & H4 & H5 & H6).
  apply cuckaroo_complete; auto. split; auto.
Qed.
Lemma ex6_degrees : max_degree_2 (map (cuckaroo_ends (words_of ex6_key) 3) ex6_nonces).
Proof. rewrite ex6_edges. apply max_degree_check. vm_compute. reflexivity. Qed.

Definition ex6_digest : bytes := le 8 210 ++ le 8 2 ++ le 8 3 ++ le 8 4.
Lemma ex6_from_digest : cuckaroo_verify (new_cuckaroo ex6_digest) ex6_nonces 3 = true /\ List.length ex6_digest = 32%nat /\
  simple_cycle (map (cuckaroo_ends (key_words ex6_digest) 3) ex6_nonces).
Proof.
  change (new_cuckaroo ex6_digest) with ex6_key. change (key_words ex6_digest) with (words_of ex6_key).
  split; [exact ex6_accepted|]. split; [reflexivity|exact ex6_cycle].
Qed.

(** ** A 4-cycle of Cuckoo with 16 vertices *)
Definition ex4_digest : bytes := le 8 1 ++ le 8 2 ++ le 8 3 ++ le 8 4.
Definition ex4_nonces : list N := [7; 8; 9; 12].
Lemma ex4_edges : map (cuckoo_ends (key_words ex4_digest) 4) ex4_nonces =
  [(14, 9); (12, 9); (14, 15); (12, 15)].
Proof.
  rewrite <- (cuckoo_ends_map ex4_digest 4 ex4_nonces) by first [lia | repeat constructor].
  vm_compute. reflexivity.
Qed.
Lemma ex4_cycle : simple_cycle (map (cuckoo_ends (key_words ex4_digest) 4) ex4_nonces).
Proof.
  rewrite ex4_edges. exists [14; 12], [9; 15]. split; [discriminate|]. split; [reflexivity|].
  split; [repeat constructor; cbn; intuition discriminate|].
  split; [repeat constructor; cbn; intuition discriminate|].
  apply perm_check_sound. vm_compute. reflexivity.
Qed.
Lemma ex4_accepted : cuckoo_verify (cuckoo_new ex4_digest 4) ex4_nonces 100 = true.
Proof.
  apply cuckoo_complete; [lia|repeat constructor| |exact ex4_cycle].
  split; [discriminate|]. split; [apply increasing_sound; reflexivity|].
  apply below_sound. vm_compute. reflexivity.
Qed.

(** ** Counterexamples: a cycle with a path hanging off the first edge *)
Lemma not_cycle_degree es e : simple_cycle es -> In e es -> degL es (fst e) = 2%nat.
Proof. intros Hc He. apply (simple_cycle_deg es Hc). now apply in_map. Qed.

Definition lol_key : sip := Sip 17 2 3 4.
Definition lol_nonces : list N :=
  [938; 1206; 1930; 2760; 4002; 4120; 4551; 5210; 6078; 6552; 7103; 8166; 8717; 9151; 10241; 10246;
   11280; 11370; 13657; 14479; 15124; 15591; 16062; 17136; 17535; 18843; 20825; 21480; 21622; 22000;
   22617; 23736; 24304; 25083; 25601; 25608; 26504; 28021; 28172; 28539; 30733; 32291].
Definition lol_edges : list (N * N) :=
  [(4971, 14753); (30175, 11825); (15545, 2657); (26510, 32356); (12771, 13984); (26510, 32251);
   (14823, 32356); (25304, 755); (25516, 18986); (14399, 13984); (13264, 23223); (32076, 7992);
   (531, 29131); (32076, 26830); (4512, 1362); (19306, 9083); (30175, 1362); (29945, 8335);
   (13264, 859); (19306, 20071); (2561, 29131); (24748, 19178); (27202, 23223); (15545, 755);
   (531, 18014); (14399, 8335); (8262, 32251); (29945, 15572); (14823, 2657); (4512, 20071);
   (9347, 14753); (12771, 11825); (9418, 10770); (25516, 9083); (8262, 15572); (2561, 18986);
   (9418, 19178); (4971, 26830); (4971, 10770); (27202, 7992); (24748, 18014); (9347, 859)].
Lemma lol_wf : sip_wf lol_key.
Proof. repeat split; reflexivity. Qed.
Lemma lol_u32 : Forall is_u32 lol_nonces.
Proof. apply below_sound; vm_compute; reflexivity. Qed.
Lemma lol_edges_eq : map (cuckaroo_ends (words_of lol_key) 15) lol_nonces = lol_edges.
Proof.
  rewrite <- (cuckaroo_ends_map lol_key 15 lol_nonces lol_wf lol_u32). vm_compute. reflexivity.
Qed.
Lemma ends_new_edge es : Forall (fun e => usedU e = false /\ usedV e = false) es ->
  es = map (fun p => new_edge (fst p) (snd p)) (map ends es).
Proof.
  induction 1 as [|e es [H1 H2] _ IH]; cbn; [reflexivity|]. rewrite <- IH.
  destruct e as [u v a b]. cbn in *. now subst.
Qed.
Lemma lollipop42 : exists v ns eb,
  sip_wf v /\ Forall is_u32 ns /\ List.length ns = 42%nat /\
  cuckaroo_verify v ns eb = true /\ ~ simple_cycle (map (cuckaroo_ends (words_of v) eb) ns).
Proof.
  exists lol_key, lol_nonces, 15.
  pose proof lol_wf as Wf. pose proof lol_u32 as Hu.
  split; [exact Wf|]. split; [exact Hu|]. split; [reflexivity|]. split.
  - apply (cuckaroo_verify_unfold lol_key lol_nonces 15 Hu). split.
    + split; [discriminate|]. split; [apply increasing_sound; vm_compute; reflexivity|].
      apply below_sound. vm_compute. reflexivity.
    + rewrite (ends_new_edge (map (cuckaroo_edge lol_key (cuckaroo_mask 15)) lol_nonces)).
      2:{ apply Forall_forall. intros e He. apply in_map_iff in He as (n & <- & _). now split. }
      rewrite cuckaroo_ends_map by assumption. rewrite lol_edges_eq. vm_compute. reflexivity.
  - rewrite lol_edges_eq. intro Hc.
    pose proof (not_cycle_degree _ (25304, 755) Hc) as D.
    assert (degL lol_edges 25304 = 1%nat) as D1 by (vm_compute; reflexivity).
    cbn [fst] in D. rewrite D1 in D. discriminate D.
    unfold lol_edges. cbn [In]. do 7 right. left. reflexivity.
Qed.

Lemma lollipop_cuckoo : exists b sh ns ease,
  1 <= sh <= 63 /\ Forall is_u32 ns /\
  cuckoo_verify (cuckoo_new b sh) ns ease = true /\
  ~ simple_cycle (map (cuckoo_ends (key_words b) sh) ns).
Proof.
  exists ex4_digest, 4, [4; 9; 11; 12], 100. split; [lia|]. split; [repeat constructor|].
  split; [vm_compute; reflexivity|].
  rewrite <- cuckoo_ends_map by first [lia | repeat constructor].
  replace (map _ _) with [(12, 5); (14, 15); (12, 5); (12, 15)] by (vm_compute; reflexivity).
  intro Hc. pose proof (not_cycle_degree _ (14, 15) Hc) as D.
  discriminate D. right. left. reflexivity.
Qed.
