(** An execution of the node with races (C96), and a way to check that two events are not ordered. *)
From Verif Require Import Race SpecRace RaceProofs.

(** ** Checking *)

Definition role_dec (a b : role) : {a = b} + {a <> b}.
Proof. decide equality; apply Nat.eq_dec. Defined.
Definition chan_dec (a b : chan) : {a = b} + {a <> b}.
Proof. decide equality; apply Nat.eq_dec. Defined.

Definition who (e : event) : nat := match e with Did t _ | Forked t _ => t end.
Lemma who_by t e : done_by t e -> who e = t.
Proof. destruct e; exact (fun H => H). Qed.
(** A direct edge of [happens_before true]. *)
Definition edge (e e' : event) : bool :=
  Nat.eqb (who e) (who e') ||
  match e, e' with
  | Did _ (Rel l), Did _ (Acq k) => if lock_dec l k then true else false
  | Did _ (Sync c), Did _ (Sync d) => if chan_dec c d then true else false
  | Forked _ u, _ => Nat.eqb u (who e')
  | _, _ => false
  end.
Definition edge_at (tr : list event) (m n : nat) : bool :=
  Nat.ltb m n && match nth_error tr m, nth_error tr n with Some e, Some e' => edge e e' | _, _ => false end.
Definition memb (n : nat) (S : list nat) : bool := existsb (Nat.eqb n) S.
Definition closed (tr : list event) (S : list nat) : bool :=
  forallb (fun k => forallb (fun n => implb (edge_at tr k n) (memb n S)) (seq 0 (length tr))) S.
Definition after (tr : list event) (m : nat) : list nat :=
  fold_left (fun S n => if existsb (fun k => edge_at tr k n) S then n :: S else S) (seq (S m) (length tr - S m)) [m].

Lemma memb_in n S : memb n S = true <-> In n S.
Proof.
  unfold memb. rewrite existsb_exists. split; [intros (k & H & E)|intro H; exists n; rewrite Nat.eqb_refl; auto].
  apply Nat.eqb_eq in E. now subst.
Qed.
Lemma edge_at_true tr m n e e' : m < n -> at_pos tr m e -> at_pos tr n e' -> edge e e' = true -> edge_at tr m n = true.
Proof. unfold at_pos, edge_at. intros L -> -> ->. apply Nat.ltb_lt in L. now rewrite L. Qed.
Lemma closed_sound tr S : closed tr S = true -> forall m n, happens_before true tr m n -> In m S -> In n S.
Proof.
  intro C. assert (D : forall k n e e', In k S -> k < n -> at_pos tr k e -> at_pos tr n e' -> edge e e' = true -> In n S).
  { intros k n e e' I L K N E. unfold closed in C. rewrite forallb_forall in C. specialize (C k I).
    rewrite forallb_forall in C. specialize (C n). rewrite (edge_at_true tr k n e e' L K N E) in C. cbn [implb] in C.
    apply memb_in, C, in_seq. assert (n < length tr) by (apply nth_error_Some; unfold at_pos in N; congruence). lia. }
  intros m n H. induction H as [m n e e' t L M N A B|m n t u l L M N|m n t u e L M N A|m n t u c _ L M N|m k n _ IH1 _ IH2]; intro I.
  - apply (D m n e e' I L M N). unfold edge. now rewrite (who_by _ _ A), (who_by _ _ B), Nat.eqb_refl.
  - apply (D m n _ _ I L M N). unfold edge. destruct (lock_dec l l); [apply orb_true_r|congruence].
  - apply (D m n _ _ I L M N). unfold edge. rewrite (who_by _ _ A), (Nat.eqb_refl u). apply orb_true_r.
  - apply (D m n _ _ I L M N). unfold edge. destruct (chan_dec c c); [apply orb_true_r|congruence].
  - auto.
Qed.
Lemma not_ordered tr m n : closed tr (after tr m) = true -> memb m (after tr m) = true -> memb n (after tr m) = false ->
  ~ happens_before true tr m n.
Proof.
  intros C M N H. assert (In n (after tr m)) as I by (apply (closed_sound tr _ C m n H), memb_in, M).
  apply memb_in in I. congruence.
Qed.

(** ** Running a schedule *)

(** [ws] gives, for each goroutine by number, what it does. *)
Definition run1 (ws : list (role * list act)) (s : threads) (t : nat) : option (event * threads) :=
  match nth_error (th_progs s) t with
  | Some (Acq l :: w) =>
      if in_dec lock_dec l (map fst (th_held s)) then None
      else Some (Did t (Acq l), Threads (set_nth t w (th_progs s)) ((l, t) :: th_held s))
  | Some (Rel l :: w) =>
      (fix find pre rest := match rest with
       | [] => None
       | (k, u) :: rest => if lock_dec k l then if Nat.eq_dec u t then Some (Did t (Rel l), Threads (set_nth t w (th_progs s)) (rev pre ++ rest)) else None
                           else find ((k, u) :: pre) rest
       end) [] (th_held s)
  | Some (Go r :: w) =>
      match nth_error ws (length (th_progs s)) with
      | Some (r', v) => if role_dec r r' then Some (Forked t (length (th_progs s)), Threads (set_nth t w (th_progs s) ++ [v]) (th_held s)) else None
      | None => None
      end
  | Some (a :: w) => Some (Did t a, Threads (set_nth t w (th_progs s)) (th_held s))
  | _ => None
  end.
Fixpoint run (ws : list (role * list act)) (s : threads) (sched : list nat) : option (list event * threads) :=
  match sched with
  | [] => Some ([], s)
  | t :: sched =>
      match run1 ws s t with
      | Some (e, s1) => match run ws s1 sched with Some (tr, s2) => Some (e :: tr, s2) | None => None end
      | None => None
      end
  end.

Lemma run1_sound ws s t e s' : Forall (fun rv => acts_of (fst rv) (snd rv)) ws -> run1 ws s t = Some (e, s') -> thread_step s e s'.
Proof.
  intros F H. unfold run1 in H. destruct (nth_error (th_progs s) t) as [[|a w]|] eqn:E; try discriminate.
  destruct a as [l|l|x|x|c|r].
  - destruct (in_dec lock_dec l _); [discriminate|]. inversion H; subst. now apply DoAcq.
  - assert (G : forall pre rest, th_held s = rev pre ++ rest -> (fix find pre rest := match rest with
       | [] => None
       | (k, u) :: rest => if lock_dec k l then if Nat.eq_dec u t then Some (Did t (Rel l), Threads (set_nth t w (th_progs s)) (rev pre ++ rest)) else None
                           else find ((k, u) :: pre) rest
       end) pre rest = Some (e, s') -> thread_step s e s').
    { intros pre rest. revert pre. induction rest as [|[k u] rest IH]; intros pre Q R; [discriminate|].
      destruct (lock_dec k l) as [->|]; [destruct (Nat.eq_dec u t) as [->|]; [|discriminate]|].
      - inversion R; subst. eapply DoRel; [exact E|exact Q].
      - apply (IH ((k, u) :: pre)); [cbn [rev]; rewrite <- app_assoc; exact Q|exact R]. }
    exact (G [] (th_held s) eq_refl H).
  - inversion H; subst. apply DoAccess; [exact E|]. left. eauto.
  - inversion H; subst. apply DoAccess; [exact E|]. left. eauto.
  - inversion H; subst. apply DoAccess; [exact E|]. right. eauto.
  - destruct (nth_error ws _) as [[r' v]|] eqn:W; [|discriminate]. destruct (role_dec r r') as [<-|]; [|discriminate].
    inversion H; subst. eapply DoGo; [exact E|]. rewrite Forall_forall in F. exact (F _ (nth_error_In _ _ W)).
Qed.
Lemma run_sound ws sched : Forall (fun rv => acts_of (fst rv) (snd rv)) ws -> forall s tr s',
  run ws s sched = Some (tr, s') -> thread_steps s tr s'.
Proof.
  intro F. induction sched as [|t sched IH]; intros s tr s' H; cbn [run] in H; [inversion H; constructor|].
  destruct (run1 ws s t) as [[e s1]|] eqn:E; [|discriminate]. destruct (run ws s1 sched) as [[tr' s2]|] eqn:R; [|discriminate].
  inversion H; subst. change (e :: tr') with ([e] ++ tr'). eapply steps_app; [|eapply IH; exact R].
  change [e] with ([] ++ [e]). econstructor; [constructor|]. eapply run1_sound; eassumption.
Qed.

(** ** The execution *)

(** Two peers: 0 and 1, with connections 1 and 0; peer 1 is connected first. Peer 1 sends a block that
    is relayed to peer 0; connection 1 ends and peer 0 is connected again, as connection 2; meanwhile
    peer 1 asks for addresses. *)
Definition entry0 (i : nat) : list act := [Rd LTable; Rd (LField i FStatus)].
Definition round (i c : nat) : list act :=
  [Sync CPool] ++ ([Acq Ptmu; Rd LTable] ++ concat [entry0 i] ++ [Rel Ptmu]) ++
  ([Rd LConnected] ++ look ++ [Acq (Mu i); Rd (LField i FStatus); Rd (LField i FStatus)] ++ connected_acts i c ++ [Rel (Mu i)]).
Definition main_acts : list act :=
  concat [[Acq Ptmu; Rd LTable; Rd LTable; Wr LTable; Rel Ptmu]; [Acq Ptmu; Rd LTable; Rd LTable; Wr LTable; Rel Ptmu]] ++
  repeat (Go User) 0 ++ concat [round 1 0; round 0 1; round 0 2] ++ stopped_acts [].
Definition block_turn : list act :=
  peer_op 0 ++ look ++ ([Sync CChain] ++ [] ++ [Acq (Mu 1)] ++ [Rd (LField 1 FDifficulty); Rd (LField 1 FHeight)] ++ [Rel (Mu 1)] ++
    ([Acq Cpmu; Rd LUp] ++ map (fun i => Go (Relayer i)) [0] ++ [Rel Cpmu])).
Definition peers_turn : list act :=
  peer_op 0 ++ look ++ (([Acq Ptmu; Rd LTable] ++
    concat [[Rd LTable; Rd (LField 0 FStatus); Rd (LField 0 FStatus); Rd (LField 0 FCaps)]] ++ [Rel Ptmu]) ++ peer_op 0).
Definition node_words : list (role * list act) :=
  [(Main, main_acts);
   (Writer 0, concat (repeat (peer_op 0) 0)); (Reader 0, concat [block_turn; peers_turn] ++ peer_op 0); (Watcher 1 0, watcher_acts 1 0);
   (Writer 1, concat (repeat (peer_op 1) 0)); (Reader 1, concat [] ++ peer_op 1); (Watcher 0 1, watcher_acts 0 1);
   (Relayer 0, [Rd (LField 0 FHeight); Rd (LField 0 FDifficulty); Rd (LField 0 FPeer)] ++ peer_op 1)].
Lemma node_words_ok : Forall (fun rv => acts_of (fst rv) (snd rv)) node_words.
Proof.
  assert (R : forall i c, round_acts (round i c)).
  { intros i c. apply RoundKept; [|apply ConDone]. apply Scan. repeat constructor. }
  repeat apply Forall_cons; try apply Forall_nil; cbn [fst snd].
  - apply OfMain; [repeat constructor|repeat constructor; apply R].
  - constructor.
  - apply OfReader. constructor; [|constructor; [|constructor]].
    + apply (TurnMessage 0 1). apply PrBlock; [now left|cbn; auto|right; constructor].
    + apply (TurnMessage 0 1). apply PrGetPeers. apply Scan. repeat constructor.
  - constructor.
  - constructor.
  - apply OfReader. constructor.
  - constructor.
  - apply OfRelayer. constructor.
Qed.

Definition sched : list nat :=
  repeat 0 72 ++ repeat 2 13 ++ [5] ++ repeat 0 3 ++ repeat 6 4 ++ repeat 0 11 ++ repeat 6 2 ++ repeat 0 8 ++ repeat 7 3 ++ repeat 2 12.
Definition node_run := run node_words (Threads [main_acts] []) sched.
Definition node_trace : list event := match node_run with Some (tr, _) => tr | None => [] end.
Lemma node_trace_execution : exists s, execution node_trace s.
Proof.
  assert (E : exists s, node_run = Some (node_trace, s)).
  { unfold node_trace. destruct node_run as [[tr s]|] eqn:E; [now exists s|]. vm_compute in E. discriminate. }
  destruct E as [s E]. exists s, main_acts. split.
  - pose proof node_words_ok as F. inversion F. assumption.
  - exact (run_sound node_words sched node_words_ok _ _ _ E).
Qed.

(** A race found by computation. *)
Definition race_b (tr : list event) (x : loc) (m n : nat) : bool :=
  Nat.ltb m n &&
  match nth_error tr m, nth_error tr n with
  | Some (Did t a), Some (Did u b) =>
      negb (Nat.eqb t u) &&
      match a, b with
      | Wr y, Wr z | Wr y, Rd z | Rd y, Wr z => if loc_dec y x then if loc_dec z x then true else false else false
      | _, _ => false
      end
  | _, _ => false
  end && closed tr (after tr m) && memb m (after tr m) && negb (memb n (after tr m)).
Lemma race_b_sound tr x m n : race_b tr x m n = true -> race_at true tr x m n.
Proof.
  unfold race_b. intro H. apply andb_true_iff in H as [H N]. apply andb_true_iff in H as [H M]. apply andb_true_iff in H as [H C].
  apply andb_true_iff in H as [L H]. apply Nat.ltb_lt in L. apply negb_true_iff in N.
  destruct (nth_error tr m) as [[t a|]|] eqn:Em; try discriminate. destruct (nth_error tr n) as [[u b|]|] eqn:En; try discriminate.
  apply andb_true_iff in H as [Ne H]. apply negb_true_iff, Nat.eqb_neq in Ne.
  exists t, u, a, b. split; [exact L|]. split; [exact Ne|]. split; [exact Em|]. split; [exact En|].
  assert (NO : ~ happens_before true tr m n) by (now apply not_ordered).
  unfold accesses. destruct a as [|y'|y|y| |], b as [|z'|z|z| |]; try discriminate H;
    destruct (loc_dec y x) as [->|]; try discriminate H; destruct (loc_dec z x) as [->|]; try discriminate H; auto 8.
Qed.

Lemma races : exists tr s, execution tr s /\ race true tr LConnected /\
  forall f, f <> FVersion -> f <> FLastConn -> race true tr (LField 0 f).
Proof.
  exists node_trace. destruct node_trace_execution as [s E]. exists s. split; [exact E|]. split.
  - exists 105, 106. apply race_b_sound. vm_compute. reflexivity.
  - intros [] A B; try congruence.
    + exists 91, 94. apply race_b_sound. vm_compute. reflexivity.
    + exists 107, 116. apply race_b_sound. vm_compute. reflexivity.
    + exists 111, 114. apply race_b_sound. vm_compute. reflexivity.
    + exists 112, 115. apply race_b_sound. vm_compute. reflexivity.
    + exists 113, 126. apply race_b_sound. vm_compute. reflexivity.
Qed.

Lemma racy_locations : exists tr s, execution tr s /\ race true tr LConnected /\
  race true tr (LField 0 FStatus) /\ race true tr (LField 0 FPeer) /\ race true tr (LField 0 FHeight) /\
  race true tr (LField 0 FDifficulty) /\ race true tr (LField 0 FCaps).
Proof.
  destruct races as (tr & s & E & C & F). exists tr, s. split; [exact E|]. split; [exact C|].
  repeat split; apply F; discriminate.
Qed.

(** ** Cases for the theorems *)

Definition event_dec (a b : event) : {a = b} + {a <> b}.
Proof. decide equality; try apply Nat.eq_dec. decide equality; auto using lock_dec, loc_dec, chan_dec, role_dec. Defined.
Fixpoint index (e : event) (tr : list event) : nat :=
  match tr with [] => 0 | e' :: tr => if event_dec e e' then 0 else S (index e tr) end.
Lemma shared_use : (exists s, execution node_trace s) /\
  exists l m n k, at_pos node_trace l (Did 0 (Wr LTable)) /\ at_pos node_trace m (Did 2 (Rd LTable)) /\
    at_pos node_trace n (Did 0 (Wr LUp)) /\ at_pos node_trace k (Did 2 (Rd LUp)).
Proof.
  split; [exact node_trace_execution|].
  exists (index (Did 0 (Wr LTable)) node_trace), (index (Did 2 (Rd LTable)) node_trace),
    (index (Did 0 (Wr LUp)) node_trace), (index (Did 2 (Rd LUp)) node_trace).
  vm_compute. repeat split.
Qed.
Lemma race_cases : race true [Forked 0 1; Did 0 (Wr LTable); Did 1 (Rd LTable)] LTable /\
  ~ race false [Did 0 (Acq Ptmu); Did 0 (Wr LTable); Did 0 (Rel Ptmu); Did 1 (Acq Ptmu); Did 1 (Rd LTable)] LTable.
Proof.
  split.
  - exists 1, 2. apply race_b_sound. vm_compute. reflexivity.
  - intros (m & n & t & u & a & b & L & Ne & Em & En & A & B & W & NH). unfold at_pos in *.
    assert (n < 5) by (apply (nth_error_Some [Did 0 (Acq Ptmu); Did 0 (Wr LTable); Did 0 (Rel Ptmu); Did 1 (Acq Ptmu); Did 1 (Rd LTable)]); congruence).
    destruct n as [|[|[|[|[|n]]]]]; try lia; destruct m as [|[|[|[|m]]]]; try lia; cbn in Em, En; injection Em as <- <-; injection En as <- <-;
      destruct A as [A|A]; try discriminate A; destruct B as [B|B]; try discriminate B; try congruence.
    apply NH. apply HbTrans with 2.
    + eapply HbOrder with (t := 0); try reflexivity; lia.
    + apply HbTrans with 3.
      * eapply HbLock with (l := Ptmu); try reflexivity; lia.
      * eapply HbOrder with (t := 1); try reflexivity; lia.
Qed.
Lemma stuck_case : let s := Threads [[Acq Cpmu]; [Acq Ptmu]] [(Ptmu, 0); (Cpmu, 1)] in forall e s', ~ thread_step s e s'.
Proof.
  intros s e s' H. subst s. inversion H as [? t l w N F|? t l w pre post N E|? t r w v N V|? t a w N A]; subst; unfold next in N; cbn [th_progs] in N;
    (destruct t as [|[|[|t]]]; cbn in N; try discriminate N; inversion N; subst).
  - apply F. cbn. auto.
  - apply F. cbn. auto.
  - destruct A as [(x & [A|A])|(c & A)]; discriminate A.
  - destruct A as [(x & [A|A])|(c & A)]; discriminate A.
Qed.
Lemma waiting_case : exists tr s t u l w, execution tr s /\ next s t (Acq l) w /\ In (l, u) (th_held s) /\ t <> u.
Proof.
  (* the goroutine of connection 0 (number 2) waits for the table while main scans it *)
  pose (sch := repeat 0 43 ++ [2]).
  assert (E : exists tr s, run node_words (Threads [main_acts] []) sch = Some (tr, s) /\
    next s 2 (Acq Ptmu) (tl (nth 2 (th_progs s) [])) /\ In (Ptmu, 0) (th_held s)).
  { vm_compute. do 2 eexists. split; [reflexivity|]. split; [reflexivity|]. cbn. now left. }
  destruct E as (tr & s & E & N & I). exists tr, s, 2, 0, Ptmu, (tl (nth 2 (th_progs s) [])). split; [|split; [exact N|split; [exact I|discriminate]]].
  exists main_acts. split; [pose proof node_words_ok as F; now inversion F|]. exact (run_sound node_words sch node_words_ok _ _ _ E).
Qed.
