(** Lemmas about the chain. *)
From Coq Require Import Permutation Sorted.
From Verif Require Import Chain SpecPow SpecCodec SpecConsensus SpecRules SpecChain PowCodecProofs CodecProofs BlockCodecProofs RulesProofs.

Section WithExt.
Context (X : Ext) (S : storage X).
Implicit Types (c : chain X S) (b : block X).

(** ** State *)
Lemma run_same c o : run c o = c.
Proof. destruct o; reflexivity. Qed.
Lemma run_all_same os : forall c, fold_left run os c = c.
Proof. induction os as [|o os IH]; intro c; cbn [fold_left]; [reflexivity|]. now rewrite run_same. Qed.

Lemma unchanged (c : chain X S) genesis head height td st os : reports c genesis head height td st ->
  reports (fold_left run os c) genesis head height td st.
Proof. now rewrite run_all_same. Qed.

Lemma opened genesis st : reports (chain_new (S := S) genesis st) genesis
  (match st_last S st with Some l => l | None => genesis end)
  (h_height (b_header (match st_last S st with Some l => l | None => genesis end)))
  (h_total_difficulty (b_header (match st_last S st with Some l => l | None => genesis end))) st.
Proof. unfold reports, chain_new. destruct (st_last S st); repeat split; reflexivity. Qed.

Lemma restart genesis st os :
  chain_new genesis (c_store (fold_left run os (chain_new (S := S) genesis st))) = chain_new genesis st.
Proof.
  rewrite run_all_same. f_equal. unfold chain_new. now destruct (st_last S st).
Qed.

(** ** Blocks *)
Lemma prev_height_eq n : w64 (n + (2 ^ 64 - 1)) = (n + 2 ^ 64 - 1) mod 2 ^ 64.
Proof. rewrite w64_mod. f_equal. lia. Qed.

Lemma after_iff t u : time_wf t -> time_wf u -> time_after t u = true <-> (instant u < instant t)%Z.
Proof.
  intros [_ Ht] [_ Hu]. unfold time_after, time_before, instant.
  rewrite orb_true_iff, andb_true_iff, Z.eqb_eq, !Z.ltb_lt. lia.
Qed.

Lemma required_eq bl : next_difficulty X bl = Ok (required_difficulty X bl).
Proof.
  rewrite next_difficulty_eq. unfold required_difficulty. destruct bl; cbn [List.length]; [reflexivity|].
  destruct (_ =? _)%nat; reflexivity.
Qed.

Lemma from_eq n : (if window_limit <? n then n - window_limit else 0) = n - 71.
Proof. change window_limit with 71. destruct (N.ltb_spec 71 n); lia. Qed.

Section Process.
Context (c : chain X S) (b : block X) (now : gotime) (hh bh : bytes).
Hypotheses (Hh : block_hash X (c_head c) = Ok hh) (Bh : block_hash X b = Ok bh).

Lemma process_tip : hh = bh -> fst (process_block now c b) = Ok tt.
Proof. intros <-. unfold process_block. cbn [fst]. rewrite Hh, Bh. cbn [rbind]. now rewrite bytes_eqb_refl. Qed.

Lemma process_other : hh <> bh ->
  fst (process_block now c b) =
  (let! _ := block_validate X now b in
   match st_get S (c_store c) (parent_id (b_header b)) with
   | None => Ok tt
   | Some prev =>
       if negb (time_after (h_time (b_header b)) (h_time (b_header prev))) then Err (Msg "invalid block time")
       else
         let! d := to_difficulty X (h_pow (b_header prev)) in
         if negb (h_total_difficulty (b_header b) =? w64 (h_total_difficulty (b_header prev) + d))
         then Err (Msg "wrong block total difficulty")
         else if h_difficulty (b_header b) <? required_difficulty X (window (c_store c) (b_header b))
              then Err (Msg "difficulty is too low") else Ok tt
   end).
Proof.
  intro N. unfold process_block. cbn [fst]. rewrite Hh, Bh. cbn [rbind].
  apply bytes_eqb_neq in N. rewrite N.
  destruct (block_validate X now b); try reflexivity. cbn [rbind].
  rewrite prev_height_eq. unfold parent_id.
  destruct (st_get S _ _) as [prev|]; [|reflexivity].
  destruct (negb (time_after _ _)); [reflexivity|].
  destruct (to_difficulty _ _); try reflexivity. cbn [rbind]. destruct (negb _); [reflexivity|].
  rewrite from_eq, required_eq. reflexivity.
Qed.

Lemma process_unknown_parent : hh <> bh -> st_get S (c_store c) (parent_id (b_header b)) = None ->
  fst (process_block now c b) = block_validate X now b.
Proof.
  intros N E. rewrite process_other, E by exact N. destruct (block_validate X now b) as [[]|e| |]; reflexivity.
Qed.

Lemma process_known prev top : hash_laws X ->
  clock_ok now -> header_typed (b_header b) -> header_sized (b_header b) ->
  List.length (p_nonces (h_pow (b_header b))) = 42%nat ->
  hh <> bh -> st_get S (c_store c) (parent_id (b_header b)) = Some prev ->
  time_wf (h_time (b_header prev)) -> proof_top X (h_pow (b_header prev)) top -> top <> 0 ->
  (fst (process_block now c b) = Ok tt <-> block_rules X now b /\ follows (c_store c) top prev b).
Proof.
  intros HL C T Z L N E W (e & Ee & Et) Ht.
  rewrite process_other, E, unit_ok, block_iff by assumption.
  assert (time_after (h_time (b_header b)) (h_time (b_header prev)) = true <->
    (instant (h_time (b_header prev)) < instant (h_time (b_header b)))%Z) as TA by (apply after_iff; [apply T|exact W]).
  unfold follows. rewrite <- TA.
  rewrite (to_difficulty_eq X _ e HL Ee). cbv zeta. rewrite <- Et.
  destruct (N.eqb_spec top 0) as [|_]; [contradiction|].
  split.
  - intros [R H]. split; [exact R|]. destruct (time_after _ _); [|discriminate H]. cbn [negb rbind] in H.
    destruct (N.eqb_spec (h_total_difficulty (b_header b)) (w64 (h_total_difficulty (b_header prev) + 0x0fffffffffffffff / top))) as [D|D];
      [|discriminate H]. cbn [negb] in H.
    split; [reflexivity|]. split; [now rewrite D, w64_mod|].
    destruct (N.ltb_spec (h_difficulty (b_header b)) (required_difficulty X (window (c_store c) (b_header b)))); [discriminate H|assumption].
  - intros [R (TA' & D & Rq)]. split; [exact R|]. rewrite TA'. cbn [negb rbind]. rewrite D, w64_mod, N.eqb_refl. cbn [negb].
    destruct (N.ltb_spec (h_difficulty (b_header b)) (required_difficulty X (window (c_store c) (b_header b)))); [lia|reflexivity].
Qed.

(** A parent whose proof hash starts with eight zero bytes. *)
Lemma process_panics prev : hash_laws X -> hh <> bh ->
  st_get S (c_store c) (parent_id (b_header b)) = Some prev ->
  proof_top X (h_pow (b_header prev)) 0 -> block_validate X now b = Ok tt ->
  time_wf (h_time (b_header b)) -> time_wf (h_time (b_header prev)) ->
  (instant (h_time (b_header prev)) < instant (h_time (b_header b)))%Z ->
  fst (process_block now c b) = Panic.
Proof.
  intros HL N E (e & Ee & Et) V W1 W2 T. rewrite process_other, E, V by exact N. cbn [rbind].
  replace (time_after (h_time (b_header b)) (h_time (b_header prev))) with true by (symmetry; apply after_iff; assumption).
  cbn [negb]. rewrite (to_difficulty_eq X _ e HL Ee). cbv zeta. rewrite <- Et. reflexivity.
Qed.

Lemma target_pos bl : bl <> [] -> 1 <= required_difficulty X bl.
Proof.
  intro H. unfold required_difficulty. destruct bl as [|x l]; [contradiction|].
  destruct (_ =? _)%nat; [|lia]. unfold target_difficulty. lia.
Qed.

Lemma process_undeclared prev : hh <> bh -> st_get S (c_store c) (parent_id (b_header b)) = Some prev ->
  h_difficulty (b_header b) = 0 -> window (c_store c) (b_header b) <> [] ->
  fst (process_block now c b) <> Ok tt /\
  (hash_laws X -> forall top, clock_ok now -> header_typed (b_header b) -> header_sized (b_header b) ->
   List.length (p_nonces (h_pow (b_header b))) = 42%nat -> time_wf (h_time (b_header prev)) ->
   proof_top X (h_pow (b_header prev)) top -> top <> 0 -> block_rules X now b ->
   (instant (h_time (b_header prev)) < instant (h_time (b_header b)))%Z ->
   h_total_difficulty (b_header b) = (h_total_difficulty (b_header prev) + 0x0fffffffffffffff / top) mod 2 ^ 64 ->
   fst (process_block now c b) = Err (Msg "difficulty is too low")).
Proof.
  intros N E D W. pose proof (target_pos _ W) as P. rewrite process_other, E by exact N.
  assert (Lt : h_difficulty (b_header b) <? required_difficulty X (window (c_store c) (b_header b)) = true) by (apply N.ltb_lt; lia).
  rewrite Lt. split.
  - destruct (block_validate X now b); try discriminate. cbn [rbind].
    destruct (negb (time_after _ _)); [discriminate|]. destruct (to_difficulty _ _); try discriminate. cbn [rbind].
    destruct (negb _); discriminate.
  - intros HL top C T Z L Wp (e & Ee & Et) Ht R TA TD.
    apply block_iff in R; [|assumption..]. rewrite R. cbn [rbind].
    replace (time_after (h_time (b_header b)) (h_time (b_header prev))) with true
      by (symmetry; apply after_iff; [apply T|exact Wp|exact TA]).
    cbn [negb]. rewrite (to_difficulty_eq X _ e HL Ee). cbv zeta. rewrite <- Et.
    destruct (N.eqb_spec top 0) as [|_]; [contradiction|]. cbn [rbind]. rewrite TD, w64_mod, N.eqb_refl. reflexivity.
Qed.
End Process.

(** Blocks off the wire. *)
Lemma wire_difficulty bs b rest : block_read X bs = Ok (b, rest) -> h_difficulty (b_header b) = 0.
Proof.
  intro H. destruct (block_read_header X bs b rest H) as (r & Hr).
  unfold header_read in Hr. repeat (apply pbind_inv in Hr as (? & ? & _ & Hr)). unfold rret in Hr.
  apply Ok_inj in Hr. apply (f_equal fst) in Hr. cbn [fst] in Hr. now rewrite <- Hr.
Qed.

(** ** Header requests *)
Lemma locate_skip c hh pre post : block_hash X (c_head c) = Ok hh -> Forall (unknown (c_store c) hh) pre ->
  locate c (pre ++ post) = locate c post.
Proof.
  intros Hh F. induction F as [|h t [N E] F IH]; [reflexivity|]. cbn [app locate]. rewrite Hh. cbn [rbind].
  apply bytes_eqb_neq in N. rewrite N. unfold by_hash in E. change headers_limit with 513. now rewrite E.
Qed.

Lemma first14 (hs : list bytes) : (if max_locators <? lenN hs then takeN max_locators hs else hs) = firstn 14 hs.
Proof.
  unfold lenN. change max_locators with 14. destruct (N.ltb_spec 14 (N.of_nat (List.length hs))); [|symmetry; apply firstn_all2; lia].
  unfold takeN. f_equal. unfold lenN. lia.
Qed.

Lemma headers_cases c hs hh : block_hash X (c_head c) = Ok hh ->
  (Forall (unknown (c_store c) hh) (firstn 14 hs) -> get_block_headers c hs = Ok []) /\
  (forall pre h post, firstn 14 hs = pre ++ h :: post -> Forall (unknown (c_store c) hh) pre ->
     (h = hh -> get_block_headers c hs = Ok []) /\
     (forall b bl, h <> hh -> st_from S (c_store c) (by_hash h) 513 = b :: bl ->
        get_block_headers c hs = Ok (map b_header bl))).
Proof.
  intro Hh. unfold get_block_headers. rewrite first14. split.
  - intro F. rewrite <- (app_nil_r (firstn 14 hs)), (locate_skip c hh _ _ Hh F). reflexivity.
  - intros pre h post E F. rewrite E, (locate_skip c hh _ _ Hh F). cbn [locate]. rewrite Hh. cbn [rbind]. split.
    + intros ->. now rewrite bytes_eqb_refl.
    + intros b bl N G. apply bytes_eqb_neq in N. rewrite N. unfold by_hash in G. change headers_limit with 513. now rewrite G.
Qed.

Lemma headers_bound c hs r : (forall i n, (List.length (st_from S (c_store c) i n) <= N.to_nat n)%nat) ->
  get_block_headers c hs = Ok r -> (List.length r <= 512)%nat.
Proof.
  intro B. unfold get_block_headers. generalize (if max_locators <? lenN hs then takeN max_locators hs else hs).
  intro l. induction l as [|h t IH]; cbn [locate].
  - intro E. apply Ok_inj in E. subst. cbn. lia.
  - intro E. apply bind_ok in E as (hh & _ & E). destruct (bytes_eqb h hh).
    + apply Ok_inj in E. subst. cbn. lia.
    + destruct (st_from S (c_store c) {| id_hash := Some h; id_height := None |} headers_limit) as [|b bl] eqn:G; [auto|].
      apply Ok_inj in E. subst. rewrite map_length. specialize (B {| id_hash := Some h; id_height := None |} headers_limit).
      rewrite G in B. cbn [List.length] in B. change (N.to_nat headers_limit) with 513%nat in B. lia.
Qed.

(** ** Chain validation *)
Section Validate.
Context (c : chain X S) (clock : nat -> gotime) (g : bytes).
Hypothesis (Hg : block_hash X (c_genesis c) = Ok g).

Definition stops (k : nat) (b : block X) : Prop := h_previous (b_header b) = g \/ block_validate X (clock k) b = Ok tt.

Lemma anc_S k b : ancestor (c_store c) (Datatypes.S k) b =
  match ancestor (c_store c) k b with Some a => get_block c (h_previous (b_header a)) | None => None end.
Proof. cbn [ancestor]. destruct (ancestor _ k b) as [a|]; [|reflexivity]. unfold get_block, by_hash. now destruct (h_previous _). Qed.

Lemma anc_shift k : forall b, ancestor (c_store c) (Datatypes.S k) b =
  match get_block c (h_previous (b_header b)) with Some p => ancestor (c_store c) k p | None => None end.
Proof.
  induction k as [|k IH]; intro b.
  - rewrite anc_S. cbn [ancestor]. now destruct (get_block _ _).
  - rewrite anc_S, IH. destruct (get_block c (h_previous (b_header b))) as [p|]; [|reflexivity]. now rewrite anc_S.
Qed.

Lemma step_cases i b :
  (stops i b /\ forall fuel, validate_from (Datatypes.S fuel) clock i c b = Some (Ok tt)) \/
  (~ stops i b /\ (exists e, block_validate X (clock i) b = Err e) /\ forall fuel, validate_from (Datatypes.S fuel) clock i c b =
     match get_block c (h_previous (b_header b)) with
     | None => Some (Err (Msg "invalid previous hash. blockchain integrity is broken"))
     | Some p => validate_from fuel clock (Datatypes.S i) c p
     end) \/
  (~ stops i b /\ ~ survives (block_validate X (clock i) b) /\
   forall fuel, validate_from (Datatypes.S fuel) clock i c b = Some (block_validate X (clock i) b)).
Proof.
  destruct (bytes_eqb (h_previous (b_header b)) g) eqn:E.
  - left. split; [left; now apply bytes_eqb_eq|]. intro. cbn [validate_from]. now rewrite Hg, E.
  - assert (N : block_validate X (clock i) b <> Ok tt -> ~ stops i b).
    { intros N [K|K]; [|contradiction]. apply bytes_eqb_eq in K. congruence. }
    destruct (block_validate X (clock i) b) as [[]|e| |] eqn:V.
    + left. split; [now right|]. intro. cbn [validate_from]. now rewrite Hg, E, V.
    + right. left. split; [now apply N|]. split; [eauto|]. intro. cbn [validate_from]. now rewrite Hg, E, V.
    + right. right. split; [now apply N|]. split; [intros (K & _); contradiction|]. intro. cbn [validate_from]. now rewrite Hg, E, V.
    + right. right. split; [now apply N|]. split; [intros (_ & K); contradiction|]. intro. cbn [validate_from]. now rewrite Hg, E, V.
Qed.

(** The walk: either it stops at the [k]-th ancestor, or runs out there, or goes on. *)
Lemma walk_ok k : forall i b a,
  (forall j x, (j < k)%nat -> ancestor (c_store c) j b = Some x -> ~ stops (i + j) x /\ exists e, block_validate X (clock (i + j)) x = Err e) ->
  ancestor (c_store c) k b = Some a -> stops (i + k) a ->
  validate_from (Datatypes.S k) clock i c b = Some (Ok tt).
Proof.
  induction k as [|k IH]; intros i b a NS A St.
  - cbn in A. assert (a = b) by congruence. subst a. rewrite Nat.add_0_r in St.
    destruct (step_cases i b) as [[_ E]|[[N _]|[N _]]]; [apply E|contradiction|contradiction].
  - destruct (NS 0%nat b (Nat.lt_0_succ k) eq_refl) as (_ & e & Ee). rewrite Nat.add_0_r in Ee.
    destruct (step_cases i b) as [[_ E]|[(_ & _ & E)|(_ & N & _)]]; [apply E| |exfalso; apply N; rewrite Ee; split; discriminate]. rewrite E.
    rewrite anc_shift in A. destruct (get_block c (h_previous (b_header b))) as [p|] eqn:G; [|discriminate A].
    apply (IH (Datatypes.S i) p a).
    + intros j x L Hj. replace (Datatypes.S i + j)%nat with (i + Datatypes.S j)%nat by lia. apply NS; [lia|].
      now rewrite anc_shift, G.
    + exact A.
    + now replace (Datatypes.S i + k)%nat with (i + Datatypes.S k)%nat by lia.
Qed.

Lemma walk_inv fuel : forall i b r,
  validate_from fuel clock i c b = Some r ->
  exists k a, ancestor (c_store c) k b = Some a /\
    (forall j x, (j < k)%nat -> ancestor (c_store c) j b = Some x -> ~ stops (i + j) x /\ exists e, block_validate X (clock (i + j)) x = Err e) /\
    ((r = Ok tt /\ stops (i + k) a) \/
     (r = Err (Msg "invalid previous hash. blockchain integrity is broken") /\ ~ stops (i + k) a /\
      (exists e, block_validate X (clock (i + k)) a = Err e) /\ ancestor (c_store c) (Datatypes.S k) b = None) \/
     (r = block_validate X (clock (i + k)) a /\ ~ stops (i + k) a /\ ~ survives r)).
Proof.
  induction fuel as [|fuel IH]; intros i b r E; [discriminate E|].
  destruct (step_cases i b) as [[St V]|[(N & Er & V)|(N & Er & V)]]; rewrite V in E.
  - exists 0%nat, b. split; [reflexivity|]. split; [intros j x L; lia|]. left. rewrite Nat.add_0_r. split; [congruence|exact St].
  - destruct (get_block c (h_previous (b_header b))) as [p|] eqn:G.
    + apply IH in E. destruct E as (k & a & A & NS & C). exists (Datatypes.S k), a. rewrite anc_shift, G. split; [exact A|]. split.
      * intros [|j] x L Hx.
        -- cbn in Hx. assert (x = b) by congruence. subst x. rewrite Nat.add_0_r. auto.
        -- rewrite anc_shift, G in Hx. replace (i + Datatypes.S j)%nat with (Datatypes.S i + j)%nat by lia. apply (NS j); [lia|exact Hx].
      * replace (i + Datatypes.S k)%nat with (Datatypes.S i + k)%nat by lia.
        destruct C as [C|[(C1 & C2 & C3 & C4)|C]]; [now left| |now right; right]. right. left. split; [exact C1|]. split; [exact C2|]. split; [exact C3|].
        now rewrite anc_shift, G.
    + exists 0%nat, b. split; [reflexivity|]. split; [intros j x L; lia|]. right. left. rewrite Nat.add_0_r.
      split; [congruence|]. split; [exact N|]. split; [exact Er|]. now rewrite anc_shift, G.
  - exists 0%nat, b. split; [reflexivity|]. split; [intros j x L; lia|]. right. right. rewrite Nat.add_0_r.
    injection E as <-. auto.
Qed.

Lemma stops_dec i b : stops i b \/ ~ stops i b.
Proof. destruct (step_cases i b) as [[? _]|[[? _]|[? _]]]; auto. Qed.

(** A first stopping ancestor exists as soon as any does. *)
Lemma first_stop k : forall b a, ancestor (c_store c) k b = Some a -> stops k a ->
  exists k' a', (k' <= k)%nat /\ ancestor (c_store c) k' b = Some a' /\ stops k' a' /\
    forall j x, (j < k')%nat -> ancestor (c_store c) j b = Some x -> ~ stops j x.
Proof.
  intros b a. revert a. induction k as [k IH] using (well_founded_induction Wf_nat.lt_wf). intros a A St.
  assert (D : (exists j x, (j < k)%nat /\ ancestor (c_store c) j b = Some x /\ stops j x) \/
              forall j x, (j < k)%nat -> ancestor (c_store c) j b = Some x -> ~ stops j x).
  { clear IH A St. induction k as [|k IHk]; [right; intros; lia|].
    destruct IHk as [(j & x & L & H)|H]; [left; exists j, x; split; [lia|exact H]|].
    destruct (ancestor (c_store c) k b) as [y|] eqn:Ay.
    - destruct (stops_dec k y) as [Sy|Ny]; [left; exists k, y; auto|].
      right. intros j x L Hx. destruct (Nat.eq_dec j k) as [->|]; [|apply (H j); [lia|exact Hx]].
      assert (x = y) by congruence. now subst.
    - right. intros j x L Hx. destruct (Nat.eq_dec j k) as [->|]; [congruence|apply (H j); [lia|exact Hx]]. }
  destruct D as [(j & x & L & Hx & Sx)|D].
  - destruct (IH j L x Hx Sx) as (k' & a' & Lk & H). exists k', a'. split; [lia|exact H].
  - exists k, a. auto.
Qed.

Lemma validate_nil :
  (exists fuel, chain_validate fuel clock c = Some (Ok tt)) <->
  exists k a, ancestor (c_store c) k (c_head c) = Some a /\
    (h_previous (b_header a) = g \/ block_validate X (clock k) a = Ok tt) /\
    (forall j x, (j < k)%nat -> ancestor (c_store c) j (c_head c) = Some x -> exists e, block_validate X (clock j) x = Err e).
Proof.
  split.
  - intros [fuel E]. apply (walk_inv fuel 0) in E. destruct E as (k & a & A & NS & [[_ St]|[[E _]|(E & N & Sv)]]).
    + exists k, a. split; [exact A|]. split; [exact St|]. intros j x L Hx. apply (NS j x L Hx).
    + discriminate E.
    + exfalso. apply N. now right.
  - intros (k & a & A & St & B). destruct (first_stop k _ a A St) as (k' & a' & L' & A' & St' & NS).
    exists (Datatypes.S k'). apply (walk_ok k' 0 _ a'); [|exact A'|exact St'].
    intros j x L Hx. split; [exact (NS j x L Hx)|]. apply (B j x); [lia|exact Hx].
Qed.

Lemma validate_outcomes fuel r : chain_validate fuel clock c = Some r ->
  r = Ok tt \/ exists k a, ancestor (c_store c) k (c_head c) = Some a /\ h_previous (b_header a) <> g /\
    ((r = Err (Msg "invalid previous hash. blockchain integrity is broken") /\ (exists e, block_validate X (clock k) a = Err e) /\
      ancestor (c_store c) (Datatypes.S k) (c_head c) = None) \/
     (r = block_validate X (clock k) a /\ (r = Panic \/ r = Fatal) /\ ~ header_sized (b_header a))).
Proof.
  intros E. apply (walk_inv fuel 0) in E. destruct E as (k & a & A & _ & [[-> _]|[(-> & N & Er & A1)|(E & N & Sv)]]); [auto| |]; right; exists k, a.
  - split; [exact A|]. split; [intro K; apply N; now left|]. left. auto.
  - split; [exact A|]. split; [intro K; apply N; now left|]. right. split; [exact E|]. split.
    { destruct r; auto; exfalso; apply Sv; split; discriminate. }
    intro Z. apply Sv. rewrite E. apply block_survives. exact Z.
Qed.

Lemma validate_head : block_validate X (clock 0%nat) (c_head c) = Ok tt -> chain_validate 1 clock c = Some (Ok tt).
Proof.
  intro V. unfold chain_validate. cbn [validate_from]. rewrite Hg. destruct (bytes_eqb _ _); [reflexivity|]. now rewrite V.
Qed.
Lemma validate_child : h_previous (b_header (c_head c)) = g -> chain_validate 1 clock c = Some (Ok tt).
Proof.
  intro E. unfold chain_validate. cbn [validate_from]. rewrite Hg. apply bytes_eqb_eq in E. now rewrite E.
Qed.

Lemma validate_loops : h_previous (b_header (c_head c)) <> g -> h_previous (b_header (c_head c)) <> [] ->
  st_get S (c_store c) (by_hash (h_previous (b_header (c_head c)))) = Some (c_head c) ->
  (forall i, exists e, block_validate X (clock i) (c_head c) = Err e) ->
  forall fuel, chain_validate fuel clock c = None.
Proof.
  intros N N0 G V fuel. unfold chain_validate. generalize 0%nat. induction fuel as [|fuel IH]; intro i; [reflexivity|].
  cbn [validate_from]. rewrite Hg. apply bytes_eqb_neq in N. rewrite N. destruct (V i) as [e ->].
  unfold get_block. unfold by_hash in G. destruct (h_previous (b_header (c_head c))) as [|x l] eqn:E; [contradiction|]. rewrite G. apply IH.
Qed.
End Validate.

(** ** The chains of the genesis blocks *)
Lemma fresh_broken (genesis : block X) st g clock : st_last S st = None -> block_hash X genesis = Ok g -> h_previous (b_header genesis) <> g ->
  (exists e, block_validate X (clock 0%nat) genesis = Err e) -> get_block (chain_new (S := S) genesis st) (h_previous (b_header genesis)) = None ->
  chain_validate 1 clock (chain_new (S := S) genesis st) = Some (Err (Msg "invalid previous hash. blockchain integrity is broken")).
Proof.
  intros L Hg N (e & V) G. unfold chain_validate. assert (Ec : chain_new (S := S) genesis st = Chain st genesis genesis (h_height (b_header genesis)) (h_total_difficulty (b_header genesis)))
    by (unfold chain_new; now rewrite L). rewrite Ec in *. cbn [validate_from c_genesis c_head]. rewrite Hg. apply bytes_eqb_neq in N. rewrite N, V, G. reflexivity.
Qed.
Lemma fresh_fatal (genesis : block X) st g clock : st_last S st = None -> block_hash X genesis = Ok g -> h_previous (b_header genesis) <> g ->
  block_validate X (clock 0%nat) genesis = Fatal -> chain_validate 1 clock (chain_new (S := S) genesis st) = Some Fatal.
Proof.
  intros L Hg N V. unfold chain_validate. assert (Ec : chain_new (S := S) genesis st = Chain st genesis genesis (h_height (b_header genesis)) (h_total_difficulty (b_header genesis)))
    by (unfold chain_new; now rewrite L). rewrite Ec in *. cbn [validate_from c_genesis c_head]. rewrite Hg. apply bytes_eqb_neq in N. rewrite N, V. reflexivity.
Qed.

(** ** Total difficulty *)
Lemma accepted_total c b now hh bh prev top : hash_laws X ->
  block_hash X (c_head c) = Ok hh -> block_hash X b = Ok bh -> hh <> bh ->
  st_get S (c_store c) (parent_id (b_header b)) = Some prev -> proof_top X (h_pow (b_header prev)) top ->
  fst (process_block now c b) = Ok tt ->
  top <> 0 /\ h_total_difficulty (b_header b) =
    (h_total_difficulty (b_header prev) + 0x0fffffffffffffff / top) mod 2 ^ 64 /\
  (h_total_difficulty (b_header prev) + 0x0fffffffffffffff / top < 2 ^ 64 ->
   h_total_difficulty (b_header prev) <= h_total_difficulty (b_header b)).
Proof.
  intros HL Hh Bh N E (e & Ee & Et) P. rewrite (process_other c b now hh bh Hh Bh N), E in P.
  apply unit_ok in P as [_ P]. destruct (negb (time_after _ _)); [discriminate P|].
  rewrite (to_difficulty_eq X _ e HL Ee) in P. cbv zeta in P. rewrite <- Et in P.
  destruct (N.eqb_spec top 0) as [|Z]; [discriminate P|]. cbn [rbind] in P.
  destruct (N.eqb_spec (h_total_difficulty (b_header b)) (w64 (h_total_difficulty (b_header prev) + 0x0fffffffffffffff / top))) as [D|D];
    [|discriminate P].
  rewrite w64_mod in D. split; [exact Z|]. split; [exact D|]. intro L. rewrite N.mod_small in D by exact L. rewrite D. apply N.le_add_r.
Qed.
End WithExt.

(** ** The SQL backend *)
Lemma sql_empty X (ops : list (block X)) (st : st_state (sql_storage X)) (i : block_id) (n : N) :
  st_get (sql_storage X) (fold_left (st_add (sql_storage X)) ops st) i = None /\
  st_last (sql_storage X) (fold_left (st_add (sql_storage X)) ops st) = None /\
  st_from (sql_storage X) (fold_left (st_add (sql_storage X)) ops st) i n = [].
Proof. repeat split. Qed.

(** ** What acceptance says about validity *)
Section Accept.
Context (X : Ext) (S : storage X) (c : chain X S) (b : block X) (now : gotime) (hh bh : bytes).
Context (Hh : block_hash X (c_head c) = Ok hh) (Hb : block_hash X b = Ok bh).
Lemma accepted_valid : fst (process_block now c b) = Ok tt -> hh = bh \/ block_validate X now b = Ok tt.
Proof.
  intro E. destruct (bytes_eqb hh bh) eqn:K; [left; now apply bytes_eqb_eq|right].
  apply bytes_eqb_neq in K. rewrite (process_other X S c b now hh bh Hh Hb K) in E.
  apply bind_ok in E. destruct E as ([] & V & _). exact V.
Qed.
End Accept.

Lemma hash_of_pow X (b1 b2 : block X) : h_pow (b_header b1) = h_pow (b_header b2) -> block_hash X b1 = block_hash X b2.
Proof. intro E. unfold block_hash, header_hash. now rewrite E. Qed.

Lemma node_accepts X now (b : block X) : p_bits (h_pow (b_header b)) = 0 -> fst (process_block now (node_chain X) b) = Ok tt.
Proof.
  intro E. apply (process_tip X (sql_storage X) (node_chain X) b now (blake2b X []) (blake2b X [])).
  - exact (header_hash_zero X (b_header (testnet1 X)) eq_refl).
  - now apply header_hash_zero.
  - reflexivity.
Qed.

(** ** Batches of headers *)
Lemma headers_from X clock hs : forall i, process_headers_from X clock i hs = Ok tt <->
  forall k h, nth_error hs k = Some h -> header_validate X (clock (i + k)%nat) h = Ok tt.
Proof.
  induction hs as [|h hs IH]; intro i; cbn [process_headers_from].
  - split; [intros _ k h E; destruct k; discriminate E|reflexivity].
  - split.
    + intro E. apply bind_ok in E. destruct E as ([] & V & E). rewrite IH in E. intros [|k] h' N; cbn in N.
      * injection N as <-. now rewrite Nat.add_0_r.
      * replace (i + Datatypes.S k)%nat with (Datatypes.S i + k)%nat by lia. now apply E.
    + intro A. assert (V := A 0%nat h eq_refl). rewrite Nat.add_0_r in V. rewrite V. cbn [rbind].
      apply IH. intros k h' N. replace (Datatypes.S i + k)%nat with (i + Datatypes.S k)%nat by lia. now apply A.
Qed.
Lemma headers_iff X S clock (c : chain X S) hs : fst (process_headers clock c hs) = Ok tt <->
  forall k h, nth_error hs k = Some h -> header_validate X (clock k) h = Ok tt.
Proof. exact (headers_from X clock hs 0). Qed.
Lemma headers_first X clock pre : forall i h post e,
  (forall k x, nth_error pre k = Some x -> header_validate X (clock (i + k)%nat) x = Ok tt) ->
  header_validate X (clock (i + List.length pre)%nat) h = Err e ->
  process_headers_from X clock i (pre ++ h :: post) = Err e.
Proof.
  induction pre as [|p pre IH]; intros i h post e A E; cbn [app process_headers_from].
  - cbn [List.length] in E. rewrite Nat.add_0_r in E. now rewrite E.
  - assert (V := A 0%nat p eq_refl). rewrite Nat.add_0_r in V. rewrite V. cbn [rbind]. apply IH.
    + intros k x N. replace (Datatypes.S i + k)%nat with (i + Datatypes.S k)%nat by lia. now apply A.
    + cbn [List.length] in E. now replace (Datatypes.S i + List.length pre)%nat with (i + Datatypes.S (List.length pre))%nat by lia.
Qed.
Lemma headers_error X S clock (c : chain X S) pre h post e :
  (forall k x, nth_error pre k = Some x -> header_validate X (clock k) x = Ok tt) ->
  header_validate X (clock (List.length pre)) h = Err e ->
  fst (process_headers clock c (pre ++ h :: post)) = Err e.
Proof. exact (headers_first X clock pre 0 h post e). Qed.

(** No block from the wire has such a proof. *)
Lemma node_wire X now bs (b : block X) rest : block_read X bs = Ok (b, rest) -> fst (process_block now (node_chain X) b) = Ok tt ->
  block_validate X now b = Ok tt \/ exists m, m <> [] /\ blake2b X m = blake2b X [].
Proof.
  intros R E. destruct (block_read_header X bs b rest R) as (rest' & Rh).
  destruct (header_read_inv _ _ _ Rh) as ((_ & _ & _ & Hp & _) & _ & front & mid & _ & _ & Pr).
  apply proof_read_inv in Pr as (Hb & _).
  destruct (proof_bytes_spec (h_pow (b_header b))) as (m & Em & Lm & _); [rewrite Hp; constructor|lia|].
  assert (Bh : block_hash X b = Ok (blake2b X m)) by (unfold block_hash, header_hash; now rewrite Em).
  destruct (accepted_valid X (sql_storage X) (node_chain X) b now (blake2b X []) (blake2b X m)
    (header_hash_zero X (b_header (testnet1 X)) eq_refl) Bh E) as [K|K]; [right|now left].
  exists m. split; [|now symmetry]. intros ->. unfold lenN in Lm. cbn in Lm. symmetry in Lm.
  unfold bitvec_len in Lm. apply N.div_small_iff in Lm; [|discriminate].
  change (N.of_nat proof_size) with 42 in Lm. lia.
Qed.
