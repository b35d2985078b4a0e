(** The pieces of the Go runtime and standard library that /repo relies on.
    These are not code of /repo: they are part of the trusted base (DESIGN.md, section 4). *)
From Verif Require Export Base.

(** ** Outcomes *)

(** An [error] value: the two sentinel errors of package io, or any error built by the code,
    identified by (the fixed part of) its text. *)
Inductive err := EOF | UnexpectedEOF | Msg (s : string).
Arguments Msg s%string_scope.

(** What calling a Go function can lead to: a result with a nil error, a returned error,
    a run-time panic, or process termination through logrus.Fatal (os.Exit(1)). *)
Inductive res (A : Type) : Type :=
| Ok (a : A)
| Err (e : err)
| Panic
| Fatal.
Arguments Ok {A} a.
Arguments Err {A} e.
Arguments Panic {A}.
Arguments Fatal {A}.

Definition rbind {A B} (r : res A) (f : A -> res B) : res B :=
  match r with
  | Ok a => f a
  | Err e => Err e
  | Panic => Panic
  | Fatal => Fatal
  end.

Definition rmap {A B} (f : A -> B) (r : res A) : res B := rbind r (fun a => Ok (f a)).

Declare Scope res_scope.
Delimit Scope res_scope with res.
Notation "'let!' x ':=' r 'in' k" := (rbind r (fun x => k))
  (at level 200, x pattern, r at level 100, k at level 200, right associativity) : res_scope.
Open Scope res_scope.

(** The call neither panics nor terminates the process. *)
Definition survives {A} (r : res A) : Prop := r <> Panic /\ r <> Fatal.
(** The call returned without an error. *)
Definition succeeds {A} (r : res A) : Prop := exists a, r = Ok a.
Definition is_ok {A} (r : res A) : bool := match r with Ok _ => true | _ => false end.

(** ** Readers *)

(** An [io.Reader] positioned at the front of a byte string, in state-passing style: the outcome
    carries the bytes that remain unread. After an error the reader is not used again anywhere in
    /repo (every caller gives up the connection or buffer), so the rest is dropped. *)
Definition reader (A : Type) := bytes -> res (A * bytes).

Definition rret {A} (a : A) : reader A := fun bs => Ok (a, bs).
Definition rfail {A} (e : err) : reader A := fun _ => Err e.
Definition rpanic {A} : reader A := fun _ => Panic.
Definition pbind {A B} (p : reader A) (f : A -> reader B) : reader B :=
  fun bs => match p bs with
            | Ok (a, rest) => f a rest
            | Err e => Err e
            | Panic => Panic
            | Fatal => Fatal
            end.
(** Running a computation that does not touch the reader. *)
Definition lift {A} (r : res A) : reader A := fun bs => rbind r (fun a => Ok (a, bs)).

Notation "'do' x '<-' p ';' k" := (pbind p (fun x => k))
  (at level 200, x pattern, p at level 100, k at level 200, right associativity).

(** io.ReadFull(r, buf) with len(buf) = n: reads exactly n bytes; io.EOF if nothing was read,
    io.ErrUnexpectedEOF if the stream ends midway; a zero-length read succeeds. *)
Definition read_full (n : N) : reader bytes :=
  fun bs =>
    if n =? 0 then Ok ([], bs)
    else if lenN bs <? n then (if lenN bs =? 0 then Err EOF else Err UnexpectedEOF)
    else Ok (takeN n bs, dropN n bs).

(** binary.Read(r, binary.BigEndian, &x) for an unsigned integer of k bytes: io.ReadFull then decode. *)
Definition read_be (k : nat) : reader N :=
  do l <- read_full (N.of_nat k); rret (unbe l).

(** The same for an int64. *)
Definition read_i64 : reader Z :=
  do n <- read_be 8; rret (i64_of_u64 n).

(** A counted loop that reads items one after the other, stopping at the first failure:
    for i := 0; i < n; i++ { if err := x[i].Read(r); err != nil { return err } }. *)
Fixpoint read_n {A} (n : nat) (p : reader A) : reader (list A) :=
  match n with
  | O => rret []
  | S n' => do a <- p; do l <- read_n n' p; rret (a :: l)
  end.

(** io.LimitReader(r, n): the inner read sees at most n bytes; what it leaves unread stays in r. *)
Definition limit_reader {A} (n : N) (p : reader A) : reader A :=
  fun bs => match p (takeN n bs) with
            | Ok (a, rest) => Ok (a, rest ++ dropN n bs)
            | Err e => Err e
            | Panic => Panic
            | Fatal => Fatal
            end.

(** ** make([]T, n) *)

(** runtime.maxAlloc on linux/amd64: 1<<48. *)
Definition max_alloc : N := 2 ^ 48.
(** make([]T, n) with sizeof(T) = elem and n an unsigned 64-bit value: panics ("makeslice: len out
    of range") if n does not fit an int or the slice exceeds the address space. Exhausting memory
    below that limit is not modelled. *)
Definition go_make (elem n : N) : res unit :=
  if (2 ^ 63 <=? n) || (max_alloc <? n * elem) then Panic else Ok tt.

(** ** Sorting *)

(** sort.IsSorted(data) for a list ordered by comparing byte-string keys:
    false iff some element is Less than its predecessor. *)
Fixpoint is_sorted {A} (key : A -> bytes) (l : list A) : bool :=
  match l with
  | a :: (b :: _) as t => negb (bytes_lt (key b) (key a)) && is_sorted key t
  | _ => true
  end.

(** ** time *)

(** A time.Time without monotonic reading: seconds since year 1 (an int64) and nanoseconds. *)
Record gotime := GoTime { t_sec : Z; t_nsec : Z }.

Definition unix_to_internal : Z := 62135596800.
(** time.Unix(ts, 0): the conversion to the internal epoch wraps like any int64 addition. *)
Definition time_unix (ts : Z) : gotime := GoTime (wrap64 (ts + unix_to_internal)) 0.
(** t.Unix(). *)
Definition time_to_unix (t : gotime) : Z := wrap64 (t_sec t - unix_to_internal).
(** t.Before(u), t.After(u). *)
Definition time_before (t u : gotime) : bool :=
  ((t_sec t <? t_sec u) || ((t_sec t =? t_sec u) && (t_nsec t <? t_nsec u)))%Z.
Definition time_after (t u : gotime) : bool := time_before u t.
(** u.Add(d), d in nanoseconds: time.Time.Add with addSec, whose seconds saturate (Go 1.12 on; before
    that they wrapped). *)
Definition add_sec (s d : Z) : Z :=
  let sum := wrap64 (s + d) in
  if Bool.eqb (s <? sum)%Z (0 <? d)%Z then sum else if (0 <? d)%Z then (2 ^ 63 - 1)%Z else (- (2 ^ 63 - 1))%Z.
Definition time_add (u : gotime) (d : Z) : gotime :=
  let ns := (t_nsec u + Z.rem d 1000000000)%Z in
  let ds := Z.quot d 1000000000 in
  if (1000000000 <=? ns)%Z then GoTime (add_sec (t_sec u) (ds + 1)) (ns - 1000000000)
  else if (ns <? 0)%Z then GoTime (add_sec (t_sec u) (ds - 1)) (ns + 1000000000)
  else GoTime (add_sec (t_sec u) ds) ns.
Definition time_equal (t u : gotime) : bool := ((t_sec t =? t_sec u) && (t_nsec t =? t_nsec u))%Z.
(** t.Sub(u) in nanoseconds: the wrapped difference if it is exact, else minDuration/maxDuration. *)
Definition time_sub (t u : gotime) : Z :=
  let d := wrap64 (wrap64 (wrap64 (t_sec t - t_sec u) * 1000000000) + (t_nsec t - t_nsec u)) in
  if time_equal (time_add u d) t then d
  else if time_before t u then (- 2 ^ 63)%Z
  else (2 ^ 63 - 1)%Z.

Definition time_wf (t : gotime) : Prop := is_i64 (t_sec t) /\ (0 <= t_nsec t < 1000000000)%Z.

(** The instant in nanoseconds, exactly. *)
Definition instant (t : gotime) : Z := (t_sec t * 1000000000 + t_nsec t)%Z.
(** A clock reading more than 318 years away from the ends of the 64-bit range of seconds. *)
Definition clock_ok (t : gotime) : Prop := time_wf t /\ (- 2 ^ 63 + 2 ^ 34 <= t_sec t <= 2 ^ 63 - 1 - 2 ^ 34)%Z.

Lemma wrap64_congr a b : exists k, wrap64 (a + b) = (a + b + k * 2 ^ 64)%Z.
Proof.
  unfold wrap64. pose proof (Z.div_mod (a + b + 2 ^ 63) (2 ^ 64) ltac:(lia)) as H.
  exists (- ((a + b + 2 ^ 63) / 2 ^ 64))%Z. lia.
Qed.

Lemma wrap64_eqm z : exists k, wrap64 z = (z + k * 2 ^ 64)%Z.
Proof. destruct (wrap64_congr z 0) as [k H]. rewrite Z.add_0_r in H. eauto. Qed.

Lemma wrap64_unique z w : is_i64 w -> (exists k, w = (z + k * 2 ^ 64)%Z) -> wrap64 z = w.
Proof.
  intros Hw [k Hk]. destruct (wrap64_eqm z) as [k' H']. pose proof (wrap64_range z) as R.
  unfold is_i64 in *. assert (k = k') by lia. subst. lia.
Qed.

Lemma add_sec_exact s d : is_i64 (s + d) -> is_i64 d -> is_i64 s -> d <> 0%Z -> add_sec s d = (s + d)%Z.
Proof.
  intros H Hd Hs Hz. unfold add_sec. rewrite wrap64_id by exact H.
  replace (Bool.eqb (s <? s + d)%Z (0 <? d)%Z) with true; [reflexivity|].
  destruct (Z.ltb_spec s (s + d)), (Z.ltb_spec 0 d); cbn; try reflexivity; lia.
Qed.

Lemma add_sec_zero s : is_i64 s -> add_sec s 0 = s.
Proof. intro H. unfold add_sec. rewrite Z.add_0_r, wrap64_id by exact H. now rewrite !Z.ltb_irrefl. Qed.

Lemma add_sec_ok s d : is_i64 (s + d) -> is_i64 d -> is_i64 s -> add_sec s d = (s + d)%Z.
Proof.
  intros. destruct (Z.eq_dec d 0) as [->|]; [rewrite add_sec_zero by assumption; lia|now apply add_sec_exact].
Qed.

Lemma time_add_instant u d : clock_ok u -> is_i64 d ->
  time_wf (time_add u d) /\ instant (time_add u d) = (instant u + d)%Z.
Proof.
  intros [[Hs Hn] Hr] Hd. unfold time_add, instant, time_wf.
  pose proof (Z.quot_rem' d 1000000000) as Q.
  assert (Br : (- 1000000000 < Z.rem d 1000000000 < 1000000000)%Z).
  { pose proof (Z.rem_bound_abs d 1000000000 ltac:(lia)). lia. }
  set (q := Z.quot d 1000000000) in *. set (r := Z.rem d 1000000000) in *. clearbody q r.
  unfold is_i64 in *.
  assert (Bq : (- 2 ^ 34 < q < 2 ^ 34 - 1)%Z) by lia.
  destruct (Z.leb_spec 1000000000 (t_nsec u + r)); [|destruct (Z.ltb_spec (t_nsec u + r) 0)]; cbn [t_sec t_nsec];
    rewrite add_sec_ok by (unfold is_i64; lia); lia.
Qed.

(** Sub is the exact difference, saturated to the range of int64. *)
Lemma time_sub_sat t u : time_wf t -> clock_ok u ->
  time_sub t u =
    (let D := instant t - instant u in
     if D <? - 2 ^ 63 then - 2 ^ 63 else if 2 ^ 63 - 1 <? D then 2 ^ 63 - 1 else D)%Z.
Proof.
  intros Ht Hu. cbv zeta. unfold time_sub.
  set (D := (instant t - instant u)%Z).
  set (d := wrap64 (wrap64 (wrap64 (t_sec t - t_sec u) * 1000000000) + (t_nsec t - t_nsec u))).
  assert (Hd : is_i64 d) by apply wrap64_range.
  assert (C : exists k, d = (D + k * 2 ^ 64)%Z).
  { unfold d. destruct (wrap64_eqm (t_sec t - t_sec u)) as [a Ha].
    destruct (wrap64_eqm (wrap64 (t_sec t - t_sec u) * 1000000000)) as [b Hb].
    destruct (wrap64_eqm (wrap64 (wrap64 (t_sec t - t_sec u) * 1000000000) + (t_nsec t - t_nsec u))) as [c Hc].
    rewrite Hc, Hb, Ha. unfold D, instant. exists (c + b + a * 1000000000)%Z. lia. }
  destruct (time_add_instant u d Hu Hd) as [W I].
  assert (EQ : time_equal (time_add u d) t = true <-> d = D).
  { unfold time_equal. rewrite andb_true_iff, !Z.eqb_eq. unfold D. unfold instant in *.
    destruct W as [_ W]. destruct Ht as [_ Ht]. split; [lia|]. intro E. lia. }
  assert (B : time_before t u = true <-> (D < 0)%Z).
  { unfold time_before, D, instant. rewrite orb_true_iff, andb_true_iff, Z.eqb_eq, !Z.ltb_lt.
    destruct Ht as [_ Ht], Hu as [[_ Hu] _]. lia. }
  unfold is_i64 in Hd. destruct C as [k Hk].
  destruct (Z.ltb_spec D (- 2 ^ 63)) as [L|L].
  - replace (time_equal _ t) with false.
    + replace (time_before t u) with true; [reflexivity|]. symmetry. apply B. lia.
    + symmetry. apply not_true_is_false. rewrite EQ. lia.
  - destruct (Z.ltb_spec (2 ^ 63 - 1) D) as [U|U].
    + replace (time_equal _ t) with false.
      * replace (time_before t u) with false; [reflexivity|]. symmetry. apply not_true_is_false. rewrite B. lia.
      * symmetry. apply not_true_is_false. rewrite EQ. lia.
    + assert (k = 0%Z) by lia. subst k. replace (time_equal _ t) with true; [lia|]. symmetry. apply EQ. lia.
Qed.

Lemma time_unix_wf ts : time_wf (time_unix ts).
Proof. split; [apply wrap64_range | cbn; lia]. Qed.

Lemma time_to_unix_unix ts : is_i64 ts -> time_to_unix (time_unix ts) = ts.
Proof.
  intro H. unfold time_to_unix, time_unix. cbn [t_sec].
  unfold Z.sub. rewrite wrap64_wrap64_add.
  replace (ts + unix_to_internal + - unix_to_internal)%Z with ts by lia.
  now apply wrap64_id.
Qed.

Lemma time_unix_to_unix t : time_wf t -> t_nsec t = 0%Z -> time_unix (time_to_unix t) = t.
Proof.
  destruct t as [s n]. unfold time_wf, time_unix, time_to_unix. cbn. intros [Hs Hn] ->.
  rewrite wrap64_wrap64_add.
  replace (s - unix_to_internal + unix_to_internal)%Z with s by lia.
  now rewrite wrap64_id.
Qed.

(** ** Lemmas about readers *)

Lemma pbind_ok {A B} (p : reader A) (f : A -> reader B) bs a rest :
  p bs = Ok (a, rest) -> pbind p f bs = f a rest.
Proof. unfold pbind. now intros ->. Qed.

Lemma pbind_err {A B} (p : reader A) (f : A -> reader B) bs e :
  p bs = Err e -> pbind p f bs = Err e.
Proof. unfold pbind. now intros ->. Qed.

Lemma pbind_inv {A B} (p : reader A) (f : A -> reader B) bs b rest :
  pbind p f bs = Ok (b, rest) -> exists a mid, p bs = Ok (a, mid) /\ f a mid = Ok (b, rest).
Proof.
  unfold pbind. destruct (p bs) as [[a mid]|e| |] eqn:E; try discriminate.
  intro H. exists a, mid. split; [reflexivity|exact H].
Qed.

Lemma read_full_app (l rest : bytes) : read_full (lenN l) (l ++ rest) = Ok (l, rest).
Proof.
  unfold read_full. destruct (N.eqb_spec (lenN l) 0) as [H|H].
  - unfold lenN in H. destruct l; [reflexivity|cbn in H; lia].
  - replace (lenN (l ++ rest) <? lenN l) with false.
    + now rewrite takeN_app_exact, dropN_app_exact.
    + symmetry. apply N.ltb_ge. rewrite lenN_app. lia.
Qed.

Lemma read_full_app' n (l rest : bytes) : lenN l = n -> read_full n (l ++ rest) = Ok (l, rest).
Proof. intros <-. apply read_full_app. Qed.

Lemma read_full_inv n bs l rest :
  read_full n bs = Ok (l, rest) -> bs = l ++ rest /\ lenN l = n.
Proof.
  unfold read_full. destruct (N.eqb_spec n 0) as [->|Hn].
  - intros [= <- <-]. split; reflexivity.
  - destruct (N.ltb_spec (lenN bs) n) as [Hlt|Hge].
    + destruct (lenN bs =? 0); discriminate.
    + intros [= <- <-]. split; [symmetry; apply takeN_dropN|].
      unfold takeN, lenN in *. rewrite firstn_length. lia.
Qed.

Lemma read_full_short n bs : lenN bs < n -> exists e, read_full n bs = Err e.
Proof.
  intro H. unfold read_full. destruct (N.eqb_spec n 0); [lia|].
  replace (lenN bs <? n) with true by (symmetry; apply N.ltb_lt; lia).
  destruct (lenN bs =? 0); eexists; reflexivity.
Qed.

Lemma read_be_app k n rest : n < 256 ^ N.of_nat k -> read_be k (be k n ++ rest) = Ok (n, rest).
Proof.
  intro H. unfold read_be. rewrite (pbind_ok _ _ _ (be k n) rest).
  - unfold rret. now rewrite unbe_be.
  - apply read_full_app'. unfold lenN. now rewrite be_length.
Qed.

Lemma read_be_inv k bs n rest :
  read_be k bs = Ok (n, rest) -> bs = be k n ++ rest /\ n < 256 ^ N.of_nat k.
Proof.
  unfold read_be. intro H. apply pbind_inv in H as (l & mid & H1 & H2).
  apply read_full_inv in H1 as [-> Hl]. injection H2 as <- <-.
  assert (Hk : List.length l = k) by (unfold lenN in Hl; lia).
  split.
  - now rewrite <- Hk, be_unbe.
  - rewrite <- Hk. apply unbe_lt.
Qed.

Lemma read_i64_app z rest : is_i64 z -> read_i64 (be 8 (u64_of_i64 z) ++ rest) = Ok (z, rest).
Proof.
  intro H. unfold read_i64. rewrite (pbind_ok _ _ _ (u64_of_i64 z) rest).
  - unfold rret. now rewrite i64_u64.
  - apply read_be_app. apply u64_of_i64_lt.
Qed.

Lemma read_i64_inv bs z rest :
  read_i64 bs = Ok (z, rest) -> bs = be 8 (u64_of_i64 z) ++ rest /\ is_i64 z.
Proof.
  unfold read_i64. intro H. apply pbind_inv in H as (n & mid & H1 & H2).
  apply read_be_inv in H1 as [-> Hn]. injection H2 as <- <-.
  rewrite u64_i64 by exact Hn. split; [reflexivity|apply wrap64_range].
Qed.

Lemma limit_reader_exact {A} (p : reader A) (l rest : bytes) a :
  p l = Ok (a, []) -> limit_reader (lenN l) p (l ++ rest) = Ok (a, rest).
Proof.
  intro H. unfold limit_reader. rewrite takeN_app_exact, dropN_app_exact, H. reflexivity.
Qed.

Lemma read_n_app {A} (p : reader A) (enc : A -> bytes) (l : list A) rest :
  (forall a r, In a l -> p (enc a ++ r) = Ok (a, r)) ->
  read_n (List.length l) p (flat_map enc l ++ rest) = Ok (l, rest).
Proof.
  induction l as [|a l IH]; intro H; cbn [read_n flat_map List.length]; [reflexivity|].
  rewrite <- app_assoc. rewrite (pbind_ok _ _ _ a (flat_map enc l ++ rest)) by (apply H; now left).
  rewrite (pbind_ok _ _ _ l rest); [reflexivity|].
  apply IH. intros a' r Ha. apply H. now right.
Qed.

Lemma read_n_length {A} (p : reader A) n bs l rest :
  read_n n p bs = Ok (l, rest) -> List.length l = n.
Proof.
  revert bs l rest; induction n as [|n IH]; intros bs l rest H; cbn [read_n] in H.
  - now injection H as <- <-.
  - apply pbind_inv in H as (a & mid & _ & H). apply pbind_inv in H as (l' & mid' & H & H').
    injection H' as <- <-. cbn. f_equal. eauto.
Qed.

(** A reader that survives every byte string. *)
Definition safe {A} (p : reader A) : Prop := forall bs, survives (p bs).

Lemma safe_ret {A} (a : A) : safe (rret a).
Proof. intro bs. split; discriminate. Qed.
Lemma safe_fail {A} e : safe (@rfail A e).
Proof. intro bs. split; discriminate. Qed.
Lemma safe_bind {A B} (p : reader A) (f : A -> reader B) :
  safe p -> (forall a, safe (f a)) -> safe (pbind p f).
Proof.
  intros Hp Hf bs. unfold pbind. specialize (Hp bs). destruct (p bs) as [[a r]|e| |].
  - apply Hf.
  - split; discriminate.
  - destruct Hp as [Hp _]. congruence.
  - destruct Hp as [_ Hp]. congruence.
Qed.
(** As [safe_bind], with what the first read guarantees about its result. *)
Lemma safe_bind_inv {A B} (p : reader A) (f : A -> reader B) :
  safe p -> (forall bs a r, p bs = Ok (a, r) -> safe (f a)) -> safe (pbind p f).
Proof.
  intros Hp Hf bs. unfold pbind. specialize (Hp bs). destruct (p bs) as [[a r]|e| |] eqn:E.
  - eapply Hf; eassumption.
  - split; discriminate.
  - destruct Hp as [Hp _]. congruence.
  - destruct Hp as [_ Hp]. congruence.
Qed.
Lemma safe_read_full n : safe (read_full n).
Proof.
  intro bs. unfold read_full. destruct (n =? 0); [split; discriminate|].
  destruct (lenN bs <? n); [destruct (lenN bs =? 0)|]; split; discriminate.
Qed.
Lemma safe_read_be k : safe (read_be k).
Proof. apply safe_bind; [apply safe_read_full|intro; apply safe_ret]. Qed.
Lemma safe_read_i64 : safe read_i64.
Proof. apply safe_bind; [apply safe_read_be|intro; apply safe_ret]. Qed.
Lemma safe_read_n {A} n (p : reader A) : safe p -> safe (read_n n p).
Proof.
  intro Hp. induction n as [|n IH]; cbn [read_n]; [apply safe_ret|].
  apply safe_bind; [exact Hp|intro a]. apply safe_bind; [exact IH|intro l; apply safe_ret].
Qed.
Lemma safe_limit {A} n (p : reader A) : safe p -> safe (limit_reader n p).
Proof.
  intros Hp bs. unfold limit_reader. specialize (Hp (takeN n bs)).
  destruct (p (takeN n bs)) as [[a r]|e| |]; try (split; discriminate).
  - destruct Hp as [Hp _]. congruence.
  - destruct Hp as [_ Hp]. congruence.
Qed.
Lemma safe_lift {A} (r : res A) : survives r -> safe (lift r).
Proof. intros Hr bs. destruct r; cbn; destruct Hr; split; try discriminate; congruence. Qed.
Lemma go_make_small elem n : n < 2 ^ 63 -> n * elem <= max_alloc -> go_make elem n = Ok tt.
Proof.
  intros H1 H2. unfold go_make.
  replace (2 ^ 63 <=? n) with false by (symmetry; apply N.leb_gt; exact H1).
  replace (max_alloc <? n * elem) with false by (symmetry; apply N.ltb_ge; exact H2).
  reflexivity.
Qed.
