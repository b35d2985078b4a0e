(** Model of cuckoo/cuckoo.go. *)
From Verif Require Export Siphash.

(** cuckoo/cuckoo.go:14-20 — type Edge. *)
Record edge := Edge { eU : N; eV : N; usedU : bool; usedV : bool }.

(** A freshly made edge: the used flags are zero values. *)
Definition new_edge (u v : N) : edge := Edge u v false false.

(** cuckoo/cuckoo.go:38-39, 51-52 — edges[i].usedU = true (edges[i].usedV = true). *)
Definition mark (inU : bool) (e : edge) : edge :=
  if inU then Edge (eU e) (eV e) true (usedV e) else Edge (eU e) (eV e) (usedU e) true.
Fixpoint mark_at (inU : bool) (i : nat) (es : list edge) : list edge :=
  match es, i with
  | [], _ => []
  | e :: t, O => mark inU e :: t
  | e :: t, S i' => e :: mark_at inU i' t
  end.

(** cuckoo/cuckoo.go:37, 50 — the test
    j != i && !edges[j].usedU && edges[i].U == edges[j].U (resp. usedV, V). *)
Definition joins (inU : bool) (i : nat) (ei : edge) (j : nat) (ej : edge) : bool :=
  negb (Nat.eqb j i) &&
  (if inU then negb (usedU ej) && (eU ei =? eU ej)
   else negb (usedV ej) && (eV ei =? eV ej)).

(** cuckoo/cuckoo.go:36, 49 — for j := range edges: the first index from [j] on passing the test. *)
Fixpoint find_join (inU : bool) (i : nat) (ei : edge) (j : nat) (es : list edge) : option nat :=
  match es with
  | [] => None
  | ej :: t => if joins inU i ei j ej then Some j else find_join inU i ei (S j) t
  end.

(** cuckoo/cuckoo.go:28-64 — the walk. [fuel] bounds the number of loop iterations; [None] means
    that the bound was too small (shown never to happen: C23). *)
Fixpoint cycle_loop (fuel : nat) (es : list edge) (i cycle : nat) : option nat :=
  match fuel with
  | O => None
  | S fuel' =>
      let inU := Nat.even cycle in
      match nth_error es i with
      | None => Some cycle (* no edges at all: the range loop has no iterations *)
      | Some ei =>
          match find_join inU i ei 0 es with
          | Some j => cycle_loop fuel' (mark_at inU j (mark_at inU i es)) j (S cycle)
          | None => Some cycle
          end
      end
  end.

(** cuckoo/cuckoo.go:24-67 — findCycleLength. *)
Definition find_cycle_length (es : list edge) : option nat :=
  cycle_loop (S (List.length es)) es 0 0.

(** cuckoo/cuckoo.go:72-80 and 150-158 — the siphash key: four little-endian words of the BLAKE2b
    hash of the key bytes. [bsum] is the 32-byte digest. *)
Definition sip_keys (bsum : bytes) : sip :=
  Sip (unle (slice 0 8 bsum)) (unle (slice 8 8 bsum))
      (unle (slice 16 8 bsum)) (unle (slice 24 8 bsum)).

(** cuckoo/cuckoo.go:92-100 — type Cuckoo. *)
Record cuckoo_ctx := CuckooCtx { ck_mask : N; ck_size : N; ck_v : sip }.

(** cuckoo/cuckoo.go:72-89 — New, after the BLAKE2b call. uint64(1) << sizeShift is 0 for a shift
    of 64 or more, and numVertices/2 - 1 wraps. *)
Definition cuckoo_new (bsum : bytes) (size_shift : N) : cuckoo_ctx :=
  let num_vertices := shl64 1 size_shift in
  CuckooCtx (w64 (num_vertices / 2 + (2 ^ 64 - 1))) num_vertices (sip_keys bsum).

(** cuckoo/cuckoo.go:102-104 — newNode. *)
Definition cuckoo_node (c : cuckoo_ctx) (nonce i : N) : N :=
  N.lor (shl64 (N.land (siphash24 (ck_v c) (add64 (w64 (2 * nonce)) i)) (ck_mask c)) 1) i.

(** cuckoo/cuckoo.go:106-111 — (Cuckoo).NewEdge. *)
Definition cuckoo_edge (c : cuckoo_ctx) (nonce : N) : edge :=
  new_edge (cuckoo_node c nonce 0) (cuckoo_node c nonce 1).

(** cuckoo/cuckoo.go:127-136 and 186-195 — the loop that checks the nonces and builds the edges;
    [ok] is the range test, [prev] the previous nonce. [None]: the loop returned false. *)
Fixpoint build_edges (ok : N -> bool) (mk : N -> edge) (prev : option N) (nonces : list N)
  : option (list edge) :=
  match nonces with
  | [] => Some []
  | n :: t =>
      if negb (ok n) || (match prev with Some p => n <=? p | None => false end) then None
      else match build_edges ok mk (Some n) t with
           | Some es => Some (mk n :: es)
           | None => None
           end
  end.

(** cuckoo/cuckoo.go:138, 197 — findCycleLength(edges) == proofSize. *)
Definition cycle_is (es : list edge) (size : nat) : bool :=
  match find_cycle_length es with Some c => Nat.eqb c size | None => false end.

(** cuckoo/cuckoo.go:115-139 — (Cuckoo).Verify; ease * c.size wraps. *)
Definition cuckoo_verify (c : cuckoo_ctx) (nonces : list N) (ease : N) : bool :=
  match nonces with
  | [] => false
  | _ =>
      let easiness := w64 (ease * ck_size c) / 100 in
      match build_edges (fun n => n <? easiness) (cuckoo_edge c) None nonces with
      | None => false
      | Some es => cycle_is es (List.length nonces)
      end
  end.

(** cuckoo/cuckoo.go:200-206 — (Cuckaroo).NewEdge. *)
Definition cuckaroo_edge (v : sip) (mask nonce : N) : edge :=
  let e := siphash_block v nonce in
  new_edge (N.land e mask) (N.land (shr64 e 32) mask).

(** cuckoo/cuckoo.go:182 — numEdges := uint64(1<<edgeBits) - 1. The shift is a uint64 one, so it
    gives 0 from 64 on and the subtraction wraps. *)
Definition cuckaroo_mask (edge_bits : N) : N := w64 (shl64 1 edge_bits + (2 ^ 64 - 1)).

(** cuckoo/cuckoo.go:174-198 — (Cuckaroo).Verify. *)
Definition cuckaroo_verify (v : sip) (nonces : list N) (edge_bits : N) : bool :=
  match nonces with
  | [] => false
  | _ =>
      let num_edges := cuckaroo_mask edge_bits in
      match build_edges (fun n => n <=? num_edges) (cuckaroo_edge v num_edges) None nonces with
      | None => false
      | Some es => cycle_is es (List.length nonces)
      end
  end.

(** cuckoo/cuckoo.go:150-163 — NewCuckaroo, after the BLAKE2b call. *)
Definition new_cuckaroo (bsum : bytes) : sip := sip_keys bsum.
