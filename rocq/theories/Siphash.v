(** Model of cuckoo/siphash24.go. *)
From Verif Require Export GoRT.

(** uint64 operators: x+y, x<<k, x>>k as Go computes them (wrapping). *)
Definition add64 (x y : N) : N := w64 (x + y).
Definition shl64 (x k : N) : N := w64 (N.shiftl x k).
Definition shr64 (x k : N) : N := N.shiftr x k.

(** cuckoo/siphash24.go:13-18 — type SipHash24 { v [4]uint64 }. *)
Record sip := Sip { sv0 : N; sv1 : N; sv2 : N; sv3 : N }.

(** The four words are uint64 values. *)
Definition sip_wf (s : sip) : Prop :=
  is_u64 (sv0 s) /\ is_u64 (sv1 s) /\ is_u64 (sv2 s) /\ is_u64 (sv3 s).

(** cuckoo/siphash24.go:27-30 — Sum64. *)
Definition sip_sum64 (h : sip) : N :=
  N.lxor (N.lxor (N.lxor (sv0 h) (sv1 h)) (sv2 h)) (sv3 h).

(** cuckoo/siphash24.go:36-54 — the closure [round] inside Write64, statement by statement. *)
Definition sip_round (h : sip) : sip :=
  let '(Sip v0 v1 v2 v3) := h in
  let v0 := add64 v0 v1 in
  let v1 := N.lor (shl64 v1 13) (shr64 v1 (64 - 13)) in
  let v1 := N.lxor v1 v0 in
  let v0 := N.lor (shl64 v0 32) (shr64 v0 (64 - 32)) in
  let v2 := add64 v2 v3 in
  let v3 := N.lor (shl64 v3 16) (shr64 v3 (64 - 16)) in
  let v3 := N.lxor v3 v2 in
  let v0 := add64 v0 v3 in
  let v3 := N.lor (shl64 v3 21) (shr64 v3 (64 - 21)) in
  let v3 := N.lxor v3 v0 in
  let v2 := add64 v2 v1 in
  let v1 := N.lor (shl64 v1 17) (shr64 v1 (64 - 17)) in
  let v1 := N.lxor v1 v2 in
  let v2 := N.lor (shl64 v2 32) (shr64 v2 (64 - 32)) in
  Sip v0 v1 v2 v3.

(** cuckoo/siphash24.go:33-66 — Write64: h.v[3] ^= nonce, two rounds, h.v[0] ^= nonce,
    h.v[2] ^= 0xff, four rounds. *)
Definition sip_write64 (h : sip) (nonce : N) : sip :=
  let h := Sip (sv0 h) (sv1 h) (sv2 h) (N.lxor (sv3 h) nonce) in
  let h := sip_round (sip_round h) in
  let h := Sip (N.lxor (sv0 h) nonce) (sv1 h) (N.lxor (sv2 h) 0xff) (sv3 h) in
  sip_round (sip_round (sip_round (sip_round h))).

(** cuckoo/siphash24.go:69-73 — siphash24(v, nonce). *)
Definition siphash24 (v : sip) (nonce : N) : N := sip_sum64 (sip_write64 v nonce).

(** cuckoo/siphash24.go:8-10 — siphashBlockSize = 1<<6 and siphashBlockMask. *)
Definition siphash_block_size : N := 64.
Definition siphash_block_mask : N := 63.

(** cuckoo/siphash24.go:84-89 — the loop of siphashBlock:
    for n := start; n < stop; n++ { siphash.Write64(n); if n == nonce { nonceHash = Sum64() } }.
    [fuel] is the largest possible number of iterations (siphashBlockSize). *)
Fixpoint sip_block_loop (fuel : nat) (n stop nonce : N) (h : sip) (nonce_hash : N) : sip * N :=
  match fuel with
  | O => (h, nonce_hash)
  | S fuel' =>
      if n <? stop then
        let h := sip_write64 h n in
        let nonce_hash := if n =? nonce then sip_sum64 h else nonce_hash in
        sip_block_loop fuel' (add64 n 1) stop nonce h nonce_hash
      else (h, nonce_hash)
  end.

(** cuckoo/siphash24.go:76-98 — siphashBlock. [nonce &^ mask] is N.ldiff; the loop bound
    start+siphashBlockSize wraps like any uint64 addition. *)
Definition siphash_block (v : sip) (nonce : N) : N :=
  let start := N.ldiff nonce siphash_block_mask in
  let '(h, nonce_hash) :=
    sip_block_loop (N.to_nat siphash_block_size) start (add64 start siphash_block_size) nonce v 0 in
  if nonce =? add64 start siphash_block_mask then sip_sum64 h
  else N.lxor nonce_hash (sip_sum64 h).
