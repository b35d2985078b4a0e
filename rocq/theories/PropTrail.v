(** Property C114: the exact gap of the cycle search. Statements only; proofs are in TrailProofs.v,
    specifications in SpecPow.v and SpecTrail.v. *)
From Coq Require Import Permutation Sorted.
From Verif Require Import Cuckoo SpecPow SpecTrail SipProofs CycleProofs PowProofs ContainProofs TrailProofs PowExamples.

(** * C114 *)

(** Whatever is accepted is a trail that starts with the first nonce and comes back to it. *)
Theorem C114_cuckaroo_trail : forall d ns eb,
  Forall is_u32 ns -> cuckaroo_verify (new_cuckaroo d) ns eb = true ->
  returning_trail (map (cuckaroo_ends (key_words d) eb) ns).
Proof. exact cuckaroo_trail. Qed.
Print Assumptions C114_cuckaroo_trail.

Theorem C114_cuckoo_trail : forall b sh ns ease,
  1 <= sh <= 63 -> Forall is_u32 ns -> cuckoo_verify (cuckoo_new b sh) ns ease = true ->
  returning_trail (map (cuckoo_ends (key_words b) sh) ns).
Proof. exact cuckoo_trail. Qed.
Print Assumptions C114_cuckoo_trail.

(** Every cycle with a path hanging off it at the first nonce, in the right order, is accepted. *)
Theorem C114_cuckaroo_lollipops : forall d ns eb,
  Forall is_u32 ns -> valid_nonces (2 ^ eb) ns ->
  lollipop (map (cuckaroo_ends (key_words d) eb) ns) -> cuckaroo_verify (new_cuckaroo d) ns eb = true.
Proof. exact cuckaroo_lollipop. Qed.
Print Assumptions C114_cuckaroo_lollipops.

Theorem C114_cuckoo_lollipops : forall b sh ns ease,
  1 <= sh <= 63 -> Forall is_u32 ns -> valid_nonces ((ease * 2 ^ sh) mod 2 ^ 64 / 100) ns ->
  lollipop (map (cuckoo_ends (key_words b) sh) ns) -> cuckoo_verify (cuckoo_new b sh) ns ease = true.
Proof. exact cuckoo_lollipop. Qed.
Print Assumptions C114_cuckoo_lollipops.

(** None of these is a cycle. *)
Theorem C114_not_cycles : forall es, lollipop es -> ~ simple_cycle es.
Proof. exact lollipop_no_cycle. Qed.
Print Assumptions C114_not_cycles.

(** The trail through the 42 edges of [lol_edges] (PowExamples.v). *)
Definition lol_cycle : list (N * N) := [(32076, 26830); (32076, 7992); (27202, 7992); (27202, 23223); (13264,
  23223); (13264, 859); (9347, 859); (9347, 14753)].
Definition lol_path : list (N * N) := [(9418, 10770); (9418, 19178); (24748, 19178); (24748, 18014); (531,
  18014); (531, 29131); (2561, 29131); (2561, 18986); (25516, 18986); (25516, 9083); (19306, 9083); (19306,
  20071); (4512, 20071); (4512, 1362); (30175, 1362); (30175, 11825); (12771, 11825); (12771, 13984); (14399,
  13984); (14399, 8335); (29945, 8335); (29945, 15572); (8262, 15572); (8262, 32251); (26510, 32251); (26510,
  32356); (14823, 32356); (14823, 2657); (15545, 2657); (15545, 755); (25304, 755)].
(** 42 nonces with a cycle of ten edges: the proof of C22, keyed by a digest. *)
Definition lol_digest : bytes := le 8 17 ++ le 8 2 ++ le 8 3 ++ le 8 4.
Example C114_case : Forall is_u32 lol_nonces /\ valid_nonces (2 ^ 15) lol_nonces /\ List.length lol_nonces = 42%nat /\
  lollipop (map (cuckaroo_ends (key_words lol_digest) 15) lol_nonces).
Proof.
  split; [exact lol_u32|]. split.
  { split; [discriminate|]. split; [apply increasing_sound; vm_compute; reflexivity|apply below_sound; vm_compute; reflexivity]. }
  split; [reflexivity|]. change (key_words lol_digest) with (words_of lol_key). rewrite lol_edges_eq.
  exists (4971, 14753), (4971, 26830), lol_cycle, (4971, 10770), lol_path, 37%nat, 38%nat.
  split; [reflexivity|]. split; [reflexivity|]. split; [reflexivity|]. split; [lia|].
  split; [apply nodup_check; vm_compute; reflexivity|].
  split; [apply perm_check_sound; vm_compute; reflexivity|]. split; [exists 4%nat; reflexivity|].
  split; [vm_compute; repeat split|].
  split; [apply degR_check; vm_compute; reflexivity|]. split; [apply degL_check; vm_compute; reflexivity|].
  apply Nat.leb_le. vm_compute. reflexivity.
Qed.

(** Five nonces of the older variant: a cycle of four edges and one more. *)
Example C114_cuckoo_case : Forall is_u32 [0; 1; 20; 25; 31] /\
  valid_nonces ((100 * 2 ^ 5) mod 2 ^ 64 / 100) [0; 1; 20; 25; 31] /\
  lollipop (map (cuckoo_ends (key_words ex4_digest) 5) [0; 1; 20; 25; 31]).
Proof.
  assert (U : Forall is_u32 [0; 1; 20; 25; 31]) by repeat constructor.
  split; [exact U|]. split.
  { split; [discriminate|]. split; [apply increasing_sound; vm_compute; reflexivity|apply below_sound; vm_compute; reflexivity]. }
  replace (map _ _) with [(24, 1); (22, 1); (24, 15); (24, 21); (22, 15)]
    by (rewrite <- cuckoo_ends_map by first [lia | exact U]; vm_compute; reflexivity).
  exists (24, 1), (24, 15), [(22, 15); (22, 1)], (24, 21), [], 2%nat, 3%nat.
  split; [reflexivity|]. split; [reflexivity|]. split; [reflexivity|]. split; [lia|].
  split; [apply nodup_check; reflexivity|].
  split; [apply perm_check_sound; reflexivity|]. split; [exists 1%nat; reflexivity|].
  split; [repeat split|].
  split; [apply degR_check; vm_compute; reflexivity|]. split; [apply degL_check; vm_compute; reflexivity|].
  apply Nat.leb_le. vm_compute. reflexivity.
Qed.
