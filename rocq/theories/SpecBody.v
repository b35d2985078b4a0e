(** What ties a block's contents to its header and to each other, stated without the model's
    validation functions. *)
From Verif Require Import Consensus SpecSchnorr.

Section Spec.
Context (X : Ext).

Definition point_sum (O : point) (l : list point) : point := fold_right (c_add X) O l.

(** The Mimblewimble equation: the outputs are worth the inputs plus [t], which stands for the block
    reward on H and the kernel offset on G, and what remains is the sum of the kernels' excesses. An
    input is a serialised commitment. *)
Definition balanced (O t : point) (b : block X) : Prop :=
  exists spent, Forall2 (fun i p => exists rest, point_read X (in_commit i) = Ok (p, rest)) (b_inputs b) spent /\
    point_sum O (map out_commit (b_outputs b)) =
      c_add X (point_sum O spent) (c_add X (point_sum O (map k_excess (b_kernels b))) t).

(** The same block with other contents, and with another declared difficulty. *)
Definition with_body (ins : list input) (outs : list (output X)) (kers : list kernel) (b : block X) : block X :=
  Block (b_header b) ins outs kers.
Definition with_difficulty (d : N) (b : block X) : block X :=
  let h := b_header b in
  Block (Header (h_version h) (h_height h) (h_previous h) (h_prev_root h) (h_time h) (h_utxo_root h) (h_rp_root h)
    (h_kernel_root h) (h_nonce h) (h_offset h) (h_kernel_sum h) (h_output_mmr h) (h_kernel_mmr h) (h_pow h) d
    (h_total_difficulty h) (h_scaling h)) (b_inputs b) (b_outputs b) (b_kernels b).
End Spec.
Arguments balanced {X}. Arguments with_body {X}. Arguments with_difficulty {X}.
