(** Concrete cases for the codec theorems. *)
From Coq Require Import Permutation Sorted.
From Verif Require Import Consensus SpecCodec SpecConsensus PowCodecProofs CodecProofs BlockCodecProofs Instance.

Definition ex_nonces : list N := map (fun k => N.of_nat k * 51130563 mod 2 ^ 31) (seq 1 42).
Definition ex_proof (bits : N) : proof := Proof bits (map (fun n => n mod 2 ^ N.min bits 31) ex_nonces).

Definition ex_header (bits : N) : header :=
  Header 3 260000 (brepeat x11 32) (brepeat x22 32) (GoTime (1546300800 + 62135596800) 999) (brepeat x33 32)
    (brepeat x44 32) (brepeat x55 32) 77 (brepeat x66 32) [x01] 12 34 (ex_proof bits) 9 1000000 1.

Lemma ex_proof_canonical b : In b [1; 19; 29; 31; 32; 63; 64] -> proof_canonical (ex_proof b).
Proof.
  intro H. repeat destruct H as [<-|H]; try contradiction;
    (split; [cbn; lia|]; split; [reflexivity|]; repeat constructor).
Qed.

Lemma ex_header_wf b : In b [1; 19; 29; 31; 32; 63; 64] -> header_wf (ex_header b).
Proof.
  intro H. split; [|split; [repeat split|apply ex_proof_canonical, H]].
  unfold header_typed. cbn [ex_header h_version h_height h_time h_nonce h_output_mmr h_kernel_mmr
    h_total_difficulty h_scaling h_pow].
  do 8 (split; [first [reflexivity|split; vm_compute; intuition congruence]|]).
  split; repeat destruct H as [<-|H]; try contradiction; repeat constructor.
Qed.

(** An input, an output and a kernel on the toy curve. *)
Definition ex_input (f : N) : input := Input f (x08 :: brepeat x07 32).
Definition ex_output (k q : N) : output toy := @Output toy 0 (c_smul toy toy_G k) q.
Definition ex_kernel (fee : N) : kernel := Kernel 0 fee 0 (c_smul toy toy_G 3) (brepeat x09 64).

Definition ex_block : block toy :=
  Block (ex_header 29) [ex_input 1; ex_input 0] [ex_output 3 7; ex_output 2 9] [ex_kernel 5; ex_kernel 4].
Definition ex_tx (ins : list input) : transaction toy :=
  Transaction (brepeat x12 32) ins [ex_output 3 7; ex_output 2 9] [ex_kernel 5; ex_kernel 4].
Definition ex_compact : compact_block toy :=
  CompactBlock (ex_header 31) [ex_output 3 7; ex_output 2 9] [ex_kernel 5; ex_kernel 4] [brepeat x05 6; brepeat x03 6].

Lemma ex_input_wf f : f < 256 -> input_wf (ex_input f).
Proof. intro H. split; [exact H|reflexivity]. Qed.
Lemma ex_outputs_wf : Forall (output_wf toy toy_P toy_Q) [ex_output 3 7; ex_output 2 9].
Proof. repeat constructor. Qed.
Lemma ex_kernels_wf : Forall (kernel_wf toy_P) [ex_kernel 5; ex_kernel 4].
Proof. repeat constructor. Qed.

Lemma ex_block_wf : block_wf toy toy_P toy_Q ex_block.
Proof.
  split; [apply ex_header_wf; cbn; auto|]. split; [repeat constructor|]. split; [exact ex_outputs_wf|].
  split; [exact ex_kernels_wf|]. repeat split; vm_compute; discriminate.
Qed.
Lemma ex_tx_wf ins : Forall input_wf ins -> lenN ins <= 1000000 -> tx_wf toy toy_P toy_Q (ex_tx ins).
Proof.
  intros H L. split; [reflexivity|]. split; [exact H|]. split; [exact ex_outputs_wf|].
  split; [exact ex_kernels_wf|]. split; [exact L|]. split; vm_compute; discriminate.
Qed.
Lemma ex_compact_wf : compact_wf toy toy_P toy_Q ex_compact.
Proof.
  split; [apply ex_header_wf; cbn; auto 6|]. split; [exact ex_outputs_wf|]. split; [exact ex_kernels_wf|].
  repeat constructor.
Qed.

(** The lists are really reordered by the sort. *)
Lemma ex_block_reordered : b_outputs (block_sort toy ex_block) <> b_outputs ex_block.
Proof. intro E. apply (f_equal (map (fun o => px (out_commit o)))) in E. vm_compute in E. discriminate. Qed.
