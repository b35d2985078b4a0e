(** What C87 says about the memory asked for while decoding. *)
From Verif Require Export Alloc.

Definition total (l : list N) : N := fold_right N.add 0 l.

(** The external decoders never hand back more than they were given. *)
Definition shrinks {A} (p : reader A) : Prop := forall bs a rest, p bs = Ok (a, rest) -> lenN rest <= lenN bs.
Definition codec_shrinks (X : Ext) : Prop := shrinks (point_read X) /\ shrinks (rproof_read X).

(** Decoding never asks for more elements than it has received bytes, plus [c]; and once it has
    succeeded, for no more than the bytes it has read. *)
Definition proportionate {A} (c : N) (p : areader A) : Prop :=
  forall bs, total (snd (p bs)) <= lenN bs + c /\
             forall a rest, fst (p bs) = Ok (a, rest) -> total (snd (p bs)) + lenN rest <= lenN bs.
