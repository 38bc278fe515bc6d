(** Model of the sample loop of getChromagramFromAudio (src/chromagram.cc:178-203): reading blocks and mixing to mono. Definitions only.
    The library call [sf_readf_float] delivers the next frames of the file; the Vamp adapter receives the blocks. *)
From Flocq Require Import Core.Core IEEE754.BinarySingleNaN.
From Verif Require Import Base Fp Options.

Definition zero32 : b32 := B754_zero false.
(** Conversion of an [int] to [float]. *)
Definition float_of_int (n : Z) : b32 := binary_normalize prec32 emax32 _ _ mode_NE n 0 false.
(** src/chromagram.cc:187-190: [mixbuf[i] += filebuf[i * channels + c] / channels] for c = 0 .. channels-1. *)
Definition mix_sample (channels : Z) (filebuf : list b32) (i : Z) : b32 :=
  fold_left (fun acc c => fadd32 acc (fdiv32 (znth zero32 filebuf (i * channels + c)) (float_of_int channels))) (zseq (Z.to_nat channels)) zero32.
(** src/chromagram.cc:183-193: one block. *)
Definition mix_block (blocksize channels count : Z) (filebuf : list b32) : list b32 :=
  map (fun i => if i <? count then mix_sample channels filebuf i else zero32) (zseq (Z.to_nat blocksize)).
(** src/chromagram.cc:178-203: [samples] = the interleaved samples not yet read; the result lists (first frame number, block) in the order
    processed. [sf_readf_float] returns min(blocksize, frames left). Every round consumes a frame, so [fuel] = number of frames suffices. *)
Fixpoint mix_loop (fuel : nat) (blocksize channels frames : Z) (frame : Z) (samples : list b32) : outcome (list (Z * list b32)) :=
  match fuel with
  | O => Ret []
  | S f =>
      if frame <? frames then
        let count := Z.min blocksize (Z.of_nat (length samples) / channels) in
        if count <=? 0 then Ret []
        else if INT_MAX <? frame + count then Undef SignedOverflow
        else
          do rest <- mix_loop f blocksize channels frames (frame + count) (skipn (Z.to_nat (count * channels)) samples);
          Ret ((frame, mix_block blocksize channels count (firstn (Z.to_nat (count * channels)) samples)) :: rest)
      else Ret []
  end.
Definition mix_file (blocksize channels frames : Z) (samples : list b32) : outcome (list (Z * list b32)) :=
  mix_loop (S (Z.to_nat frames)) blocksize channels frames 0 samples.
