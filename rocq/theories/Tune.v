(** Model of the tuning plug-in, Tuning.cpp. Definitions only. *)
From Flocq Require Import Core.Core IEEE754.BinarySingleNaN.
From Verif Require Import Base Fp Options Chromagram Nnls NnlsArith Plug Setup.
Open Scope Z_scope.

Section Tuning.
  (** atan2 for floats, pow for doubles, and the type of a time stamp. *)
  Context (atan2 : b32 -> b32 -> b32) (pow : b64 -> b64 -> b64) {stamp : Type}.
  (** 440 * pow(2, x) stored in a float, Tuning.cpp:170, 199. *)
  Definition concert (x : b64) : b32 := f64_to_32 (fmul (rat64 440 1) (pow (rat64 2 1) x)).
  (** Tuning.cpp:169-170. *)
  Definition local_pitch (tuning : b32) : b32 := concert (f32_to_64 (fdiv32 tuning (rat32 12 1))).
  (** 191-199. *)
  Definition mean_pitch (sins coss mean : list b32) : outcome b32 :=
    do (re, im) <- loop 0 (nBPS - 1) (fun '(re, im) i =>
      do t <- elt mean i; do c <- elt coss i; do s <- elt sins i; Ret (fadd32 re (mul32 t c), fadd32 im (mul32 t s))) (z32, z32);
    Ret (concert (div64 (f32_to_64 (atan2 im re)) (fmul (rat64 24 1) m_pi))).
  (** 159-176: one block gives one value of the output localtuning. *)
  Definition tuning_process (c : setup) (p : @plug stamp) (t : stamp) (fbuf : list b32) : outcome (@plug stamp * (stamp * b32)) :=
    do (p, _) <- process atan2 c p t fbuf;
    do a <- elt (p_tuning p) (Z.of_nat (length (p_tuning p)) - 1);
    Ret (p, (t, local_pitch a)).
  (** 178-215: the output tuning, one value with a duration that is the time of the last block, or nothing. The label is left out. *)
  Definition tuning_remaining (c : setup) (p : @plug stamp) : outcome (option (b32 * stamp)) :=
    match p_spectra p with
    | [] => Ret None
    | l => do v <- mean_pitch (s_sin c) (s_cos c) (p_mean p); do last <- elt l (Z.of_nat (length l) - 1); Ret (Some (v, fst last))
    end.
  (** The calls of a host: all blocks, then the rest. *)
  Definition tuning_run (c : setup) (frames : list (stamp * list b32)) : outcome (list (stamp * b32) * option (b32 * stamp)) :=
    do (p, out) <- over (fun '(p, out) '(t, fbuf) => do (p, v) <- tuning_process c p t fbuf; Ret (p, out ++ [v])) frames (reset, []);
    do v <- tuning_remaining c p;
    Ret (out, v).
End Tuning.
(** minValue and maxValue of both outputs, 109-110, 125-126. *)
Definition tuning_min : b32 := f64_to_32 (rat64 42747 100).
Definition tuning_max : b32 := f64_to_32 (rat64 45289 100).
