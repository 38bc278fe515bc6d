(** The arithmetics in which nnls() is studied: the single precision of the program, and the real numbers that it approximates. Definitions only. *)
From Coq Require Import Reals.
From Flocq Require Import Core.Core IEEE754.BinarySingleNaN.
From Verif Require Import Base Fp Nnls.

(** nnls.c in real numbers. *)
Definition exact : arith :=
  mkArith R 0%R 1%R 2%R Rplus Rminus Rmult Rdiv Ropp
    Rinv (fun x => sqrt (x * x + 1))%R sqrt (fun c x => c * sqrt x)%R (fun u x => u + x * / 100)%R
    (fun a b => if Rlt_dec b a then true else false) (fun a b => if Rle_dec b a then true else false)
    (fun a b => if Rle_dec a b then true else false) (fun a b => if Req_EM_T a b then true else false).

(** nnls.c as compiled for a machine that evaluates [float] expressions in single precision and [double] expressions in double precision (FLT_EVAL_METHOD = 0).
    Conversion of a double to a float, rounding to nearest even. *)
Definition f64_to_32 (x : b64) : b32 :=
  match x with
  | B754_zero s => B754_zero s
  | B754_infinity s => B754_infinity s
  | B754_nan => B754_nan
  | B754_finite s m e _ => binary_normalize prec32 emax32 _ _ mode_NE (cond_Zopp s (Zpos m)) e s
  end.
Definition one64 : b64 := rat64 1 1.
(** nnls.c:45, 46, 116, 130, 328, 329, 559. *)
Definition single : arith :=
  mkArith b32 (B754_zero false) (rat32 1 1) (rat32 2 1) fadd32 (fun x y => Bminus mode_NE x y) (fun x y => Bmult mode_NE x y) fdiv32 (fun x => Bopp x)
    (fun x => f64_to_32 (Bdiv mode_NE one64 (f32_to_64 x)))
    (fun x => f64_to_32 (Bsqrt mode_NE (fadd (f32_to_64 (Bmult mode_NE x x)) one64)))
    (fun x => f64_to_32 (Bsqrt mode_NE (f32_to_64 x)))
    (fun c x => f64_to_32 (fmul (f32_to_64 c) (Bsqrt mode_NE (f32_to_64 x))))
    (fun u x => f64_to_32 (fadd (f32_to_64 u) (fmul (f32_to_64 x) (rat64 1 100))))
    (fun x y => Bltb y x) (fun x y => Bleb y x) (fun x y => Bleb x y) (fun x y => Beqb x y).
