(** IEEE-754 [double] (b64) and [float] (b32) as used by the C++ code. Definitions only.
    Simplification: one NaN (no payload, no sign), rounding to nearest even, no floating-point exceptions flags. *)
From Coq Require Import ZArith Bool.
From Flocq Require Import Core.Core IEEE754.BinarySingleNaN.
Open Scope Z_scope.

Definition prec64 := 53. Definition emax64 := 1024.
Definition prec32 := 24. Definition emax32 := 128.

#[global] Instance prec64_gt_0 : Prec_gt_0 prec64. Proof. reflexivity. Qed.
#[global] Instance prec64_lt : Prec_lt_emax prec64 emax64. Proof. reflexivity. Qed.
#[global] Instance prec32_gt_0 : Prec_gt_0 prec32. Proof. reflexivity. Qed.
#[global] Instance prec32_lt : Prec_lt_emax prec32 emax32. Proof. reflexivity. Qed.

(** C++ [double] and [float]. *)
Notation b64 := (binary_float prec64 emax64).
Notation b32 := (binary_float prec32 emax32).

(** The double nearest to the rational [n/d] (ties to even; overflow to infinity): a literal such as [0.15195]
    is [ratB 53 1024 15195 100000], a constant expression [9.0/132] is [ratB 53 1024 9 132]. *)
Definition ratB prec emax {Hp : Prec_gt_0 prec} {Hm : Prec_lt_emax prec emax} (n : Z) (d : positive)
  : binary_float prec emax :=
  match n with
  | Z0 => B754_zero false
  | Zpos p => SF2B _ (proj1 (Bdiv_correct_aux prec emax Hp Hm mode_NE false p 0 false d 0))
  | Zneg p => SF2B _ (proj1 (Bdiv_correct_aux prec emax Hp Hm mode_NE true p 0 false d 0))
  end.
Definition rat64 (n : Z) (d : positive) : b64 := ratB prec64 emax64 n d.
Definition rat32 (n : Z) (d : positive) : b32 := ratB prec32 emax32 n d.

(** [*], [+], [/] on doubles and floats. *)
Definition fmul (x y : b64) : b64 := Bmult mode_NE x y.
Definition fadd (x y : b64) : b64 := Bplus mode_NE x y.
Definition fadd32 (x y : b32) : b32 := Bplus mode_NE x y.
Definition fdiv32 (x y : b32) : b32 := Bdiv mode_NE x y.

(** [x > y] (false when either is NaN) and [x == y]. *)
Definition fgt (x y : b64) : bool := Bltb y x.
Definition flt (x y : b64) : bool := Bltb x y.
Definition feq (x y : b64) : bool := Beqb x y.

(** [-std::numeric_limits<double>::infinity()], [0.0], NaN. *)
Definition fninf : b64 := B754_infinity true.
Definition fpinf : b64 := B754_infinity false.
Definition fzero : b64 := B754_zero false.
Definition fnan : b64 := B754_nan.

(** Implicit conversion of a [float] to a [double] (always exact). *)
Definition f32_to_64 (x : b32) : b64 :=
  match x with
  | B754_zero s => B754_zero s
  | B754_infinity s => B754_infinity s
  | B754_nan => B754_nan
  | B754_finite s m e _ => binary_normalize prec64 emax64 _ _ mode_NE (cond_Zopp s (Zpos m)) e s
  end.

(** [std::floor] on a double. *)
Definition ffloor (x : b64) : b64 := Bnearbyint mode_DN x.

(** Finite and not NaN / infinite. *)
Definition ffinite (x : b64) : bool := is_finite x.
