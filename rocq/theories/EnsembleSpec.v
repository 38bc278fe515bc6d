(** Independent vocabulary for the ensemble of detectors, its features and their scaling. No reference to the model. *)
From Coq Require Import ZArith String Ascii List Reals.
From Flocq Require Import Core.Core IEEE754.BinarySingleNaN.
From Verif Require Import Fp MusicSpec TextSpec PrintSpec ChromaSpec.
Import ListNotations.
Open Scope Z_scope.

(** ** Words between the white space of C *)
Definition unspaced (s : string) : Prop := Forall (fun c => ~ In c space_chars) (chars s).
Inductive words : string -> list string -> Prop :=
| words_none s : spaces s -> words s []
| words_last b w : spaces b -> unspaced w -> w <> ""%string -> words (b ++ w) [w]
| words_more b w c s l : spaces b -> unspaced w -> w <> ""%string -> In c space_chars -> words s l -> words (b ++ w ++ String c s) (w :: l).

(** ** Numbers as Python reads them *)
Definition negative (m : mark) : bool := match m with Minus => true | _ => false end.
(** A numeral, or one of three words after a sign, with nothing but white space around: the nearest double, infinite if it is too large. *)
Inductive python_number : string -> dbl -> Prop :=
| number_decimal a b d y : spaces a -> spaces b -> well_formed d -> nearest_to y d -> ~ overflows 53 1024 d -> python_number (a ++ show_decimal d ++ b) y
| number_too_large a b d : spaces a -> spaces b -> well_formed d -> overflows 53 1024 d -> python_number (a ++ show_decimal d ++ b) (B754_infinity (negative (d_mark d)))
| number_infinite a b m t : spaces a -> spaces b -> lower_string t = "inf"%string \/ lower_string t = "infinity"%string -> python_number (a ++ (show_mark m ++ t) ++ b) (B754_infinity (negative m))
| number_nan a b m t : spaces a -> spaces b -> lower_string t = "nan"%string -> python_number (a ++ (show_mark m ++ t) ++ b) B754_nan.

(** ** Features *)
(** What a score becomes when it is printed with six digits and read again: the double nearest to the rounded value. *)
Definition as_feature (x y : dbl) : Prop :=
  if is_finite x then is_finite y = true /\ B2R y = rounded 53 1024 (six_figures (B2R x)) /\ Bsign y = Bsign x else y = x.
(** The features that stand for a failed run. *)
Definition failed (l : list dbl) : Prop := length l = 24%nat /\ Forall (fun y => is_finite y = true /\ B2R y = (-1000000)%R) l.
(** All pairs in the order of the first list, then of the second. *)
Definition in_product_order {A B} (l : list A) (m : list B) (p : list (A * B)) : Prop :=
  length p = (length l * length m)%nat /\
  forall i j x y, nth_error l i = Some x -> nth_error m j = Some y -> nth_error p (i * length m + j) = Some (x, y).

(** ** Scaling *)
(** Where a value lies between the least and the greatest one, from -1 to 1, in exact arithmetic. *)
Definition relative_place (lo hi v : R) : R := (2 * (v - lo) / (hi - lo) - 1)%R.
Definition least (lo : R) (l : list dbl) : Prop := (exists x, In x l /\ B2R x = lo) /\ forall x, In x l -> (lo <= B2R x)%R.
Definition greatest (hi : R) (l : list dbl) : Prop := (exists x, In x l /\ B2R x = hi) /\ forall x, In x l -> (B2R x <= hi)%R.
(** Finite values of moderate size; two different ones are not too close together. *)
Definition moderate (l : list dbl) : Prop := Forall (fun x => is_finite x = true /\ (Rabs (B2R x) <= 2 ^ 100)%R) l /\
  forall x y, In x l -> In y l -> (B2R x < B2R y)%R -> (/ 2 ^ 100 <= B2R y - B2R x)%R.

(** ** Scores *)
(** The double nearest to so many tenths. *)
Definition tenths (n : Z) (x : dbl) : Prop := is_finite x = true /\ B2R x = rounded 53 1024 (IZR n / 10).
