(** Independent vocabulary for printed numbers. No reference to the model of the printing function. *)
From Coq Require Import ZArith String Ascii List Reals Sorted.
From Verif Require Import Fp TextSpec ChromaSpec.
From Flocq Require Import Core.Core IEEE754.BinarySingleNaN.
Import ListNotations.
Open Scope Z_scope.

Definition radix10 : radix := Build_radix 10 eq_refl.
(** The number rounded to six significant decimal digits; a tie goes to the even last digit. *)
Definition six_figures (v : R) : R := round radix10 (FLX_exp 6) ZnearestE v.

(** No needless digits: one digit or a non-zero one first, no zero at the end of the fraction, no empty fraction; with an exponent one non-zero
    digit before the point, a small e, an explicit sign and at least two digits, the first of them not 0 if there are more. *)
Record tidy (d : decimal) : Prop := {
  tidy_int : d_int d <> [] /\ (hd 0 (d_int d) = 0 -> d_int d = [0]);
  tidy_frac : match d_frac d with None => True | Some f => f <> [] /\ last f 0 <> 0 end;
  tidy_exp : match d_exp d with
             | None => True
             | Some (upper, m, e) => upper = false /\ m <> NoSign /\ (2 <= length e)%nat /\ ((2 < length e)%nat -> hd 0 e <> 0) /\
                 exists f, d_int d = [f] /\ f <> 0
             end }.
(** The numeral that stands for a finite number in print. *)
Record printed (x : dbl) (d : decimal) : Prop := {
  pr_formed : well_formed d;
  pr_tidy : tidy d;
  pr_sign : d_mark d = if Bsign x then Minus else NoSign;
  pr_value : decimal_value d = six_figures (B2R x);
  pr_layout : d_exp d = None <-> B2R x = 0%R \/ (powerRZ 10 (-4) <= Rabs (six_figures (B2R x)) < powerRZ 10 6)%R }.
(** The text of a number. *)
Inductive in_print : dbl -> string -> Prop :=
| print_finite x d : is_finite x = true -> printed x d -> in_print x (show_decimal d)
| print_inf s : in_print (B754_infinity s) (if s then "-inf" else "inf")
| print_nan : in_print B754_nan "nan".

(** ** Dumps *)
(** The twelve values of a frame from A on: A, A#, B, C, ... *)
Definition from_A (vec : list dbl) : list dbl := map (fun j => nth ((9 + j) mod 12) vec B754_nan) (seq 0 12).
Definition frame_row (f : dbl * list dbl) : list dbl := fst f :: from_A (snd f).
(** The dump of a chromagram: for every frame a line with the time and the values from A on, separated by commas. *)
Definition dump_line (f : dbl * list dbl) (line : string) : Prop := exists toks, Forall2 in_print (frame_row f) toks /\ line = join "," toks.
Inductive dump_text : list (dbl * list dbl) -> string -> Prop :=
| dump_nil : dump_text [] ""
| dump_cons f m line rest : dump_line f line -> dump_text m rest -> dump_text (f :: m) (line ++ String "010" rest).
(** A value after printing and reading back. *)
Definition reread (x y : dbl) : Prop := exists s, in_print x s /\ token_value s y.
Definition reread_frame (f f' : dbl * list dbl) : Prop := reread (fst f) (fst f') /\ Forall2 reread (snd f) (snd f').
(** Values that can be read back: zero, or not below 2^-125 and not above the largest [float]; infinities and NaN. *)
Definition max_float : R := (IZR (2 ^ 24 - 1) * bpow radix2 104)%R.
Definition safe (x : dbl) : Prop := is_finite x = true -> B2R x = 0%R \/ (bpow radix2 (-125) <= Rabs (B2R x) <= max_float)%R.
(** A chromagram: frames of twelve values in order of time. *)
Record frames (m : list (dbl * list dbl)) : Prop := {
  fr_sorted : StronglySorted (fun a b => earlier (fst a) (fst b)) m;
  fr_time : Forall (fun f => is_nan (fst f) = false) m;
  fr_width : Forall (fun f => length (snd f) = 12%nat) m }.
Definition all_safe (m : list (dbl * list dbl)) : Prop := Forall (fun f => safe (fst f) /\ Forall safe (snd f)) m.
(** No two times look alike in print. *)
Definition times_differ (m : list (dbl * list dbl)) : Prop :=
  ForallOrdPairs (fun f f' => forall s, in_print (fst f) s -> in_print (fst f') s -> False) m.
