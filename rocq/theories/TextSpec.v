(** Independent vocabulary for texts and decimal numbers, used to state the properties of the command line, the CSV reader and the
    chromagram dump. No reference to the model of the text functions. *)
From Coq Require Import ZArith String Ascii List Reals.
From Verif Require Import MusicSpec.
From Flocq Require Import Core.Core IEEE754.BinarySingleNaN.
Import ListNotations.
Open Scope Z_scope.

Definition chars (s : string) : list ascii := list_ascii_of_string s.
(** A character does not occur. *)
Definition lacks (c : ascii) (s : string) : Prop := ~ In c (chars s).
(** Space, tab, newline, vertical tab, form feed, carriage return. *)
Definition space_chars : list ascii := [" "; "009"; "010"; "011"; "012"; "013"]%char.
Definition spaces (s : string) : Prop := Forall (fun c => In c space_chars) (chars s).

(** Texts with a separator between them. *)
Fixpoint join (c : ascii) (l : list string) : string :=
  match l with [] => EmptyString | [s] => s | s :: l' => (s ++ String c (join c l'))%string end.

(** Decimal digits. *)
Definition digit_chars : list ascii := ["0"; "1"; "2"; "3"; "4"; "5"; "6"; "7"; "8"; "9"]%char.
Definition is_dig (d : Z) : Prop := 0 <= d < 10.
Definition show_digit (d : Z) : ascii := nth (Z.to_nat d) digit_chars "0"%char.
Fixpoint show_digits (ds : list Z) : string :=
  match ds with [] => EmptyString | d :: ds' => String (show_digit d) (show_digits ds') end.
Definition digits_value (ds : list Z) : Z := fold_left (fun v d => 10 * v + d) ds 0.

(** A decimal numeral: sign, digits, optional point with digits, optional exponent with its letter, sign and digits. *)
Inductive mark := NoSign | Plus | Minus.
Definition show_mark (m : mark) : string := match m with NoSign => "" | Plus => "+" | Minus => "-" end%string.
Record decimal := mkDecimal {
  d_mark : mark; d_int : list Z; d_frac : option (list Z); d_exp : option (bool * mark * list Z) }.
Definition show_exp (e : option (bool * mark * list Z)) : string :=
  match e with
  | None => ""
  | Some (upper, m, ds) => (if upper : bool then "E" else "e") ++ show_mark m ++ show_digits ds
  end%string.
Definition show_frac (f : option (list Z)) : string := match f with None => "" | Some ds => "." ++ show_digits ds end%string.
Definition show_decimal (d : decimal) : string :=
  (show_mark (d_mark d) ++ show_digits (d_int d) ++ show_frac (d_frac d) ++ show_exp (d_exp d))%string.
Definition frac_digits (d : decimal) : list Z := match d_frac d with Some ds => ds | None => [] end.
Definition mantissa (d : decimal) : list Z := d_int d ++ frac_digits d.
(** At least one digit before the exponent, and at least one in it if it is there. *)
Definition well_formed (d : decimal) : Prop :=
  Forall is_dig (mantissa d) /\ mantissa d <> [] /\
  match d_exp d with Some (_, _, ds) => Forall is_dig ds /\ ds <> [] | None => True end.
Definition signed (m : mark) (v : Z) : Z := match m with Minus => - v | _ => v end.
Definition exponent_value (d : decimal) : Z :=
  match d_exp d with Some (_, m, ds) => signed m (digits_value ds) | None => 0 end.
(** The number a numeral denotes. *)
Definition decimal_value (d : decimal) : R :=
  (IZR (signed (d_mark d) (digits_value (mantissa d))) * powerRZ 10 (exponent_value d - Z.of_nat (length (frac_digits d))))%R.

(** The rest of the text does not continue the numeral: no digit, no point where one could still stand, no exponent letter
    where one could still stand. *)
Definition stops (d : decimal) (rest : string) : Prop :=
  match rest with
  | EmptyString => True
  | String c _ =>
      ~ In c digit_chars /\ (c = "."%char -> d_frac d <> None \/ d_exp d <> None) /\
      (c = "e"%char \/ c = "E"%char -> d_exp d <> None)
  end.

(** Correct rounding to a binary format (ties to even), the sign of zero included. *)
Definition rounded (prec emax : Z) (v : R) : R := round radix2 (FLT_exp (3 - emax - prec) prec) ZnearestE v.
Definition nearest_to {prec emax} (x : binary_float prec emax) (d : decimal) : Prop :=
  is_finite x = true /\ B2R x = rounded prec emax (decimal_value d) /\
  Bsign x = match d_mark d with Minus => true | _ => false end.
(** The rounded value does not fit the format. *)
Definition overflows (prec emax : Z) (d : decimal) : Prop := (bpow radix2 emax <= Rabs (rounded prec emax (decimal_value d)))%R.

(** Double format. One number can be read from the front of a text: space, a numeral within range, and a rest that does not
    continue the numeral. *)
Definition readable (s : string) (x : binary_float 53 1024) (rest : string) : Prop :=
  exists ws d, s = (ws ++ show_decimal d ++ rest)%string /\ spaces ws /\ well_formed d /\ stops d rest /\ nearest_to x d.
(** All the numbers that can be read from the front of a text, one after the other, until something is unreadable. *)
Inductive reads : string -> list (binary_float 53 1024) -> Prop :=
| reads_stop s : (forall x r, ~ readable s x r) -> reads s []
| reads_next s x r l : readable s x r -> reads r l -> reads s (x :: l).

(** Float format. A value too small for the normal range of floats (rounded to 24 binary digits it is below 2^-126) and not exactly a float. *)
Definition underflows32 (d : decimal) : Prop :=
  decimal_value d <> 0%R /\ (Rabs (round radix2 (FLX_exp 24) ZnearestE (decimal_value d)) < bpow radix2 (-126))%R /\
  rounded 24 128 (decimal_value d) <> decimal_value d.
(** An exponent part. *)
Definition begins_exponent (s : string) : Prop :=
  exists upper m ds r, Forall is_dig ds /\ ds <> [] /\ s = (show_exp (Some (upper, m, ds)) ++ r)%string.
Definition begins_with (ok : ascii -> Prop) (s : string) : Prop := match s with EmptyString => False | String c _ => ok c end.
(** What follows the leading 0 of a hexadecimal numeral: x and a hexadecimal digit, with or without a point between them. *)
Definition hex_chars : list ascii := (digit_chars ++ ["a"; "b"; "c"; "d"; "e"; "f"; "A"; "B"; "C"; "D"; "E"; "F"])%list%char.
Definition begins_hex (s : string) : Prop :=
  exists x t, s = String x t /\ (x = "x"%char \/ x = "X"%char) /\
    (begins_with (fun c => In c hex_chars) t \/ exists t', t = String "." t' /\ begins_with (fun c => In c hex_chars) t').
(** The rest of the text does not continue the numeral, by the rules of the C function strtof. *)
Definition ends_here (d : decimal) (rest : string) : Prop :=
  ~ begins_with (fun c => In c digit_chars) rest /\
  (d_frac d = None -> d_exp d = None -> ~ begins_with (eq "."%char) rest) /\
  (d_exp d = None -> ~ begins_exponent rest) /\
  (d_int d = [0] -> d_frac d = None -> d_exp d = None -> ~ begins_hex rest).
(** A text begins with a word in any letter case. *)
Definition begins_word (w s : string) : Prop := exists a b, s = (a ++ b)%string /\ lower_string a = w.
(** A text begins with something that C reads as a number: after space and sign, a digit, a point and a digit, inf or nan. *)
Definition begins_number (s : string) : Prop :=
  exists ws m t, s = (ws ++ show_mark m ++ t)%string /\ spaces ws /\
    (begins_with (fun c => In c digit_chars) t \/
     (exists t', t = String "." t' /\ begins_with (fun c => In c digit_chars) t') \/
     begins_word "inf" t \/ begins_word "nan" t).
(** A text begins with a hexadecimal numeral. *)
Definition begins_hexadecimal (s : string) : Prop := exists ws m t, s = (ws ++ show_mark m ++ String "0" t)%string /\ spaces ws /\ begins_hex t.
