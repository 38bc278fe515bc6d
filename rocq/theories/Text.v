(** The C++ library functions on text that the program uses: searching, cutting and splitting strings, reading numbers
    ([std::stof], [istream >> double]) and printing numbers ([ostream << double]). Definitions only.
    These are library functions: the model follows the C++17 standard and, where it leaves a choice, glibc and libstdc++
    (the platform of /repo/Dockerfile). Characters are bytes, the locale is "C" (the program never sets another one). *)
From Coq Require Import Ascii.
From Flocq Require Import Core.Core IEEE754.BinarySingleNaN.
From Verif Require Import Base Fp PitchClass.
Open Scope Z_scope.

(** ** Characters *)
Definition code (c : ascii) : Z := Z.of_N (N_of_ascii c).
Definition chr (n : Z) : ascii := ascii_of_N (Z.to_N n).
(** [isspace], [isdigit]. *)
Definition is_space (c : ascii) : bool := (code c =? 32) || ((9 <=? code c) && (code c <=? 13)).
Definition is_digit (c : ascii) : bool := (48 <=? code c) && (code c <=? 57).
(** [::tolower], [::toupper] and [std::transform] with them over a string are in PitchClass.v; bytes above 127 are unchanged, as in glibc. *)

(** ** Strings *)
Definition size (s : string) : Z := Z.of_nat (String.length s).
(** [std::string::npos] and arithmetic on a 64-bit [size_t]. *)
Definition npos : Z := 2 ^ 64 - 1.
Definition size_t (n : Z) : Z := n mod 2 ^ 64.
(** [s.find_last_of(c)] for a one-character string. *)
Fixpoint last_index (c : ascii) (s : string) (i : Z) : option Z :=
  match s with
  | EmptyString => None
  | String d s' => match last_index c s' (i + 1) with Some j => Some j | None => if (d =? c)%char then Some i else None end
  end.
Definition find_last_of (c : ascii) (s : string) : Z :=
  match last_index c s 0 with Some i => i | None => npos end.
(** [s.substr(pos, n)]. *)
Definition substr (s : string) (pos n : Z) : outcome string :=
  if size s <? pos then Throws StdOutOfRange
  else Ret (substring (Z.to_nat pos) (Z.to_nat (Z.min n (size s - pos))) s).

(** [while (std::getline(stream, piece, c))] over a whole text: the pieces between separators; the text after the last
    separator counts only if it is not empty. *)
Fixpoint pieces (c : ascii) (s : string) : list string :=
  match s with
  | EmptyString => []
  | String d s' =>
      if (d =? c)%char then ""%string :: pieces c s'
      else match pieces c s' with
           | [] => [String d ""]
           | p :: ps => String d p :: ps
           end
  end.

(** ** Numbers in text *)
Fixpoint skip_space (s : string) : string :=
  match s with
  | EmptyString => EmptyString
  | String c s' => if is_space c then skip_space s' else s
  end.
(** Value of a digit in base 10 or 16. *)
Definition digit (base : Z) (c : ascii) : option Z :=
  if is_digit c then Some (code c - 48)
  else let l := code (tolower c) in if (97 <=? l) && (l <? 87 + base) then Some (l - 87) else None.
(** Leading digits: value (starting from [acc]), how many, the rest. *)
Fixpoint digits (base acc : Z) (s : string) : Z * Z * string :=
  match s with
  | EmptyString => (acc, 0, EmptyString)
  | String c s' =>
      match digit base c with
      | Some d => let '(v, n, r) := digits base (acc * base + d) s' in (v, n + 1, r)
      | None => (acc, 0, s)
      end
  end.
(** Optional sign: whether it is a minus, and the rest. *)
Definition sign (s : string) : bool * string :=
  match s with
  | String "-" s' => (true, s')
  | String "+" s' => (false, s')
  | _ => (false, s)
  end%char.
(** Optional exponent part after the letter [mark]: taken only if at least one digit follows. *)
Definition exponent (mark : ascii) (s : string) : Z * string :=
  match s with
  | String c s' =>
      if (tolower c =? mark)%char then
        let '(neg, t) := sign s' in
        let '(e, n, r) := digits 10 0 t in
        if n =? 0 then (0, s) else ((if neg then - e else e), r)
      else (0, s)
  | EmptyString => (0, s)
  end.
(** What a numeral denotes: m * base^e with a sign, infinity or NaN. *)
Inductive numeral := Finite (neg : bool) (m base e : Z) | Infinite (neg : bool) | NotANumber.
(** Digits with an optional point and an optional exponent (fraction digits count [step] exponent units each). *)
Definition positional (base : Z) (mark : ascii) (step : Z) (ebase : Z) (neg : bool) (s : string) : option (numeral * string) :=
  let '(m1, n1, s1) := digits base 0 s in
  let '(m2, n2, s2) := match s1 with String "."%char s' => digits base m1 s' | _ => (m1, 0, s1) end in
  if n1 + n2 =? 0 then None
  else let '(e, s3) := exponent mark s2 in Some (Finite neg m2 ebase (e - step * n2), s3).
Fixpoint starts_ci (p s : string) : option string :=
  match p, s with
  | EmptyString, _ => Some s
  | String c p', String d s' => if (tolower d =? c)%char then starts_ci p' s' else None
  | _, _ => None
  end.
(** [strtod]/[strtof], reading part: leading space, sign, then infinity, NaN, hexadecimal or decimal; the rest of the text.
    Simplified: the optional "(chars)" after nan is not consumed (no caller looks at the rest after a NaN). *)
Definition scan (s : string) : option (numeral * string) :=
  let '(neg, t) := sign (skip_space s) in
  match starts_ci "infinity" t with Some r => Some (Infinite neg, r) | None =>
  match starts_ci "inf" t with Some r => Some (Infinite neg, r) | None =>
  match starts_ci "nan" t with Some r => Some (NotANumber, r) | None =>
  match (match starts_ci "0x" t with Some u => positional 16 "p"%char 4 2 neg u | None => None end) with
  | Some r => Some r
  | None => positional 10 "e"%char 1 10 neg t
  end end end end.

(** The exact value as a fraction. *)
Definition fraction (m base e : Z) : Z * positive :=
  if e <? 0 then (m, Z.to_pos (base ^ (- e))) else (m * base ^ e, 1%positive).
(** The nearest float of a given format; a zero keeps its sign. *)
Definition nearest prec emax {Hp : Prec_gt_0 prec} {Hm : Prec_lt_emax prec emax} (v : numeral) : binary_float prec emax :=
  match v with
  | Finite neg m base e =>
      if m =? 0 then B754_zero neg
      else let '(n, d) := fraction m base e in ratB prec emax (if neg then - n else n) d
  | Infinite neg => B754_infinity neg
  | NotANumber => B754_nan
  end.
(** [errno == ERANGE] after [strtof]: overflow to infinity, or a result that is inexact and, rounded to 24 bits without
    limit on the exponent, below 2^-126 (glibc: "tiny and inexact", tininess after rounding). *)
Definition is_exactly {prec emax} (x : binary_float prec emax) (n : Z) (d : positive) : bool :=
  match x with
  | B754_finite s m e _ =>
      if e <? 0 then (cond_Zopp s (Zpos m) * Zpos d =? n * 2 ^ (- e)) else (cond_Zopp s (Zpos m) * 2 ^ e * Zpos d =? n)
  | B754_zero _ => n =? 0
  | _ => false
  end.
Definition erange32 (v : numeral) : bool :=
  match v with
  | Finite neg m base e =>
      if m =? 0 then false
      else let '(n, d) := fraction m base e in
           match nearest prec32 emax32 v with
           | B754_infinity _ => true
           | x => (n * 2 ^ 151 <? (2 ^ 25 - 1) * Zpos d) && negb (is_exactly x (if neg then - n else n) d)
           end
  | _ => false
  end.
(** [std::stof]: no conversion throws invalid_argument, ERANGE throws out_of_range, the rest of the text is ignored. *)
Definition stof (s : string) : outcome b32 :=
  match scan s with
  | None => Throws StdInvalidArgument
  | Some (v, _) => if erange32 v then Throws StdOutOfRange else Ret (nearest prec32 emax32 v)
  end.

(** ** [istream >> double] (libstdc++ num_get::_M_extract_float) *)
(** Characters taken: an optional sign, leading zeros (kept once), then digits, one point, and after a digit one e or E with
    an optional sign. [mant], [dec], [sci] are the flags of the library's loop. *)
Fixpoint accumulate (mant dec sci : bool) (s : string) : string * string :=
  match s with
  | EmptyString => (EmptyString, EmptyString)
  | String c s' =>
      if is_digit c then let '(x, r) := accumulate true dec sci s' in (String c x, r)
      else if (c =? ".")%char && negb dec && negb sci then let '(x, r) := accumulate mant true sci s' in (String c x, r)
      else if ((c =? "e")%char || (c =? "E")%char) && negb sci && mant then
        match s' with
        | EmptyString => (String "e" EmptyString, EmptyString)
        | String d s'' =>
            if (d =? "+")%char || (d =? "-")%char
            then let '(x, r) := accumulate mant dec true s'' in (String "e" (String d x), r)
            else let '(x, r) := accumulate mant dec true s' in (String "e" x, r)
        end
      else (EmptyString, s)
  end.
Fixpoint leading_zeros (s : string) : bool * string :=
  match s with
  | String c s' => if (c =? "0")%char then (true, snd (leading_zeros s')) else (false, s)
  | EmptyString => (false, EmptyString)
  end.
(** The text handed to [strtod], and the rest. *)
Definition take_number (s : string) : string * string :=
  let '(sg, t) := match s with
                  | String c s' => if (c =? "+")%char || (c =? "-")%char then (String c EmptyString, s') else (EmptyString, s)
                  | EmptyString => (EmptyString, s)
                  end in
  let '(z, u) := leading_zeros t in
  let '(x, r) := accumulate z false false u in
  ((sg ++ (if z then "0" else "") ++ x)%string, r).
(** One [stream >> val]: [None] = the stream fails (end of text, unreadable text, or overflow). *)
Definition extract_double (s : string) : option (b64 * string) :=
  let '(x, r) := take_number (skip_space s) in
  match scan x with
  | Some (v, EmptyString) =>
      match nearest prec64 emax64 v with B754_infinity _ => None | d => Some (d, r) end
  | _ => None
  end.
(** [while (stream >> val)]: all values read. Every successful read consumes a character, so [length s] reads suffice. *)
Fixpoint extract_doubles (fuel : nat) (s : string) : list b64 :=
  match fuel with
  | O => []
  | S f => match extract_double s with Some (x, r) => x :: extract_doubles f r | None => [] end
  end.
Definition read_doubles (s : string) : list b64 := extract_doubles (String.length s) s.

(** ** [ostream << double], precision 6 ("%g") *)
Fixpoint to_digits (n : nat) (v : Z) : string :=
  match n with O => EmptyString | S n' => (to_digits n' (v / 10) ++ String (chr (48 + v mod 10)) EmptyString)%string end.
(** Number of decimal digits of a non-negative number (0 has none). *)
Fixpoint width_loop (fuel : nat) (v : Z) : Z :=
  match fuel with O => 0 | S f => if v <=? 0 then 0 else 1 + width_loop f (v / 10) end.
Definition width (v : Z) : Z := width_loop (S (Z.to_nat (Z.log2 v))) v.
(** Decimal exponent of n/d: the k with 10^k <= n/d < 10^(k+1). *)
Definition decimal_exponent (n : Z) (d : Z) : Z :=
  if d <=? n then width (n / d) - 1 else - width ((d + n - 1) / n - 1).
(** n/d rounded to an integer, ties to even. *)
Definition round_even (n d : Z) : Z :=
  let q := n / d in
  let r := n mod d in
  if 2 * r <? d then q else if d <? 2 * r then q + 1 else if Z.even q then q else q + 1.
(** Six significant digits of n/d: (digits as an integer 100000..999999, decimal exponent). *)
Definition six_digits (n d : Z) : Z * Z :=
  let k := decimal_exponent n d in
  let m := if k <=? 5 then round_even (n * 10 ^ (5 - k)) d else round_even n (d * 10 ^ (k - 5)) in
  if m =? 1000000 then (100000, k + 1) else (m, k).
Fixpoint strip_zeros (s : string) : string :=
  match s with
  | EmptyString => EmptyString
  | String c s' => match strip_zeros s' with
                   | EmptyString => if (c =? "0")%char then EmptyString else String c EmptyString
                   | t => String c t
                   end
  end.
(** A point and the fraction digits without trailing zeros; nothing if none is left. *)
Definition point (s : string) : string :=
  match strip_zeros s with EmptyString => EmptyString | t => String "." t end.
Definition format_digits (m k : Z) : string :=
  let ds := to_digits 6 m in
  if (k <? -4) || (6 <=? k) then
    (substring 0 1 ds ++ point (substring 1 5 ds) ++ "e" ++ (if (k <? 0)%Z then "-" else "+") ++
     to_digits (Z.to_nat (Z.max 2 (width (Z.abs k)))) (Z.abs k))%string
  else if k <? 0 then
    ("0" ++ point (to_digits (Z.to_nat (- k - 1)) 0 ++ ds))%string
  else
    (substring 0 (Z.to_nat (k + 1)) ds ++ point (substring (Z.to_nat (k + 1)) (Z.to_nat (5 - k)) ds))%string.
(** Simplified: the sign of a NaN is not tracked (glibc prints "-nan" for a NaN with the sign bit set). *)
Definition format_g (x : b64) : string :=
  match x with
  | B754_nan => "nan"%string
  | B754_infinity s => (if s then "-inf" else "inf")%string
  | B754_zero s => (if s then "-0" else "0")%string
  | B754_finite s m e _ =>
      let '(n, d) := if e <? 0 then (Zpos m, 2 ^ (- e)) else (Zpos m * 2 ^ e, 1) in
      let '(ds, k) := six_digits n d in
      ((if s then "-" else "") ++ format_digits ds k)%string
  end.
