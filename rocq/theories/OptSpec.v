(** Independent vocabulary for the optimizer. No reference to its model. *)
From Coq Require Import ZArith String Ascii List Reals.
From Verif Require Import Fp MusicSpec DataSpec TextSpec PrintSpec ChromaSpec.
From Flocq Require Import Core.Core IEEE754.BinarySingleNaN.
Import ListNotations.
Open Scope Z_scope.

(** ** Texts of tables *)
(** A number rounded to 15 decimal places; a tie goes to the even last digit. *)
Definition fifteen_places (v : R) : R := round radix10 (FIX_exp (-15)) ZnearestE v.
(** The numeral with 15 places that stands for a finite number. *)
Record fixed_numeral (x : dbl) (d : decimal) : Prop := {
  fx_sign : d_mark d = if Bsign x then Minus else NoSign;
  fx_int : Forall is_dig (d_int d) /\ d_int d <> [] /\ (hd 0 (d_int d) = 0 -> d_int d = [0]);
  fx_frac : exists f, d_frac d = Some f /\ Forall is_dig f /\ length f = 15%nat;
  fx_exp : d_exp d = None;
  fx_value : decimal_value d = fifteen_places (B2R x) }.
(** What a number becomes when it is written with 15 places and read again: the double nearest to the rounded value. *)
Definition transmitted (x y : dbl) : Prop :=
  is_finite y = true /\ B2R y = rounded 53 1024 (fifteen_places (B2R x)) /\ Bsign y = Bsign x.

(** ** Random tables *)
Definition among (i : nat) (l : list nat) : bool := existsb (Nat.eqb i) l.
(** How far a note is from the centre of a key, counted in semitones above the tonic: tonic and fifth, then the other notes of the major scale, then the rest. *)
Definition major_level (i : nat) : Z := if among i [0; 7]%nat then 0 else if among i [0; 2; 4; 5; 7; 9; 11]%nat then 1 else 2.
(** Tonic and fifth, then the other notes of the harmonic minor scale, then those only the natural or the melodic minor scale has, then the rest. *)
Definition minor_level (i : nat) : Z :=
  if among i [0; 7]%nat then 0
  else if among i [0; 2; 3; 5; 7; 8; 11]%nat then 1
  else if orb (among i [0; 2; 3; 5; 7; 8; 10]%nat) (among i [0; 2; 3; 5; 7; 9; 11]%nat) then 2
  else 3.
(** The class of a key as seen from C major (the classes of the stored transition tables). *)
Definition denotes (k : nat) (s : string) : bool := match named_key s with Some z => Z.eqb z (Z.of_nat k) | None => false end.
Fixpoint class_from (k : nat) (classes : list (list string)) : Z :=
  match classes with [] => 0 | c :: classes' => if existsb (denotes k) c then 0 else 1 + class_from k classes' end.
Definition key_level (k : nat) : Z := class_from k key_classes.
(** Whole numbers, each not negative and below the maximum halved as often as its level says. *)
Definition drawn_below (level : nat -> Z) (maximum : Z) (ns : list Z) : Prop :=
  forall i n, nth_error ns i = Some n -> 0 <= n < maximum / 2 ^ level i.
Definition total (ns : list Z) : Z := fold_right Z.add 0 ns.
(** A number over a total, correctly rounded. *)
Definition share (s n : Z) (y : dbl) : Prop := is_finite y = true /\ B2R y = rounded 53 1024 (IZR n / IZR s).
Definition real_total (l : list dbl) : R := fold_right Rplus 0%R (map B2R l).
(** ** Geometric tables *)
Fixpoint upto_sum (n : nat) (f : nat -> R) : R := match n with O => 0%R | S n' => (upto_sum n' f + f n')%R end.
(** What a table with a given ratio between neighbouring classes has for a key, in exact arithmetic. *)
Definition geometric_share (ratio : R) (k : nat) : R :=
  (ratio ^ Z.to_nat (8 - key_level k) / upto_sum 24 (fun j => ratio ^ Z.to_nat (8 - key_level j)))%R.
(** A power function of doubles that is accurate to within one unit in the last place. *)
Definition accurate_power (pow : dbl -> Z -> dbl) : Prop := forall (x : dbl) (n : Z), is_finite x = true -> (/ 2 ^ 20 <= B2R x <= 2 ^ 20)%R -> 0 <= n <= 8 ->
  is_finite (pow x n) = true /\ (Rabs (B2R (pow x n) - B2R x ^ Z.to_nat n) <= / 2 ^ 52 * B2R x ^ Z.to_nat n)%R.
(** ** Evolution *)
(** Two places of one list, one giving a tenth of its value to the other, each operation rounded; all other places as before. *)
Definition moved (may : nat -> nat -> Prop) (l l' : list dbl) : Prop :=
  exists i j x y x' y', i <> j /\ may i j /\ nth_error l i = Some x /\ nth_error l j = Some y /\
    length l' = length l /\ nth_error l' i = Some x' /\ nth_error l' j = Some y' /\ (forall k, k <> i -> k <> j -> nth_error l' k = nth_error l k) /\
    let d := rounded 53 1024 (B2R x * rounded 53 1024 (1 / 10)) in B2R x' = rounded 53 1024 (B2R x - d) /\ B2R y' = rounded 53 1024 (B2R y + d).
Definition one_half (i j : nat) : Prop := (i < 12)%nat <-> (j < 12)%nat.
Definition anywhere (i j : nat) : Prop := True.
(** Two halves of 12 values that are not negative, each half adding up to 1 up to [e]. *)
Definition profile_like (e : R) (l : list dbl) : Prop :=
  length l = 24%nat /\ Forall (fun x => is_finite x = true /\ (0 <= B2R x)%R) l /\
  (Rabs (real_total (firstn 12 l) - 1) <= e)%R /\ (Rabs (real_total (skipn 12 l) - 1) <= e)%R.
(** The same for 24 values that add up to 1 together. *)
Definition transition_like (e : R) (l : list dbl) : Prop :=
  length l = 24%nat /\ Forall (fun x => is_finite x = true /\ (0 <= B2R x)%R) l /\ (Rabs (real_total l - 1) <= e)%R.
(** A profile as it was or with one move inside a half. *)
Definition varied (may : nat -> nat -> Prop) (l l' : list dbl) : Prop := l' = l \/ moved may l l'.
(** Two random halves. *)
Definition drawn_half (level : nat -> Z) (maximum : Z) (l : list dbl) : Prop :=
  exists ns, length ns = 12%nat /\ drawn_below level maximum ns /\ 0 < total ns /\ Forall2 (share (total ns)) ns l.
Definition drawn_profile (maximum : Z) (l : list dbl) : Prop := exists a b, l = a ++ b /\ drawn_half major_level maximum a /\ drawn_half minor_level maximum b.
(** Stored tables under their names. *)
Definition book := string -> option (list dbl).
(** A name made of a prefix and a number. *)
Definition serial (p : string) (i : Z) (s : string) : Prop := exists ds, ds <> [] /\ Forall is_dig ds /\ digits_value ds = i /\ s = (p ++ show_digits ds)%string.
(** Every numbered name in use has a number below the one to be given out next. *)
Definition numbers_below {A} (b : string -> option A) (ps : list string) (next : Z) : Prop := 0 <= next /\ forall n l p i, b n = Some l -> In p ps -> serial p i n -> i < next.
(** Nothing that is stored is lost or changed. *)
Definition kept_in {A} (b b' : string -> option A) : Prop := forall n l, b n = Some l -> b' n = Some l.
Definition variant_of (may : nat -> nat -> Prop) (b b' : book) (n r : string) : Prop := exists l l', b n = Some l /\ b' r = Some l' /\ varied may l l'.
(** The first half of one table and the second half of another. *)
Definition joined (b : book) (parents : list string) (p : string * string) (l : list dbl) : Prop :=
  fst p <> snd p /\ In (fst p) parents /\ In (snd p) parents /\ exists la lb, b (fst p) = Some la /\ b (snd p) = Some lb /\ l = firstn 12 la ++ skipn 12 lb.
Definition child_of (b b' : book) (parents : list string) (p : string * string) (r : string) : Prop := exists l l', joined b parents p l /\ b' r = Some l' /\ varied one_half l l'.
Definition newly_drawn (maximum : Z) (b : book) (n : string) : Prop := exists l, b n = Some l /\ drawn_profile maximum l.
(** The next generation of n profiles: variants of the first fifth, of another fifth chosen among the rest, of children (three tenths) of those, and new ones. *)
Definition next_generation (maximum : Z) (b b' : book) (kps new : list string) : Prop :=
  let n := length kps in
  exists old pairs A B C D,
    new = A ++ B ++ C ++ D /\ length new = n /\
    Forall2 (variant_of one_half b b') (firstn (n / 5) kps) A /\
    length old = (n / 5)%nat /\ NoDup old /\ (forall x, In x old -> In x (skipn (n / 5) kps)) /\ Forall2 (variant_of one_half b b') old B /\
    length pairs = (3 * n / 10)%nat /\ Forall2 (child_of b b' (firstn (n / 5) kps ++ old)) pairs C /\
    Forall (newly_drawn maximum b') D.
(** ** Evolution of transition tables *)
Definition ratios := string -> option dbl.
(** The 24 shares of a geometric table, each within 2^-48 of the exact value. *)
Definition geometric_of (ratio : R) (l : list dbl) : Prop :=
  length l = 24%nat /\ forall k y, nth_error l k = Some y -> is_finite y = true /\ (Rabs (B2R y - geometric_share ratio k) <= / 2 ^ 48 * geometric_share ratio k)%R.
(** At most a tenth more or less, up to rounding. *)
Definition about_a_tenth (r r' : R) : Prop := (Rabs (r' - r) <= (/ 10 + / 2 ^ 49) * r)%R.
(** What becomes of a table: by the beginning of its name a geometric table for a changed ratio, or a tenth of one value moved to another one. *)
Definition successor (b : book) (q : ratios) (b' : book) (q' : ratios) (n r : string) : Prop :=
  (String.prefix "ktg" n = true /\ String.prefix "ktg" r = true /\ exists x x' l', q n = Some x /\ q' r = Some x' /\ b' r = Some l' /\ about_a_tenth (B2R x) (B2R x') /\ geometric_of (B2R x') l') \/
  (String.prefix "ktg" n = false /\ String.prefix "kts" n = true /\ String.prefix "kts" r = true /\ exists l l', b n = Some l /\ b' r = Some l' /\ moved anywhere l l').
Definition drawn_stochastic (maximum : Z) (l : list dbl) : Prop := exists ns, length ns = 24%nat /\ drawn_below key_level maximum ns /\ 0 < total ns /\ Forall2 (share (total ns)) ns l.
Definition newly_drawn_transition (maximum : Z) (b : book) (q : ratios) (n : string) : Prop := exists l, b n = Some l /\
  ((String.prefix "ktg" n = true /\ exists x, q n = Some x /\ is_finite x = true /\ (2 <= B2R x <= 50)%R /\ geometric_of (B2R x) l) \/ (String.prefix "kts" n = true /\ drawn_stochastic maximum l)).
(** The next generation of n tables: successors of the first fifth and of another fifth chosen among the rest, and new ones. *)
Definition next_transitions (maximum : Z) (b : book) (q : ratios) (b' : book) (q' : ratios) (kts new : list string) : Prop :=
  let n := length kts in
  exists old A B D,
    new = A ++ B ++ D /\ length new = n /\
    Forall2 (successor b q b' q') (firstn (n / 5) kts) A /\
    length old = (n / 5)%nat /\ NoDup old /\ (forall x, In x old -> In x (skipn (n / 5) kts)) /\ Forall2 (successor b q b' q') old B /\
    Forall (newly_drawn_transition maximum b' q') D.
