(** Independent vocabulary for chromagram files and chromagrams. No reference to the model of the reader. *)
From Coq Require Import ZArith String Ascii List Reals Sorted.
From Verif Require Import Fp MusicSpec TextSpec.
From Flocq Require Import Core.Core IEEE754.BinarySingleNaN.
Import ListNotations.
Open Scope Z_scope.

Notation dbl := b64.

(** A text consists of fields with a separator between them; a separator at the very end adds no field. *)
Definition fields (c : ascii) (s : string) (l : list string) : Prop :=
  Forall (lacks c) l /\ (s = join c l /\ last l "x"%string <> ""%string \/ s = (join c l ++ String c "")%string /\ l <> []).

(** The number a field of a CSV file stands for: a decimal numeral in the range of [float], rounded to the nearest [float],
    with anything that does not continue the numeral behind it; or infinity or NaN. (Hexadecimal notation is left out.) *)
Inductive token_value : string -> dbl -> Prop :=
| token_decimal ws d r y : spaces ws -> well_formed d -> ends_here d r -> ~ overflows 24 128 d -> ~ underflows32 d ->
    is_finite y = true -> B2R y = rounded 24 128 (decimal_value d) -> Bsign y = match d_mark d with Minus => true | _ => false end ->
    token_value (ws ++ show_decimal d ++ r) y
| token_inf ws m t : spaces ws -> begins_word "inf" t ->
    token_value (ws ++ show_mark m ++ t) (B754_infinity (match m with Minus => true | _ => false end))
| token_nan ws m t : spaces ws -> begins_word "nan" t -> token_value (ws ++ show_mark m ++ t) B754_nan.

(** A text begins with a decimal numeral that is out of the range of [float]. *)
Definition out_of_float (s : string) : Prop :=
  exists ws d r, s = (ws ++ show_decimal d ++ r)%string /\ spaces ws /\ well_formed d /\ ends_here d r /\ (overflows 24 128 d \/ underflows32 d).

(** A line with its numbers, a file with its lines. *)
Definition row_text (line : string) (row : list dbl) : Prop := exists toks, fields "," line toks /\ Forall2 token_value toks row.
Definition csv_text (content : string) (rows : list (list dbl)) : Prop :=
  exists lines, fields "010" content lines /\ Forall2 row_text lines rows.

(** A value given for a pitch class at a time. *)
Definition event : Type := dbl * Z * dbl.
(** The first number of a row is the time, the following ones belong to the pitch classes A, A#, B, C, ... round and round. *)
Definition row_events (row : list dbl) : list event :=
  match row with
  | [] => []
  | t :: vs => map (fun jv => (t, (9 + Z.of_nat (fst jv)) mod 12, snd jv)) (combine (seq 0 (length vs)) vs)
  end.
Definition rows_events (rows : list (list dbl)) : list event := flat_map row_events rows.
(** No value at a time that is not a number. *)
Definition proper_row (row : list dbl) : Prop := match row with t :: _ :: _ => is_nan t = false | _ => True end.

Definition same_time (t u : dbl) : Prop := Beqb t u = true.
Definition earlier (t u : dbl) : Prop := Bltb t u = true.
Definition e_time (e : event) : dbl := fst (fst e).
Definition e_pitch (e : event) : Z := snd (fst e).
(** [t] is the first spelling of its time (0 and -0 are the same time). *)
Definition first_use (es : list event) (t : dbl) : Prop :=
  exists a p v b, es = a ++ (t, p, v) :: b /\ forall e, In e a -> ~ same_time (e_time e) t.
(** [v] is the last value given for pitch class [p] at time [t]; 0 if there is none. *)
Definition last_given (es : list event) (t : dbl) (p : Z) (v : dbl) : Prop :=
  (exists a t' b, es = a ++ (t', p, v) :: b /\ same_time t' t /\ forall e, In e b -> ~ (same_time (e_time e) t /\ e_pitch e = p)) \/
  (v = B754_zero false /\ forall e, In e es -> ~ (same_time (e_time e) t /\ e_pitch e = p)).
(** A chromagram (frames of twelve values with their times) that holds exactly these values: frames in order of time, one for every time. *)
Record shows (m : list (dbl * list dbl)) (es : list event) : Prop := {
  sh_sorted : StronglySorted (fun a b => earlier (fst a) (fst b)) m;
  sh_width : forall t vec, In (t, vec) m -> length vec = 12%nat;
  sh_times : forall t, In t (map fst m) <-> first_use es t;
  sh_cells : forall t vec p, In (t, vec) m -> 0 <= p < 12 -> last_given es t p (nth (Z.to_nat p) vec B754_nan) }.
(** Pairwise different times of the rows that give values. *)
Definition giving (row : list dbl) : Prop := match row with _ :: _ :: _ => True | _ => False end.
Definition row_time (row : list dbl) : dbl := match row with t :: _ => t | [] => B754_nan end.
Definition distinct_times (rows : list (list dbl)) : Prop :=
  ForallOrdPairs (fun r r' => giving r -> giving r' -> ~ same_time (row_time r) (row_time r')) rows.

(** The value rounded down. *)
Definition floored (x y : dbl) : Prop := is_finite x = true -> is_finite y = true /\ B2R y = IZR (Zfloor (B2R x)).
(** Equal vectors. *)
Definition same_values (a b : list dbl) : Prop := Forall2 (fun x y => Beqb x y = true) a b.
(** The vectors that differ from the following one; the last is compared with [past]. *)
Inductive kept (past : list dbl) : list (list dbl) -> list (list dbl) -> Prop :=
| kept_end : kept past [] []
| kept_skip v m l : same_values v (hd past m) -> kept past m l -> kept past (v :: m) l
| kept_keep v m l : ~ same_values v (hd past m) -> kept past m l -> kept past (v :: m) (v :: l).
(** A whole number in the range of [int]. *)
Definition whole (x : dbl) (n : Z) : Prop := is_finite x = true /\ B2R x = IZR n /\ - 2 ^ 31 <= n < 2 ^ 31.
(** The notes of a vector of whole numbers: for each pitch class, from C on, one note less than its number. *)
Definition copies (ns : list Z) : list Z :=
  flat_map (fun pn => repeat (fst pn) (Z.to_nat (snd pn - 1))) (combine (map Z.of_nat (seq 0 (length ns))) ns).
Definition spelled (vec : list dbl) (notes : list Z) : Prop :=
  exists ns, Forall2 whole vec ns /\ Forall (fun n => 0 <= n) ns /\ notes = copies ns.

(** A [float] kept exactly as a [double]. *)
Definition widened (x : b32) (y : dbl) : Prop :=
  match x with
  | B754_infinity s => y = B754_infinity s
  | B754_nan => y = B754_nan
  | _ => is_finite y = true /\ B2R y = B2R x /\ Bsign y = Bsign x
  end.
(** A feature of the chroma plugin, a time as text and values, as a row. *)
Definition feature_row (f : string * list b32) (row : list dbl) : Prop :=
  exists t vs, row = t :: vs /\ token_value (fst f) t /\ Forall2 widened (snd f) vs.

(** The notes of a MIDI file given as a list of events: note-on messages of any channel with a velocity that is not 0. *)
Inductive heard : list (list Z) -> list Z -> Prop :=
| heard_end : heard [] []
| heard_note ch p v r es ns : 0 <= ch < 16 -> v <> 0 -> heard es ns -> heard (((144 + ch) :: p :: v :: r) :: es) (p mod 12 :: ns)
| heard_release ch p r es ns : 0 <= ch < 16 -> heard es ns -> heard (((144 + ch) :: p :: 0 :: r) :: es) ns
| heard_other s r es ns : 0 <= s < 256 -> ~ 144 <= s < 160 -> heard es ns -> heard ((s :: r) :: es) ns.
(** An event list a MIDI reader can deliver. *)
Definition midi_event (e : list Z) : Prop :=
  Forall (fun b => 0 <= b < 256) e /\ match e with [] => False | s :: r => 144 <= s < 160 -> (2 <= length r)%nat end.
(** The mono value of one frame. *)
Definition mono (frame : list b32) : b32 :=
  fold_left (fun acc x => fadd32 acc (fdiv32 x (binary_normalize prec32 emax32 _ _ mode_NE (Z.of_nat (length frame)) 0 false))) frame (B754_zero false).
