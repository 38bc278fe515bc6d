(** What the chroma plug-in is to compute. *)
From Coq Require Import Reals.
From Flocq Require Import Core.Core IEEE754.BinarySingleNaN.
From Verif Require Import Base Fp NnlsArith NnlsSpec.
Open Scope Z_scope.

(** The sum of a pitch class over the seven octaves, from the lowest, each semitone weighted by the window; pitch class 0 is that of semitone 0. *)
Definition folded (window notes : list b32) (c : Z) : b32 :=
  fold_left (fun sum octave => fadd32 sum (Bmult mode_NE (znth (B754_zero false) notes (c + 12 * octave)) (znth (B754_zero false) window (c + 12 * octave)))) [0; 1; 2; 3; 4; 5; 6] (B754_zero false).
Definition chroma_of (window notes : list b32) : list b32 := map (folded window notes) [0; 1; 2; 3; 4; 5; 6; 7; 8; 9; 10; 11].
(** Never below 0; -0 and not-a-number are not below 0. *)
Definition not_negative (x : b32) : Prop := Bltb x (B754_zero false) = false.
(** Features with their time stamps: n values each. *)
Definition stamped {stamp} (n : nat) (stamps : list stamp) (l : list (stamp * list b32)) : Prop := map fst l = stamps /\ Forall (fun tf => length (snd tf) = n) l.
(** A bin with its two neighbours, which count half; sums are stored as floats. *)
Definition smoothed (b : list b32) (i : Z) : b32 :=
  fold_left (fun v '(j, w) => f64_to_32 (fadd (f32_to_64 v) (fmul (f32_to_64 (znth (B754_zero false) b j)) w))) [(i + -1, rat64 1 2); (i + 0, rat64 1 1); (i + 1, rat64 1 2)] (B754_zero false).
(** The semitone k has a bin and its neighbours; their sum is positive. *)
Definition has_energy (b : list b32) (k : Z) : bool :=
  let at_bin i := znth (B754_zero false) b i in Bltb (B754_zero false) (fadd32 (fadd32 (fadd32 (B754_zero false) (at_bin (3 * k + 2))) (at_bin (3 * k + 3))) (at_bin (3 * k + 4))).
(** A sum over some semitones, and how far a transcription is from the spectrum: each semitone stands for one column of the dictionary. *)
Fixpoint sum_over (l : list Z) (f : Z -> R) : R := match l with [] => 0%R | k :: l' => (f k + sum_over l' f)%R end.
Definition distance (dict b : list R) (l : list Z) (val : Z -> R) : R := total 256 (fun row => Rsqr (sum_over l (fun k => znth 0%R dict (k * 256 + Z.of_nat row) * val k)%R - nth row b 0%R)).
(** Values of a chroma: finite and not negative; between 0 and 1; and with something positive among them. *)
Definition chroma_values (l : list b32) : Prop := Forall (fun v => is_finite v = true /\ not_negative v) l.
Definition unit_values (l : list b32) : Prop := Forall (fun v => is_finite v = true /\ (0 <= B2R v <= 1)%R) l.
Definition sounding (l : list b32) : Prop := Exists (fun v => (0 < B2R v)%R) l.
