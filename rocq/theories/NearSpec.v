(** What "nearly a most probable path" means, and the numbers for which the chord decoder is to find one. *)
From Coq Require Import Reals.
From Flocq Require Import Core.Core IEEE754.BinarySingleNaN.
From Verif Require Import Base Fp Options Nnls NnlsArith Plug ChordViterbi ChordSpec.
Open Scope Z_scope.

(** A double from 2 to the -k up to 1. *)
Definition chance (k : nat) (x : b64) : Prop := is_finite x = true /\ (/ 2 ^ k <= B2R x <= 1)%R.
(** The real numbers that doubles stand for. *)
Definition values : list b64 -> list R := map B2R.
(** No path is more probable by more than a factor of 1 + 2^-52 for each of the six roundings of a frame, three there and three back. *)
Definition nearly_best (n : Z) (init : list b64) (trans obs : list (list b64)) (p : list Z) : Prop :=
  a_path n (map values obs) p /\ forall q, a_path n (map values obs) q ->
    (probability (values init) (map values trans) (map values obs) q <= (1 + / 2 ^ 52) ^ (6 * length obs) * probability (values init) (map values trans) (map values obs) p)%R.
Definition fine_scales (l : list b64) : Prop := Forall (fun x : b64 => is_finite x = true /\ (/ 2 ^ 20 <= B2R x <= 2 ^ 201)%R) l.
(** A float that is a number of at least 0. *)
Definition size32 (x : b32) : Prop := is_finite x = true /\ Bltb x z32 = false.
(** What is required of pow (1.3, v) for v from 0 to 200; 1.3 to the 200 is about 2 to the 75.7. *)
Definition pow_law (pow : b64 -> b64 -> b64) : Prop := forall v, is_finite v = true -> (0 <= B2R v <= 200)%R -> is_finite (pow (rat64 13 10) v) = true /\ (1 <= B2R (pow (rat64 13 10) v) <= 2 ^ 80)%R.
