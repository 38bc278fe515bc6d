(** What the tuning plug-in should print, and what C promises of pow. *)
From Coq Require Import Reals.
From Flocq Require Import Core.Core IEEE754.BinarySingleNaN.
From Verif Require Import Base Fp Chromagram.

(** pow(2, x) for a small x is 2^x but for one part in 2^50, four units in the last place. *)
Definition pow2_law (pow : b64 -> b64 -> b64) : Prop := forall two x : b64,
  is_finite two = true -> B2R two = 2%R -> is_finite x = true -> (Rabs (B2R x) <= / 20)%R ->
  is_finite (pow two x) = true /\ (Rabs (B2R (pow two x) - Rpower 2 (B2R x)) <= / 2 ^ 50 * Rpower 2 (B2R x))%R.
(** atan2(+0, x) is pi for a negative x. *)
Definition atan2_pi (atan2 : b32 -> b32 -> b32) : Prop := forall y x : b32, is_finite y = true -> B2R y = 0%R -> Bsign y = false -> is_finite x = true -> (B2R x < 0)%R ->
  is_finite (atan2 y x) = true /\ B2R (atan2 y x) = (13176795 / 4194304)%R.
(** The A above middle C, in Hz, of an instrument [t] semitones above the standard. *)
Definition concert_pitch (t : R) : R := (440 * Rpower 2 (t / 12))%R.
(** A float that is the pitch for the tuning t, within a ten-thousandth of a Hz. *)
Definition pitched (t : R) (v : b32) : Prop := is_finite v = true /\ (Rabs (B2R v - concert_pitch t) <= / 10000)%R.
