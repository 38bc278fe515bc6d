(** What the tables of the plug-ins are to hold. *)
From Coq Require Import Reals String.
From Flocq Require Import Core.Core IEEE754.BinarySingleNaN.
From Verif Require Import Base Fp Chromagram NnlsArith NnlsSpec Plug PlugSpec Setup.
Open Scope R_scope.

(** A raised cosine three bins wide. *)
Definition pulse (x : R) : R := if Rle_dec (Rabs x) (3 / 2) then (1 + cos (2 * PI * x / 3)) / 2 else 0.
(** How many bins harmonic h lies above the fundamental: there are 36 in an octave. *)
Definition harmonic (h : nat) : R := 36 * (ln (INR h) / ln 2).
(** The sound of a semitone: its first twenty harmonics, each s times as strong as the one before. Its fundamental is in bin 3 * semitone + 3. *)
Definition sound (s : R) (semitone row : Z) : R := total 20 (fun i => s ^ i * pulse (IZR row - IZR (3 * semitone + 3) - harmonic (S i))).
(** Several semitones at once, each as loud as [volume] says. *)
Definition mixture (s : R) (volume : Z -> R) (row : Z) : R := total 84 (fun k => volume (Z.of_nat k) * sound s (Z.of_nat k) row).

(** ** A host *)
(** It sets parameters one after another, and calls initialise() any number of times, with the arguments in the list. *)
Fixpoint configure (b : base) (calls : list (string * b32)) : outcome base :=
  match calls with [] => Ret b | (id, v) :: calls => do b <- set_parameter b id v; configure b calls end.
Fixpoint initialise_all (L : libm) (rate : b32) (b : base) (calls : list (Z * Z * Z)) : outcome base :=
  match calls with [] => Ret b | (channels, step, block) :: calls => do r <- initialise L rate b channels step block; initialise_all L rate (snd r) calls end.
(** A parameter that the plug-in has declared, with a value from the range it has declared. *)
Definition declared (l : list descriptor) (call : string * b32) : Prop :=
  exists p, In p l /\ p_id p = fst call /\ Bleb (p_min p) (snd call) = true /\ Bleb (snd call) (p_max p) = true.
(** ** The parameters that can be set *)
Open Scope Z_scope.
Definition params : list string := ["useNNLS"; "whitening"; "s"; "boostn"; "tuningmode"; "chromanormalize"; "rollon"; "usehartesyntax"]%string.
(** What a parameter holds after it has been given a value. *)
Definition kept_value (id : string) (v : b32) : outcome b32 :=
  if String.eqb id "useNNLS" then do n <- to_int (f32_to_64 v); Ret (rat32 n 1) else if String.eqb id "tuningmode" then Ret (if Beqb v z32 then z32 else one32) else Ret v.
(** What is not a parameter. *)
Definition tables (b : base) := (b_block b, b_step b, b_mean b, b_local b, (b_kernel b, b_dict b, b_hw b, b_sin b, b_cos b)).
(** Those that the three plug-ins declare. *)
Definition all_parameters := base_parameters ++ chordino_parameters ++ tuning_parameters.
