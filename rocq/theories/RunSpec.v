(** What a whole run of the detector is to print, from the notes and the three tables. *)
From Flocq Require Import IEEE754.BinarySingleNaN.
From Verif Require Import Base Fp Text MusicSpec TransitionFacts ViterbiSpec.
Open Scope Z_scope.

(** How well pitch class p fits key k: the profile of the mode, turned to the tonic. How well key k follows key j: the distance decides. *)
Definition fits (A B : list b64) (k p : Z) : b64 := znth fzero (if majorb k then A else B) ((p - tonic k) mod 12).
Definition follows (T : list b64) (j k : Z) : b64 := znth fzero T (interval_index j k).
(** The score of a key for each note: all keys are equally likely to begin. *)
Definition local_score (log10 : b64 -> b64) (A B T : list b64) (notes path : list Z) : b64 :=
  path_score fadd (fun k p => log10 (fmul (rat64 1 24) (fits A B k p))) (fun j k p => log10 (fmul (follows T j k) (fits A B k p))) fninf path notes.
(** The score of one key for the piece, given the key of each note. *)
Definition piece_score (log10 : b64 -> b64) (T : list b64) (locals : list Z) (J : Z) : b64 :=
  match locals with
  | [] => fninf
  | k0 :: ks => fold_left (fun acc k => fadd acc (log10 (follows T J k))) ks (log10 (fmul (rat64 1 24) (follows T J k0)))
  end.
(** The line for -p: six significant digits and a space for each key. *)
Definition scores_line (l : list b64) : string := (String.concat "" (map (fun x => format_g x ++ " ") l) ++ String (Ascii.ascii_of_nat 10) "")%string.
