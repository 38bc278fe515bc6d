(** Independent vocabulary for the evaluator and the genetic algorithm. No reference to their model. *)
From Coq Require Import ZArith String List Reals Permutation Sorted.
From Flocq Require Import Core.Core IEEE754.BinarySingleNaN.
From Verif Require Import Fp ChromaSpec.
Import ListNotations.

(** A number between 0 and 1. *)
Definition fraction (s : dbl) : Prop := is_finite s = true /\ (0 <= B2R s <= 1)%R.
(** What is asked of the power function of Python for squares of such numbers. *)
Definition fair_squares (pow : dbl -> Z -> dbl) : Prop := forall x : dbl, fraction x ->
  fraction (pow x 2%Z) /\ (B2R (pow x 2%Z) = 1%R <-> B2R x = 1%R) /\ (B2R x = 0%R -> B2R (pow x 2%Z) = 0%R).
(** A detector whose scores, if it prints any, lie between 0 and 1. *)
Definition fair_scores (detector : string -> string -> string -> option dbl) : Prop := forall kp kt file s, detector kp kt file = Some s -> fraction s.
(** The detector gives full marks to a file. *)
Definition perfect (detector : string -> string -> string -> option dbl) (kp kt file : string) : Prop := exists s, detector kp kt file = Some s /\ B2R s = 1%R.
Definition ascending (l : list dbl) : Prop := StronglySorted (fun x y => (B2R x <= B2R y)%R) l.
(** Two populations of different names that all stand for stored tables, with a best pair among them and its error. *)
Record consistent (profiles transitions : string -> option (list dbl)) (error : string -> string -> dbl) (kps kts : list string) (best_kp best_kt : string) (lowest : dbl) : Prop := {
  cs_profiles : NoDup kps /\ forall n, In n kps -> exists l, profiles n = Some l;
  cs_transitions : NoDup kts /\ forall n, In n kts -> exists l, transitions n = Some l;
  cs_best : In best_kp kps /\ In best_kt kts;
  cs_lowest : lowest = error best_kp best_kt }.
(** The population of a generation that was accepted: exactly the stored tables, in the order of their errors, the first one being the best. *)
Definition accepted (stored : string -> option (list dbl)) (error : string -> dbl) (names : list string) (best : string) (scores : list dbl) : Prop :=
  (forall n, (exists l, stored n = Some l) <-> In n names) /\ scores = map error names /\ ascending scores /\ hd_error names = Some best.
(** [a] was no worse than [b] in an initial comparison: for each profile there is one with which [a] errs at most as much. *)
Definition at_least_as_good (error : string -> string -> dbl) (kps : list string) (a b : string) : Prop :=
  forall kp, In kp kps -> exists kp', In kp' kps /\ (B2R (error kp' a) <= B2R (error kp b))%R.
(** Failures in a row and what they lead to: after more than [threshold] of them the other population's turn comes. *)
Definition after_failure (threshold bad : Z) (mode : bool) (bad' : Z) (mode' : bool) : Prop :=
  if (threshold <? bad + 1)%Z then bad' = 0%Z /\ mode' = negb mode else bad' = (bad + 1)%Z /\ mode' = mode.
