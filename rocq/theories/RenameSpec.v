(** Independent vocabulary for numbered files. *)
From Coq Require Import ZArith String Ascii List.
From Verif Require Import TextSpec.
Import ListNotations.
Open Scope string_scope.
Open Scope bool_scope.
Open Scope Z_scope.

(** The value of a text of decimal digits. *)
Fixpoint digits_value (acc : Z) (s : string) : option Z :=
  match s with
  | EmptyString => Some acc
  | String c s => let d := Z.of_N (N_of_ascii c) - 48 in if (0 <=? d) && (d <=? 9) then digits_value (10 * acc + d) s else None
  end.
(** A number in four digits, or in as many as it needs. *)
Definition numbers (i : Z) (s : string) : Prop := digits_value 0 s = Some i /\ (String.length s = 4%nat \/ 10000 <= i /\ (4 < String.length s)%nat /\ get 0 s <> Some "0"%char).
(** A file with its stem and its extension. *)
Record file := mkFile { stem : string; extension : string }.
Definition full (f : file) : string := (stem f ++ "." ++ extension f)%string.
Definition key_file (s : string) : string := (s ++ ".key")%string.
(** A folder holds exactly these files. *)
Definition holds {T} (d : string -> option T) (fs : list file) : Prop := NoDup (map full fs) /\ forall n, d n <> None <-> In n (map full fs).
(** The files with the extensions of [fs] and the numbers from 0 on as stems. *)
Definition renumbered (fs gs : list file) : Prop :=
  map extension gs = map extension fs /\ forall i g, nth_error gs i = Some g -> numbers (Z.of_nat i) (stem g).
