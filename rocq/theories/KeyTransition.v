(** Model of the class [KeyTransition] (src/keytransition.cc, include/keytransition.h). Definitions only. *)
From Verif Require Import Base Fp Key PitchClass.

(** include/keytransition.h:41, KeyTransitionArray: 24 doubles. *)
Notation transition_array := (list b64).
Definition zero_transition : transition_array := repeat fzero 24.

(** src/keytransition.cc:52-89, the stored arrays; [a/b] in the source is one correctly rounded division. *)
Definition builtin_transitions : list (string * transition_array) :=
  [("linear"%string, (* lines 53-58 *)
     [rat64 9 132; rat64 4 132; rat64 6 132; rat64 6 132; rat64 5 132; rat64 8 132; rat64 1 132; rat64 8 132; rat64 5 132; rat64 6 132; rat64 6 132; rat64 4 132;
      rat64 8 132; rat64 2 132; rat64 7 132; rat64 3 132; rat64 7 132; rat64 7 132; rat64 3 132; rat64 7 132; rat64 2 132; rat64 8 132; rat64 5 132; rat64 5 132]);
   ("exponential2"%string, (* lines 59-64 *)
     [rat64 256 1245; rat64 8 1245; rat64 32 1245; rat64 32 1245; rat64 16 1245; rat64 128 1245; rat64 1 1245; rat64 128 1245; rat64 16 1245; rat64 32 1245; rat64 32 1245; rat64 8 1245;
      rat64 128 1245; rat64 2 1245; rat64 64 1245; rat64 4 1245; rat64 64 1245; rat64 64 1245; rat64 4 1245; rat64 64 1245; rat64 2 1245; rat64 128 1245; rat64 16 1245; rat64 16 1245]);
   ("exponential10"%string, (* lines 65-74 *)
     [rat64 100000000 144442221; rat64 1000 144442221; rat64 100000 144442221; rat64 100000 144442221; rat64 10000 144442221; rat64 10000000 144442221; rat64 1 144442221; rat64 10000000 144442221; rat64 10000 144442221; rat64 100000 144442221; rat64 100000 144442221; rat64 1000 144442221;
      rat64 10000000 144442221; rat64 10 144442221; rat64 1000000 144442221; rat64 100 144442221; rat64 1000000 144442221; rat64 1000000 144442221; rat64 100 144442221; rat64 1000000 144442221; rat64 10 144442221; rat64 10000000 144442221; rat64 10000 144442221; rat64 10000 144442221]);
   ("zero"%string, (* lines 75-78 *)
     [rat64 1 1; rat64 0 1; rat64 0 1; rat64 0 1; rat64 0 1; rat64 0 1; rat64 0 1; rat64 0 1; rat64 0 1; rat64 0 1; rat64 0 1; rat64 0 1;
      rat64 0 1; rat64 0 1; rat64 0 1; rat64 0 1; rat64 0 1; rat64 0 1; rat64 0 1; rat64 0 1; rat64 0 1; rat64 0 1; rat64 0 1; rat64 0 1]);
   ("symmetrical"%string, (* lines 79-84 *)
     [rat64 1 24; rat64 1 24; rat64 1 24; rat64 1 24; rat64 1 24; rat64 1 24; rat64 1 24; rat64 1 24; rat64 1 24; rat64 1 24; rat64 1 24; rat64 1 24;
      rat64 1 24; rat64 1 24; rat64 1 24; rat64 1 24; rat64 1 24; rat64 1 24; rat64 1 24; rat64 1 24; rat64 1 24; rat64 1 24; rat64 1 24; rat64 1 24]);
   ("heatmap"%string, (* lines 85-88 *)
     [rat64 1 1; rat64 6 1; rat64 4 1; rat64 4 1; rat64 5 1; rat64 2 1; rat64 9 1; rat64 2 1; rat64 5 1; rat64 4 1; rat64 4 1; rat64 6 1;
      rat64 2 1; rat64 8 1; rat64 3 1; rat64 7 1; rat64 3 1; rat64 3 1; rat64 7 1; rat64 3 1; rat64 8 1; rat64 2 1; rat64 5 1; rat64 5 1])].

(** include/keytransition.h:53-54, the data members. *)
Record keytransition := mkKt { kt_name : string; kt_arrays : list (string * transition_array) }.

(** src/keytransition.cc:91-93, isValidKeyTransition. *)
Definition is_valid_transition (kt : keytransition) (name : string) : bool :=
  match assoc String.eqb name (kt_arrays kt) with Some _ => true | None => false end.

(** src/keytransition.cc:41-50, the two-argument constructor. *)
Definition keytransition_new2 (name : string) (custom : transition_array) : keytransition :=
  let arrays := if String.eqb name "custom" then assign String.eqb name custom builtin_transitions
                else builtin_transitions in
  let kt := mkKt "" arrays in
  if is_valid_transition kt name then mkKt name arrays else kt.

(** src/keytransition.cc:34-38, 31-32, the delegating constructors. *)
Definition keytransition_new1 (name : string) : keytransition := keytransition_new2 name zero_transition.
Definition keytransition_new0 : keytransition := keytransition_new1 "exponential10".

(** src/keytransition.cc:95-97, whichKeyTransition. *)
Definition which_transition (kt : keytransition) : string := kt_name kt.

(** src/keytransition.cc:99-101, getKeyTransitionArray ([operator[]] inserts a zero array for an unknown name). *)
Definition get_transition_array (kt : keytransition) : transition_array * keytransition :=
  match assoc String.eqb (kt_name kt) (kt_arrays kt) with
  | Some a => (a, kt)
  | None => (zero_transition, mkKt (kt_name kt) (assign String.eqb (kt_name kt) zero_transition (kt_arrays kt)))
  end.

(** src/keytransition.cc:110-151, the row of one starting key [from] (a value of [getAllKeysVector]):
    the halves of the array are copied (minor start: second half rotated by 9 first), rotated and concatenated.
    Written for an array of any element type (the code only moves elements), so that it can be reasoned about
    independently of doubles. *)
Definition transition_row {A} (arr : list A) (from : Z) : list A :=
  let tonicKey := Z.rem from NUMBER_OF_PITCHCLASSES in
  let rotation := Z.to_nat (NUMBER_OF_PITCHCLASSES - tonicKey) in
  let first := firstn 12 arr in
  let second := firstn 12 (skipn 12 arr) in
  let tonic := if (FIRST_MAJOR_KEY <=? from) && (from <=? LAST_MAJOR_KEY) then first
               else rotate (Z.to_nat PITCHCLASS_A_NATURAL) second in
  let relative := if (FIRST_MAJOR_KEY <=? from) && (from <=? LAST_MAJOR_KEY) then second else first in
  rotate rotation tonic ++ rotate rotation relative.

(** src/keytransition.cc:103-166, getKeyTransitionMap: rows in key order. *)
Definition transition_map_of (arr : transition_array) : list (Z * list (Z * b64)) :=
  map (fun from => (from, map (fun to => (to, znth fzero (transition_row arr from) to)) (zseq 24))) (zseq 24).
Definition get_transition_map (kt : keytransition) : list (Z * list (Z * b64)) * keytransition :=
  let '(arr, kt') := get_transition_array kt in (transition_map_of arr, kt').
