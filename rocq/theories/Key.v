(** Model of the class [Key] (src/key.cc, include/key.h). Definitions only. *)
From Verif Require Import Base.

(** include/key.h:92-93. The two data members that carry state; [None] = never assigned (indeterminate). *)
Record key := mkKey { kint : option Z; kname : string }.

(** include/key.h:95-100, m_allKeyStrings. *)
Definition all_key_strings : list string :=
  ["C"; "Db"; "D"; "Eb"; "E"; "F"; "F#"; "G"; "Ab"; "A"; "Bb"; "B";
   "c"; "c#"; "d"; "eb"; "e"; "f"; "f#"; "g"; "ab"; "a"; "bb"; "b"]%string.

(** include/key.h:58-88 (NUMBER_OF_KEYS, FIRST/LAST_MAJOR/MINOR_KEY). *)
Definition NUMBER_OF_KEYS : Z := 24.
Definition FIRST_MAJOR_KEY : Z := 0. Definition LAST_MAJOR_KEY : Z := 11.
Definition FIRST_MINOR_KEY : Z := 12. Definition LAST_MINOR_KEY : Z := 23.

(** src/key.cc:55-98, initStringToIntMap with the enum values of include/key.h:58-89 (in source order). *)
Definition string_to_int : list (string * Z) :=
  [("B#", 0); ("C", 0); ("C#", 1); ("Db", 1); ("D", 2); ("D#", 3); ("Eb", 3); ("E", 4); ("Fb", 4);
   ("E#", 5); ("F", 5); ("F#", 6); ("Gb", 6); ("G", 7); ("G#", 8); ("Ab", 8); ("A", 9); ("A#", 10);
   ("Bb", 10); ("B", 11); ("Cb", 11);
   ("b#", 12); ("c", 12); ("c#", 13); ("db", 13); ("d", 14); ("d#", 15); ("eb", 15); ("e", 16); ("fb", 16);
   ("e#", 17); ("f", 17); ("f#", 18); ("gb", 18); ("g", 19); ("g#", 20); ("ab", 20); ("a", 21); ("a#", 22);
   ("bb", 22); ("b", 23); ("cb", 23)]%string.

(** src/key.cc:31-37, Key::Key(std::string): the name stored is the given spelling. *)
Definition key_of_string (s : string) : key :=
  match assoc String.eqb s string_to_int with
  | Some k => mkKey (Some k) s
  | None => mkKey None ""
  end.

(** Value of [static_cast<unsigned int>(key)] for a 32-bit int. *)
Definition to_uint32 (k : Z) : Z := k mod 2 ^ 32.

(** src/key.cc:39-45, Key::Key(int). *)
Definition key_of_int (k : Z) : key :=
  if to_uint32 k <? NUMBER_OF_KEYS then mkKey (Some k) (znth ""%string all_key_strings k)
  else mkKey None "".

(** src/key.cc:47-53, Key::getAllKeysVector. *)
Definition all_keys : list key := map key_of_int (zseq 24).

(** src/key.cc:100-106, getInt and getString. getInt of an unset key yields an indeterminate value. *)
Definition get_int (k : key) : outcome Z := read_int (kint k).
Definition get_string (k : key) : string := kname k.

(** src/key.cc:108-116, isMajorKey, isMinorKey. *)
Definition is_major (k : key) : outcome bool :=
  do i <- read_int (kint k); Ret ((FIRST_MAJOR_KEY <=? i) && (i <=? LAST_MAJOR_KEY)).
Definition is_minor (k : key) : outcome bool :=
  do i <- read_int (kint k); Ret ((FIRST_MINOR_KEY <=? i) && (i <=? LAST_MINOR_KEY)).

(** src/key.cc:118-128, operator==, operator!=, operator<. *)
Definition key_eq (a b : key) : outcome bool :=
  do i <- read_int (kint a); do j <- read_int (kint b); Ret (i =? j).
Definition key_ne (a b : key) : outcome bool :=
  do i <- read_int (kint a); do j <- read_int (kint b); Ret (negb (i =? j)).
Definition key_lt (a b : key) : outcome bool :=
  do i <- read_int (kint a); do j <- read_int (kint b); Ret (i <? j).

(** src/key.cc:130-134, operator=: both members are copied from the right-hand side. *)
Definition key_assign (target source : key) : key := mkKey (kint source) (kname source).

(** src/key.cc:136-144, getRelativeKey. [Z.rem] is C++ [%] (truncating). *)
Definition get_relative (k : key) : outcome key :=
  do maj <- is_major k;
  do i <- read_int (kint k);
  Ret (key_of_int (if maj then Z.rem (i + 9) 12 + 12 else Z.rem (i - 9) 12)).

(** src/key.cc:146-154, getParallelKey. *)
Definition get_parallel (k : key) : outcome key :=
  do i <- read_int (kint k);
  do maj <- is_major k;
  Ret (key_of_int (if maj then i + 12 else i - 12)).

(** src/key.cc:156-160, getDominantKey. *)
Definition get_dominant (k : key) : outcome key :=
  do i <- read_int (kint k);
  do mino <- is_minor k;
  Ret (key_of_int (Z.rem (i + 7) 12 + (if mino then 12 else 0))).

(** src/key.cc:162-166, getSubDominantKey. *)
Definition get_subdominant (k : key) : outcome key :=
  do i <- read_int (kint k);
  do mino <- is_minor k;
  Ret (key_of_int (Z.rem (i + 5) 12 + (if mino then 12 else 0))).
