(** Model of the class [PitchClass] (src/pitchclass.cc, include/pitchclass.h). Definitions only. *)
From Verif Require Import Base.

Record pitchclass := mkPc { pcint : option Z; pcname : string }.

Definition NUMBER_OF_PITCHCLASSES : Z := 12.
Definition PITCHCLASS_A_NATURAL : Z := 9.

(** include/pitchclass.h:71-75, m_allPitchClassStrings. *)
Definition all_pc_strings : list string :=
  ["c"; "c#"; "d"; "eb"; "e"; "f"; "f#"; "g"; "ab"; "a"; "bb"; "b"]%string.

(** src/pitchclass.cc:59-81, initStringToIntMap with the enum values of include/pitchclass.h:51-65. *)
Definition pc_string_to_int : list (string * Z) :=
  [("b#", 0); ("c", 0); ("c#", 1); ("db", 1); ("d", 2); ("d#", 3); ("eb", 3); ("e", 4); ("fb", 4);
   ("e#", 5); ("f", 5); ("f#", 6); ("gb", 6); ("g", 7); ("g#", 8); ("ab", 8); ("a", 9); ("a#", 10);
   ("bb", 10); ("b", 11); ("cb", 11)]%string.

(** [::tolower] and [::toupper] in the C locale on one char. *)
Definition tolower (c : ascii) : ascii :=
  let n := nat_of_ascii c in
  if (Nat.leb 65 n && Nat.leb n 90)%bool then ascii_of_nat (n + 32) else c.
Definition toupper (c : ascii) : ascii :=
  let n := nat_of_ascii c in
  if (Nat.leb 97 n && Nat.leb n 122)%bool then ascii_of_nat (n - 32) else c.

(** [std::transform(s.begin(), s.end(), s.begin(), f)]. *)
Fixpoint string_map (f : ascii -> ascii) (s : string) : string :=
  match s with EmptyString => EmptyString | String c s' => String (f c) (string_map f s') end.

(** src/pitchclass.cc:31-40, PitchClass::PitchClass(std::string): the stored name is the canonical one. *)
Definition pc_of_string (s : string) : pitchclass :=
  match assoc String.eqb (string_map tolower s) pc_string_to_int with
  | Some p => mkPc (Some p) (znth ""%string all_pc_strings p)
  | None => mkPc None ""
  end.

(** src/pitchclass.cc:42-48, PitchClass::PitchClass(int). *)
Definition pc_of_int (p : Z) : pitchclass :=
  if (0 <=? p) && (p <? NUMBER_OF_PITCHCLASSES) then mkPc (Some p) (znth ""%string all_pc_strings p)
  else mkPc None "".

(** src/pitchclass.cc:50-57, getAllPitchClassesVector. *)
Definition all_pcs : list pitchclass := map pc_of_int (zseq 12).

(** src/pitchclass.cc:83-89. *)
Definition pc_get_int (p : pitchclass) : outcome Z := read_int (pcint p).
Definition pc_get_string (p : pitchclass) : string := pcname p.

(** src/pitchclass.cc:91-101, comparison operators. *)
Definition pc_eq (a b : pitchclass) : outcome bool :=
  do i <- read_int (pcint a); do j <- read_int (pcint b); Ret (i =? j).
Definition pc_ne (a b : pitchclass) : outcome bool :=
  do i <- read_int (pcint a); do j <- read_int (pcint b); Ret (negb (i =? j)).
Definition pc_lt (a b : pitchclass) : outcome bool :=
  do i <- read_int (pcint a); do j <- read_int (pcint b); Ret (i <? j).
