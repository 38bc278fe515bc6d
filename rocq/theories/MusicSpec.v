(** Independent musical vocabulary used to state properties of keys and pitch classes. No reference to the model. *)
From Coq Require Import ZArith String Ascii List Bool.
Import ListNotations.
Open Scope Z_scope.

(** Semitone of a note letter above C, with [true] for an upper-case letter. *)
Definition letter (c : ascii) : option (Z * bool) :=
  match c with
  | "C" => Some (0, true) | "D" => Some (2, true) | "E" => Some (4, true) | "F" => Some (5, true)
  | "G" => Some (7, true) | "A" => Some (9, true) | "B" => Some (11, true)
  | "c" => Some (0, false) | "d" => Some (2, false) | "e" => Some (4, false) | "f" => Some (5, false)
  | "g" => Some (7, false) | "a" => Some (9, false) | "b" => Some (11, false)
  | _ => None
  end%char.

(** Effect of an accidental. *)
Definition accidental (c : ascii) : option Z :=
  match c with "#" => Some 1 | "b" => Some (-1) | _ => None end%char.

(** A note name: one letter, optionally one accidental: its pitch class and whether the letter is upper-case. *)
Definition note_name (s : string) : option (Z * bool) :=
  match s with
  | String c EmptyString => letter c
  | String c (String a EmptyString) =>
      match letter c, accidental a with
      | Some (p, up), Some d => Some ((p + d) mod 12, up)
      | _, _ => None
      end
  | _ => None
  end.

(** Tonic pitch class and mode of a key number (0..11 major, 12..23 minor). *)
Definition tonic (k : Z) : Z := k mod 12.
Definition majorb (k : Z) : bool := k <? 12.
Definition is_key (k : Z) : Prop := 0 <= k < 24.

(** The key number a name denotes: upper-case = major. *)
Definition named_key (s : string) : option Z :=
  match note_name s with
  | Some (p, true) => Some p
  | Some (p, false) => Some (12 + p)
  | None => None
  end.

(** The seven pitch classes of the (natural) scale of a key. *)
Definition scale (k : Z) : list Z :=
  map (fun d => (tonic k + d) mod 12)
      (if majorb k then [0; 2; 4; 5; 7; 9; 11] else [0; 2; 3; 5; 7; 8; 10]).

(** Transposition of a pitch class and of a key by [t] semitones. *)
Definition transpose_pc (t p : Z) : Z := (p + t) mod 12.
Definition transpose_key (t k : Z) : Z := (tonic k + t) mod 12 + (if majorb k then 0 else 12).

(** ASCII lower case of a letter; other characters unchanged. *)
Definition lower (c : ascii) : ascii :=
  match c with
  | "A" => "a" | "B" => "b" | "C" => "c" | "D" => "d" | "E" => "e" | "F" => "f" | "G" => "g" | "H" => "h" | "I" => "i"
  | "J" => "j" | "K" => "k" | "L" => "l" | "M" => "m" | "N" => "n" | "O" => "o" | "P" => "p" | "Q" => "q" | "R" => "r"
  | "S" => "s" | "T" => "t" | "U" => "u" | "V" => "v" | "W" => "w" | "X" => "x" | "Y" => "y" | "Z" => "z"
  | _ => c
  end%char.
Fixpoint lower_string (s : string) : string :=
  match s with EmptyString => EmptyString | String c s' => String (lower c) (lower_string s') end.

(** A string is a pitch-class name if its lower-case form is a note name. *)
Definition named_pc (s : string) : option Z :=
  match note_name (lower_string s) with Some (p, _) => Some p | None => None end.
