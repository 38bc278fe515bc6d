(** Model of reading the file chord.dict in chordDictionary(), nnls-chroma-1.1/chromamethods.cpp, and of Chordino::initialise(). Definitions only. *)
From Coq Require Import Ascii String.
From Flocq Require Import Core.Core IEEE754.BinarySingleNaN.
From Verif Require Import Base Fp PitchClass Options Chromagram Text Nnls NnlsArith Plug Chords.
Open Scope Z_scope.

Definition LF10 : ascii := chr 10.
(** chromamethods.cpp:344-345: boost's tokenizer with char_separator(",; ", "="): three characters are dropped, '=' is a token, empty tokens are dropped. *)
Definition dropped (c : ascii) : bool := (c =? ",")%char || (c =? ";")%char || (c =? " ")%char.
Definition flush (acc : string) : list string := match acc with EmptyString => [] | _ => [acc] end.
Fixpoint tokens (acc s : string) : list string :=
  match s with
  | EmptyString => flush acc
  | String c s' => if dropped c then flush acc ++ tokens "" s' else if (c =? "=")%char then flush acc ++ "="%string :: tokens "" s' else tokens (acc ++ String c "") s'
  end.
Section Reading.
  (** boost::lexical_cast<float>, which may throw. *)
  Context (cast : string -> outcome b32).
  Fixpoint numbers (l : list string) : outcome (list b32) := match l with [] => Ret [] | x :: l' => do v <- cast x; do r <- numbers l'; Ret (v :: r) end.
  (** 415-432: the name and the numbers of one line. After a name the next token is skipped, whatever it is; if there is none, an iterator at the end is moved on. *)
  Definition dict_line (line : string) : outcome (string * list b32) :=
    match tokens "" line with
    | [] => Ret (""%string, [])
    | t :: rest =>
        if (t =? "=")%string then do v <- numbers rest; Ret (""%string, v)
        else match rest with [] => Undef OutOfBounds | _ :: rest => do v <- numbers rest; Ret (t, v) end
    end.
  (** 414. *)
  Definition commented (line : string) : bool := match line with EmptyString => true | String c _ => (c =? "#")%char end.
  (** 407-435. *)
  Definition read_dict (text : string) : outcome (list string * list b32) :=
    over (fun '(names, values) line => if commented line then Ret (names, values) else do (n, v) <- dict_line line; Ret (names ++ [n], values ++ v)) (pieces LF10 text) ([], []).
  (** 396-405: the tables of the program, unless a file was found and could be opened. *)
  Definition tables_of (harte : b32) (file : option string) : outcome (list string * list b32) :=
    match file with None => Ret (default_names harte, static_values) | Some text => read_dict text end.
End Reading.

(** ** Chordino::initialise *)
(** Chordino.h:52-54: m_chordnames, m_chorddict and m_chordnotes. *)
Record chordset := mkChordset { d_names : list string; d_dict : list b32; d_notes : list (list Z) }.
Definition no_chords : chordset := mkChordset [] [] [].
(** Chordino.cpp:249 and chromamethods.cpp:478, 492, 527-533: the names are replaced, the values and notes are appended. *)
Definition set_chords (powf : b32 -> b32 -> b32) (boostN harte : b32) (names : list string) (values : list b32) (s : chordset) : outcome chordset :=
  do l <- chord_dictionary powf boostN harte names values;
  Ret (mkChordset (map c_name l) (d_dict s ++ flat_map c_values l) (d_notes s ++ map c_notes l)).
(** What Chordino.cpp:494-500, 552-575 read of chord i: its name, 24 values and notes, see [chordino]. *)
Definition chord_at (s : chordset) (i : nat) : chord := mkChord (nth i (d_names s) ""%string) (firstn 24 (skipn (24 * i) (d_dict s))) (nth i (d_notes s) []).
Definition chords_of (s : chordset) : list chord := map (chord_at s) (seq 0 (length (d_names s))).

(** ** The file nnls-chroma-1.1/chord.dictold *)
(** chord.dictold:1-31, all of it. *)
Definition shipped_dict : string := "### Comma-Separated Chord Dictionaries
# 
# field 1 is chord type name,
# fields 2-25 indicate whether a pitch class is present (1) or not (0) :
#   - fields 2-13 correspond to bass pitch classes A through Ab
#   - fields 14-25 correspond to chord pitch classes A through Ab

### Advanced Learners Chord Dictionary
=1,0,0,0,0,0,0,0,0,0,0,0,1,0,0,0,1,0,0,1,0,0,0,0
=0,0,0,0,0,0,0,0,0,0,0,0,1,0,0,0,1,0,0,1,0,0,0,0
m=1,0,0,0,0,0,0,0,0,0,0,0,1,0,0,1,0,0,0,1,0,0,0,0
m=0,0,0,0,0,0,0,0,0,0,0,0,1,0,0,1,0,0,0,1,0,0,0,0
dim7=0,0,0,0,0,0,0,0,0,0,1,0,1,0,0,1,0,0,1,0,0,0,1,0
dim7=1,0,0,0,0,0,0,0,0,0,0,0,1,0,0,1,0,0,1,0,0,0,1,0
6=1,0,0,0,0,0,0,0,0,0,0,0,1,0,0,0,1,0,0,1,0,1,0,0
7=1,0,0,0,0,0,0,0,0,0,0,0,1,0,0,0,1,0,0,1,0,0,1,0
maj7=1,0,0,0,0,0,0,0,0,0,0,0,1,0,0,0,1,0,0,1,0,0,0,1
m7=1,0,0,0,0,0,0,0,0,0,0,0,1,0,0,1,0,0,0,1,0,0,1,0
m6=1,0,0,0,0,0,0,0,0,0,0,0,1,0,0,1,0,0,0,1,0,1,0,0
=0,0,0,0,1,0,0,0,0,0,0,0,1,0,0,0,1,0,0,1,0,0,0,0
=0,0,0,0,0,0,0,1,0,0,0,0,1,0,0,0,1,0,0,1,0,0,0,0
dim=1,0,0,0,0,0,0,0,0,0,0,0,1,0,0,1,0,0,1,0,0,0,0,0
aug=1,0,0,0,0,0,0,0,0,0,0,0,1,0,0,0,1,0,0,0,1,0,0,0
=0,0,1,0,0,0,0,0,0,0,0,0,1,0,0,0,1,0,0,1,0,0,0,0
=0,0,0,0,0,0,0,0,0,0,1,0,1,0,0,0,1,0,0,1,0,0,0,0 
7=0,0,0,0,1,0,0,0,0,0,0,0,1,0,0,0,1,0,0,1,0,0,1,0
# sus4=1,0,0,0,0,0,0,0,0,0,0,0,1,0,0,0,1,1,0,1,0,0,0,0

### Rock'n'Roll
# :1,0,0,0,0,0,0,0,0,0,0,0,1,0,0,0,1,0,0,1,0,0,0,0
# m:1,0,0,0,0,0,0,0,0,0,0,0,1,0,0,1,0,0,0,1,0,0,0,0
"%string.
