(** What the dictionary of chords is to hold, and what a transcription is to say. *)
From Coq Require Import String Ascii.
From Flocq Require Import Core.Core IEEE754.BinarySingleNaN.
From Verif Require Import Base Fp Options Chromagram Nnls NnlsArith Plug PlugSpec ChordViterbi ChordSpec Chords.
Open Scope Z_scope.

(** ** The dictionary. Type t has 12 values for the bass and 12 for the treble, counted from the root *)
Section Dictionary.
  Context (harte : b32) (names : list string) (values : list b32).
  Definition bass_value (t j : Z) : b32 := znth z32 values (24 * t + j).
  Definition treble_value (t j : Z) : b32 := znth z32 values (24 * t + 12 + j).
  (** In the bass the note of the bass counts 1, and the other notes of the chord a half. *)
  Definition bass_weight (t j : Z) : b32 := if Beqb (bass_value t j) one32 then one32 else if Beqb (treble_value t j) one32 then half32 else z32.
  Definition semitones : list Z := [0; 1; 2; 3; 4; 5; 6; 7; 8; 9; 10; 11].
  (** The chord of type t on semitone s, counted from A: everything moves up by s. *)
  Definition profile (t s : Z) : list b32 := map (fun k => bass_weight t ((k - s) mod 12)) semitones ++ map (fun k => treble_value t ((k - s) mod 12)) semitones.
  (** What comes after the slash: the highest bass note other than the root decides. *)
  Definition in_bass (t k : Z) : Prop := fgt (f32_to_64 (bass_value t k)) (rat64 99 100) = true.
  Definition bass_name (s k : Z) : string := znth ""%string (znth [] bass_names (if Beqb harte z32 then s else 12)) k.
  Definition slash_is (t s : Z) (x : string) : Prop :=
    (exists k, 1 <= k <= 11 /\ in_bass t k /\ (forall k', k < k' <= 11 -> ~ in_bass t k') /\ x = bass_name s k) \/ (forall k, 1 <= k <= 11 -> ~ in_bass t k) /\ x = ""%string.
  Definition name_is (t s : Z) (x name : string) : Prop :=
    name = ((znth "" note_names s ++ znth "" names t) ++ (if String.eqb x "" then "" else "/" ++ x))%string.
  (** The notes: the root if the name has no slash; then the notes of the bass from the A of MIDI number 45 on; then those of the treble from the E flat of number 63 on. *)
  Definition notes_are (t s : Z) (x : string) (notes : list Z) : Prop :=
    notes = (if String.eqb x "" then [45 + s] else []) ++ map (fun k => 45 + k) (filter (fun k => Beqb (bass_value t ((k - s) mod 12)) one32) semitones) ++
      map (fun k => 63 + (k + 6) mod 12) (filter (fun k => gt32 (treble_value t ((k - s) mod 12)) z32) semitones).
End Dictionary.

(** The semitone above A that a name stands for: a letter with sharps and flats. *)
Definition letter (c : ascii) : option Z :=
  match c with "A" => Some 0 | "B" => Some 2 | "C" => Some 3 | "D" => Some 5 | "E" => Some 7 | "F" => Some 8 | "G" => Some 10 | _ => None end%char.
Fixpoint accidentals (s : string) : option Z :=
  match s with
  | EmptyString => Some 0
  | String c s' => match accidentals s' with
                   | Some k => if Ascii.eqb c "#" then Some (k + 1) else if Ascii.eqb c "b" then Some (k - 1) else None
                   | None => None end
  end.
Definition named_note (s : string) : option Z :=
  match s with String c s' => match letter c, accidentals s' with Some a, Some b => Some ((a + b) mod 12) | _, _ => None end | EmptyString => None end.

(** ** The transcription: the path is cut where the chord changes *)
(** The frames at which another chord begins, with that chord; [old] is the chord before. *)
Fixpoint changes_from (i old : Z) (path : list Z) : list (Z * Z) :=
  match path with [] => [] | s :: path' => if s =? old then changes_from (i + 1) old path' else (i, s) :: changes_from (i + 1) s path' end.
(** Each chord with the time it begins and the time of the next one, the last one with the last time. *)
Fixpoint spans (times : list Z) (final : Z) (l : list (Z * Z)) : list (Z * Z * Z) :=
  match l with
  | [] => []
  | (i, s) :: l' => (znth 0 times i, match l' with [] => final | (j, _) :: _ => znth 0 times j end, s) :: spans times final l'
  end.
(** The named events and the notes of the spans. *)
Definition named (chords : list chord) (times : list Z) (x : Z * Z) : Z * string := (znth 0 times (fst x), c_name (znth no_chord chords (snd x))).
Definition span_notes (chords : list chord) (x : Z * Z * Z) : list note := map (mkNote (fst (fst x)) (snd (fst x) - fst (fst x))) (c_notes (znth no_chord chords (snd x))).
(** How much a row of the decoder differs from the next: the sum of a log (a / b + eps), where b is at least eps, kept as a float. *)
Definition divergence (log : b64 -> b64) (a b : list b64) : b32 :=
  fold_left (fun c '(x, y) => f64_to_32 (fadd (f32_to_64 c) (fmul x (log (fadd (Bdiv mode_NE x (if flt y eps then eps else y)) eps))))) (combine a b) z32.

(** What a transcription of the saliences of all frames says. The path begins with the last chord, N; a chord is named whenever another one begins, and N once more at the end; the notes of a chord last until the next one. *)
Section Transcription.
  Context (log : b64 -> b64) (chords : list chord) (times : list Z) (obs : list (list b64)).
  Notation n := (Z.of_nat (length chords)).
  Notation rows := (rows_of (W := doubles) n (chord_start n) (chord_moves n) obs).
  Notation scales := (scales_of (W := doubles) n (chord_start n) (chord_moves n) obs).
  Notation path := (path_of (W := doubles) n (chord_start n) (chord_moves n) obs).
  Definition transcription_of (r : transcription) : Prop :=
    hd 0 path = n - 1 /\ length path = length times /\ Forall (fun s => 0 <= s < n) path /\
    t_chords r = map (named chords times) (changes_from 0 (-1) path) ++ [(last times 0, "N"%string)] /\
    t_notes r = flat_map (span_notes chords) (spans times (last times 0) (changes_from 0 (-1) path)) /\
    t_likelihood r = map (fun s => f64_to_32 (Bopp (log s))) scales /\ length scales = length times /\
    t_change r = map (fun i => divergence log (znth [] rows (i - 1)) (znth [] rows i)) (zrange 1 (Z.of_nat (length times) - 1)) ++ [z32].
End Transcription.

(** ** The salience of a chord in a frame: the scalar product of its values with the chroma vector, a little less for N, kept between 0 and 200, as an exponent of 1.3; and the share of each chord in the sum *)
Definition product24 (values chroma : list b32) : b64 := fold_left (fun v '(d, c) => fadd v (f32_to_64 (mul32 d c))) (combine values chroma) fzero.
Definition between (v : b64) : b64 := if flt v fzero then fzero else if fgt v two_hundred then two_hundred else v.
Definition strength (pow : b64 -> b64 -> b64) (chroma values : list b32) : b64 := pow (rat64 13 10) (between (product24 values chroma)).
Definition strength_of_none (pow : b64 -> b64 -> b64) (chroma values : list b32) : b64 := pow (rat64 13 10) (between (fmul (product24 values chroma) (rat64 7 10))).
Definition strengths (pow : b64 -> b64 -> b64) (chords : list (list b32)) (none chroma : list b32) : list b64 := map (strength pow chroma) chords ++ [strength_of_none pow chroma none].
Definition shares (l : list b64) : list b64 :=
  let sum := fold_left fadd l fzero in if fgt sum fzero then map (fun v => Bdiv mode_NE v sum) l else removelast l ++ [rat64 1 1].
(** The saliences of all chords and of N, from the strengths of the 84 semitones of a frame. *)
Definition frame_saliences (pow : b64 -> b64 -> b64) (chords : list chord) (none : chord) (notes : list b32) : list b64 :=
  shares (strengths pow (map c_values chords) (c_values none) (chroma_of basswindow notes ++ chroma_of treblewindow notes)).
