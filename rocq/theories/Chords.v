(** Model of the chord plug-in: chordDictionary of nnls-chroma-1.1/chromamethods.cpp and getRemainingFeatures of Chordino.cpp. Definitions only. *)
From Coq Require Import String.
From Flocq Require Import Core.Core IEEE754.BinarySingleNaN.
From Verif Require Import Base Fp Options Chromagram Nnls NnlsArith Plug ChordViterbi.
Open Scope Z_scope.

(** ** The dictionary of chords *)
(** chromamethods.cpp:272-312: the names of the chord types, first the plain ones, then those in Harte's syntax. *)
Definition static_names : list string :=
  [""; ""; "m"; "m"; "m7b5"; "m7b5"; "6"; "7"; "maj7"; "m7"; "m6"; ""; ""; "dim"; "aug"; ""; ""; "7";
   ""; ""; ":min"; ":min"; ":hdim7"; ":hdim7"; ":maj6"; ":7"; ":maj7"; ":min7"; ":min6"; ""; ""; ":dim"; ":aug"; ""; ""; ":7"]%string.
(** 314-340: 12 values for the bass and 12 for the treble of each type. *)
Definition static_values : list b32 := map (fun k => rat32 k 1)
  [1;0;0;0;0;0;0;0;0;0;0;0; 1;0;0;0;1;0;0;1;0;0;0;0;
   0;0;0;0;0;0;0;0;0;0;0;0; 1;0;0;0;1;0;0;1;0;0;0;0;
   1;0;0;0;0;0;0;0;0;0;0;0; 1;0;0;1;0;0;0;1;0;0;0;0;
   0;0;0;0;0;0;0;0;0;0;0;0; 1;0;0;1;0;0;0;1;0;0;0;0;
   0;0;0;0;0;0;0;0;0;0;1;0; 1;0;0;1;0;0;1;0;0;0;1;0;
   1;0;0;0;0;0;0;0;0;0;0;0; 1;0;0;1;0;0;1;0;0;0;1;0;
   1;0;0;0;0;0;0;0;0;0;0;0; 1;0;0;0;1;0;0;1;0;1;0;0;
   1;0;0;0;0;0;0;0;0;0;0;0; 1;0;0;0;1;0;0;1;0;0;1;0;
   1;0;0;0;0;0;0;0;0;0;0;0; 1;0;0;0;1;0;0;1;0;0;0;1;
   1;0;0;0;0;0;0;0;0;0;0;0; 1;0;0;1;0;0;0;1;0;0;1;0;
   1;0;0;0;0;0;0;0;0;0;0;0; 1;0;0;1;0;0;0;1;0;1;0;0;
   0;0;0;0;1;0;0;0;0;0;0;0; 1;0;0;0;1;0;0;1;0;0;0;0;
   0;0;0;0;0;0;0;1;0;0;0;0; 1;0;0;0;1;0;0;1;0;0;0;0;
   1;0;0;0;0;0;0;0;0;0;0;0; 1;0;0;1;0;0;1;0;0;0;0;0;
   1;0;0;0;0;0;0;0;0;0;0;0; 1;0;0;0;1;0;0;0;1;0;0;0;
   0;0;1;0;0;0;0;0;0;0;0;0; 1;0;0;0;1;0;0;1;0;0;0;0;
   0;0;0;0;0;0;0;0;0;0;1;0; 1;0;0;0;1;0;0;1;0;0;0;0;
   0;0;0;0;1;0;0;0;0;0;0;0; 1;0;0;0;1;0;0;1;0;0;1;0].
(** 399-405: the types without a file chord.dict. *)
Definition default_names (harte : b32) : list string := if Beqb harte one32 then skipn 18 static_names else firstn 18 static_names.
(** 352-370: notenames from the 13th on, and bassnames. *)
Definition note_names : list string := ["A"; "Bb"; "B"; "C"; "C#"; "D"; "Eb"; "E"; "F"; "F#"; "G"; "Ab"]%string.
Definition bass_names : list (list string) :=
  [["A";"";"B";"C";"C#";"D";"";"E";"";"F#";"G";"G#"]; ["Bb";"";"C";"Db";"D";"Eb";"";"F";"";"G";"Ab";"A"]; ["B";"";"C#";"D";"D#";"E";"";"F#";"";"G#";"A";"A#"];
   ["C";"";"D";"Eb";"E";"F";"";"G";"";"A";"Bb";"B"]; ["C#";"";"D#";"E";"E#";"F#";"";"G#";"";"A#";"B";"B#"]; ["D";"";"E";"F";"F#";"G";"";"A";"";"B";"C";"C#"];
   ["Eb";"";"F";"Gb";"G";"Ab";"";"Bb";"";"C";"Db";"D"]; ["E";"";"F#";"G";"G#";"A";"";"B";"";"C#";"D";"D#"]; ["F";"";"G";"Ab";"A";"Bb";"";"C";"";"D";"Eb";"E"];
   ["F#";"";"G#";"A";"A#";"B";"";"C#";"";"D#";"E";"E#"]; ["G";"";"A";"Bb";"B";"C";"";"D";"";"E";"F";"F#"]; ["Ab";"";"Bb";"Cb";"C";"Db";"";"Eb";"";"F";"Gb";"G"];
   ["1";"";"2";"b3";"3";"4";"";"5";"";"6";"b7";"7"]]%string.
(** chromamethods.h:28. *)
Definition MIDI_basenote : Z := 45.
(** 445-454: the bass note in the name; the comparison with 0.99 is one of doubles. *)
Definition slash_notation (harte : b32) (values : list b32) (iType iSemitone : Z) : outcome string :=
  loop 1 11 (fun s k =>
    do v <- elt values (24 * iType + k mod 12);
    if fgt (f32_to_64 v) (rat64 99 100) then do row <- elt bass_names (if Beqb harte z32 then iSemitone else 12); elt row k else Ret s) ""%string.
Definition half32 : b32 := rat32 1 2.
(** 442-484: one chord, its name, its 24 values before they are scaled, and its notes. *)
Record chord := mkChord { c_name : string; c_values : list b32; c_notes : list Z }.
Definition one_chord (harte : b32) (names : list string) (values : list b32) (iType iSemitone : Z) : outcome chord :=
  do slash <- slash_notation harte values iType iSemitone;
  let notes := if String.eqb slash "" then [MIDI_basenote + (iSemitone + 12) mod 12] else [] in
  do (vals, notes) <- loop 0 11 (fun '(vals, notes) k =>
    do v <- elt values (24 * iType + (k - iSemitone + 12) mod 12);
    if Beqb v one32 then Ret (vals ++ [one32], notes ++ [MIDI_basenote + (k + 12) mod 12])
    else do w <- elt values (24 * iType + (k - iSemitone + 12) mod 12 + 12); Ret (vals ++ [if Beqb w one32 then half32 else z32], notes)) ([], notes);
  do (vals, notes) <- loop 0 11 (fun '(vals, notes) k =>
    do v <- elt values (24 * iType + (k - iSemitone + 12) mod 12 + 12);
    Ret (vals ++ [v], if gt32 v z32 then notes ++ [MIDI_basenote + (k + 12 + 6) mod 12 - 6 + 24] else notes)) (vals, notes);
  do root <- elt note_names iSemitone;
  do type <- elt names iType;
  Ret (mkChord (if String.eqb slash "" then root ++ type else root ++ type ++ "/" ++ slash) vals notes).
(** 440-486. *)
Definition all_chords (harte : b32) (names : list string) (values : list b32) : outcome (list chord) :=
  loop 0 (Z.of_nat (length names) - 1) (fun l iType => loop 0 11 (fun l iSemitone => do c <- one_chord harte names values iType iSemitone; Ret (l ++ [c])) l) [].
(** 489-494. *)
Definition no_chord : chord := mkChord "N" (repeat half32 12 ++ repeat one32 12) [].
Section Scaled.
  (** powf of the C library. *)
  Context (powf : b32 -> b32 -> b32).
  (** 499-512; pow(abs(x), 2.0f) of a float is the rounded square, and 1.0f/exponent is a half. *)
  Definition stand_of (boost : option b32) (vals : list b32) : b32 :=
    let stand := powf (fold_left (fun s v => fadd32 s (fdiv32 (mul32 v v) (rat32 24 1))) vals z32) half32 in
    match boost with None => stand | Some b => fdiv32 stand (fadd32 one32 b) end.
  Definition scaled (boost : option b32) (c : chord) : chord := let s := stand_of boost (c_values c) in mkChord (c_name c) (map (fun v => fdiv32 v s) (c_values c)) (c_notes c).
  (** 342-535 for types from the program or from a file: the chords, "N" the last. The dictionary m_chorddict is the list of all their values. *)
  Definition chord_dictionary (boostN harte : b32) (names : list string) (values : list b32) : outcome (list chord) :=
    do l <- all_chords harte names values;
    Ret (map (scaled None) l ++ [scaled (Some boostN) no_chord]).
End Scaled.

(** ** Salience of the chords in a frame, Chordino.cpp:476-512 *)
Section Salience.
  (** pow for doubles. *)
  Context (pow : b64 -> b64 -> b64).
  (** 481-488: both loops together run over the 24 values. *)
  Definition similarity (dict chroma : list b32) (iChord : Z) : outcome b64 :=
    loop 0 23 (fun v iBin => do d <- elt dict (24 * iChord + iBin); do c <- elt chroma iBin; Ret (fadd v (f32_to_64 (mul32 d c)))) fzero.
  Definition two_hundred : b64 := rat64 200 1.
  (** 489-498: the clipped value, and whether it was too large. *)
  Definition clipped (nChord iChord : Z) (v : b64) : b64 * bool :=
    let v := if iChord =? nChord - 1 then fmul v (rat64 7 10) else v in
    let v := if flt v fzero then fzero else v in
    if fgt v two_hundred then (two_hundred, true) else (v, false).
  Definition saliences (nChord : Z) (dict chroma : list b32) : outcome (list b64 * bool) :=
    do (l, sum, warn) <- loop 0 (nChord - 1) (fun '(l, sum, warn) iChord =>
      do v <- similarity dict chroma iChord;
      let '(v, w) := clipped nChord iChord v in
      let v := pow (rat64 13 10) v in
      Ret (l ++ [v], fadd sum v, warn || w)) ([], fzero, false);
    do l <- (if fgt sum fzero then Ret (map (fun v => Bdiv mode_NE v sum) l) else upd l (nChord - 1) (rat64 1 1));
    Ret (l, warn).
End Salience.

(** ** The transcription, Chordino.cpp:518-622 *)
(** 532, 535, 540-545. For one chord the quotient is one by zero times a hundredth, an infinity that no entry keeps. *)
Definition chord_start (n : Z) : list b64 := repeat fzero (Z.to_nat (n - 1)) ++ [rat64 1 1].
Definition stay : b64 := rat64 99 100.
Definition move (n : Z) : b64 := Bdiv mode_NE (Bminus mode_NE (rat64 1 1) stay) (rat64 (n - 1) 1).
Definition chord_moves (n : Z) : list (list b64) := map (fun i => map (fun j => if j =? i then stay else move n) (zrange 0 (n - 1))) (zrange 0 (n - 1)).
(** A note: when it begins, how long it lasts, and its number. Times are exact, in nanoseconds. *)
Record note := mkNote { n_time : Z; n_duration : Z; n_pitch : Z }.
Record transcription := mkTranscription { t_chords : list (Z * string); t_notes : list note; t_change : list b32; t_likelihood : list b32 }.
Section Transcription.
  (** log for doubles. *)
  Context (log : b64 -> b64).
  Definition eps : b64 := rat64 1 10000000.
  (** 585-592: the change from a frame to the next. *)
  Definition change (n : Z) (delta : array b64) (iFrame : Z) : outcome b32 :=
    loop 0 (n - 1) (fun c i =>
      do num <- rd delta ((iFrame - 1) * n + i);
      do denom <- rd delta (iFrame * n + i);
      let denom := if flt denom eps then eps else denom in
      Ret (f64_to_32 (fadd (f32_to_64 c) (fmul num (log (fadd (Bdiv mode_NE num denom) eps)))))) z32.
  (** The notes a chord begins with have minus their start as duration; at the next chord its time is added. *)
  Definition ended (t : Z) (notes : list note) : list note := map (fun x => mkNote (n_time x) (n_duration x + t) (n_pitch x)) notes.
  (** 549-583: chord, notes and the open notes. *)
  Definition step (chords : list chord) (times path : list Z) (s : Z * list (Z * string) * list note * list note) (iFrame : Z) : outcome (Z * list (Z * string) * list note * list note) :=
    let '(oldchord, out, notes, oldnotes) := s in
    do now <- elt path iFrame;
    if negb (now =? oldchord) then
      do t <- elt times iFrame;
      do c <- elt chords now;
      Ret (now, out ++ [(t, c_name c)], notes ++ ended t oldnotes, map (mkNote t (- t)) (c_notes c))
    else Ret s.
  (** 549-622, with the path, delta and the scales from the decoder. *)
  Definition transcribed (chords : list chord) (times : list Z) (r : decoded (W := doubles)) : outcome transcription :=
    let n := Z.of_nat (length chords) in
    let nFrame := Z.of_nat (length times) in
    do first <- elt (d_path r) 0;
    do t0 <- elt times 0;
    do c0 <- elt chords first;
    do (_, out, notes, oldnotes) <- loop 1 (Z.of_nat (length (d_path r)) - 1) (step chords times (d_path r)) (n - 1, [(t0, c_name c0)], [], []);
    do changes <- loop 1 (Z.of_nat (length (d_path r)) - 1) (fun l iFrame => do c <- change n (d_delta r) iFrame; Ret (l ++ [c])) [];
    do lik <- loop 0 (nFrame - 1) (fun l iFrame => do s <- elt (d_scale r) iFrame; Ret (l ++ [f64_to_32 (Bopp (log s))])) [];
    do tl <- elt times (nFrame - 1);
    Ret (mkTranscription (out ++ [(tl, "N"%string)]) (notes ++ ended tl oldnotes) (changes ++ [z32]) lik).
  (** 527-622: from the saliences of all frames. *)
  Definition transcribe_chords (chords : list chord) (times : list Z) (chordogram : list (list b64)) : outcome transcription :=
    let n := Z.of_nat (length chords) in
    do r <- viterbi_path (W := doubles) (chord_start n) (chord_moves n) chordogram (fresh (Z.of_nat (length times) * n)) [];
    transcribed chords times r.
End Transcription.

(** ** The whole plug-in *)
Section Chordino.
  Context (atan2 powf : b32 -> b32 -> b32) (pow : b64 -> b64 -> b64) (log : b64 -> b64).
  (** Chordino.cpp:389-512: the saliences of a frame from its tuned spectrum. The chroma vector is the bass followed by the treble; what 441-470 make of it for
      the unused chromaList is computed, as far as it can fail. *)
  Definition chord_frame (c : setup) (chords : list chord) (f2 : list b32) : outcome (list b64 * bool) :=
    do f <- spectrum_frame (s_useNNLS c) (s_dict c) f2;
    do _ <- normalised (s_normalize c) (f_treble f) (f_bass f);
    saliences pow (Z.of_nat (length chords)) (flat_map c_values chords) (f_bass f ++ f_treble f).
  (** Chordino.cpp:270-622; the two stages before are those of the chroma plug-in, line by line. *)
  Definition remaining_chords (c : setup) (chords : list chord) (p : plug (stamp := Z)) : outcome transcription :=
    match p_spectra p with
    | [] => Ret (mkTranscription [] [] [] [])
    | _ =>
        do a <- angle atan2 (s_sin c) (s_cos c) (p_mean p);
        do g <- shifts a;
        do (l, _) <- tune_all powf c p g;
        do chordogram <- over (fun s '(t, f2) => do (v, _) <- chord_frame c chords f2; Ret (s ++ [v])) l [];
        transcribe_chords log chords (map fst l) chordogram
    end.
  (** A whole run: all frames, then the rest. *)
  Definition chordino (c : setup) (chords : list chord) (frames : list (Z * list b32)) : outcome transcription :=
    do p <- over (fun p '(t, fbuf) => do (p, _) <- process atan2 c p t fbuf; Ret p) frames reset;
    remaining_chords c chords p.
End Chordino.
