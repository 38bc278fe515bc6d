(** Property theorems C85-C87: the dictionary of chords, the transcription, and whole runs of the chord plug-in. *)
From Coq Require Import Reals Lra Lia String.
From Flocq Require Import Core.Core IEEE754.BinarySingleNaN.
From Verif Require Import Base BaseFacts Fp Options Chromagram Nnls NnlsArith NnlsSpec Plug PlugSpec PlugFacts PlugNum PlugSafe PlugMain PlugCases ChordViterbi ChordSpec Chords ChordsSpec ChordsFacts ChordsRun ChordsWhole ChordsCases.
Open Scope Z_scope.

(** ** C85: the dictionary *)
(** Every type on every root, in this order, and N at the end: the values are the profile moved up to the root and divided by its strength; the name is root, type and bass; the notes are those of bass and treble. *)
Theorem C85_every_type_on_every_root : forall harte names values, 24 * Z.of_nat (length names) <= Z.of_nat (length values) -> forall powf boost,
  exists l, chord_dictionary powf boost harte names values = Ret l /\ Z.of_nat (length l) = 12 * Z.of_nat (length names) + 1 /\
    (forall t s, 0 <= t < Z.of_nat (length names) -> 0 <= s < 12 -> exists c, nth_error l (Z.to_nat (12 * t + s)) = Some c /\ c_values c = map (fun v => fdiv32 v (stand_of powf None (profile values t s))) (profile values t s) /\
      exists x, slash_is harte values t s x /\ name_is names t s x (c_name c) /\ notes_are values t s x (c_notes c)) /\
    nth_error l (Z.to_nat (12 * Z.of_nat (length names))) = Some (mkChord "N" (map (fun v => fdiv32 v (stand_of powf (Some boost) (repeat half32 12 ++ repeat one32 12))) (repeat half32 12 ++ repeat one32 12)) []).
Proof. exact dictionary_ok. Qed.
Print Assumptions C85_every_type_on_every_root.
(** A table with fewer than 24 values for every type is read past its end. *)
Theorem C85_short_table : forall powf boost harte names values l, chord_dictionary powf boost harte names values = Ret l -> 24 * Z.of_nat (length names) <= Z.of_nat (length values).
Proof. exact short_dictionary. Qed.
Print Assumptions C85_short_table.
(** The notes of the bass lie in the octave from 45, those of the treble in the octave from 63. *)
Theorem C85_range_of_notes : forall values t s x notes, 0 <= s < 12 -> notes_are values t s x notes -> Forall (fun m => 45 <= m <= 56 \/ 63 <= m <= 74) notes.
Proof. exact notes_range. Qed.
Print Assumptions C85_range_of_notes.
(** The tables of names: root s is called what lies s semitones above A; the bass k semitones above it is called what lies s + k above A, with any number of sharps and flats; three basses have no name. *)
Theorem C85_names_of_notes : (forall s, 0 <= s < 12 -> named_note (znth ""%string note_names s) = Some s) /\
  forall harte s k, Beqb harte z32 = true -> 0 <= s < 12 -> 0 <= k < 12 -> bass_name harte s k = ""%string /\ (k = 1 \/ k = 6 \/ k = 8) \/ named_note (bass_name harte s k) = Some ((s + k) mod 12).
Proof. exact (conj note_names_right bass_names_right). Qed.
Print Assumptions C85_names_of_notes.
(** Without a file chord.dict there are 18 types, in either syntax. *)
Theorem C85_tables_of_the_program : forall harte, length (default_names harte) = 18%nat /\ Z.of_nat (length static_values) = 24 * 18.
Proof. exact default_tables. Qed.
Print Assumptions C85_tables_of_the_program.
(** Several chords of the program have the same name, and most name their root twice among their notes. *)
Theorem C85_names_are_distinct_refuted : ~ forall powf boost l, chord_dictionary powf boost z32 (default_names z32) static_values = Ret l -> NoDup (map c_name l).
Proof. exact chord_names_distinct_refuted. Qed.
Print Assumptions C85_names_are_distinct_refuted.
Theorem C85_notes_are_distinct_refuted : ~ forall powf boost l, chord_dictionary powf boost z32 (default_names z32) static_values = Ret l -> Forall (fun c => NoDup (c_notes c)) l.
Proof. exact chord_notes_distinct_refuted. Qed.
Print Assumptions C85_notes_are_distinct_refuted.
(** The chords of one type are not quite the same chord on another root: the strength is a sum of floats, and its order moves with the root. *)
Theorem C85_transposed_values_refuted : ~ forall powf boost l t s k, chord_dictionary powf boost z32 (default_names z32) static_values = Ret l -> 0 <= t < 18 -> 0 <= s < 12 -> 0 <= k < 12 ->
  znth z32 (c_values (znth no_chord l (12 * t + s))) (12 + (k + s) mod 12) = znth z32 (c_values (znth no_chord l (12 * t))) (12 + k).
Proof. exact chords_transposed_refuted. Qed.
Print Assumptions C85_transposed_values_refuted.
(** A, F, B half-diminished with its seventh in the bass, and N. *)
Example C85_case : (length the_chords, map (fun k => let c := znth no_chord the_chords k in (c_name c, c_notes c)) [0; 8; 50; 216]) =
  (217%nat, [("A", [45; 45; 69; 73; 64]); ("F", [53; 53; 69; 72; 65]); ("Bm7b5/A", [45; 69; 71; 74; 65]); ("N", [])]%string).
Proof. vm_compute. reflexivity. Qed.

(** ** C86: the transcription *)
(** Any saliences, not-a-number included: the plug-in names the chords of the path of the decoder whenever they change, and the notes of each chord last to the next change; [transcription_of] says this in full. *)
Theorem C86_transcription_follows_the_path : forall log chords times obs, chords <> [] -> c_notes (znth no_chord chords (Z.of_nat (length chords) - 1)) = [] -> obs <> [] -> length obs = length times -> Forall (fun o => Z.of_nat (length o) = Z.of_nat (length chords)) obs ->
  exists r, transcribe_chords log chords times obs = Ret r /\ transcription_of log chords times obs r.
Proof. exact transcription_ok. Qed.
Print Assumptions C86_transcription_follows_the_path.
(** Whatever was played, the first event is the last chord of the dictionary at the time of the first frame, and the last event is N at the time of the last frame. *)
Theorem C86_first_and_last_event : forall log chords times obs r, chords <> [] -> obs <> [] -> length obs = length times -> transcription_of log chords times obs r ->
  hd_error (t_chords r) = Some (hd 0 times, c_name (last chords no_chord)) /\ last (t_chords r) (0, ""%string) = (last times 0, "N"%string).
Proof. exact first_event. Qed.
Print Assumptions C86_first_and_last_event.
(** With increasing times no note has a negative duration or sounds past the last frame. *)
Theorem C86_notes_end_in_time : forall log chords times obs r, increasing times -> transcription_of log chords times obs r -> Forall (fun x => 0 <= n_duration x /\ n_time x + n_duration x <= last times 0) (t_notes r).
Proof. exact notes_sound. Qed.
Print Assumptions C86_notes_end_in_time.
(** Two changes in a row may carry the same name, and a chord that begins with the last frame has notes without duration. *)
Theorem C86_neighbours_have_different_names_refuted : ~ forall log chords times obs r, transcribe_chords log chords times obs = Ret r -> forall i, 0 <= i < Z.of_nat (length (t_chords r)) - 1 -> znth ""%string (map snd (t_chords r)) i <> znth ""%string (map snd (t_chords r)) (i + 1).
Proof. exact neighbours_refuted. Qed.
Print Assumptions C86_neighbours_have_different_names_refuted.
Theorem C86_every_note_lasts_refuted : ~ forall log chords times obs r, increasing times -> transcribe_chords log chords times obs = Ret r -> Forall (fun x => 0 < n_duration x) (t_notes r).
Proof. exact lasting_refuted. Qed.
Print Assumptions C86_every_note_lasts_refuted.
(** Three chords, two of them with the same name; the first three frames speak for the first, the others for the second. *)
Definition shown (o : outcome transcription) : list (Z * string) * list (Z * Z * Z) * nat :=
  match o with Ret r => (t_chords r, map (fun x => (n_time x, n_duration x, n_pitch x)) (t_notes r), (length (t_change r) + length (t_likelihood r))%nat) | _ => ([], [], O) end.
Example C86_case : shown (transcribe_chords (fun x => x) twins [0; 10; 20; 30; 40] [loud1; loud1; loud1; loud2; loud2]) =
  ([(0, "N"); (10, "A"); (30, "A"); (40, "N")]%string, [(10, 20, 45); (10, 20, 69); (30, 10, 45); (30, 10, 64)], 10%nat).
Proof. vm_compute. reflexivity. Qed.

(** ** C87: saliences and whole runs *)
(** The salience of a chord is the share of 1.3 to the scalar product of its 24 values with bass and treble chroma, kept between 0 and 200; for N the product counts 0.7. The warning is set if one was above 200. *)
Theorem C87_saliences : forall pow rows none chroma, Forall (fun r => length r = 24%nat) (rows ++ [none]) -> length chroma = 24%nat ->
  exists warn, saliences pow (Z.of_nat (length (rows ++ [none]))) (concat (rows ++ [none])) chroma = Ret (shares (strengths pow rows none chroma), warn) /\
    (warn = true <-> Exists (fun r => fgt (product24 r chroma) two_hundred = true) rows \/ fgt (fmul (product24 none chroma) (rat64 7 10)) two_hundred = true).
Proof. exact saliences_ok. Qed.
Print Assumptions C87_saliences.
(** A whole run, any sound: the chord plug-in returns exactly when the chroma plug-in does, and then it transcribes the saliences of the semitones that the chroma plug-in returns, at the times of the frames. *)
Theorem C87_whole_run : forall atan2 powf pow log, atan2_law atan2 -> (forall s w, gt32 s z32 = true -> Bsign (powf s w) = false) -> forall c frames boost harte names values all,
  ready c -> Forall (fun f => s_block c <= Z.of_nat (length (snd f))) frames -> chord_dictionary powf boost harte names values = Ret all ->
  (exists o r chords none, analyse atan2 powf c frames = Ret o /\ chordino atan2 powf pow log c all frames = Ret r /\ all = chords ++ [none] /\ c_name none = "N"%string /\
     (frames = [] -> r = mkTranscription [] [] [] []) /\ (frames <> [] -> transcription_of log all (map fst frames) (map (fun tn => frame_saliences pow chords none (snd tn)) (o_notes o)) r)) \/
  analyse atan2 powf c frames = Undef FloatCast /\ chordino atan2 powf pow log c all frames = Undef FloatCast.
Proof. exact chordino_cases. Qed.
Print Assumptions C87_whole_run.
(** Two chords and N, with 1 + v in the place of 1.3 to the v: products 3, 300 and 6, of which N keeps 4.2. *)
Definition small_rows : list (list b32) := [repeat z32 23 ++ [one32]; repeat z32 23 ++ [rat32 100 1]].
Definition small_none : list b32 := repeat z32 23 ++ [rat32 2 1].
Example C87_salience_case : match saliences (fun _ v => fadd (rat64 1 1) v) 3 (concat (small_rows ++ [small_none])) (repeat one32 23 ++ [rat32 3 1]) with Ret (l, w) => (map (fun v => trunc (fmul v (rat64 10000 1))) l, w) | _ => ([], false) end = ([190; 9562; 247], true).
Proof. vm_compute. reflexivity. Qed.
(** The setup of C72: two frames with an E, a dictionary with a single type, and the eighth power for 1.3 to the v. *)
Definition one_type : list chord := returned (chord_dictionary sample_pow z32 z32 [""]%string static_values).
Definition eighth (_ v : b64) : b64 := let v2 := fmul v v in let v4 := fmul v2 v2 in fmul v4 v4.
Example C87_run_case : shown (chordino sample_atan2 sample_pow eighth (fun x => x) (sample_setup z32) one_type [(5, sample_frame); (6, sample_frame); (7, sample_frame)]) = ([(5, "N"); (6, "E"); (7, "N")]%string, [(6, 1, 52); (6, 1, 52); (6, 1, 71); (6, 1, 64); (6, 1, 68)], 6%nat).
Proof. vm_compute. reflexivity. Qed.
