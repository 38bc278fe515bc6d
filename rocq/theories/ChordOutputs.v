(** Model of the outputs of the chord plug-in and of the host that picks one: nnls-chroma-1.1/Chordino.cpp:162-237 (getOutputDescriptors) and 549-622 (which output a feature
    goes to), nnls-chroma-1.1/chordextract.cpp:85-142. Definitions only. *)
From Coq Require Import String.
From Flocq Require Import Core.Core IEEE754.BinarySingleNaN.
From Verif Require Import Base Fp Options Chromagram Nnls NnlsArith Plug ChordViterbi Chords Outputs.
Open Scope list_scope.
Open Scope Z_scope.

(** A feature of the chord plug-in: a label, a note, or a value with a time. *)
Inductive chord_feature := Label (e : Z * string) | Sounding (x : note) | Value (e : Z * b32).
(** Identifier, binCount, and the declared least and largest value. *)
Record chord_output := mkChordOutput { q_identifier : string; q_bins : Z; q_extents : option (Z * Z) }.
Record chord_numbers := mkChordNumbers { q_chords : Z; q_notes : Z; q_change : Z; q_likelihood : Z }.
(** Chordino.cpp:162-237. *)
Definition chord_outputs : list chord_output * chord_numbers :=
  let index := 0 in
  let l := [mkChordOutput "simplechord" 0 None] in let n1 := index in let index := index + 1 in
  let l := l ++ [mkChordOutput "chordnotes" 1 (Some (0, 127))] in let n2 := index in let index := index + 1 in
  let l := l ++ [mkChordOutput "harmonicchange" 1 None] in let n3 := index in let index := index + 1 in
  let l := l ++ [mkChordOutput "loglikelihood" 1 None] in let n4 := index in
  (l, mkChordNumbers n1 n2 n3 n4).
(** 549-622: the features of a run at their outputs. Labels and notes are put out alternately there; as they go to different outputs, this is the same. *)
Definition pushed {F} (n : Z) (l : list F) (fs : feature_set F) : feature_set F := fold_left (fun fs x => push fs n x) l fs.
Definition chord_set (n : chord_numbers) (times : list Z) (r : transcription) : feature_set chord_feature :=
  pushed (q_change n) (map Value (combine times (t_change r)))
    (pushed (q_likelihood n) (map Value (combine times (t_likelihood r)))
      (pushed (q_notes n) (map Sounding (t_notes r)) (pushed (q_chords n) (map Label (t_chords r)) []))).
(** chordextract.cpp:89-99: the number of the last output with the identifier, or -1. *)
Definition find_chord_output (id : string) (outputs : list chord_output) : Z :=
  fst (fold_left (fun '(no, i) d => (if String.eqb (q_identifier d) id then i else no, i + 1)) outputs (-1, 0)).
(** chordextract.cpp:85-138: process(), Chordino.cpp:255-266, gives no features, so the host gets those of the end. *)
Definition chord_host (atan2 powf : b32 -> b32 -> b32) (pow : b64 -> b64 -> b64) (log : b64 -> b64) (id : string) (c : setup) (chords : list chord) (frames : list (Z * list b32)) : outcome (option (list chord_feature)) :=
  let '(outputs, n) := chord_outputs in
  let no := find_chord_output id outputs in
  if no <? 0 then Ret None
  else do r <- chordino atan2 powf pow log c chords frames; Ret (Some (features_at (chord_set n (map fst frames) r) no)).
