(** Model of the outputs of the chroma plug-in and of the host that picks one: nnls-chroma-1.1/NNLSChroma.cpp:63-183 (getOutputDescriptors), 208-217 and
    471-474 (which output a feature goes to), src/chromagram.cc:163-211 and nnls-chroma-1.1/chromaextract.cpp:87-137. Definitions only. *)
From Coq Require Import String.
From Flocq Require Import Core.Core IEEE754.BinarySingleNaN.
From Verif Require Import Base Fp Options Chromagram Nnls Plug.
Open Scope list_scope.
Open Scope Z_scope.

(** ** getOutputDescriptors *)
(** Identifier, binCount and binNames of an output; the texts for people, the units and the rates are left out. *)
Record output := mkOutput { d_identifier : string; d_bins : Z; d_names : list string }.
(** NNLSChroma.h:47-52: the numbers of the outputs. The constructor, NNLSChroma.cpp:31-35, does not set them. *)
Record numbers := mkNumbers { n_spectrum : Z; n_tuned : Z; n_notes : Z; n_treble : Z; n_bass : Z; n_both : Z }.
(** NNLSChroma.cpp:71-73. *)
Definition notenames : list string :=
  ["A  (bass)"; "Bb (bass)"; "B  (bass)"; "C  (bass)"; "C# (bass)"; "D  (bass)"; "Eb (bass)"; "E  (bass)"; "F  (bass)"; "F# (bass)"; "G  (bass)"; "Ab (bass)";
   "A"; "Bb"; "B"; "C"; "C#"; "D"; "Eb"; "E"; "F"; "F#"; "G"; "Ab"]%string.
(** 76-83: chromanames and bothchromanames. *)
Definition bin_names : outcome (list string * list string) :=
  loop 0 23 (fun '(chroma, both) iNote =>
    do n <- elt notenames iNote;
    if iNote <? 12 then do m <- elt notenames (iNote + 12); Ret (chroma ++ [m], both ++ [n]) else Ret (chroma, both ++ [n])) ([], []).
(** 85-182: the list, and the numbers that are set on the way. *)
Definition get_outputs : outcome (list output * numbers) :=
  do (chromanames, bothchromanames) <- bin_names;
  let index := 0 in
  let l := [mkOutput "logfreqspec" nNote []] in let n1 := index in let index := index + 1 in
  let l := l ++ [mkOutput "tunedlogfreqspec" nNote []] in let n2 := index in let index := index + 1 in
  let l := l ++ [mkOutput "semitonespectrum" 84 []] in let n3 := index in let index := index + 1 in
  let l := l ++ [mkOutput "chroma" 12 chromanames] in let n4 := index in let index := index + 1 in
  let l := l ++ [mkOutput "basschroma" 12 chromanames] in let n5 := index in let index := index + 1 in
  let l := l ++ [mkOutput "bothchroma" 24 bothchromanames] in let n6 := index in
  Ret (l, mkNumbers n1 n2 n3 n4 n5 n6).

(** ** A feature set, std::map<int, FeatureList>: reading a number that is not there gives an empty list *)
Definition feature_set (F : Type) := list (Z * list F).
Fixpoint features_at {F} (fs : feature_set F) (n : Z) : list F := match fs with [] => [] | (m, l) :: fs' => if m =? n then l else features_at fs' n end.
Fixpoint push {F} (fs : feature_set F) (n : Z) (x : F) : feature_set F :=
  match fs with [] => [(n, [x])] | (m, l) :: fs' => if m =? n then (m, l ++ [x]) :: fs' else (m, l) :: push fs' n x end.

Section Host.
  Context (atan2 powf : b32 -> b32 -> b32) {stamp : Type}.
  Implicit Types (c : setup) (p : @plug stamp) (frames : list (stamp * list b32)).
  (** 208-217: process(). The numbers are those of the object, if they have been set. *)
  Definition process_set (ns : option numbers) c p (t : stamp) (fbuf : list b32) : outcome (plug * feature_set (stamp * list b32)) :=
    do (p, x) <- process atan2 c p t fbuf;
    match ns with None => Undef UninitRead | Some n => Ret (p, push [] (n_spectrum n) x) end.
  (** 220-481: getRemainingFeatures(); the tuned spectra go out at 297, the rest at 471-474, frame by frame. The loop from 319 reads the tuned spectra back from their output. *)
  Definition remaining_set (ns : option numbers) c p : outcome (feature_set (stamp * list b32)) :=
    match p_spectra p with
    | [] => Ret []
    | _ =>
        do o <- remaining atan2 powf c p;
        match ns with
        | None => Undef UninitRead
        | Some n =>
            let fs := fold_left (fun fs f2 => push fs (n_tuned n) f2) (o_tuned o) [] in
            Ret (fold_left (fun fs '(f3, f4, f5, f6) => push (push (push (push fs (n_notes n) f3) (n_treble n) f4) (n_bass n) f5) (n_both n) f6)
              (combine (combine (combine (o_notes o) (o_treble o)) (o_bass o)) (o_both o)) fs)
        end
    end.
  (** src/chromagram.cc:163-169: the number of the last output with the identifier, or -1. *)
  Definition find_output (id : string) (outputs : list output) : Z :=
    fst (fold_left (fun '(no, i) d => (if String.eqb (d_identifier d) id then i else no, i + 1)) outputs (-1, 0)).
  (** src/chromagram.cc:163-211, with the frames that reach the plug-in; None if there is no such output. The adapters of the Vamp host SDK are taken to hand on feature sets as they are. *)
  Definition host_run (id : string) c frames : outcome (option (list (stamp * list b32))) :=
    do (outputs, n) <- get_outputs;
    let no := find_output id outputs in
    if no <? 0 then Ret None
    else
      do (p, got) <- over (fun '(p, got) '(t, fbuf) => do (p, fs) <- process_set (Some n) c p t fbuf; Ret (p, got ++ features_at fs no)) frames (reset, []);
      do fs <- remaining_set (Some n) c p;
      Ret (Some (got ++ features_at fs no)).
End Host.
(** src/chromagram.cc:166, 170-173: what the detector gets from the plug-in. *)
Definition audio_of (atan2 powf : b32 -> b32 -> b32) (c : setup) (frames : list (string * list b32)) : outcome audio_result :=
  do r <- host_run atan2 powf "chroma" c frames; Ret (match r with None => PluginError | Some fs => Features fs end).
