(** Property theorems C88: what rounding does to the chords. *)
From Coq Require Import Reals Lra Lia String.
From Flocq Require Import Core.Core IEEE754.BinarySingleNaN.
From Verif Require Import Base BaseFacts Fp Options Chromagram Nnls NnlsArith NnlsSpec Plug PlugSpec PlugFacts PlugNum PlugSafe PlugMain PlugCases ChordViterbi ChordSpec NearSpec Chords ChordsSpec ChordsFacts ChordsRun ChordsWhole ChordsCases ChordsNear PropsChords.
Open Scope Z_scope.

(** The decoder in double precision, with up to 2^20 states: probabilities that are not too small never vanish however long the input is, so nothing is ever started again; the path is nearly a most probable one; the scales are usable numbers. *)
Theorem C88_nearly_most_probable : forall n init trans obs delta scale, n <= 2 ^ 20 -> fitting (W := doubles) n init trans obs -> Forall (fun x => x = fzero \/ chance 40 x) init -> Exists (fun x => x <> fzero) init -> Forall (Forall (chance 40)) trans -> Forall (Forall (chance 140)) obs -> Z.of_nat (length obs) * n <= size delta ->
  exists r scales, viterbi_path (W := doubles) init trans obs delta scale = Ret r /\ nearly_best n init trans obs (d_path r) /\ d_scale r = scale ++ scales /\ length scales = length obs /\ fine_scales scales.
Proof. exact decoder_nearly. Qed.
Print Assumptions C88_nearly_most_probable.
(** Exactly the best it need not be. *)
Theorem C88_exactly_most_probable_refuted : ~ forall init trans obs delta r q, fitting (W := doubles) 2 init trans obs -> Forall (chance 1) init -> Forall (Forall (chance 1)) trans -> Forall (Forall (chance 1)) obs -> viterbi_path (W := doubles) init trans obs delta [] = Ret r -> a_path 2 (map values obs) q ->
  (probability (values init) (map values trans) (map values obs) q <= probability (values init) (map values trans) (map values obs) (d_path r))%R.
Proof. exact not_exactly_best. Qed.
Print Assumptions C88_exactly_most_probable_refuted.
(** A whole run of the chord plug-in: the chords that are named and their notes are those of a path through the chords that begins with N, stays with probability 0.99, and is nearly a most probable one for the saliences of all frames. *)
Theorem C88_chords_nearly_most_probable : forall atan2 powf pow log, atan2_law atan2 -> (forall s w, gt32 s z32 = true -> Bsign (powf s w) = false) -> pow_law pow -> forall c frames boost harte names values o,
  ready c -> Forall (fun f => s_block c <= Z.of_nat (length (snd f))) frames -> frames <> [] -> forall chords none, chord_dictionary powf boost harte names values = Ret (chords ++ [none]) -> Forall (fun c => Forall size32 (c_values c)) (chords ++ [none]) -> Z.of_nat (length chords) < 2 ^ 20 ->
  analyse atan2 powf c frames = Ret o -> Forall (fun tn => Forall size32 (chroma_of basswindow (snd tn) ++ chroma_of treblewindow (snd tn))) (o_notes o) ->
  let n := Z.of_nat (length chords) + 1 in let times := map fst frames in
  exists r p scales, chordino atan2 powf pow log c (chords ++ [none]) frames = Ret r /\ nearly_best n (chord_start n) (chord_moves n) (map (fun tn => frame_saliences pow chords none (snd tn)) (o_notes o)) p /\
    t_chords r = map (named (chords ++ [none]) times) (changes_from 0 (-1) p) ++ [(last times 0, "N"%string)] /\
    t_notes r = flat_map (span_notes (chords ++ [none])) (spans times (last times 0) (changes_from 0 (-1) p)) /\
    t_likelihood r = map (fun s => f64_to_32 (Bopp (log s))) scales /\ length scales = length frames /\ fine_scales scales.
Proof. exact chordino_nearly. Qed.
Print Assumptions C88_chords_nearly_most_probable.
(** The case of C87: dictionary and chroma are numbers of at least 0, and 1 + v is a power function as required. *)
Definition sizes (l : list b32) : bool := forallb (fun x => (is_finite x && negb (Bltb x z32))%bool) l.
Example C88_hypotheses_met : forallb (fun c => sizes (c_values c)) one_type = true /\ length one_type = 13%nat /\ pow_law (fun _ v => fadd (rat64 1 1) v) /\
  match analyse sample_atan2 sample_pow (sample_setup z32) [(5, sample_frame); (6, sample_frame); (7, sample_frame)] with Ret o => forallb (fun tn => sizes (chroma_of basswindow (snd tn) ++ chroma_of treblewindow (snd tn))) (o_notes o) = true | _ => False end.
Proof. split; [vm_compute; reflexivity|]. split; [vm_compute; reflexivity|]. split; [exact plus_law|vm_compute; reflexivity]. Qed.
(** Three states and 200 frames that speak for state 0: the path leaves state 2 after the first frame for good. *)
Example C88_long_case : match viterbi_path (W := doubles) (chord_start 3) (chord_moves 3) (repeat [rat64 9 10; rat64 1 20; rat64 1 20] 200) (fresh 600) [] with Ret r => map fst (changes_from 0 (-1) (d_path r)) = [0; 1] /\ map snd (changes_from 0 (-1) (d_path r)) = [2; 0] | _ => False end.
Proof. vm_compute. split; reflexivity. Qed.
