(** Property theorems C48 to C51: scoring, transposing and labelling data points in the Python tools. *)
From Coq Require Import Reals Lia Lra Ascii.
From Flocq Require Import Core.Core IEEE754.BinarySingleNaN.
From Verif Require Import Base BaseFacts Fp FpFacts Key PitchClass Text Py Dataset Output MusicSpec TextSpec MainSpec OutputFacts DatasetSpec DatasetFacts LabelFacts.
Open Scope Z_scope.

(** C48: judging one prediction. *)
Theorem C48_judgement : forall T K r, is_key T -> is_key K -> (compare_keys T K = r <-> judged T K r).
Proof. exact C48_proof. Qed.
Print Assumptions C48_judgement.
Theorem C48_judgement_is_symmetric : forall T K, is_key T -> is_key K -> compare_keys T K = compare_keys K T.
Proof. exact C48_symmetric_proof. Qed.
Print Assumptions C48_judgement_is_symmetric.
Theorem C48_judgement_of_transposed_keys : forall t T K, is_key T -> is_key K -> compare_keys (transpose_key t T) (transpose_key t K) = compare_keys T K.
Proof. exact C48_transposed_proof. Qed.
Print Assumptions C48_judgement_of_transposed_keys.
Theorem C48_same_credit_as_the_detector : forall T K, is_key T -> is_key K -> ~ fifth_above T K -> credit K T (credit_text (compare_keys T K)).
Proof. exact C48_cpp_proof. Qed.
Print Assumptions C48_same_credit_as_the_detector.
Theorem C48_same_credit_for_all_pairs_refuted : ~ (forall T K, is_key T -> is_key K -> credit K T (credit_text (compare_keys T K))).
Proof. exact C48_cpp_refuted_proof. Qed.
Print Assumptions C48_same_credit_for_all_pairs_refuted.
(** The label -1 of an unknown key is judged nearly as B major. *)
Theorem C48_unknown_label : forall K, is_key K -> compare_keys (-1) K = if K =? 11 then Parallel else if K =? 23 then Other else compare_keys 11 K.
Proof. exact C48_unknown_proof. Qed.
Print Assumptions C48_unknown_label.
Theorem C48_unknown_label_gets_no_credit_refuted : ~ (forall K, is_key K -> compare_keys (-1) K = Other).
Proof. intros H. specialize (H 6 ltac:(unfold is_key; lia)). discriminate. Qed.
Print Assumptions C48_unknown_label_gets_no_credit_refuted.
(** C major against G, F, a and c, and D. *)
Example C48_case : map (compare_keys 0) [0; 7; 5; 21; 12; 2] = [Tonic; Fifth; Fifth; Relative; Parallel; Other].
Proof. reflexivity. Qed.

(** C49: the score of a list of predictions. *)
Theorem C49_score : forall pred y rs, Forall is_key y -> Forall is_key pred -> length pred = length y -> 0 < Z.of_nat (length y) <= 2 ^ 50 ->
  Forall2 (fun p r => judged (fst p) (snd p) r) (combine y pred) rs ->
  exists s l, weighted_score pred y = Returns (Some (s :: l)) /\ is_finite s = true /\ (0 <= B2R s <= 1)%R /\ (B2R s = 1%R <-> pred = y) /\
    (Rabs (B2R s - mean (map credit_value rs)) <= 1 / 10 ^ 15)%R /\
    Forall2 (fun x r => is_finite x = true /\ B2R x = rnd (share r rs)) l [Tonic; Fifth; Relative; Parallel; Other].
Proof. exact C49_proof. Qed.
Print Assumptions C49_score.
Theorem C49_different_lengths : forall pred y, length pred <> length y -> weighted_score pred y = Returns None.
Proof. exact C49_lengths_proof. Qed.
Print Assumptions C49_different_lengths.
Theorem C49_no_predictions : weighted_score [] [] = Raises ZeroDivisionError.
Proof. exact C49_empty_proof. Qed.
Print Assumptions C49_no_predictions.
(** One right, one fifth, one relative: credits 1, 0.5 and 0.3. *)
Example C49_case : Forall2 (fun p r => judged (fst p) (snd p) r) (combine [0; 0; 0] [0; 7; 21]) [Tonic; Fifth; Relative] /\ mean (map credit_value [Tonic; Fifth; Relative]) = (6 / 10)%R.
Proof.
  split; [|unfold mean; cbn; lra]. repeat apply Forall2_cons; try apply Forall2_nil; cbn [fst snd]; apply C48_proof; try (unfold is_key; lia); reflexivity.
Qed.

(** C50: transposing a data point and its label. *)
Theorem C50_transpose : forall A (Xi : list A) y m, length Xi = (24 * m)%nat -> is_key y ->
  exists F L, transpose Xi y = Returns (F, L) /\ length F = 12%nat /\ length L = 12%nat /\ nth 0 F [] = Xi /\ NoDup L /\ Forall is_key L /\
    forall t, (t < 12)%nat -> nth t L (-1) = transpose_key (Z.of_nat t) y /\ length (nth t F []) = (24 * m)%nat /\
      forall b k d, (b < m)%nat -> is_key k -> nth (24 * b + Z.to_nat (transpose_key (Z.of_nat t) k)) (nth t F []) d = nth (24 * b + Z.to_nat k) Xi d.
Proof. exact @C50_proof. Qed.
Print Assumptions C50_transpose.
Theorem C50_augmentation : forall A m (X : list (list A)) y, length X = length y -> Forall (fun Xi => length Xi = (24 * m)%nat) X -> Forall is_key y ->
  exists F L, data_augmentation X y = Returns (F, L) /\ length F = (12 * length X)%nat /\ length L = (12 * length X)%nat /\
    forall i t, (i < length X)%nat -> (t < 12)%nat -> nth (12 * i + t) L (-1) = transpose_key (Z.of_nat t) (nth i y 0) /\ length (nth (12 * i + t) F []) = (24 * m)%nat /\
      forall b k d, (b < m)%nat -> is_key k -> nth (24 * b + Z.to_nat (transpose_key (Z.of_nat t) k)) (nth (12 * i + t) F []) d = nth (24 * b + Z.to_nat k) (nth i X []) d.
Proof. exact @C50_augmentation_proof. Qed.
Print Assumptions C50_augmentation.
Theorem C50_ragged_features : forall A (Xi : list A) y, (length Xi mod 12 <> 0)%nat -> transpose Xi y = Raises ValueError.
Proof. exact @C50_ragged_proof. Qed.
Print Assumptions C50_ragged_features.
(** The label -1 of an unknown key becomes other negative numbers. *)
Theorem C50_unknown_label_stays_unknown_refuted : ~ (forall (Xi : list Z) F L t, transpose Xi (-1) = Returns (F, L) -> (t < 12)%nat -> nth t L (-1) = -1).
Proof. intros H. specialize (H [] _ _ 1%nat eq_refl ltac:(lia)). vm_compute in H. discriminate. Qed.
Print Assumptions C50_unknown_label_stays_unknown_refuted.
(** Features of A minor data with the winner at key 21: up three semitones the winner is at key 12 (C minor). *)
Example C50_case : exists F L, transpose (map (fun k => k =? 21) (zseq 24)) 21 = Returns (F, L) /\ nth 3 L 0 = 12 /\ nth 12 (nth 3 F []) false = true.
Proof. do 2 eexists. split; [reflexivity|]. split; reflexivity. Qed.

(** C51: key labels. *)
Theorem C51_every_text_has_its_words : forall s, exists ws, worded s ws /\ forall ws', worded s ws' -> ws' = ws.
Proof. exact C51_words_proof. Qed.
Print Assumptions C51_every_text_has_its_words.
Theorem C51_label : forall s ws k, worded s ws -> is_key k -> (parse_label s = k <-> labelled ws k).
Proof. exact C51_label_proof. Qed.
Print Assumptions C51_label.
Theorem C51_unknown_label : forall s ws, worded s ws -> (parse_label s = -1 <-> forall k, ~ labelled ws k).
Proof. exact C51_unknown_proof. Qed.
Print Assumptions C51_unknown_label.
Theorem C51_label_means_the_same_to_the_detector : forall s, no_blank s -> s <> ""%string -> 0 <= parse_label s -> key_of_string s = mkKey (Some (parse_label s)) s.
Proof. exact C51_cpp_proof. Qed.
Print Assumptions C51_label_means_the_same_to_the_detector.
Theorem C51_names_only_the_detector_knows : forall s k, no_blank s -> s <> ""%string -> named_key s = Some k ->
  (parse_label s = -1 <-> In s ["Cb"; "Fb"; "E#"; "B#"; "cb"; "fb"; "e#"; "b#"]%string).
Proof. exact C51_cpp_more_proof. Qed.
Print Assumptions C51_names_only_the_detector_knows.
Theorem C51_normalised_label : forall s ws k, worded s ws -> labelled_inline ws k -> normalize_key_label s = Returns (get_string (key_of_int k)) /\ named_key (get_string (key_of_int k)) = Some k.
Proof. exact C51_normalize_proof. Qed.
Print Assumptions C51_normalised_label.
(** The detector reads the annotated key from the new file name, in any directory. *)
Theorem C51_annotated_file_name : forall dir noext ext s ws k, lacks "." ext -> lacks "_" ext -> (exists c, In c (chars noext) /\ c <> "."%char) -> worded s ws -> labelled_inline ws k ->
  sized (dir ++ noext ++ "_Ab." ++ ext) ->
  exists f KEY, new_filename (noext ++ "." ++ ext) s = Returns f /\ ground_truth (dir ++ f) = Ret (Some KEY) /\ named_key KEY = Some k.
Proof. exact C51_inline_proof. Qed.
Print Assumptions C51_annotated_file_name.
(** An unreadable annotation gives a file name on which the evaluation of the detector is undefined. *)
Theorem C51_unknown_annotation : forall dir noext ext s ws K, lacks "." ext -> lacks "_" ext -> (exists c, In c (chars noext) /\ c <> "."%char) -> worded s ws -> (forall k, ~ labelled_inline ws k) ->
  sized (dir ++ noext ++ "_Unknown." ++ ext) ->
  exists f, new_filename (noext ++ "." ++ ext) s = Returns f /\ print_evaluation (dir ++ f) (key_of_int K) = Undef UninitRead.
Proof. exact C51_inline_unknown_proof. Qed.
Print Assumptions C51_unknown_annotation.
Example C51_case : map parse_label ["Bb"; " bb MINOR
"; "F# Major"; "h"; "Cb"; "A minor x"]%string = [10; 22; 6; -1; -1; -1] /\ new_filename "song.one.csv" "H minor" = Returns "song.one_b.csv"%string /\
  new_filename "song.csv" "unknown" = Returns "song_Unknown.csv"%string.
Proof. repeat split; reflexivity. Qed.
