(** Property theorems C72-C76: the chroma plug-in. *)
From Coq Require Import Reals Lra Lia String.
From Flocq Require Import Core.Core IEEE754.BinarySingleNaN.
From Verif Require Import Base BaseFacts Fp Options Chromagram Nnls NnlsArith NnlsSpec Plug PlugSpec PlugFacts PlugNum PlugSafe PlugFrame PlugMain PlugTuning PlugNan PlugNotes PlugNorm PlugCases.
Open Scope Z_scope.

(** In these theorems [ready c] says what initialise() leaves: 256 * 84 numbers in the dictionary, kernel entries within the spectrum and the notes and not negative, a window of odd length, and a setting for normalisation that can be converted.
    [atan2_law] is what the C library promises of atan2f; of pow only that a power of something positive has no minus sign. *)

(** Any samples, infinities and not-a-number included: no memory outside the arrays is touched; there is one feature per frame with its time stamp in each output; or a tuning that is not a number is converted to an integer. *)
Theorem C72_one_feature_per_frame : forall atan2 powf, atan2_law atan2 -> (forall s w, gt32 s z32 = true -> Bsign (powf s w) = false) -> forall (stamp : Type) c (frames : list (stamp * list b32)),
  ready c -> Forall (fun f => s_block c <= Z.of_nat (length (snd f))) frames ->
  (exists o, analyse atan2 powf c frames = Ret o /\ map fst (o_tuned o) = map fst frames /\ stamped 256 (map fst frames) (o_tuned o) /\ stamped 84 (map fst frames) (o_notes o) /\ stamped 12 (map fst frames) (o_treble o) /\ stamped 12 (map fst frames) (o_bass o) /\ stamped 24 (map fst frames) (o_both o)) \/
  analyse atan2 powf c frames = Undef FloatCast.
Proof. exact (fun atan2 powf A P stamp => @C72_cases_proof atan2 powf A P stamp). Qed.
Print Assumptions C72_one_feature_per_frame.
(** Without not-a-number among the samples, the tuning is a number: blocks of at most 2^20 samples, kernel entries of at most 2^60, and fewer than 2^18 frames. *)
Theorem C72_clean_sound_returns : forall atan2 powf, atan2_law atan2 -> (forall s w, gt32 s z32 = true -> Bsign (powf s w) = false) -> forall (stamp : Type) c (frames : list (stamp * list b32)),
  ready c -> moderate c -> Forall (fun f => s_block c <= Z.of_nat (length (snd f))) frames -> Forall (fun f => Forall (fun v => is_nan v = false) (snd f)) frames -> Z.of_nat (length frames) < 2 ^ 18 -> exists o, analyse atan2 powf c frames = Ret o.
Proof. exact (fun atan2 powf A P stamp => @C72_clean_proof atan2 powf A P stamp). Qed.
Print Assumptions C72_clean_sound_returns.
(** One sample that is not a number, in a bin that belongs to one of the lowest 162 notes, in a frame that is loud enough elsewhere, makes the behaviour of the whole run undefined. *)
Theorem C72_one_bad_sample_is_undefined : forall atan2 powf, atan2_law atan2 -> (forall s w, gt32 s z32 = true -> Bsign (powf s w) = false) -> forall (stamp : Type) c (before after : list (stamp * list b32)) t fbuf fft note v k,
  ready c -> s_block c <= 2 ^ 24 -> Forall (fun f => s_block c <= Z.of_nat (length (snd f))) (before ++ (t, fbuf) :: after) -> In (fft, note, v) (s_kernel c) -> note < 162 -> znth z32 fbuf (2 * fft) = B754_nan \/ znth z32 fbuf (2 * fft + 1) = B754_nan ->
  0 <= k < s_block c / 2 -> Bleb (rat32 2 1) (znth z32 fbuf (2 * k)) = true -> is_nan (znth z32 fbuf (2 * k + 1)) = false -> analyse atan2 powf c (before ++ (t, fbuf) :: after) = Undef FloatCast.
Proof. exact (fun atan2 powf A P stamp => @C72_nan_proof atan2 powf A P stamp). Qed.
Print Assumptions C72_one_bad_sample_is_undefined.
(** The sparse kernel has exactly the positive entries of the dense matrix. *)
Theorem C72_kernel_is_the_positive_part : forall block matrix, 0 <= block -> block / 2 * 256 <= Z.of_nat (length matrix) ->
  exists kernel, sparse block matrix = Ret kernel /\ forall fft note v, In (fft, note, v) kernel <-> 0 <= fft < block / 2 /\ 0 <= note < 256 /\ v = znth z32 matrix (fft + block / 2 * note) /\ gt32 v z32 = true.
Proof. exact sparse_ok. Qed.
Print Assumptions C72_kernel_is_the_positive_part.
(** Two frames, and the same with a sample that is not a number. *)
Example C72_two_frames : exists o, analyse sample_atan2 sample_pow (sample_setup one32) [("first", sample_frame); ("second", sample_frame)]%string = Ret o.
Proof.
  apply (C72_clean_sound_returns _ _ sample_atan2_law sample_pow_law); [apply sample_ready|apply sample_moderate|repeat constructor; cbn; lia| |cbn; lia].
  repeat (apply Forall_cons || apply Forall_nil); reflexivity.
Qed.
Print Assumptions C72_two_frames.
Example C72_bad_sample : analyse sample_atan2 sample_pow (sample_setup one32) [("first", sample_frame); ("second", [z32; z32; B754_nan; z32; rat32 4 1; z32; z32; z32]); ("third", sample_frame)]%string = Undef FloatCast.
Proof.
  apply (C72_one_bad_sample_is_undefined _ _ sample_atan2_law sample_pow_law string (sample_setup one32) [("first", sample_frame)]%string [("third", sample_frame)]%string _ _ 1 60 one32 2); [apply sample_ready|cbn; lia|repeat constructor; cbn; lia|now left|lia|now left|cbn; lia|reflexivity|reflexivity].
Qed.
Print Assumptions C72_bad_sample.
Example C72_small_kernel : match sparse 4 (one32 :: repeat z32 (Z.to_nat 510) ++ [rat32 2 1]) with Ret k => map fst k = [(0, 0); (1, 255)] | _ => False end.
Proof. vm_compute. reflexivity. Qed.

(** No tuned spectrum has a negative value, so the error message is never written; any samples. *)
Theorem C73_tuned_spectra_not_negative : forall atan2 powf, atan2_law atan2 -> (forall s w, gt32 s z32 = true -> Bsign (powf s w) = false) -> forall (stamp : Type) c (frames : list (stamp * list b32)) o,
  ready c -> Forall (fun f => s_block c <= Z.of_nat (length (snd f))) frames -> analyse atan2 powf c frames = Ret o -> Forall (fun tf => Forall not_negative (snd tf)) (o_tuned o) /\ o_errors o = 0.
Proof. exact (fun atan2 powf A P stamp => @C73_proof atan2 powf A P stamp). Qed.
Print Assumptions C73_tuned_spectra_not_negative.
(** Without NNLS no output has. *)
Theorem C73_outputs_not_negative_without_nnls : forall atan2 powf, atan2_law atan2 -> (forall s w, gt32 s z32 = true -> Bsign (powf s w) = false) -> forall (stamp : Type) c (frames : list (stamp * list b32)) o,
  ready c -> Forall (fun f => s_block c <= Z.of_nat (length (snd f))) frames -> Beqb (s_useNNLS c) z32 = true -> analyse atan2 powf c frames = Ret o ->
  Forall (fun tf => Forall not_negative (snd tf)) (o_notes o) /\ Forall (fun tf => Forall not_negative (snd tf)) (o_treble o) /\ Forall (fun tf => Forall not_negative (snd tf)) (o_bass o) /\ Forall (fun tf => Forall not_negative (snd tf)) (o_both o).
Proof. exact (fun atan2 powf A P stamp => @plain_outputs_nn atan2 powf A P stamp). Qed.
Print Assumptions C73_outputs_not_negative_without_nnls.
(** Semitone 19 sounds, and no error message is written. *)
Example C73_plain_case : option_map (fun r => (fst (fst r), snd r)) (shown_run (analyse sample_atan2 sample_pow (sample_setup z32) [("a", sample_frame)]%string)) = Some ([("a"%string, [(19, B2SF (rat32 9 8))])], 0).
Proof. vm_compute. reflexivity. Qed.
Print Assumptions C73_plain_case.

(** Each semitone of a frame: all +0 if nothing in the tuned spectrum is positive; without NNLS the bin of the semitone with half of its neighbours; with NNLS +0 where the band of the semitone has no energy. *)
Theorem C74_semitones_of_the_spectrum : forall atan2 powf, atan2_law atan2 -> (forall s w, gt32 s z32 = true -> Bsign (powf s w) = false) -> forall (stamp : Type) c (frames : list (stamp * list b32)) o,
  ready c -> Forall (fun f => s_block c <= Z.of_nat (length (snd f))) frames -> analyse atan2 powf c frames = Ret o ->
  Forall2 (fun tf tn => fst tn = fst tf /\ length (snd tn) = 84%nat /\
    (Forall (fun v => gt32 v z32 = false) (snd tf) -> snd tn = repeat z32 84) /\
    (Exists (fun v => gt32 v z32 = true) (snd tf) -> Beqb (s_useNNLS c) z32 = true -> snd tn = map (fun k => smoothed (snd tf) (3 * k + 3)) (zrange 0 83)) /\
    (Exists (fun v => gt32 v z32 = true) (snd tf) -> Beqb (s_useNNLS c) z32 = false -> forall k, 0 <= k < 84 -> has_energy (snd tf) k = false -> znth z32 (snd tn) k = z32)) (o_tuned o) (o_notes o).
Proof. exact (fun atan2 powf A P stamp => @C74_notes_proof atan2 powf A P stamp). Qed.
Print Assumptions C74_semitones_of_the_spectrum.
(** Without normalisation each chroma is the windowed sum of its semitones over the octaves, bit for bit, with and without NNLS; the third output is the bass chroma followed by the treble chroma. *)
Theorem C74_chroma_sums_the_octaves : forall atan2 powf, atan2_law atan2 -> (forall s w, gt32 s z32 = true -> Bsign (powf s w) = false) -> forall (stamp : Type) c (frames : list (stamp * list b32)) o,
  ready c -> Forall (fun f => s_block c <= Z.of_nat (length (snd f))) frames -> gt32 (s_normalize c) z32 = false -> analyse atan2 powf c frames = Ret o ->
  o_treble o = map (fun tn => (fst tn, chroma_of treblewindow (snd tn))) (o_notes o) /\ o_bass o = map (fun tn => (fst tn, chroma_of basswindow (snd tn))) (o_notes o) /\
  o_both o = map (fun tn => (fst tn, chroma_of basswindow (snd tn) ++ chroma_of treblewindow (snd tn))) (o_notes o).
Proof. exact (fun atan2 powf A P stamp => @analyse_plain_norm atan2 powf A P stamp). Qed.
Print Assumptions C74_chroma_sums_the_octaves.
(** The windows: between 0 and 1, the treble window symmetric, the bass window silent from semitone 37 on. *)
Theorem C74_windows : (forall k, 0 <= k < 84 -> is_finite (znth z32 treblewindow k) = true /\ is_finite (znth z32 basswindow k) = true /\ not_negative (znth z32 treblewindow k) /\ not_negative (znth z32 basswindow k) /\ Bltb one32 (znth z32 treblewindow k) = false /\ Bltb one32 (znth z32 basswindow k) = false) /\
  (forall k, 0 <= k < 84 -> znth z32 treblewindow k = znth z32 treblewindow (83 - k)) /\ (forall k, 37 <= k < 84 -> znth z32 basswindow k = z32).
Proof. exact C74_windows_proof. Qed.
Print Assumptions C74_windows.
(** With NNLS: semitone 19 is pitch class 7, E, as 0 is A; weight 0.995091 in the bass. *)
Example C74_nnls_case : option_map (fun r => map (fun tn => (fst tn, nth 7 (snd tn) SpecFloat.S754_nan)) (snd (fst r))) (shown_run (analyse sample_atan2 sample_pow (sample_setup one32) [("a", sample_frame)]%string)) =
  Some [("a"%string, B2SF (mul32 (rat32 7 1024) (micro 995091)))].
Proof. vm_compute. reflexivity. Qed.
Print Assumptions C74_nnls_case.

(** In exact arithmetic: the semitones that get a value are those whose band has energy; no value is negative; and if nnls() reports success, no other values that are not negative come closer to the spectrum. *)
Theorem C75_transcription_is_best : forall dict b : list R, length b = 256%nat -> Z.of_nat (length dict) = 256 * 84 ->
  exists l val r, transcribe (A := exact) dict b = Ret (map (fun k => (k, val k)) l) /\ NoDup l /\ (forall k, In k l <-> 0 <= k < 84 /\ (0 < znth 0 b (3 * k + 2) + znth 0 b (3 * k + 3) + znth 0 b (3 * k + 4))%R) /\ (forall k, 0 <= val k)%R /\ called (A := exact) dict b = Some (Ret r) /\
    (r_mode r = 1 -> forall other, (forall k, 0 <= other k)%R -> (distance dict b l val <= distance dict b l other)%R).
Proof. exact C75_best_proof. Qed.
Print Assumptions C75_transcription_is_best.
(** A spectrum with energy in the bands of semitones 18 and 19 only: two semitones are solved for, each with a column that has 1 at its bin and 1/4 two bins higher; in single precision nnls() reports success with 20/17 and 80/17. *)
Definition two_bands : list b32 := repeat z32 57 ++ [rat32 1 1; rat32 2 1; rat32 1 1; rat32 5 1] ++ repeat z32 195.
Definition two_columns : list b32 := map (fun i => if (i mod 256 =? 3 * (i / 256) + 3) then one32 else if (i mod 256 =? 3 * (i / 256) + 5) then rat32 1 4 else z32) (zrange 0 (256 * 84 - 1)).
Example C75_two_semitones : option_map (fun o : outcome (result single) => match o with Ret r => (r_mode r, map (fun k => option_map (fun v : b32 => B2SF v) (cell (r_x r) k)) [0; 1]) | _ => (0, []) end) (called (A := single) two_columns two_bands) = Some (1, [Some (B2SF (rat32 20 17)); Some (B2SF (rat32 80 17))]).
Proof. vm_compute. reflexivity. Qed.
Print Assumptions C75_two_semitones.

(** Normalisation by the largest value: a chroma with something positive has all values between 0 and 1, and one of them is 1; a silent chroma is left alone. The same holds for the joint chroma, which is scaled as a whole. *)
Theorem C76_largest_becomes_one : forall f4 f5, f4 <> [] -> f5 <> [] -> chroma_values f4 -> chroma_values f5 -> exists a b ab, normalised (rat32 1 1) f4 f5 = Ret (a, b, ab) /\
  (sounding f4 -> unit_values a /\ exists x, In x a /\ B2R x = 1%R) /\ (~ sounding f4 -> a = f4) /\ (sounding f5 -> unit_values b /\ exists x, In x b /\ B2R x = 1%R) /\ (~ sounding f5 -> b = f5) /\
  (sounding (f5 ++ f4) -> unit_values ab /\ exists x, In x ab /\ B2R x = 1%R) /\ (~ sounding (f5 ++ f4) -> ab = f5 ++ f4).
Proof. exact normalised_max. Qed.
Print Assumptions C76_largest_becomes_one.
(** Normalisation by the sum: all values are between 0 and 1, unless a sum overflows. *)
Theorem C76_sum_gives_unit_values : forall f4 f5, Forall not_negative f4 -> Forall not_negative f5 -> is_finite (sum32 f4) = true -> is_finite (sum32 f5) = true -> is_finite (sum32 (f5 ++ f4)) = true -> exists a b ab, normalised (rat32 2 1) f4 f5 = Ret (a, b, ab) /\
  (sounding f4 -> unit_values a) /\ (~ sounding f4 -> a = f4) /\ (sounding f5 -> unit_values b) /\ (~ sounding f5 -> b = f5) /\ (sounding (f5 ++ f4) -> unit_values ab) /\ (~ sounding (f5 ++ f4) -> ab = f5 ++ f4).
Proof. exact normalised_sum. Qed.
Print Assumptions C76_sum_gives_unit_values.
(** Whatever the setting is, the lengths stay, and what was not negative stays so. *)
Theorem C76_any_setting_keeps_lengths_and_signs : forall s f4 f5 a b ab, normalised s f4 f5 = Ret (a, b, ab) -> length a = length f4 /\ length b = length f5 /\ length ab = (length f5 + length f4)%nat /\ (Forall not_negative f4 -> Forall not_negative f5 -> Forall not_negative a /\ Forall not_negative b /\ Forall not_negative ab).
Proof. exact normalised_keeps. Qed.
Print Assumptions C76_any_setting_keeps_lengths_and_signs.
(** Treble 1, 4 and bass 0, 2: by the largest value 1/4, 1 and 0, 1 and jointly 0, 1/2, 1/4, 1. *)
Example C76_small_case : match normalised (rat32 1 1) [rat32 1 1; rat32 4 1] [z32; rat32 2 1] with Ret (a, b, ab) => (map B2SF a, map B2SF b, map B2SF ab) | _ => ([], [], []) end =
  (map B2SF [rat32 1 4; rat32 1 1], map B2SF [z32; rat32 1 1], map B2SF [z32; rat32 1 2; rat32 1 4; rat32 1 1]).
Proof. vm_compute. reflexivity. Qed.
Print Assumptions C76_small_case.
