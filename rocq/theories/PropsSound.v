(** Property theorem C82: from a sound to a chromagram. *)
From Coq Require Import Reals Lra Lia String Sorted.
From Flocq Require Import Core.Core IEEE754.BinarySingleNaN.
From Verif Require Import Base BaseFacts Fp FpFacts Text Options Chromagram TextSpec ChromaSpec ChromaFacts ChromaMain ChromaCases Nnls NnlsArith NnlsSpec Plug PlugSpec PlugFacts PlugNum PlugSafe PlugFrame PlugNotes PlugMain PlugCases PlugStageSpec PlugSilence SoundFacts.
Open Scope Z_scope.

(** The frames are named by their times as text, which are numbers and pairwise different once rounded to floats. Then the detector stores one vector per frame, in the order of time, and nothing else:
    pitch class p, counted from C, holds the weighted sum of the semitones k of the frame with (9 + k) mod 12 = p; semitone 0 is an A. *)
Theorem C82_sound_to_chromagram : forall atan2 powf, atan2_law atan2 -> (forall s w, gt32 s z32 = true -> Bsign (powf s w) = false) -> forall c (frames : list (string * list b32)) o times,
  ready c -> Forall (fun f => s_block c <= Z.of_nat (length (snd f))) frames -> gt32 (s_normalize c) z32 = false -> analyse atan2 powf c frames = Ret o ->
  Forall2 (fun f t => token_value (fst f) t) frames times -> Forall (fun t => is_nan t = false) times -> ForallOrdPairs (fun t u => ~ same_time t u) times ->
  exists m, chromagram_from_audio (Features (o_treble o)) = Ret (CHROMAGRAM_ORIGINAL_READY, m) /\ StronglySorted (fun a b => earlier (fst a) (fst b)) m /\
    forall t vec, In (t, vec) m <-> exists k tn, nth_error times k = Some t /\ nth_error (o_notes o) k = Some tn /\
      vec = map (fun p => f32_to_64 (folded treblewindow (snd tn) ((p + 3) mod 12))) [0; 1; 2; 3; 4; 5; 6; 7; 8; 9; 10; 11].
Proof. exact sound. Qed.
Print Assumptions C82_sound_to_chromagram.
(** Whatever the settings: a frame in which no bin reaches 2 is stored as twelve zeros. *)
Theorem C82_silence_is_stored_as_zeros : forall atan2 powf, atan2_law atan2 -> (forall s w, gt32 s z32 = true -> Bsign (powf s w) = false) -> forall c (frames : list (string * list b32)) o times,
  ready c -> Forall (fun e : Z * Z * b32 => is_finite (snd e) = true) (s_kernel c) -> Forall (fun f => s_block c <= Z.of_nat (length (snd f))) frames -> analyse atan2 powf c frames = Ret o ->
  Forall2 (fun f t => token_value (fst f) t) frames times -> Forall (fun t => is_nan t = false) times -> ForallOrdPairs (fun t u => ~ same_time t u) times ->
  exists m, chromagram_from_audio (Features (o_treble o)) = Ret (CHROMAGRAM_ORIGINAL_READY, m) /\
    forall k f t, nth_error frames k = Some f -> nth_error times k = Some t -> audible (bin_sizes (s_block c) (snd f)) = false -> In (t, repeat (B754_zero false) 12) m.
Proof. exact sound_silence. Qed.
Print Assumptions C82_silence_is_stored_as_zeros.
(** A frame at 0.5 with energy in semitone 19, an E, that is pitch class 4; then a silent one at 0.25. *)
Definition two_frames : list (string * list b32) := [("0.5", sample_frame); ("0.25", repeat z32 8)]%string.
Definition two_times : list dbl := map float_value [dec_point [0] [5]; dec_point [0] [2; 5]].
Example C82_case : ready (sample_setup z32) /\ gt32 (s_normalize (sample_setup z32)) z32 = false /\ Forall2 (fun f t => token_value (fst f) t) two_frames two_times /\ Forall (fun t => is_nan t = false) two_times /\ ForallOrdPairs (fun t u => ~ same_time t u) two_times /\
  match analyse sample_atan2 sample_pow (sample_setup z32) two_frames with
  | Ret o => match chromagram_from_audio (Features (o_treble o)) with
             | Ret (_, m) => map (fun f => map (fun x => trunc (fmul x (rat64 1000 1))) (fst f :: snd f)) m
             | _ => [] end
  | _ => [] end = [[250; 0; 0; 0; 0; 0; 0; 0; 0; 0; 0; 0; 0]; [500; 0; 0; 0; 0; 499; 0; 0; 0; 0; 0; 0; 0]].
Proof.
  split; [apply sample_ready|]. split; [reflexivity|].
  split; [constructor; [exact (token_checked (dec_point [0] [5]) eq_refl)|constructor; [exact (token_checked (dec_point [0] [2; 5]) eq_refl)|constructor]]|].
  split; [repeat constructor; vm_compute; reflexivity|].
  split; [repeat constructor; unfold same_time; intros H; vm_compute in H; discriminate H|]. vm_compute. reflexivity.
Qed.
