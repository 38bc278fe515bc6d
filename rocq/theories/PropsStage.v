(** Property theorems C77-C80: the stages of the chroma plug-in, bin by bin. *)
From Coq Require Import Reals Lra Lia String.
From Flocq Require Import Core.Core IEEE754.BinarySingleNaN.
From Verif Require Import Base BaseFacts Fp Options Chromagram Nnls NnlsArith NnlsSpec Plug PlugSpec PlugFacts PlugNum PlugSafe PlugFrame PlugMain PlugCases PlugStageSpec PlugStages PlugRun PlugSilence.
Open Scope Z_scope.

(** C77: what process() makes of a block. Bins are clipped to the block length, rolled-off bins and blocks without a bin of at least 2 count as silent, and note k is the weighted sum of the bins that the kernel gives it. The means follow. *)
Theorem C77_process : forall atan2 (stamp : Type) c (p : @plug stamp) t fbuf, ready c -> length (p_mean p) = 3%nat -> length (p_local p) = 3%nat -> s_block c <= Z.of_nat (length fbuf) ->
  let spectrum := note_spectrum (s_kernel c) (s_block c) (s_rollon c) fbuf in
  process atan2 c p t fbuf = Ret (mkPlug (p_frames p + 1) (mean_next (p_frames p + 1) (p_mean p) spectrum) (local_next (p_local p) spectrum)
    (p_tuning p ++ [tuning_angle atan2 (s_sin c) (s_cos c) (local_next (p_local p) spectrum)]) (p_spectra p ++ [(t, spectrum)]), (t, spectrum)).
Proof. exact (fun atan2 stamp c => @process_eq atan2 atan2 stamp c). Qed.
Print Assumptions C77_process.
Definition sounding (l : list b32) : list (Z * SpecFloat.spec_float) := filter (fun x => negb (match snd x with SpecFloat.S754_zero _ => true | _ => false end)) (combine (zrange 0 255) (map B2SF l)).
(** Bins 0, 3, 4 and 0; with a roll-on of 80 percent bin 1 goes; bins 0, 1.5, 1.25 and 0 are too quiet; a bin of 100 in a block of 8 is cut to 8. *)
Example C77_case : let k := [(1, 60, one32); (2, 61, one32)] in
  sounding (note_spectrum k 8 z32 sample_frame) = [(60, B2SF (rat32 3 1)); (61, B2SF (rat32 4 1))] /\
  sounding (note_spectrum k 8 (rat32 80 1) sample_frame) = [(61, B2SF (rat32 4 1))] /\
  sounding (note_spectrum k 8 z32 [z32; z32; rat32 3 2; z32; z32; rat32 5 4; z32; z32]) = [] /\
  sounding (note_spectrum k 8 z32 [z32; z32; rat32 60 1; rat32 80 1; z32; rat32 5 4; z32; z32]) = [(60, B2SF (rat32 8 1)); (61, B2SF (rat32 5 4))].
Proof. cbv zeta. split; [vm_compute; reflexivity|]. split; [vm_compute; reflexivity|]. split; vm_compute; reflexivity. Qed.

(** C78: the tuning. Each tuned spectrum is the note spectrum of its frame, shifted by the tuning of the frame and then whitened; the global tuning comes from all frames, the local one from those so far. *)
Theorem C78_tuned_spectra : forall atan2 powf, atan2_law atan2 -> forall (stamp : Type) c (frames : list (stamp * list b32)) o, ready c -> Forall (fun f => s_block c <= Z.of_nat (length (snd f))) frames -> analyse atan2 powf c frames = Ret o ->
  let spectra := map (fun f => note_spectrum (s_kernel c) (s_block c) (s_rollon c) (snd f)) frames in
  o_tuned o = map (fun '(t, (a, s)) => (t, whitened powf (s_hw c) (s_whitening c) (retuned a s))) (combine (map fst frames) (combine (tunings atan2 (s_tuneLocal c) (s_sin c) (s_cos c) spectra) spectra)).
Proof. exact (fun atan2 powf A stamp => @analyse_tuned atan2 powf A stamp). Qed.
Print Assumptions C78_tuned_spectra.
(** A tuning is at most half a turn, so the shift is by two bins down to one bin up and a rest between 0 and 1. *)
Theorem C78_at_most_half_a_turn : forall atan2 powf, atan2_law atan2 -> (forall s w, gt32 s z32 = true -> Bsign (powf s w) = false) -> forall (stamp : Type) c (frames : list (stamp * list b32)) o, ready c -> Forall (fun f => s_block c <= Z.of_nat (length (snd f))) frames -> analyse atan2 powf c frames = Ret o ->
  Forall (fun a => is_finite a = true /\ (Rabs (B2R a) <= 1 / 2)%R /\ -2 <= whole_bins a <= 1 /\ is_finite (rest_of_bin a) = true /\ (0 <= B2R (rest_of_bin a) <= 1)%R)
    (tunings atan2 (s_tuneLocal c) (s_sin c) (s_cos c) (map (fun f => note_spectrum (s_kernel c) (s_block c) (s_rollon c) (snd f)) frames)).
Proof.
  intros atan2 powf A P stamp c frames o R F E. apply Forall_impl with (2 := tunings_numbers atan2 powf A P c frames o R F E). intros a B. destruct (shift_range a B) as (B1 & B2 & B3). destruct B as (B4 & B5). now repeat (split; [assumption|]).
Qed.
Print Assumptions C78_at_most_half_a_turn.
(** An arc tangent that always is -1, which is about -0.16 turns or half a bin down; with a window of one zero nothing is whitened. *)
Definition low_atan2 (y x : b32) : b32 := if is_nan y || is_nan x then B754_nan else rat32 (-1) 1.
Definition plain_setup (useNNLS : b32) : setup := mkSetup (s_dict (sample_setup useNNLS)) (s_kernel (sample_setup useNNLS)) [z32] (s_sin (sample_setup useNNLS)) (s_cos (sample_setup useNNLS)) 8 one32 useNNLS false z32 z32.
Lemma low_atan2_law : atan2_law low_atan2.
Proof.
  intros y x. unfold low_atan2. split; [intros (-> & ->); destruct (rat32_int (-1) ltac:(lia)) as (F & V); split; [exact F|]; cbn [orb]; rewrite V; apply Rabs_le; lra|intros [-> | ->]; [reflexivity|]; now destruct (is_nan y)].
Qed.
Lemma plain_ready u : ready (plain_setup u).
Proof. destruct (sample_ready u) as [R1 R2 _ R4 R5 R6 R7]. split; try assumption. exists 0. cbn. lia. Qed.
Definition tuned_of (o : outcome (@outputs string)) : list (string * list (Z * SpecFloat.spec_float)) := match o with Ret o => map (fun x => (fst x, sounding (snd x))) (o_tuned o) | _ => [] end.
(** About 3 * 0.52 = 1.57, 3 * 0.48 + 4 * 0.52 = 3.52 and 4 * 0.48 = 1.91. *)
Example C78_case : ready (plain_setup z32) /\ atan2_law low_atan2 /\ (exists o, analyse low_atan2 sample_pow (plain_setup z32) [("a", sample_frame)]%string = Ret o) /\
  tuned_of (analyse low_atan2 sample_pow (plain_setup z32) [("a", sample_frame)]%string) =
    [("a"%string, [(60, SpecFloat.S754_finite false 13150029 (-23)); (61, SpecFloat.S754_finite false 14774584 (-22)); (62, SpecFloat.S754_finite false 16021060 (-23))])].
Proof.
  split; [apply plain_ready|]. split; [exact low_atan2_law|]. split.
  - apply (C72_clean_proof low_atan2 sample_pow low_atan2_law sample_pow_law); [apply plain_ready| |repeat constructor; cbn; lia| |cbn; lia].
    + destruct (sample_moderate z32) as [M1 M2 M3 M4]. now split.
    + repeat (apply Forall_cons || apply Forall_nil); reflexivity.
  - vm_compute. reflexivity.
Qed.

(** C79: the whitening. The running mean is the window over the spectrum, near the edges that of the nearest bin with all neighbours; a bin keeps what is above the mean, divided by a power of the running deviation. *)
Theorem C79_running_mean : forall l hw h, length l = 256%nat -> Z.of_nat (length hw) = 2 * h + 1 -> 0 <= h <= 127 -> special_convolution l hw = Ret (map (running hw l) (zrange 0 255)).
Proof. exact convolution_eq. Qed.
Print Assumptions C79_running_mean.
Theorem C79_whitened : forall powf hw h w l, length l = 256%nat -> Z.of_nat (length hw) = 2 * h + 1 -> 0 <= h <= 127 -> exists e, whiten powf hw w l = Ret (whitened powf hw w l, e).
Proof. exact whiten_eq. Qed.
Print Assumptions C79_whitened.
(** Bin 10 is 4 and the rest silent; the window is 1/4, 1/2, 1/4, so the means are 1, 2 and 1: bin 10 is 2 above its mean, and its deviation is the root of (1 + 2 * 4 + 1) / 4. Here "pow" just gives the deviation. *)
Definition lone_bin : list b32 := repeat z32 10 ++ [rat32 4 1] ++ repeat z32 245.
Example C79_case : length lone_bin = 256%nat /\
  sounding (map (running [rat32 1 4; rat32 1 2; rat32 1 4] lone_bin) (zrange 0 255)) = [(9, B2SF one32); (10, B2SF (rat32 2 1)); (11, B2SF one32)] /\
  sounding (whitened (fun s _ => s) [rat32 1 4; rat32 1 2; rat32 1 4] one32 lone_bin) = [(10, B2SF (fdiv32 (rat32 2 1) (Bsqrt mode_NE (rat32 5 2))))].
Proof. split; [reflexivity|]. split; vm_compute; reflexivity. Qed.

(** C80: silence. A frame in which no bin reaches 2 gives zeros, positive ones, in all outputs, whatever the other frames and the settings. *)
Theorem C80_silence_in_silence_out : forall atan2 powf, atan2_law atan2 -> (forall s w, gt32 s z32 = true -> Bsign (powf s w) = false) -> forall (stamp : Type) c (frames : list (stamp * list b32)) o,
  ready c -> Forall (fun e : Z * Z * b32 => is_finite (snd e) = true) (s_kernel c) -> Forall (fun f => s_block c <= Z.of_nat (length (snd f))) frames -> analyse atan2 powf c frames = Ret o ->
  forall k f, nth_error frames k = Some f -> audible (bin_sizes (s_block c) (snd f)) = false ->
    nth_error (o_tuned o) k = Some (fst f, repeat nil32 256) /\ nth_error (o_notes o) k = Some (fst f, repeat nil32 84) /\ nth_error (o_treble o) k = Some (fst f, repeat nil32 12) /\ nth_error (o_bass o) k = Some (fst f, repeat nil32 12) /\ nth_error (o_both o) k = Some (fst f, repeat nil32 24).
Proof. exact (fun atan2 powf A P stamp => @silence atan2 powf A P stamp). Qed.
Print Assumptions C80_silence_in_silence_out.
(** A loud frame, a quiet one and a loud one. *)
Definition quiet_frame : list b32 := [one32; z32; rat32 3 2; z32; z32; rat32 7 4; one32; one32].
Example C80_case : audible (bin_sizes 8 quiet_frame) = false /\ audible (bin_sizes 8 sample_frame) = true /\
  tuned_of (analyse sample_atan2 sample_pow (plain_setup one32) [("a", sample_frame); ("b", quiet_frame); ("c", sample_frame)]%string) =
    [("a", [(60, B2SF (rat32 3 1)); (61, B2SF (rat32 4 1))]); ("b", []); ("c", [(60, B2SF (rat32 3 1)); (61, B2SF (rat32 4 1))])]%string.
Proof. split; [vm_compute; reflexivity|]. split; vm_compute; reflexivity. Qed.
