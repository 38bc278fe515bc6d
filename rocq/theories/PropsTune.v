(** Property theorems C93: the tuning plug-in. *)
From Coq Require Import Reals Lra Lia String.
From Flocq Require Import Core.Core IEEE754.BinarySingleNaN.
From Verif Require Import Base BaseFacts Fp Options Chromagram Nnls NnlsArith NnlsFacts Plug PlugSpec PlugFacts PlugNum PlugSafe PlugMain PlugClean PlugTuning PlugCases Setup Tune TuneSpec TuneFacts TuneMain.
Open Scope R_scope.

(** Any run of a plug-in that is ready returns: one value per block, with the time of the block, and one value for the whole, which lasts to the last block. *)
Theorem C93_runs_return : forall atan2 pow (stamp : Type) c (frames : list (stamp * list b32)), atan2_law atan2 -> ready c -> Forall (fun f => (s_block c <= Z.of_nat (length (snd f)))%Z) frames ->
  exists out whole, tuning_run atan2 pow c frames = Ret (out, whole) /\ map fst out = map fst frames /\ option_map snd whole = last (map (fun f => Some (fst f)) frames) None.
Proof. intros atan2 pow stamp c frames A R F. destruct (tuning_returns atan2 pow A c frames R F) as ((out, whole) & E & H1 & H2). now exists out, whole. Qed.
Print Assumptions C93_runs_return.
(** For sound of numbers the values are the pitches of the tunings that the chroma plug-in keeps for the same sound, block by block, and of the tuning it uses for the whole. *)
Theorem C93_pitches_of_the_tunings : forall atan2 pow (stamp : Type) c (frames : list (stamp * list b32)), atan2_law atan2 -> pow2_law pow -> ready c -> moderate c -> frames <> [] ->
  Forall (fun f => (s_block c <= Z.of_nat (length (snd f)))%Z /\ Forall num (snd f)) frames -> (Z.of_nat (length frames) < 2 ^ 18)%Z ->
  exists p out hz t, processed atan2 c frames reset = Ret p /\ tuning_run atan2 pow c frames = Ret (out, Some (hz, t)) /\
    Forall2 (fun a v => Rabs (B2R a) <= / 2 /\ pitched (B2R a) v) (p_tuning p) (map snd out) /\ Rabs (B2R (mean_angle atan2 c p)) <= / 2 /\ pitched (B2R (mean_angle atan2 c p)) hz.
Proof. intros atan2 pow stamp c frames A P. exact (tuning_pitches atan2 pow A P c frames). Qed.
Print Assumptions C93_pitches_of_the_tunings.
(** They are numbers, at least the declared minValue and at most 452.9. *)
Theorem C93_values : forall atan2 pow (stamp : Type) c (frames : list (stamp * list b32)), atan2_law atan2 -> pow2_law pow -> ready c -> moderate c -> frames <> [] ->
  Forall (fun f => (s_block c <= Z.of_nat (length (snd f)))%Z /\ Forall num (snd f)) frames -> (Z.of_nat (length frames) < 2 ^ 18)%Z ->
  exists out hz t, tuning_run atan2 pow c frames = Ret (out, Some (hz, t)) /\ Forall (fun v => is_finite v = true /\ B2R tuning_min <= B2R v <= 4529 / 10) (hz :: map snd out).
Proof.
  intros atan2 pow stamp c frames A P R M N F L. destruct (tuning_pitches atan2 pow A P c frames R M N F L) as (p & out & hz & t & _ & E & T & H1 & H2). exists out, hz, t. split; [exact E|]. constructor; [now apply pitched_range with (2 := H2)|].
  induction T as [|a v l l' (X & Y) _ IH]; constructor; [now apply pitched_range with (2 := Y)|exact IH].
Qed.
Print Assumptions C93_values.
(** The concert pitch of half a semitone up or down. *)
Theorem C93_concert_pitch : concert_pitch 0 = 440 /\ concert_pitch 12 = 880 /\ forall t, Rabs t <= / 2 -> 427474 / 1000 <= concert_pitch t <= 452893 / 1000.
Proof.
  split; [unfold concert_pitch; replace (0 / 12) with 0 by lra; rewrite Rpower_O by lra; lra|]. split; [unfold concert_pitch; replace (12 / 12) with 1 by lra; rewrite Rpower_1 by lra; lra|exact concert_range].
Qed.
Print Assumptions C93_concert_pitch.
(** The declared maxValue is not kept: with a sound half-way between two semitones both outputs are above it, whatever the library. *)
Theorem C93_half_way_is_above : forall atan2 pow, atan2_pi atan2 -> pow2_law pow ->
  exists v hz, tuning_run atan2 pow quarter_setup [("0"%string, quarter_frame)] = Ret ([("0"%string, v)], Some (hz, "0"%string)) /\ B2R tuning_max < B2R v /\ B2R tuning_max < B2R hz.
Proof. intros atan2 pow A P. destruct (quarter_run atan2 pow A P) as (v & hz & E & V & H). exists v, hz. split; [exact E|]. split; now apply quarter_above. Qed.
Print Assumptions C93_half_way_is_above.
Theorem C93_declared_extents_refuted : ~ (forall atan2 pow (stamp : Type) c (frames : list (stamp * list b32)) out hz t, atan2_law atan2 -> atan2_pi atan2 -> pow2_law pow -> ready c -> moderate c -> frames <> [] ->
  Forall (fun f => (s_block c <= Z.of_nat (length (snd f)))%Z /\ Forall num (snd f)) frames -> (Z.of_nat (length frames) < 2 ^ 18)%Z ->
  tuning_run atan2 pow c frames = Ret (out, Some (hz, t)) -> Forall (fun v => B2R tuning_min <= B2R v <= B2R tuning_max) (hz :: map snd out)).
Proof.
  intros W. destruct sample_atan2_pi_law as (A1 & A2). destruct (C93_half_way_is_above sample_atan2_pi sample_pow2 A2 sample_pow2_law) as (v & hz & E & V & H). assert (F := W sample_atan2_pi sample_pow2 string quarter_setup [("0"%string, quarter_frame)] [("0"%string, v)] hz "0"%string A1 A2 sample_pow2_law quarter_ready quarter_moderate quarter_some quarter_frames quarter_few E).
  apply Forall_inv in F. lra.
Qed.
Print Assumptions C93_declared_extents_refuted.
(** One block and no block. *)
Example C93_a_block : exists out hz t, tuning_run sample_atan2_pi sample_pow2 quarter_setup [("0"%string, quarter_frame)] = Ret (out, Some (hz, t)) /\ Forall (fun v => is_finite v = true /\ B2R tuning_min <= B2R v <= 4529 / 10) (hz :: map snd out).
Proof. apply C93_values; [apply sample_atan2_pi_law|exact sample_pow2_law|exact quarter_ready|exact quarter_moderate|exact quarter_some|exact quarter_frames|exact quarter_few]. Qed.
Example C93_no_block : tuning_run sample_atan2_pi sample_pow2 (stamp := string) quarter_setup [] = Ret ([], None).
Proof. reflexivity. Qed.
