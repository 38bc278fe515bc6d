(** Property theorems C103: the outputs of the chroma plug-in, and what a host gets from them. *)
From Coq Require Import Reals Lia String Sorted.
From Flocq Require Import Core.Core IEEE754.BinarySingleNaN.
From Verif Require Import Base BaseFacts Fp FpFacts Text Options Chromagram TextSpec ChromaSpec ChromaFacts ChromaMain ChromaCases Nnls NnlsArith NnlsSpec Plug PlugSpec PlugStageSpec PlugFacts PlugNum PlugSafe PlugFrame PlugMain PlugNotes PlugCases PlugRun Outputs OutputsFacts PropsPlug PropsSound.
Open Scope list_scope.
Open Scope Z_scope.

(** C103: a host that looks for an output by its identifier gets the features of this output from the whole run, in the order of the frames, and nothing of the others; if the plug-in fails, it fails in the same way. *)
Theorem C103_host_gets_the_output : forall atan2 powf (stamp : Type) c (frames : list (stamp * list b32)) id field,
  In (id, field) [("tunedlogfreqspec", o_tuned); ("semitonespectrum", o_notes); ("chroma", o_treble); ("basschroma", o_bass); ("bothchroma", o_both)]%string ->
  host_run atan2 powf id c frames = do o <- analyse atan2 powf c frames; Ret (Some (field o)).
Proof.
  intros atan2 powf stamp c frames id fd I. cbn in I.
  destruct I as [I|[I|[I|[I|[I|[]]]]]]; apply pair_equal_spec in I as (<- & <-);
    (etransitivity; [eapply host_field; [reflexivity|now vm_compute]|]); reflexivity.
Qed.
Print Assumptions C103_host_gets_the_output.
(** The first output holds the spectrum of every frame. *)
Theorem C103_host_gets_the_spectra : forall atan2 powf, atan2_law atan2 -> forall (stamp : Type) c (frames : list (stamp * list b32)) o,
  ready c -> Forall (fun f => s_block c <= Z.of_nat (length (snd f))) frames -> analyse atan2 powf c frames = Ret o ->
  host_run atan2 powf "logfreqspec" c frames = Ret (Some (map (fun f => (fst f, note_spectrum (s_kernel c) (s_block c) (s_rollon c) (snd f))) frames)).
Proof.
  intros atan2 powf A stamp c frames o R F E. rewrite host_spectra. unfold analyse in E. assert (P := processed_eq atan2 powf c frames R F). cbv zeta in P. unfold processed in P. rewrite P in *.
  cbn [bind] in *. rewrite E. cbn [bind p_spectra]. do 2 f_equal. clear. induction frames as [|f frames IH]; [reflexivity|]. cbn [map combine]. now rewrite IH.
Qed.
Print Assumptions C103_host_gets_the_spectra.
(** There is no other output. *)
Theorem C103_no_other_output : forall atan2 powf (stamp : Type) c (frames : list (stamp * list b32)) id,
  ~ In id ["logfreqspec"; "tunedlogfreqspec"; "semitonespectrum"; "chroma"; "basschroma"; "bothchroma"]%string -> host_run atan2 powf id c frames = Ret None.
Proof. exact (fun atan2 powf stamp c frames id => @host_none atan2 powf stamp id c frames). Qed.
Print Assumptions C103_no_other_output.
(** So the detector works on the treble chroma, and never reports an error of the plug-in. *)
Theorem C103_detector_gets_the_treble : forall atan2 powf c frames, audio_of atan2 powf c frames = do o <- analyse atan2 powf c frames; Ret (Features (o_treble o)).
Proof.
  intros atan2 powf c frames. unfold audio_of. rewrite (C103_host_gets_the_output atan2 powf string c frames "chroma" o_treble) by (cbn; tauto).
  now destruct (analyse atan2 powf c frames).
Qed.
Print Assumptions C103_detector_gets_the_treble.
(** As many values as declared, one feature for every frame, and one name for every value if there are names. *)
Theorem C103_declared_sizes : forall atan2 powf, atan2_law atan2 -> (forall s w, gt32 s z32 = true -> Bsign (powf s w) = false) -> forall (stamp : Type) c (frames : list (stamp * list b32)) ds n d l,
  ready c -> Forall (fun f => s_block c <= Z.of_nat (length (snd f))) frames -> get_outputs = Ret (ds, n) -> In d ds -> host_run atan2 powf (d_identifier d) c frames = Ret (Some l) ->
  stamped (Z.to_nat (d_bins d)) (map fst frames) l /\ (d_names d = [] \/ Z.of_nat (length (d_names d)) = d_bins d).
Proof.
  intros atan2 powf A P stamp c frames ds n d l R F G I H.
  assert (G' := G). rewrite get_outputs_eq in G'. apply Ret_inj in G'. apply pair_equal_spec in G' as (<- & _).
  destruct (C72_one_feature_per_frame atan2 powf A P stamp c frames R F) as [(o & E & _ & S1 & S2 & S3 & S4 & S5)|E].
  - cbn in I. destruct I as [<-|[<-|[<-|[<-|[<-|[<-|[]]]]]]]; cbn [d_identifier d_bins d_names] in *; (split; [|vm_compute; tauto]).
    + rewrite (C103_host_gets_the_spectra atan2 powf A stamp c frames o R F E) in H. apply Ret_inj in H. injection H as <-. split; [rewrite map_map; reflexivity|].
      apply Forall_map, Forall_forall. intros f _. cbn [snd]. exact (notes_length c (snd f)).
    + rewrite (C103_host_gets_the_output atan2 powf stamp c frames _ o_tuned), E in H by (cbn; tauto). cbn [bind] in H. apply Ret_inj in H. injection H as <-. exact S1.
    + rewrite (C103_host_gets_the_output atan2 powf stamp c frames _ o_notes), E in H by (cbn; tauto). cbn [bind] in H. apply Ret_inj in H. injection H as <-. exact S2.
    + rewrite (C103_host_gets_the_output atan2 powf stamp c frames _ o_treble), E in H by (cbn; tauto). cbn [bind] in H. apply Ret_inj in H. injection H as <-. exact S3.
    + rewrite (C103_host_gets_the_output atan2 powf stamp c frames _ o_bass), E in H by (cbn; tauto). cbn [bind] in H. apply Ret_inj in H. injection H as <-. exact S4.
    + rewrite (C103_host_gets_the_output atan2 powf stamp c frames _ o_both), E in H by (cbn; tauto). cbn [bind] in H. apply Ret_inj in H. injection H as <-. exact S5.
  - exfalso. cbn in I. destruct I as [<-|I].
    + cbn [d_identifier] in H. rewrite host_spectra in H. unfold analyse in E. destruct (over _ frames reset) as [p| |]; cbn [bind] in *; try discriminate. rewrite E in H. discriminate H.
    + destruct I as [<-|[<-|[<-|[<-|[<-|[]]]]]]; cbn [d_identifier] in H;
      [rewrite (C103_host_gets_the_output atan2 powf stamp c frames _ o_tuned), E in H by (cbn; tauto)|rewrite (C103_host_gets_the_output atan2 powf stamp c frames _ o_notes), E in H by (cbn; tauto)
      |rewrite (C103_host_gets_the_output atan2 powf stamp c frames _ o_treble), E in H by (cbn; tauto)|rewrite (C103_host_gets_the_output atan2 powf stamp c frames _ o_bass), E in H by (cbn; tauto)
      |rewrite (C103_host_gets_the_output atan2 powf stamp c frames _ o_both), E in H by (cbn; tauto)]; discriminate H.
Qed.
Print Assumptions C103_declared_sizes.
(** The names of the twelve pitch classes from C on, with the spelling of the plug-in; semitone 0 is the A of MIDI number 21. *)
Definition spelled : list string := ["C"; "C#"; "D"; "Eb"; "E"; "F"; "F#"; "G"; "Ab"; "A"; "Bb"; "B"]%string.
(** Every semitone is added to a value whose name is the one of its pitch class; in the output with both chromas the bass has the first twelve values and its names say so. *)
Theorem C103_names_are_right : exists ds n treble bass both, get_outputs = Ret (ds, n) /\
  In treble ds /\ d_identifier treble = "chroma"%string /\ In bass ds /\ d_identifier bass = "basschroma"%string /\ In both ds /\ d_identifier both = "bothchroma"%string /\
  forall s, 0 <= s -> exists name, nth_error spelled (Z.to_nat ((21 + s) mod 12)) = Some name /\
    nth_error (d_names treble) (Z.to_nat (s mod 12)) = Some name /\ nth_error (d_names bass) (Z.to_nat (s mod 12)) = Some name /\ nth_error (d_names both) (12 + Z.to_nat (s mod 12)) = Some name /\
    exists low, nth_error (d_names both) (Z.to_nat (s mod 12)) = Some low /\ low = (name ++ (if (String.length name =? 1)%nat then "  (bass)" else " (bass)"))%string.
Proof.
  exists the_outputs, the_numbers, (mkOutput "chroma" 12 treble_names), (mkOutput "basschroma" 12 treble_names), (mkOutput "bothchroma" 24 notenames).
  split; [exact get_outputs_eq|]. repeat (split; [cbn; tauto|]). intros s S.
  assert (E : (21 + s) mod 12 = (9 + s mod 12) mod 12) by (rewrite Zplus_mod_idemp_r; replace (21 + s) with (9 + s + 1 * 12) by lia; apply Z_mod_plus_full). rewrite E.
  assert (B := Z.mod_pos_bound s 12 ltac:(lia)). remember (s mod 12) as k eqn:K. clear K E S s. assert (C : In k [0; 1; 2; 3; 4; 5; 6; 7; 8; 9; 10; 11]) by (cbn; lia). clear B. cbn in C.
  repeat (destruct C as [<-|C]; [eexists; split; [reflexivity|]; split; [reflexivity|]; split; [reflexivity|]; split; [reflexivity|]; eexists; split; reflexivity|]). elim C.
Qed.
Print Assumptions C103_names_are_right.
(** The numbers of the outputs are not set before the outputs are asked for: a host that does not ask never gets a result. *)
Theorem C103_not_asked_is_undefined : forall atan2 powf (stamp : Type) c (p : @plug stamp) t fbuf,
  (forall r, process_set atan2 None c p t fbuf <> Ret r) /\ (p_spectra p <> [] -> forall r, remaining_set atan2 powf None c p <> Ret r) /\
  (forall r, process atan2 c p t fbuf = Ret r -> process_set atan2 None c p t fbuf = Undef UninitRead).
Proof.
  intros atan2 powf stamp c p t fbuf. split; [|split].
  - intros r. unfold process_set. destruct (process atan2 c p t fbuf) as [(p1, x)| |]; cbn [bind]; discriminate.
  - intros N r. unfold remaining_set. destruct (p_spectra p); [now elim N|]. destruct (remaining atan2 powf c p); cbn [bind]; discriminate.
  - intros (p1, x) E. unfold process_set. now rewrite E.
Qed.
Print Assumptions C103_not_asked_is_undefined.
(** The two frames of C82: the number found is 3, and the host gets two features of twelve values. *)
Example C103_case : exists l, audio_of sample_atan2 sample_pow (sample_setup z32) two_frames = Ret (Features l) /\ map (fun tf => (fst tf, length (snd tf))) l = [("0.5"%string, 12%nat); ("0.25"%string, 12%nat)] /\
  find_output "chroma" the_outputs = 3 /\ (exists r, process sample_atan2 (sample_setup z32) reset "0.5"%string sample_frame = Ret r).
Proof.
  assert (F : Forall (fun f => s_block (sample_setup z32) <= Z.of_nat (length (snd f))) two_frames) by (repeat constructor; cbn; lia).
  destruct (C72_clean_sound_returns _ _ sample_atan2_law sample_pow_law string (sample_setup z32) two_frames) as (o & E); [apply sample_ready|apply sample_moderate|exact F| |cbn; lia|].
  { repeat (apply Forall_cons || apply Forall_nil); reflexivity. }
  exists (o_treble o). split; [now rewrite C103_detector_gets_the_treble, E|].
  split; [|split; [vm_compute; reflexivity|]].
  - destruct (C72_one_feature_per_frame _ _ sample_atan2_law sample_pow_law string _ _ (sample_ready z32) F) as [(o' & E' & _ & _ & _ & (S & L) & _)|E']; [|rewrite E' in E; discriminate E].
    rewrite E in E'. apply Ret_inj in E'. subst o'. clear - S L. destruct (o_treble o) as [|(t, a) [|(u, b) [|]]]; try discriminate S. cbn in S. injection S as -> ->. inversion L as [|? ? L1 L2]; subst. inversion L2; subst. cbn in *. now rewrite L1, H1.
  - eexists. exact (process_eq sample_atan2 sample_atan2 (sample_setup z32) reset "0.5"%string sample_frame (sample_ready z32) eq_refl eq_refl ltac:(cbn; lia)).
Qed.
Print Assumptions C103_case.
