(** Property theorems C33-C39, C41, C42: chromagram files, discretisation, note sequences, MIDI events, mix-down. *)
From Coq Require Import Reals Lia Lra Ascii Sorted Permutation.
From Flocq Require Import Core.Core IEEE754.BinarySingleNaN.
From Verif Require Import Base BaseFacts Fp FpFacts Key KeyFacts PitchClass Hmm Pipeline Text Options Output Chromagram Midi Mixdown Main MusicSpec TextSpec TextFacts NumberFacts ReadFacts MainSpec OutputFacts OptionFacts MainFacts LogFacts ChromaSpec ChromaFacts SequenceFacts ChromaMain MixFacts ChromaCases.
Open Scope Z_scope.

(** C33: what a file holds is what the chromagram shows. *)
Theorem C33_csv_is_shown : forall content rows, csv_text content rows -> Forall proper_row rows ->
  exists m, chromagram_from_csv (Some content) = Ret (CHROMAGRAM_ORIGINAL_READY, m) /\ shows m (rows_events rows).
Proof. exact C33_proof. Qed.
Print Assumptions C33_csv_is_shown.
Theorem C33_shown_only_one_way : forall m m' es, shows m es -> shows m' es -> m = m'.
Proof. exact C33_unique_proof. Qed.
Print Assumptions C33_shown_only_one_way.
Theorem C33_audio_is_shown : forall fs rows, Forall2 feature_row fs rows -> Forall proper_row rows ->
  exists m, chromagram_from_audio (Features fs) = Ret (CHROMAGRAM_ORIGINAL_READY, m) /\ shows m (rows_events rows).
Proof. exact C33_audio_proof. Qed.
Print Assumptions C33_audio_is_shown.
(** 0.5 with thirteen values (0.25 overwrites the first), an empty line, a time alone, an earlier frame with two values. *)
Example C33_case : csv_text demo_csv (map (map float_value) demo_rows) /\ Forall proper_row (map (map float_value) demo_rows) /\
  exists m, chromagram_from_csv (Some demo_csv) = Ret (CHROMAGRAM_ORIGINAL_READY, m) /\
    map (fun f => map (fun x => trunc (fmul x (rat64 100 1))) (fst f :: snd f)) m =
      [[0; 0; 0; 0; 0; 0; 0; 0; 0; 0; 300; 290; 0]; [50; 400; 500; 600; 700; 800; 900; 1000; 1100; 1275; 25; 200; 300]].
Proof.
  split; [exact demo_text|]. split; [exact demo_proper|]. destruct (C33_proof demo_csv _ demo_text demo_proper) as (m & E & _). exists m. split; [exact E|].
  transitivity (match chromagram_from_csv (Some demo_csv) with Ret (_, m) => map (fun f => map (fun x => trunc (fmul x (rat64 100 1))) (fst f :: snd f)) m | _ => [] end);
  [now rewrite E|vm_compute; reflexivity].
Qed.

(** C34: order of lines. *)
Theorem C34_line_order_irrelevant : forall content content' rows rows', csv_text content rows -> csv_text content' rows' -> Permutation rows rows' ->
  Forall proper_row rows -> distinct_times rows -> chromagram_from_csv (Some content) = chromagram_from_csv (Some content').
Proof. exact C34_proof. Qed.
Print Assumptions C34_line_order_irrelevant.
Theorem C34_any_source_line_order_irrelevant : forall rows rows' m m', Permutation rows rows' -> distinct_times rows ->
  shows m (rows_events rows) -> shows m' (rows_events rows') -> m = m'.
Proof. exact C34_shows_proof. Qed.
Print Assumptions C34_any_source_line_order_irrelevant.
(** Two lines at time 1: the later value of A wins, A# of the earlier line stays. *)
Definition merging_rows : list (list decimal) := [[dec [1]; dec [5]; dec [6]]; [dec [0]; dec [2]]; [dec_point [1] [0]; dec [7]]].
Example C34_case : distinct_times (map (map float_value) demo_rows) /\ Permutation (map (map float_value) demo_rows) (map (map float_value) (rev demo_rows)) /\
  csv_text (csv_shown (rev demo_rows)) (map (map float_value) (rev demo_rows)) /\
  match chromagram_from_csv (Some (csv_shown merging_rows)) with
  | Ret (_, m) => map (fun f => map trunc (fst f :: snd f)) m = [[0; 0; 0; 0; 0; 0; 0; 0; 0; 0; 2; 0; 0]; [1; 0; 0; 0; 0; 0; 0; 0; 0; 0; 7; 6; 0]]
  | _ => False end.
Proof.
  split; [|split; [|split]].
  - repeat constructor; intros G G' X; try (destruct G; fail); try (destruct G'; fail); try (vm_compute in X; discriminate).
  - rewrite map_rev. apply Permutation_rev.
  - apply csv_checked; [reflexivity|repeat constructor|vm_compute; reflexivity].
  - vm_compute. reflexivity.
Qed.

(** C35: malformed numbers. *)
Theorem C35_not_a_number_throws : forall content tok, first_bad content tok -> ~ begins_number tok -> chromagram_from_csv (Some content) = Throws StdInvalidArgument.
Proof. exact C35_invalid_proof. Qed.
Print Assumptions C35_not_a_number_throws.
Theorem C35_out_of_range_throws : forall content ws d r, first_bad content (ws ++ show_decimal d ++ r) -> spaces ws -> well_formed d -> ends_here d r ->
  overflows 24 128 d \/ underflows32 d -> chromagram_from_csv (Some content) = Throws StdOutOfRange.
Proof. exact C35_range_proof. Qed.
Print Assumptions C35_out_of_range_throws.
Theorem C35_never_read : forall content lines line toks tok, fields "010" content lines -> In line lines -> fields "," line toks -> In tok toks -> ~ begins_number tok ->
  forall r, chromagram_from_csv (Some content) <> Ret r.
Proof. exact C35_never_read_proof. Qed.
Print Assumptions C35_never_read.
Theorem C35_main_throws : forall w o f base ext content tok, plain_file o f -> no_custom o -> f = (base ++ "." ++ ext)%string -> sized f ->
  lower_string ext = "csv"%string -> lacks "." ext -> w_csv w f = Some content -> first_bad content tok -> ~ begins_number tok ->
  main w (inl o) = Throws StdInvalidArgument.
Proof. exact C35_main_proof. Qed.
Print Assumptions C35_main_throws.
Definition header_csv : string := "0,1.5kHz,+2" ++ String "010" ("1,A,3" ++ String "010" "").
Example C35_case : first_bad header_csv "A" /\ ~ begins_number "A" /\ chromagram_from_csv (Some "0,1e39"%string) = Throws StdOutOfRange /\
  chromagram_from_csv (Some "0,1e-39"%string) = Throws StdOutOfRange /\
  match chromagram_from_csv (Some "0,3apples"%string) with Ret (_, [(_, vec)]) => map trunc vec = [0; 0; 0; 0; 0; 0; 0; 0; 0; 3; 0; 0] | _ => False end.
Proof.
  split; [|split; [apply stof_invalid; vm_compute; reflexivity|split; [vm_compute; reflexivity|split; vm_compute; reflexivity]]].
  exists ["0,1.5kHz,+2"%string], [map float_value [dec [0]; dec_point [1] [5]; mkDecimal Plus [2] None None]], "1,A,3"%string, [], ["1"%string], [float_value (dec [1])], ["3"%string].
  split; [apply fields_iff; reflexivity|]. split; [|split; [repeat constructor; vm_compute; reflexivity|split; [apply fields_iff; reflexivity|split; [|exact I]]]].
  - constructor; [|constructor]. exists ["0"; "1.5kHz"; "+2"]%string. split; [apply fields_iff; reflexivity|]. cbn [map].
    constructor; [apply (token_checked (dec [0])); vm_compute; reflexivity|]. constructor; [|constructor; [apply (token_checked (mkDecimal Plus [2] None None)); vm_compute; reflexivity|constructor]].
    pose proof (token_checked (dec_point [1] [5]) ltac:(vm_compute; reflexivity)) as T.
    assert (N : ~ (overflows 24 128 (dec_point [1] [5]) \/ underflows32 (dec_point [1] [5]))).
    { intros X. apply erange_spec in X; [vm_compute in X; discriminate|]. repeat constructor; unfold is_dig; try lia; discriminate. }
    assert (K : well_formed (dec_point [1] [5])) by (repeat constructor; unfold is_dig; try lia; discriminate).
    assert (E : ends_here (dec_point [1] [5]) "kHz").
    { split; [cbn; intuition discriminate|]. split; [intros _ _ Q; discriminate|]. split; [|intros Q; discriminate].
      intros _ (u & mk & ds & r & _ & _ & Q). destruct u; discriminate. }
    destruct (stof_decimal (dec_point [1] [5]) "" "kHz" (Forall_nil _) K E ltac:(tauto) ltac:(tauto)) as (x & Ex & Fx & Vx & Sx).
    assert (Q : x = nearest prec32 emax32 (numeral_of (dec_point [1] [5]))).
    { unfold stof in Ex. rewrite (stof_scan (dec_point [1] [5]) "" "kHz" (Forall_nil _) K E) in Ex. replace (erange32 (numeral_of (dec_point [1] [5]))) with false in Ex by (vm_compute; reflexivity). now apply Ret_inj in Ex. }
    subst x. destruct (f32_to_64_value _ Fx) as (A & B & C).
    exact (token_decimal "" (dec_point [1] [5]) "kHz" (float_value (dec_point [1] [5])) (Forall_nil _) K E ltac:(tauto) ltac:(tauto) A (eq_trans B Vx) (eq_trans C Sx)).
  - constructor; [|constructor]. apply (token_checked (dec [1])). vm_compute. reflexivity.
Qed.

(** C36: discretisation. *)
Theorem C36_values_are_floored : forall content rows, csv_text content rows -> Forall proper_row rows ->
  exists c, chromagram_csv (Some content) = Ret c /\ ch_status c = CHROMAGRAM_DISCRETE_READY /\ shows (ch_original c) (rows_events rows) /\
    map fst (ch_discrete c) = map fst (ch_original c) /\ Forall2 (fun f g => Forall2 floored (snd f) (snd g)) (ch_original c) (ch_discrete c).
Proof. exact C36_proof. Qed.
Print Assumptions C36_values_are_floored.
Theorem C36_audio_values_are_floored : forall fs rows, Forall2 feature_row fs rows -> Forall proper_row rows ->
  exists c, chromagram_audio (Features fs) = Ret c /\ ch_status c = CHROMAGRAM_DISCRETE_READY /\ shows (ch_original c) (rows_events rows) /\
    map fst (ch_discrete c) = map fst (ch_original c) /\ Forall2 (fun f g => Forall2 floored (snd f) (snd g)) (ch_original c) (ch_discrete c).
Proof. exact C36_audio_proof. Qed.
Print Assumptions C36_audio_values_are_floored.
Theorem C36_whole_values_stay : forall x n, is_finite x = true -> B2R x = IZR n -> ffloor x = x.
Proof. exact ffloor_whole. Qed.
Print Assumptions C36_whole_values_stay.
Example C36_case : csv_text demo_csv (map (map float_value) demo_rows) /\
  match chromagram_csv (Some demo_csv) with
  | Ret c => map (fun f => map (fun x => trunc (fmul x (rat64 100 1))) (snd f)) (ch_discrete c) =
      [[0; 0; 0; 0; 0; 0; 0; 0; 0; 300; 200; 0]; [400; 500; 600; 700; 800; 900; 1000; 1100; 1200; 0; 200; 300]]
  | _ => False end /\ B2SF (ffloor (rat64 (-1) 4)) = B2SF (rat64 (-1) 1).
Proof. split; [exact demo_text|]. split; vm_compute; reflexivity. Qed.

(** C37: the read past the last frame. *)
Theorem C37_always_undefined : forall m, m <> [] -> exists u, sequence None m = Undef u.
Proof. exact C37_proof. Qed.
Print Assumptions C37_always_undefined.
Theorem C37_end_is_dereferenced : forall m, m <> [] -> Forall (fun f => exists ns, Forall2 whole (snd f) ns /\ Forall (fun n => 0 <= n) ns) m -> sequence None m = Undef EndDeref.
Proof. exact C37_end_proof. Qed.
Print Assumptions C37_end_is_dereferenced.
Theorem C37_csv_run_is_undefined : forall w o f base ext content rows, plain_file o f -> no_custom o -> f = (base ++ "." ++ ext)%string -> sized f ->
  lower_string ext = "csv"%string -> lacks "." ext -> o_chroma o = false -> w_past w = None -> w_csv w f = Some content -> csv_text content rows ->
  Forall proper_row rows -> Exists giving rows -> exists u, main w (inl o) = Undef u.
Proof. exact C37_csv_proof. Qed.
Print Assumptions C37_csv_run_is_undefined.
Theorem C37_audio_run_is_undefined : forall w o f base ext fs rows, plain_file o f -> no_custom o -> f = (base ++ "." ++ ext)%string -> sized f ->
  lower_string ext = "wav"%string -> lacks "." ext -> o_chroma o = false -> w_past w = None -> w_audio w f = Features fs -> Forall2 feature_row fs rows ->
  Forall proper_row rows -> Exists giving rows -> exists u, main w (inl o) = Undef u.
Proof. exact C37_audio_proof. Qed.
Print Assumptions C37_audio_run_is_undefined.
Definition csv_world (past : option (list b64)) : world :=
  mkWorld toy_log10 (fun l => l) (fun l => l) (fun _ => Some demo_csv) (fun _ => Features [(" 0.0"%string, [rat32 5 2])]) (fun _ => (true, [])) "usage" past false
    (repeat fzero 12) (repeat fzero 12) (repeat fzero 24).
Example C37_case : main (csv_world None) (inl (plain_options "x.csv")) = Undef EndDeref /\ main (csv_world None) (inl (plain_options "x.wav")) = Undef EndDeref /\
  Exists giving (map (map float_value) demo_rows).
Proof. split; [vm_compute; reflexivity|]. split; [vm_compute; reflexivity|]. constructor. exact I. Qed.

(** C38: the notes, whatever the read past the end yields. *)
Theorem C38_notes_of_kept_frames : forall past m l notes, kept past (map snd m) l -> Forall2 spelled l notes ->
  sequence (Some past) m = Ret (map pc_of_int (concat notes)).
Proof. exact C38_proof. Qed.
Print Assumptions C38_notes_of_kept_frames.
Theorem C38_kept_frames_exist : forall past m, exists l, kept past m l /\ forall l', kept past m l' -> l' = l.
Proof. intros past m. destruct (kept_total past m) as (l & K). exists l. split; [exact K|]. intros l' K'. exact (kept_unique past m l' l K' K). Qed.
Print Assumptions C38_kept_frames_exist.
Theorem C38_repeated_frame_is_nothing : forall past a t t' vec b, Forall (fun x => is_nan x = false) vec ->
  sequence past (a ++ (t, vec) :: (t', vec) :: b) = sequence past (a ++ (t', vec) :: b).
Proof. exact C38_repeat_proof. Qed.
Print Assumptions C38_repeated_frame_is_nothing.
Definition frame_a : list b64 := [rat64 1 1; rat64 4 1; fzero; fzero; fzero; fzero; fzero; rat64 2 1; fzero; fzero; fzero; rat64 3 1].
Example C38_case : kept (repeat fzero 12) [frame_a; frame_a; repeat fzero 12] [frame_a] /\ spelled frame_a [1; 1; 1; 7; 11; 11] /\
  sequence (Some (repeat fzero 12)) [(fzero, frame_a); (rat64 1 1, frame_a); (rat64 2 1, repeat fzero 12)] = Ret (map pc_of_int [1; 1; 1; 7; 11; 11]).
Proof.
  split; [|split; [|vm_compute; reflexivity]].
  - constructor; [apply vector_eqb_iff; vm_compute; reflexivity|]. apply kept_keep; [intros X; apply vector_eqb_iff in X; vm_compute in X; discriminate|].
    apply kept_skip; [apply vector_eqb_iff; vm_compute; reflexivity|constructor].
  - exists [1; 4; 0; 0; 0; 0; 0; 2; 0; 0; 0; 3]. split; [|split; [repeat constructor; lia|reflexivity]].
    assert (W : forall z, 0 <= z <= 4 -> whole (rat64 z 1) z).
    { intros z Hz. assert (z = 0 \/ z = 1 \/ z = 2 \/ z = 3 \/ z = 4) as Q by lia. split; [|split; [|lia]].
      - destruct Q as [-> | [-> | [-> | [-> | ->]]]]; vm_compute; reflexivity.
      - rewrite <- SF2R_B2SF. destruct Q as [-> | [-> | [-> | [-> | ->]]]];
        match goal with |- context [B2SF ?x] => let v := eval vm_compute in (B2SF x) in replace (B2SF x) with v by (vm_compute; reflexivity) end; unfold SF2R, F2R; cbn -[IZR]; try lra. }
    assert (Z0 : whole fzero 0) by (split; [reflexivity|split; [reflexivity|lia]]).
    unfold frame_a. repeat constructor; try exact Z0; try (apply W; lia).
Qed.

(** C39: negative values. *)
Theorem C39_negative_overflows : forall past m l, kept past (map snd m) l -> Forall (fun vec => exists ns, Forall2 whole vec ns) l ->
  Exists (fun vec => Exists (fun x => is_finite x = true /\ (B2R x < 0)%R) vec) l -> sequence (Some past) m = Undef SignedOverflow.
Proof. exact C39_proof. Qed.
Print Assumptions C39_negative_overflows.
Theorem C39_negative_is_always_undefined : forall past m l, kept past (map snd m) l -> Exists (Exists (fun x => is_finite x = true /\ (B2R x <= -1)%R)) l ->
  exists u, sequence (Some past) m = Undef u.
Proof. exact C39_any_proof. Qed.
Print Assumptions C39_negative_is_always_undefined.
Example C39_case : sequence (Some (repeat fzero 12)) [(fzero, repeat (rat64 (-1) 1) 12)] = Undef SignedOverflow /\ kept (repeat fzero 12) [repeat (rat64 (-1) 1) 12] [repeat (rat64 (-1) 1) 12] /\
  whole (rat64 (-1) 1) (-1).
Proof.
  assert (W : whole (rat64 (-1) 1) (-1)).
  { split; [vm_compute; reflexivity|]. split; [|lia]. rewrite <- SF2R_B2SF. replace (B2SF (rat64 (-1) 1)) with (SpecFloat.S754_finite true 4503599627370496 (-52)) by (vm_compute; reflexivity).
    unfold SF2R, F2R. cbn -[IZR]. lra. }
  assert (K : kept (repeat fzero 12) [repeat (rat64 (-1) 1) 12] [repeat (rat64 (-1) 1) 12]).
  { apply kept_keep; [intros X; apply vector_eqb_iff in X; vm_compute in X; discriminate|constructor]. }
  split; [|now split]. apply (C39_proof (repeat fzero 12) [(fzero, repeat (rat64 (-1) 1) 12)] _ K).
  - constructor; [|constructor]. exists (repeat (-1) 12). cbn [repeat]. repeat constructor; apply W.
  - constructor. constructor. destruct W as (F & V & _). split; [exact F|]. rewrite V. lra.
Qed.

(** C41: MIDI. *)
Theorem C41_collected_notes : forall es ns, heard es ns -> Forall midi_event es -> midi_sequence true es = Ret (map pc_of_int ns).
Proof. exact C41_collected_proof. Qed.
Print Assumptions C41_collected_notes.
Theorem C41_every_file_has_notes : forall es, Forall midi_event es -> exists ns, heard es ns.
Proof. exact heard_total. Qed.
Print Assumptions C41_every_file_has_notes.
Theorem C41_never_returned : forall es, Forall midi_event es -> midi_sequence false es = Undef MissingReturn.
Proof. exact C41_not_returned_proof. Qed.
Print Assumptions C41_never_returned.
Theorem C41_midi_run_is_undefined : forall w o f base ext, plain_file o f -> no_custom o -> f = (base ++ "." ++ ext)%string -> sized f -> lacks "." ext ->
  kind_of_extension ext (Some INPUT_MIDI) -> w_returned w = false -> Forall midi_event (snd (w_midi w f)) -> main w (inl o) = Undef MissingReturn.
Proof. exact C41_main_proof. Qed.
Print Assumptions C41_midi_run_is_undefined.
Definition demo_events : list (list Z) := [[144; 60; 90]; [255; 81; 3; 7]; [128; 60; 64]; [159; 127; 1]; [144; 61; 0]; [176; 7]].
Example C41_case : Forall midi_event demo_events /\ heard demo_events [0; 7] /\ midi_sequence true demo_events = Ret (map pc_of_int [0; 7]).
Proof.
  split; [repeat constructor; lia|]. split; [|vm_compute; reflexivity]. unfold demo_events.
  apply (heard_note 0 60 90 []); [lia|lia|]. apply heard_other; [lia|lia|]. apply heard_other; [lia|lia|]. apply (heard_note 15 127 1 []); [lia|lia|].
  apply (heard_release 0 61 []); [lia|]. apply heard_other; [lia|lia|]. constructor.
Qed.

(** C42: mix-down. *)
Theorem C42_blocks_are_mono_and_padding : forall bs ch F frs, (0 < bs)%nat -> (0 < ch)%nat -> Forall (fun fr => length fr = ch) frs ->
  Z.of_nat (length frs) <= F -> Z.of_nat (length frs) <= INT_MAX ->
  exists blocks, mix_file (Z.of_nat bs) (Z.of_nat ch) F (concat frs) = Ret blocks /\
    Forall (fun b => length (snd b) = bs) blocks /\ map fst blocks = map (fun k => Z.of_nat bs * k) (zseq (length blocks)) /\
    exists pad, (pad < bs)%nat /\ concat (map snd blocks) = map mono frs ++ repeat (B754_zero false) pad.
Proof. exact C42_blocks_proof. Qed.
Print Assumptions C42_blocks_are_mono_and_padding.
Theorem C42_one_channel_exact : forall x, is_finite x = true -> is_finite (mono [x]) = true /\ B2R (mono [x]) = B2R x.
Proof. exact C42_one_proof. Qed.
Print Assumptions C42_one_channel_exact.
Theorem C42_two_equal_channels_exact : forall x, is_finite x = true -> (B2R x = 0 \/ bpow radix2 (-125) <= Rabs (B2R x))%R ->
  is_finite (mono [x; x]) = true /\ B2R (mono [x; x]) = B2R x.
Proof. exact C42_two_proof. Qed.
Print Assumptions C42_two_equal_channels_exact.
Theorem C42_average_up_to_rounding : forall frame, 1 <= Z.of_nat (length frame) <= 2 ^ 20 -> Forall (fun x => is_finite x = true /\ (Rabs (B2R x) <= 1)%R) frame ->
  is_finite (mono frame) = true /\
  (Rabs (B2R (mono frame) - real_sum frame / IZR (Z.of_nat (length frame))) <= IZR (Z.of_nat (length frame)) * bpow radix2 (-22))%R.
Proof. exact C42_average_proof. Qed.
Print Assumptions C42_average_up_to_rounding.
(** Eight equal channels do not always give the channel back. *)
Theorem C42_equal_channels_exact_refuted : exists x, is_finite x = true /\ (1 <= B2R x < 2)%R /\ B2R (mono (repeat x 8)) <> B2R x.
Proof. exact C42_eight_proof. Qed.
Print Assumptions C42_equal_channels_exact_refuted.
(** Five stereo frames in blocks of two: three blocks, one sample of padding. *)
Definition stereo : list (list b32) := map (fun k => [rat32 k 8; rat32 (k + 1) 8]) (zseq 5).
Example C42_case : Forall (fun fr => length fr = 2%nat) stereo /\
  match mix_file 2 2 5 (concat stereo) with
  | Ret blocks => map (fun b => (fst b, map (fun x => trunc (fmul (f32_to_64 x) (rat64 16 1))) (snd b))) blocks = [(0, [1; 3]); (2, [5; 7]); (4, [9; 0])]
  | _ => False end.
Proof. split; [repeat constructor|]. vm_compute. reflexivity. Qed.
