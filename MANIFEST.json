{
 "claims": [
  {
   "property": "C01",
   "status": "proved",
   "theorems": [
    "C01_key_names"
   ],
   "note": ""
  },
  {
   "property": "C02",
   "status": "proved",
   "theorems": [
    "C02_key_name_roundtrip",
    "C02_key_names_distinct",
    "C02_spelling_kept",
    "C02_all_keys"
   ],
   "note": ""
  },
  {
   "property": "C03",
   "status": "proved",
   "theorems": [
    "C03_relative",
    "C03_parallel",
    "C03_dominant_subdominant",
    "C03_circle_of_fifths",
    "C03_circle_complete",
    "C03_operations_closed",
    "C03_operations_connect",
    "C03_unset_key"
   ],
   "note": ""
  },
  {
   "property": "C04",
   "status": "proved",
   "theorems": [
    "C04_trichotomy",
    "C04_equivalence_and_order",
    "C04_enharmonic",
    "C04_assignment",
    "C04_unset"
   ],
   "note": ""
  },
  {
   "property": "C05",
   "status": "proved",
   "theorems": [
    "C05_pitchclass_names",
    "C05_pitchclass_roundtrip",
    "C05_case_insensitive"
   ],
   "note": ""
  },
  {
   "property": "C06",
   "status": "proved",
   "theorems": [
    "C06_emission",
    "C06_shape",
    "C06_row_permutation",
    "C06_transposition"
   ],
   "note": ""
  },
  {
   "property": "C07",
   "status": "proved",
   "theorems": [
    "C07_unknown_name",
    "C07_known_names"
   ],
   "note": ""
  },
  {
   "property": "C08",
   "status": "proved",
   "theorems": [
    "C08_stable",
    "C08_unknown_becomes_valid",
    "C08_validity_stable_refuted"
   ],
   "note": "The statement that validity never changes is refuted; what does hold is proved."
  },
  {
   "property": "C09",
   "status": "proved",
   "theorems": [
    "C09_profiles_are_distributions",
    "C09_no_dead_pitch_class"
   ],
   "note": ""
  },
  {
   "property": "C10",
   "status": "proved",
   "theorems": [
    "C10_entry",
    "C10_transpose",
    "C10_shape"
   ],
   "note": ""
  },
  {
   "property": "C11",
   "status": "proved",
   "theorems": [
    "C11_rows",
    "C11_columns"
   ],
   "note": ""
  },
  {
   "property": "C12",
   "status": "proved",
   "theorems": [
    "C12_builtin_reversible",
    "C12_characterisation",
    "C12_relative_parallel_swapped"
   ],
   "note": ""
  },
  {
   "property": "C13",
   "status": "proved",
   "theorems": [
    "C13_builtin_distributions",
    "C13_heatmap_no_distribution",
    "C13_names"
   ],
   "note": "The heat-map array is proved not to be a distribution."
  },
  {
   "property": "C14",
   "status": "proved",
   "theorems": [
    "C14_one_key_per_observation"
   ],
   "note": ""
  },
  {
   "property": "C15",
   "status": "proved",
   "theorems": [
    "C15_optimal"
   ],
   "note": "log10 is a parameter with the properties log10_ok; the iteration order of the hash table is a parameter."
  },
  {
   "property": "C16",
   "status": "proved",
   "theorems": [
    "C16_maximum_is_path_score",
    "C16_vector"
   ],
   "note": ""
  },
  {
   "property": "C17",
   "status": "proved",
   "theorems": [
    "C17_order_independent",
    "C17_every_tied_state_possible"
   ],
   "note": "The single-note tie on the built-in profiles is part of C23."
  },
  {
   "property": "C18",
   "status": "proved",
   "theorems": [
    "C18_nearly_most_probable"
   ],
   "note": "log10 is any function with error at most 2^-43 relative on positive doubles."
  },
  {
   "property": "C19",
   "status": "proved",
   "theorems": [
    "C19_no_observations"
   ],
   "note": ""
  },
  {
   "property": "C20",
   "status": "proved",
   "theorems": [
    "C20_runs_accumulate",
    "C20_rerun_same_keys_refuted"
   ],
   "note": "The expectation that a second run gives the same keys is refuted."
  },
  {
   "property": "C21",
   "status": "proved",
   "theorems": [
    "C21_outcomes",
    "C21_completes_iff"
   ],
   "note": ""
  },
  {
   "property": "C22",
   "status": "proved",
   "theorems": [
    "C22_always_a_key",
    "C22_custom_tables"
   ],
   "note": ""
  },
  {
   "property": "C23",
   "status": "proved",
   "theorems": [
    "C23_scores_transpose",
    "C23_key_follows_without_ties",
    "C23_single_note_tie",
    "C23_key_follows_refuted"
   ],
   "note": ""
  },
  {
   "property": "C24",
   "status": "proved",
   "theorems": [
    "C24_one_global_key"
   ],
   "note": ""
  },
  {
   "property": "C25",
   "status": "proved",
   "theorems": [
    "C25_label_names_the_key",
    "C25_labels_differ"
   ],
   "note": ""
  },
  {
   "property": "C26",
   "status": "proved",
   "theorems": [
    "C26_score_is_the_credit",
    "C26_credit_is_unique",
    "C26_full_credit_only_when_right",
    "C26_subdominant_gets_nothing"
   ],
   "note": ""
  },
  {
   "property": "C27",
   "status": "proved",
   "theorems": [
    "C27_truth_between_underscore_and_dot",
    "C27_no_marker_prints_nothing",
    "C27_not_a_key_name_is_undefined",
    "C27_underscore_after_dot"
   ],
   "note": ""
  },
  {
   "property": "C28",
   "status": "proved",
   "theorems": [
    "C28_extension_decides",
    "C28_kind_is_unique",
    "C28_unknown_extension_helps",
    "C28_no_dot_throws",
    "C28_every_name"
   ],
   "note": ""
  },
  {
   "property": "C29",
   "status": "proved",
   "theorems": [
    "C29_format_option_undefined",
    "C29_format_option_never_gives_a_key"
   ],
   "note": ""
  },
  {
   "property": "C30",
   "status": "proved",
   "theorems": [
    "C30_exactly_24_accepted",
    "C30_other_counts_print_help",
    "C30_message_names_the_count",
    "C30_numbers_exist_uniquely",
    "C30_tables_used",
    "C30_values_used"
   ],
   "note": ""
  },
  {
   "property": "C31",
   "status": "proved",
   "theorems": [
    "C31_exactly_24_accepted",
    "C31_fewer_print_help",
    "C31_more_write_out_of_bounds",
    "C31_tables_used",
    "C31_values_used",
    "C31_both_custom"
   ],
   "note": ""
  },
  {
   "property": "C32",
   "status": "proved",
   "theorems": [
    "C32_missing_csv",
    "C32_missing_audio",
    "C32_midi_verdict_ignored",
    "C32_midi_never_reports",
    "C32_exit_codes"
   ],
   "note": ""
  },
  {
   "property": "C33",
   "status": "proved",
   "theorems": [
    "C33_csv_is_shown",
    "C33_shown_only_one_way",
    "C33_audio_is_shown"
   ],
   "note": ""
  },
  {
   "property": "C34",
   "status": "proved",
   "theorems": [
    "C34_line_order_irrelevant",
    "C34_any_source_line_order_irrelevant"
   ],
   "note": ""
  },
  {
   "property": "C35",
   "status": "proved",
   "theorems": [
    "C35_not_a_number_throws",
    "C35_out_of_range_throws",
    "C35_never_read",
    "C35_main_throws"
   ],
   "note": ""
  },
  {
   "property": "C36",
   "status": "proved",
   "theorems": [
    "C36_values_are_floored",
    "C36_audio_values_are_floored",
    "C36_whole_values_stay"
   ],
   "note": ""
  },
  {
   "property": "C37",
   "status": "proved",
   "theorems": [
    "C37_always_undefined",
    "C37_end_is_dereferenced",
    "C37_csv_run_is_undefined",
    "C37_audio_run_is_undefined"
   ],
   "note": ""
  },
  {
   "property": "C38",
   "status": "proved",
   "theorems": [
    "C38_notes_of_kept_frames",
    "C38_kept_frames_exist",
    "C38_repeated_frame_is_nothing"
   ],
   "note": ""
  },
  {
   "property": "C39",
   "status": "proved",
   "theorems": [
    "C39_negative_overflows",
    "C39_negative_is_always_undefined"
   ],
   "note": ""
  },
  {
   "property": "C40",
   "status": "proved",
   "theorems": [
    "C40_dump_of_a_file",
    "C40_dump_can_be_read_back",
    "C40_equal_looking_times_are_merged",
    "C40_values_read_back",
    "C40_every_dump_can_be_read_refuted",
    "C40_same_notes_refuted",
    "C40_every_frame_kept_refuted"
   ],
   "note": ""
  },
  {
   "property": "C41",
   "status": "proved",
   "theorems": [
    "C41_collected_notes",
    "C41_every_file_has_notes",
    "C41_never_returned",
    "C41_midi_run_is_undefined"
   ],
   "note": ""
  },
  {
   "property": "C42",
   "status": "proved",
   "theorems": [
    "C42_blocks_are_mono_and_padding",
    "C42_one_channel_exact",
    "C42_two_equal_channels_exact",
    "C42_average_up_to_rounding",
    "C42_equal_channels_exact_refuted"
   ],
   "note": ""
  },
  {
   "property": "C43",
   "status": "proved",
   "theorems": [
    "C43_stof_is_the_nearest_float",
    "C43_stof_throws",
    "C43_token_has_one_value",
    "C43_stream_reads_the_nearest_double",
    "C43_both_readers_accept_the_same_refuted"
   ],
   "note": ""
  },
  {
   "property": "C44",
   "status": "proved",
   "theorems": [
    "C44_text_of_a_number",
    "C44_text_exists_uniquely",
    "C44_text_is_close",
    "C44_order_is_kept",
    "C44_different_numbers_look_different_refuted"
   ],
   "note": ""
  },
  {
   "property": "C45",
   "status": "proved",
   "theorems": [
    "C45_profiles_are_the_published_ratings",
    "C45_no_other_profile_is_stored"
   ],
   "note": "The ratings in DataSpec.v were written down from memory of the literature, with the stored tables at hand, and could not be checked against the publications. The theorem relates the stored quotients to those ratings; it does not certify the ratings."
  },
  {
   "property": "C46",
   "status": "proved",
   "theorems": [
    "C46_name_has_fewest_accidentals",
    "C46_signature_of_the_name",
    "C46_every_name_has_fewest_accidentals_refuted"
   ],
   "note": ""
  },
  {
   "property": "C47",
   "status": "proved",
   "theorems": [
    "C47_every_pair_is_in_one_class",
    "C47_weight_of_each_class",
    "C47_nearer_keys_are_likelier",
    "C47_nearer_within_three_steps_refuted"
   ],
   "note": ""
  },
  {
   "property": "C48",
   "status": "proved",
   "theorems": [
    "C48_judgement",
    "C48_judgement_is_symmetric",
    "C48_judgement_of_transposed_keys",
    "C48_same_credit_as_the_detector",
    "C48_same_credit_for_all_pairs_refuted",
    "C48_unknown_label",
    "C48_unknown_label_gets_no_credit_refuted"
   ],
   "note": ""
  },
  {
   "property": "C49",
   "status": "proved",
   "theorems": [
    "C49_score",
    "C49_different_lengths",
    "C49_no_predictions"
   ],
   "note": ""
  },
  {
   "property": "C50",
   "status": "proved",
   "theorems": [
    "C50_transpose",
    "C50_augmentation",
    "C50_ragged_features",
    "C50_unknown_label_stays_unknown_refuted"
   ],
   "note": ""
  },
  {
   "property": "C51",
   "status": "proved",
   "theorems": [
    "C51_every_text_has_its_words",
    "C51_label",
    "C51_unknown_label",
    "C51_label_means_the_same_to_the_detector",
    "C51_names_only_the_detector_knows",
    "C51_normalised_label",
    "C51_annotated_file_name",
    "C51_unknown_annotation"
   ],
   "note": ""
  },
  {
   "property": "C52",
   "status": "proved",
   "theorems": [
    "C52_total_is_the_sum_over_all_paths",
    "C52_path_is_heaviest",
    "C52_path_is_heaviest_in_doubles",
    "C52_printed_output"
   ],
   "note": ""
  },
  {
   "property": "C53",
   "status": "proved",
   "theorems": [
    "C53_one_state_per_frame",
    "C53_path_is_heaviest",
    "C53_path_is_heaviest_in_doubles",
    "C53_short_input_is_undefined",
    "C53_first_chord_is_no_chord"
   ],
   "note": "In doubles, optimality is proved for runs in which every frame sum is positive. Of Chordino only the tables and the call are modelled."
  },
  {
   "property": "C54",
   "status": "proved",
   "theorems": [
    "C54_text_of_a_number",
    "C54_tables_reach_the_detector",
    "C54_small_loss",
    "C54_order_kept",
    "C54_small_values_vanish",
    "C54_exact_values_refuted",
    "C54_unknown_profile",
    "C54_unknown_transition"
   ],
   "note": ""
  },
  {
   "property": "C55",
   "status": "proved",
   "theorems": [
    "C55_same_major_profiles",
    "C55_same_minor_profiles",
    "C55_same_transitions",
    "C55_stored_tables",
    "C55_mixture",
    "C55_no_mixture",
    "C55_warning_when_too_small",
    "C55_no_warning_from_99_percent",
    "C55_every_bad_sum_reported_refuted"
   ],
   "note": ""
  },
  {
   "property": "C56",
   "status": "proved",
   "theorems": [
    "C56_major_profile",
    "C56_minor_profile",
    "C56_stochastic_transition",
    "C56_every_major_possible",
    "C56_every_minor_possible",
    "C56_every_transition_possible",
    "C56_small_maximum_major",
    "C56_small_maximum_minor",
    "C56_small_maximum_transition",
    "C56_sum_is_one",
    "C56_remotest_key",
    "C56_geometric_accurate",
    "C56_geometric_sum",
    "C56_geometric_classes",
    "C56_geometric_order",
    "C56_new_profile",
    "C56_new_stochastic",
    "C56_new_geometric",
    "C56_always_succeeds_refuted"
   ],
   "note": ""
  },
  {
   "property": "C57",
   "status": "proved",
   "theorems": [
    "C57_next_generation",
    "C57_built_in_profiles",
    "C57_no_number_taken",
    "C57_mutation",
    "C57_four_profiles_raise",
    "C57_best_survives_refuted"
   ],
   "note": ""
  },
  {
   "property": "C58",
   "status": "proved",
   "theorems": [
    "C58_next_generation",
    "C58_mutation",
    "C58_fewer_than_five",
    "C58_no_number_taken",
    "C58_without_ratio_raises",
    "C58_built_in_without_ratio",
    "C58_built_in_evolve_refuted"
   ],
   "note": ""
  },
  {
   "property": "C59",
   "status": "proved",
   "theorems": [
    "C59_error_of_a_file",
    "C59_error_of_all_files",
    "C59_fair_comparison",
    "C59_squares"
   ],
   "note": ""
  },
  {
   "property": "C60",
   "status": "proved",
   "theorems": [
    "C60_sorted",
    "C60_initial_tables",
    "C60_no_profiles_raise",
    "C60_profile_generation",
    "C60_transition_generation",
    "C60_lowest_error_never_rises",
    "C60_whole_run",
    "C60_only_division_by_zero",
    "C60_shipped_configuration",
    "C60_best_of_the_population_refuted"
   ],
   "note": ""
  },
  {
   "property": "C61",
   "status": "proved",
   "theorems": [
    "C61_float_reads_numbers",
    "C61_float_refuses_the_rest",
    "C61_words",
    "C61_printed_scores_become_features",
    "C61_order_is_kept",
    "C61_features_are_close",
    "C61_any_other_output_fails",
    "C61_strict_order_refuted"
   ],
   "note": ""
  },
  {
   "property": "C62",
   "status": "proved",
   "theorems": [
    "C62_features_of_a_run",
    "C62_stored_tables",
    "C62_rows_of_an_ensemble",
    "C62_shipped_ensemble",
    "C62_notes_of_a_midi_file",
    "C62_notes_of_a_chromagram",
    "C62_mixtures_under_their_names_refuted",
    "C62_later_calls_ignore_the_flag"
   ],
   "note": ""
  },
  {
   "property": "C63",
   "status": "proved",
   "theorems": [
    "C63_every_score",
    "C63_scores_are_fair",
    "C63_score_of_a_run",
    "C63_full_score",
    "C63_no_score_without_a_key_in_the_name"
   ],
   "note": ""
  },
  {
   "property": "C64",
   "status": "proved",
   "theorems": [
    "C64_scaled_row",
    "C64_infinite_features_are_refused",
    "C64_each_row_on_its_own",
    "C64_only_whole_rows",
    "C64_within_the_range_refuted"
   ],
   "note": ""
  },
  {
   "property": "C65",
   "status": "proved",
   "theorems": [
    "C65_names_the_key",
    "C65_names_differ",
    "C65_same_label_as_the_detector",
    "C65_same_label_refuted",
    "C65_refused_files_all_get_one_answer",
    "C65_answer_for_a_file"
   ],
   "note": ""
  },
  {
   "property": "C66",
   "status": "proved",
   "theorems": [
    "C66_accepts_music",
    "C66_refuses_other_files",
    "C66_name",
    "C66_rows_and_labels",
    "C66_one_row_per_name",
    "C66_missing_annotation",
    "C66_splits",
    "C66_one_row_per_file_refuted"
   ],
   "note": ""
  },
  {
   "property": "C67",
   "status": "proved",
   "theorems": [
    "C67_tables_come_back",
    "C67_mixed_comes_back_refuted",
    "C67_stored_dataset",
    "C67_stale_labels_refuted",
    "C67_order_of_files_refuted"
   ],
   "note": ""
  },
  {
   "property": "C68",
   "status": "proved",
   "theorems": [
    "C68_datasets_in_one_folder",
    "C68_training_data",
    "C68_scaling_after_transposing",
    "C68_other_tables",
    "C68_names_of_the_trainer",
    "C68_unknown_label",
    "C68_every_class_is_a_key_refuted"
   ],
   "note": ""
  },
  {
   "property": "C69",
   "status": "proved",
   "theorems": [
    "C69_always_ends",
    "C69_empty_problem",
    "C69_short_arrays_undefined"
   ],
   "note": ""
  },
  {
   "property": "C70",
   "status": "proved",
   "theorems": [
    "C70_solves_the_problem"
   ],
   "note": ""
  },
  {
   "property": "C71",
   "status": "proved",
   "theorems": [
    "C71_not_negative_without_overflow",
    "C71_never_negative_refuted"
   ],
   "note": ""
  },
  {
   "property": "C72",
   "status": "proved",
   "theorems": [
    "C72_one_feature_per_frame",
    "C72_clean_sound_returns",
    "C72_one_bad_sample_is_undefined",
    "C72_kernel_is_the_positive_part"
   ],
   "note": ""
  },
  {
   "property": "C73",
   "status": "proved",
   "theorems": [
    "C73_tuned_spectra_not_negative",
    "C73_outputs_not_negative_without_nnls"
   ],
   "note": ""
  },
  {
   "property": "C74",
   "status": "proved",
   "theorems": [
    "C74_semitones_of_the_spectrum",
    "C74_chroma_sums_the_octaves",
    "C74_windows"
   ],
   "note": ""
  },
  {
   "property": "C75",
   "status": "proved",
   "theorems": [
    "C75_transcription_is_best"
   ],
   "note": ""
  },
  {
   "property": "C76",
   "status": "proved",
   "theorems": [
    "C76_largest_becomes_one",
    "C76_sum_gives_unit_values",
    "C76_any_setting_keeps_lengths_and_signs"
   ],
   "note": ""
  },
  {
   "property": "C77",
   "status": "proved",
   "theorems": [
    "C77_process"
   ],
   "note": ""
  },
  {
   "property": "C78",
   "status": "proved",
   "theorems": [
    "C78_tuned_spectra",
    "C78_at_most_half_a_turn"
   ],
   "note": ""
  },
  {
   "property": "C79",
   "status": "proved",
   "theorems": [
    "C79_running_mean",
    "C79_whitened"
   ],
   "note": ""
  },
  {
   "property": "C80",
   "status": "proved",
   "theorems": [
    "C80_silence_in_silence_out"
   ],
   "note": ""
  },
  {
   "property": "C81",
   "status": "proved",
   "theorems": [
    "C81_stored_tables",
    "C81_chosen_tables",
    "C81_midi_file",
    "C81_bad_options"
   ],
   "note": ""
  },
  {
   "property": "C82",
   "status": "proved",
   "theorems": [
    "C82_sound_to_chromagram",
    "C82_silence_is_stored_as_zeros"
   ],
   "note": ""
  },
  {
   "property": "C83",
   "status": "proved",
   "theorems": [
    "C83_decoder_runs_viterbi",
    "C83_nothing_to_decode",
    "C83_the_check_protects_refuted"
   ],
   "note": ""
  },
  {
   "property": "C84",
   "status": "proved",
   "theorems": [
    "C84_most_probable_path",
    "C84_a_frame_without_paths",
    "C84_decoder_finds_the_path",
    "C84_decoder_restarts"
   ],
   "note": ""
  },
  {
   "property": "C85",
   "status": "proved",
   "theorems": [
    "C85_every_type_on_every_root",
    "C85_short_table",
    "C85_range_of_notes",
    "C85_names_of_notes",
    "C85_tables_of_the_program",
    "C85_names_are_distinct_refuted",
    "C85_notes_are_distinct_refuted",
    "C85_transposed_values_refuted"
   ],
   "note": ""
  },
  {
   "property": "C86",
   "status": "proved",
   "theorems": [
    "C86_transcription_follows_the_path",
    "C86_first_and_last_event",
    "C86_notes_end_in_time",
    "C86_neighbours_have_different_names_refuted",
    "C86_every_note_lasts_refuted"
   ],
   "note": ""
  },
  {
   "property": "C87",
   "status": "proved",
   "theorems": [
    "C87_saliences",
    "C87_whole_run"
   ],
   "note": ""
  },
  {
   "property": "C88",
   "status": "proved",
   "theorems": [
    "C88_nearly_most_probable",
    "C88_exactly_most_probable_refuted",
    "C88_chords_nearly_most_probable"
   ],
   "note": ""
  },
  {
   "property": "C89",
   "status": "proved",
   "theorems": [
    "C89_dictionary_holds_sounds",
    "C89_sound_of_a_semitone",
    "C89_mixtures_differ",
    "C89_notes_are_found"
   ],
   "note": ""
  },
  {
   "property": "C90",
   "status": "proved",
   "theorems": [
    "C90_initialised_is_ready",
    "C90_tables",
    "C90_host_gets_results",
    "C90_small_blocks_are_undefined"
   ],
   "note": ""
  },
  {
   "property": "C91",
   "status": "proved",
   "theorems": [
    "C91_assertion_after_n_calls",
    "C91_window_grows",
    "C91_dictionary_doubles",
    "C91_refused_call_changes_nothing_refuted",
    "C91_refused_call"
   ],
   "note": ""
  },
  {
   "property": "C92",
   "status": "proved",
   "theorems": [
    "C92_set_then_get",
    "C92_unknown_is_ignored",
    "C92_defaults",
    "C92_declared_values",
    "C92_set_is_got_refuted"
   ],
   "note": ""
  },
  {
   "property": "C93",
   "status": "proved",
   "theorems": [
    "C93_runs_return",
    "C93_pitches_of_the_tunings",
    "C93_values",
    "C93_concert_pitch",
    "C93_half_way_is_above",
    "C93_declared_extents_refuted"
   ],
   "note": ""
  },
  {
   "property": "C94",
   "status": "proved",
   "theorems": [
    "C94_written_is_read",
    "C94_last_line",
    "C94_chords_of_a_file",
    "C94_shipped_file",
    "C94_name_alone_is_undefined",
    "C94_blank_line_spoils",
    "C94_types_keep_to_their_lines_refuted"
   ],
   "note": ""
  },
  {
   "property": "C95",
   "status": "proved",
   "theorems": [
    "C95_first_call",
    "C95_first_values_stay",
    "C95_boost_is_ignored",
    "C95_parameters_apply_refuted"
   ],
   "note": ""
  },
  {
   "property": "C96",
   "status": "proved",
   "theorems": [
    "C96_given_path",
    "C96_default_path",
    "C96_no_home",
    "C96_ends_unless_home_names_itself",
    "C96_initialise_returns_refuted",
    "C96_first_file_counts"
   ],
   "note": ""
  },
  {
   "property": "C97",
   "status": "proved",
   "theorems": [
    "C97_numbers",
    "C97_pairs_are_kept",
    "C97_file_is_lost",
    "C97_again_deletes_everything",
    "C97_second_run_deletes_everything",
    "C97_shared_annotation_refuted"
   ],
   "note": ""
  },
  {
   "property": "C98",
   "status": "proved",
   "theorems": [
    "C98_treble_is_read",
    "C98_first_column_is_removed",
    "C98_rest_is_read"
   ],
   "note": ""
  },
  {
   "property": "C99",
   "status": "proved",
   "theorems": [
    "C99_kept_features",
    "C99_kept_features_have_annotations",
    "C99_kept_means_annotated_refuted",
    "C99_first_of_each",
    "C99_duplicates_sound_alike"
   ],
   "note": ""
  },
  {
   "property": "C100",
   "status": "proved",
   "theorems": [
    "C100_size",
    "C100_parts",
    "C100_disjoint_refuted",
    "C100_names_are_stems",
    "C100_list_is_read"
   ],
   "note": ""
  },
  {
   "property": "C101",
   "status": "proved",
   "theorems": [
    "C101_keys_are_printed",
    "C101_blank_line_fails",
    "C101_nothing_is_written",
    "C101_key_is_written_refuted",
    "C101_dataset_cannot_be_made"
   ],
   "note": ""
  },
  {
   "property": "C102",
   "status": "proved",
   "theorems": [
    "C102_tested_rows_are_trained",
    "C102_score_is_the_share",
    "C102_knowing_by_heart",
    "C102_full_score_whatever_is_guessed"
   ],
   "note": ""
  },
  {
   "property": "C103",
   "status": "proved",
   "theorems": [
    "C103_host_gets_the_output",
    "C103_host_gets_the_spectra",
    "C103_no_other_output",
    "C103_detector_gets_the_treble",
    "C103_declared_sizes",
    "C103_names_are_right",
    "C103_not_asked_is_undefined"
   ],
   "note": ""
  },
  {
   "property": "C104",
   "status": "proved",
   "theorems": [
    "C104_what_is_put_out",
    "C104_host_gets_the_output",
    "C104_failures",
    "C104_declared_extents"
   ],
   "note": ""
  }
 ]
}