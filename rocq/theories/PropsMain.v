(** Property theorems C25-C32: command line, evaluation and output. *)
From Coq Require Import Reals Lia Ascii.
From Flocq Require Import Core.Core IEEE754.BinarySingleNaN.
From Verif Require Import Base BaseFacts Fp FpFacts Key KeyFacts PitchClass KeyProfile KeyTransition Hmm Pipeline Text Options Output Chromagram Midi Main MusicSpec TextSpec TextFacts NumberFacts ReadFacts MainSpec OutputFacts FormatFacts OptionFacts MainFacts LogFacts TableCheck ProfileFacts TransitionFacts.
Open Scope Z_scope.

(** C25: the label line. *)
Theorem C25_label_names_the_key : forall k, is_key k ->
  exists t, print_label (key_of_int k) = Ret (t ++ String "009" ((if majorb k then "major" else "minor") ++ String "010" ""))%string /\
    note_name t = Some (tonic k, true) /\ lower_string t = lower_string (get_string (key_of_int k)).
Proof. exact C25_label_proof. Qed.
Print Assumptions C25_label_names_the_key.
Theorem C25_labels_differ : forall j k, is_key j -> is_key k -> print_label (key_of_int j) = print_label (key_of_int k) -> j = k.
Proof. exact C25_distinct_proof. Qed.
Print Assumptions C25_labels_differ.
Example C25_case : is_key 13 /\ print_label (key_of_int 13) = Ret ("C#" ++ String "009" ("minor" ++ String "010" ""))%string /\
  print_label (key_of_int 10) = Ret ("Bb" ++ String "009" ("major" ++ String "010" ""))%string.
Proof. split; [unfold is_key; lia|]. split; vm_compute; reflexivity. Qed.

(** C26: the score printed by -e. *)
Theorem C26_score_is_the_credit : forall K s T, is_key K -> named_key s = Some T -> forall filename, ground_truth filename = Ret (Some s) ->
  exists text, print_evaluation filename (key_of_int K) = Ret (text ++ String "010" "")%string /\ credit K T text.
Proof. exact C26_score_proof. Qed.
Print Assumptions C26_score_is_the_credit.
Theorem C26_credit_is_unique : forall K T, is_key K -> is_key T -> exists s, credit K T s /\ forall s', credit K T s' -> s' = s.
Proof. exact C26_exclusive_proof. Qed.
Print Assumptions C26_credit_is_unique.
Theorem C26_full_credit_only_when_right : forall K T, is_key K -> is_key T -> credit K T "1" -> K = T.
Proof. exact C26_only_right_proof. Qed.
Print Assumptions C26_full_credit_only_when_right.
Theorem C26_subdominant_gets_nothing : forall K T, is_key K -> is_key T -> fifth_above T K -> credit K T "0".
Proof. exact C26_subdominant_proof. Qed.
Print Assumptions C26_subdominant_gets_nothing.
(** Detected E minor, truth A minor (spelled "a"); detected G major against E minor; F major against C major. *)
Example C26_case : is_key 16 /\ named_key "a" = Some 21 /\ ground_truth "song_a.wav" = Ret (Some "a"%string) /\
  print_evaluation "song_a.wav" (key_of_int 16) = Ret ("0.5" ++ String "010" "")%string /\
  print_evaluation "song_e.wav" (key_of_int 7) = Ret ("0.3" ++ String "010" "")%string /\
  fifth_above 0 5 /\ print_evaluation "song_C.wav" (key_of_int 5) = Ret ("0" ++ String "010" "")%string.
Proof. split; [unfold is_key; lia|]. split; [vm_compute; reflexivity|]. split; [vm_compute; reflexivity|]. split; [vm_compute; reflexivity|].
  split; [vm_compute; reflexivity|]. split; [split; reflexivity|]. vm_compute. reflexivity. Qed.

(** C27: the ground truth in the file name. *)
Theorem C27_truth_between_underscore_and_dot : forall prefix KEY ext, sized (prefix ++ "_" ++ KEY ++ "." ++ ext) ->
  lacks "_" KEY -> lacks "." KEY -> lacks "_" ext -> lacks "." ext -> ground_truth (prefix ++ "_" ++ KEY ++ "." ++ ext) = Ret (Some KEY).
Proof. exact C27_name_proof. Qed.
Print Assumptions C27_truth_between_underscore_and_dot.
Theorem C27_no_marker_prints_nothing : forall f K, lacks "_" f \/ lacks "." f -> print_evaluation f K = Ret ""%string.
Proof. exact C27_silent_proof. Qed.
Print Assumptions C27_no_marker_prints_nothing.
Theorem C27_not_a_key_name_is_undefined : forall f s K, ground_truth f = Ret (Some s) -> named_key s = None -> print_evaluation f (key_of_int K) = Undef UninitRead.
Proof. exact C27_not_a_key_proof. Qed.
Print Assumptions C27_not_a_key_name_is_undefined.
(** Underscore after the last dot: everything after the underscore is taken. *)
Theorem C27_underscore_after_dot : forall prefix a b, sized (prefix ++ "." ++ a ++ "_" ++ b) -> lacks "." a -> lacks "." b -> lacks "_" b ->
  ground_truth (prefix ++ "." ++ a ++ "_" ++ b) = Ret (Some b).
Proof. exact C27_wrap_proof. Qed.
Print Assumptions C27_underscore_after_dot.
Example C27_case : ground_truth "my.old_song_f#.v2_Bb.mid" = Ret (Some "Bb"%string) /\ sized "my.old_song_f#.v2_Bb.mid" /\
  print_evaluation "song.wav" (key_of_int 3) = Ret ""%string /\ print_evaluation "my_song.wav" (key_of_int 3) = Undef UninitRead /\
  ground_truth "song.wav_C" = Ret (Some "C"%string).
Proof. split; [vm_compute; reflexivity|]. split; [vm_compute; reflexivity|]. split; [vm_compute; reflexivity|]. split; vm_compute; reflexivity. Qed.

(** C28: the input type. *)
Theorem C28_extension_decides : forall base ext, sized (base ++ "." ++ ext) -> lacks "." ext ->
  exists kind, kind_of_extension ext kind /\
    input_of_extension (base ++ "." ++ ext) = Ret (match kind with Some t => Go t | None => Help neither_message end).
Proof. exact C28_proof. Qed.
Print Assumptions C28_extension_decides.
Theorem C28_kind_is_unique : forall ext a b, kind_of_extension ext a -> kind_of_extension ext b -> a = b.
Proof. exact kind_unique. Qed.
Print Assumptions C28_kind_is_unique.
(** An unknown extension: help and exit code 0. No dot: the exception ends the program. These are all names. *)
Theorem C28_unknown_extension_helps : forall w o f base ext, plain_file o f -> f = (base ++ "." ++ ext)%string -> sized f -> lacks "." ext ->
  kind_of_extension ext None -> main w (inl o) = Ret (mkEnded 0 (help_text w neither_message) "").
Proof. exact C28_main_help_proof. Qed.
Print Assumptions C28_unknown_extension_helps.
Theorem C28_no_dot_throws : forall w o f, plain_file o f -> sized f -> lacks "." f -> main w (inl o) = Throws StdOutOfRange.
Proof. exact C28_main_throws_proof. Qed.
Print Assumptions C28_no_dot_throws.
Theorem C28_every_name : forall f, lacks "." f \/ exists base ext, f = (base ++ "." ++ ext)%string /\ lacks "." ext.
Proof. exact C28_split_proof. Qed.
Print Assumptions C28_every_name.
Example C28_case : input_of_extension "a.b/Song.MiDi" = Ret (Go INPUT_MIDI) /\ input_of_extension "x.mp3" = Ret (Help neither_message) /\
  input_of_extension "./song" = Ret (Help neither_message) /\ input_of_extension "song" = Throws StdOutOfRange /\ plain_file (plain_options "song") "song" /\ sized "song" /\ lacks "." "song".
Proof. repeat (split; [vm_compute; reflexivity|]). split; [now split|]. split; [vm_compute; reflexivity|]. unfold lacks. cbn. intuition discriminate. Qed.

(** C29: -f. *)
Theorem C29_format_option_undefined : forall w o f format, admitted o -> o_args o = [f] -> o_format o = Some format -> no_custom o -> main w (inl o) = Undef UninitRead.
Proof. exact C29_proof. Qed.
Print Assumptions C29_format_option_undefined.
Theorem C29_format_option_never_gives_a_key : forall w o format e, admitted o -> o_format o = Some format -> main w (inl o) = Ret e ->
  exists message, e = mkEnded 0 (help_text w message) "".
Proof. exact C29_never_proof. Qed.
Print Assumptions C29_format_option_never_gives_a_key.
Example C29_case : let o := mkOptions ["song.wav"%string] (Some "csv"%string) None "sapp" "sapp" None "exponential10" false false false in
  admitted o /\ o_args o = ["song.wav"%string] /\ no_custom o.
Proof. cbv zeta. split; [|split; [reflexivity|now split]]. split; [intros f E; apply Some_inj in E; subst f; cbn; auto|]. cbn. auto 12. Qed.

(** C30: -K. *)
Theorem C30_exactly_24_accepted : forall text (vals : list b64) g1 g2, reads text vals -> length g1 = 12%nat -> length g2 = 12%nat -> length vals = 24%nat ->
  custom_profiles text g1 g2 = Ret (Go (firstn 12 vals, skipn 12 vals)).
Proof. exact C30_accept_proof. Qed.
Print Assumptions C30_exactly_24_accepted.
Theorem C30_other_counts_print_help : forall w o f base ext kind text (vals : list b64), plain_file o f -> f = (base ++ "." ++ ext)%string -> sized f -> lacks "." ext ->
  kind_of_extension ext (Some kind) -> o_profiles o = Some text -> short text -> reads text vals ->
  length (w_garbage1 w) = 12%nat -> length (w_garbage2 w) = 12%nat -> length vals <> 24%nat ->
  main w (inl o) = Ret (mkEnded 0 (help_text w (count_message "profiles" (Z.of_nat (length vals)))) "").
Proof. exact C30_main_proof. Qed.
Print Assumptions C30_other_counts_print_help.
Theorem C30_message_names_the_count : forall what n, 0 <= n -> exists ds, Forall is_dig ds /\ digits_value ds = n /\ ds <> [] /\ (hd 0 ds = 0 -> ds = [0]) /\
  count_message what n = ("You must provide exactly 24 values for the custom key " ++ what ++ ". You provided " ++ show_digits ds ++ ".")%string.
Proof. exact count_shape. Qed.
Print Assumptions C30_message_names_the_count.
(** Every text has exactly one list of readable numbers; with and without -T the tables are the given ones. *)
Theorem C30_numbers_exist_uniquely : forall text, exists vals, reads text vals /\ forall vals', reads text vals' -> vals' = vals.
Proof. intros text. exists (read_doubles text). split; [apply read_doubles_reads|]. intros v H. exact (reads_unique text _ _ H (read_doubles_reads text)). Qed.
Print Assumptions C30_numbers_exist_uniquely.
Theorem C30_tables_used : forall (o : options) kt (vp : list b64) g1 g2 g3, o_profiles o = Some kt -> o_transitions o = None ->
  reads kt vp -> length vp = 24%nat -> length g1 = 12%nat -> length g2 = 12%nat ->
  choose_tables g1 g2 g3 o = Ret (Go (mkTables "custom" "custom" (firstn 12 vp) (skipn 12 vp) (o_transition o) g3)).
Proof. exact tables_profiles. Qed.
Print Assumptions C30_tables_used.
(** The values reach the emission probabilities: that of pitch class [p] in key [k]. *)
Theorem C30_values_used : forall (o : options) kt (vp : list b64) g1 g2 g3 k p, o_profiles o = Some kt -> o_transitions o = None ->
  reads kt vp -> length vp = 24%nat -> length g1 = 12%nat -> length g2 = 12%nat -> is_key k -> 0 <= p < 12 ->
  exists tb, choose_tables g1 g2 g3 o = Ret (Go tb) /\ at2 b64 fzero (main_emissions tb) k p = znth fzero vp ((if majorb k then 0 else 12) + (p - tonic k) mod 12).
Proof.
  intros o kt vp g1 g2 g3 k p P T R L L1 L2 K Hp. eexists. split; [exact (tables_profiles o kt vp g1 g2 g3 P T R L L1 L2)|]. unfold main_emissions. cbn [tb_major tb_minor tb_major_custom tb_minor_custom].
  fold (emission (keyprofile_new4 "custom" "custom" (firstn 12 vp) (skipn 12 vp)) k p).
  rewrite (C06_emission_proof "custom" "custom" (firstn 12 vp) (skipn 12 vp) (firstn 12 vp) (skipn 12 vp) k p); [|rewrite firstn_length; lia|rewrite skipn_length; lia|reflexivity|reflexivity|exact K|exact Hp].
  pose proof (Z.mod_pos_bound (p - tonic k) 12 eq_refl) as B. unfold znth. destruct (majorb k).
  - rewrite <- (firstn_skipn 12 vp) at 2. rewrite app_nth1 by (rewrite firstn_length; lia). now rewrite Z.add_0_l.
  - rewrite <- (firstn_skipn 12 vp) at 2. rewrite app_nth2 by (rewrite firstn_length; lia). f_equal. rewrite firstn_length. lia.
Qed.
Print Assumptions C30_values_used.
Definition zeros12 : list b64 := repeat fzero 12.
Definition zeros24 : list b64 := repeat fzero 24.
Definition numbers24 : string := "1 .5 2e-1 +3 4. 5 6 7 8 9 10 11" ++ String "010" " 12 -13 14 15 16 17 18 19 20 21 22 23.75 and more".
Example C30_case : (exists vals : list b64, reads numbers24 vals /\ length vals = 24%nat /\ last vals fzero = rat64 95 4) /\
  length zeros12 = 12%nat /\ short numbers24 /\ custom_profiles "1 2 3,4" zeros12 zeros12 = Ret (Help (count_message "profiles" 3)) /\
  custom_profiles "1e400 2" zeros12 zeros12 = Ret (Help (count_message "profiles" 0)).
Proof.
  split; [exists (read_doubles numbers24); split; [apply read_doubles_reads|split; [vm_compute; reflexivity|apply B2SF_inj; vm_compute; reflexivity]]|].
  split; [reflexivity|]. split; [vm_compute; reflexivity|]. split; vm_compute; reflexivity.
Qed.

(** C31: -T. *)
Theorem C31_exactly_24_accepted : forall text (vals : list b64) g, reads text vals -> length g = 24%nat -> length vals = 24%nat -> custom_transitions text g = Ret (Go vals).
Proof. exact C31_accept_proof. Qed.
Print Assumptions C31_exactly_24_accepted.
Theorem C31_fewer_print_help : forall w o f base ext kind text (vals : list b64), plain_file o f -> f = (base ++ "." ++ ext)%string -> sized f -> lacks "." ext ->
  kind_of_extension ext (Some kind) -> o_profiles o = None -> o_transitions o = Some text -> reads text vals ->
  length (w_garbage3 w) = 24%nat -> (length vals < 24)%nat ->
  main w (inl o) = Ret (mkEnded 0 (help_text w (count_message "transitions" (Z.of_nat (length vals)))) "").
Proof. exact C31_main_help_proof. Qed.
Print Assumptions C31_fewer_print_help.
Theorem C31_more_write_out_of_bounds : forall w o f base ext kind text (vals : list b64), plain_file o f -> f = (base ++ "." ++ ext)%string -> sized f -> lacks "." ext ->
  kind_of_extension ext (Some kind) -> o_profiles o = None -> o_transitions o = Some text -> reads text vals ->
  length (w_garbage3 w) = 24%nat -> (24 < length vals)%nat -> main w (inl o) = Undef OutOfBounds.
Proof. exact C31_main_overrun_proof. Qed.
Print Assumptions C31_more_write_out_of_bounds.
Theorem C31_tables_used : forall (o : options) tt (vt : list b64) g1 g2 g3, o_profiles o = None -> o_transitions o = Some tt ->
  reads tt vt -> length vt = 24%nat -> length g3 = 24%nat ->
  choose_tables g1 g2 g3 o = Ret (Go (mkTables (o_major o) (o_minor o) g1 g2 "custom" vt)).
Proof. exact tables_transitions. Qed.
Print Assumptions C31_tables_used.
(** The values reach the transition probabilities. *)
Theorem C31_values_used : forall (o : options) tt (vt : list b64) g1 g2 g3 from to, o_profiles o = None -> o_transitions o = Some tt ->
  reads tt vt -> length vt = 24%nat -> length g3 = 24%nat -> is_key from -> is_key to ->
  exists tb, choose_tables g1 g2 g3 o = Ret (Go tb) /\ at2 b64 fzero (main_transitions tb) from to = znth fzero vt (interval_index from to).
Proof.
  intros o tt vt g1 g2 g3 from to P T R L L3 F K. eexists. split; [exact (tables_transitions o tt vt g1 g2 g3 P T R L L3)|]. unfold main_transitions. cbn [tb_transition tb_transition_custom].
  pose proof (C13_names_proof "custom" vt) as N. cbn [chosen_transition String.eqb Ascii.eqb Bool.eqb] in N. destruct N as (_ & _ & ->). exact (C10_entry_proof vt from to L F K).
Qed.
Print Assumptions C31_values_used.
Theorem C31_both_custom : forall (o : options) kt tt (vp vt : list b64) g1 g2 g3, o_profiles o = Some kt -> o_transitions o = Some tt ->
  reads kt vp -> reads tt vt -> length vp = 24%nat -> length vt = 24%nat -> length g1 = 12%nat -> length g2 = 12%nat -> length g3 = 24%nat ->
  choose_tables g1 g2 g3 o = Ret (Go (mkTables "custom" "custom" (firstn 12 vp) (skipn 12 vp) "custom" vt)).
Proof. exact tables_custom. Qed.
Print Assumptions C31_both_custom.
Example C31_case : length (read_doubles numbers24) = 24%nat /\ length (read_doubles ("0 " ++ numbers24)) = 25%nat /\
  custom_transitions ("0 " ++ numbers24) zeros24 = Undef OutOfBounds.
Proof. split; [vm_compute; reflexivity|]. split; vm_compute; reflexivity. Qed.

(** C32: input errors. *)
Theorem C32_missing_csv : forall w o f base ext, plain_file o f -> no_custom o -> f = (base ++ "." ++ ext)%string -> sized f ->
  lower_string ext = "csv"%string -> lacks "." ext -> w_csv w f = None -> main w (inl o) = Ret (mkEnded 1 "" error_text).
Proof. exact C32_csv_proof. Qed.
Print Assumptions C32_missing_csv.
Theorem C32_missing_audio : forall w o f base ext, plain_file o f -> no_custom o -> f = (base ++ "." ++ ext)%string -> sized f ->
  lower_string ext = "wav"%string -> lacks "." ext ->
  (w_audio w f = CannotOpen -> main w (inl o) = Ret (mkEnded 1 "" error_text)) /\
  (w_audio w f = PluginError -> main w (inl o) = Ret (mkEnded 2 "" error_text)).
Proof. exact C32_audio_proof. Qed.
Print Assumptions C32_missing_audio.
(** The MIDI reader's verdict has no influence; a MIDI run that ends, ends with 0 and no error message. *)
Theorem C32_midi_verdict_ignored : forall w o ok, main (with_verdict ok w) (inl o) = main w (inl o).
Proof. exact C32_midi_proof. Qed.
Print Assumptions C32_midi_verdict_ignored.
Theorem C32_midi_never_reports : forall w o f base ext e, plain_file o f -> f = (base ++ "." ++ ext)%string -> sized f -> lacks "." ext ->
  kind_of_extension ext (Some INPUT_MIDI) -> main w (inl o) = Ret e -> exit_code e = 0 /\ err e = ""%string.
Proof. exact C32_midi_status_proof. Qed.
Print Assumptions C32_midi_never_reports.
(** All ways a run with parsed options can end. *)
Theorem C32_exit_codes : forall w o e, main w (inl o) = Ret e ->
  exit_code e = 0 /\ err e = ""%string \/ exit_code e = 1 /\ out e = ""%string /\ err e = error_text \/ exit_code e = 2 /\ out e = ""%string /\ err e = error_text.
Proof. exact C32_codes_proof. Qed.
Print Assumptions C32_exit_codes.
(** A world with one MIDI file (C major triad, with a note-off and a zero velocity), no CSV file and an unreadable audio file. *)
Definition toy_world : world :=
  mkWorld toy_log10 (fun l => l) (fun l => l) (fun _ => None) (fun _ => CannotOpen)
    (fun _ => (false, [[144; 60; 90]; [128; 60; 0]; [147; 64; 1]; [144; 61; 0]; [144; 67; 100]])) "usage" None true zeros12 zeros12 zeros24.
Definition evaluating (f : string) : options := mkOptions [f] None None "sapp" "sapp" None "exponential10" true false false.
Example C32_case : main toy_world (inl (plain_options "x.csv")) = Ret (mkEnded 1 "" error_text) /\
  main toy_world (inl (plain_options "x.WAV")) = Ret (mkEnded 1 "" error_text) /\
  main toy_world (inl (plain_options "x.mid")) = Ret (mkEnded 0 ("C" ++ String "009" ("major" ++ String "010" ""))%string "") /\
  main toy_world (inl (evaluating "x_F.mid")) = Ret (mkEnded 0 ("0.5" ++ String "010" "")%string "").
Proof. repeat (split; [vm_compute; reflexivity|]). vm_compute. reflexivity. Qed.
