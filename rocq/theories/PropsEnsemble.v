(** Property theorems C61-C65: the ensemble of detectors, the scores and features read from it, and the printed answer. *)
From Coq Require Import Lia Lra Reals Ascii.
From Flocq Require Import Core.Core IEEE754.BinarySingleNaN.
From Verif Require Import Base BaseFacts Fp FpFacts Key PitchClass KeyProfile KeyTransition Hmm Pipeline Text Options Output Chromagram Midi Main Py OptTables Dataset Ensemble.
From Verif Require Import MusicSpec TextSpec NumberFacts PrintSpec ChromaSpec MainSpec OutputFacts OptSpec HmmSpec PipelineSpec LogFacts GaSpec EnsembleSpec EnsembleFacts EnsembleRun EnsembleScore EnsembleScale EnsembleMain.
Open Scope Z_scope.

(** C61: the features of a run. *)
Theorem C61_float_reads_numbers : forall s y, float_of s = Returns y <-> python_number s y.
Proof. exact float_iff. Qed.
Print Assumptions C61_float_reads_numbers.
Theorem C61_float_refuses_the_rest : forall s, float_of s = Raises ValueError <-> forall y, ~ python_number s y.
Proof. exact float_raises. Qed.
Print Assumptions C61_float_refuses_the_rest.
Theorem C61_words : forall s l, words s l <-> bytes_split s = l.
Proof. intros s l. split; [apply words_split|intros <-; apply split_words]. Qed.
Print Assumptions C61_words.
Theorem C61_printed_scores_become_features : forall probs ys, length probs = 24%nat -> Forall2 as_feature probs ys -> features_of (print_probabilities probs) = Returns ys.
Proof. exact features_printed. Qed.
Print Assumptions C61_printed_scores_become_features.
Theorem C61_order_is_kept : forall x x' y y' : b64, as_feature x y -> as_feature x' y' -> is_finite x = true -> is_finite x' = true -> (B2R x <= B2R x')%R -> (B2R y <= B2R y')%R.
Proof. exact feature_order. Qed.
Print Assumptions C61_order_is_kept.
Theorem C61_features_are_close : forall x y : b64, as_feature x y -> is_finite x = true -> B2R x = 0%R \/ (/ 2 ^ 1000 <= Rabs (B2R x))%R ->
  is_finite y = true /\ (Rabs (B2R y - B2R x) <= 6 / 1000000 * Rabs (B2R x))%R.
Proof. exact feature_close. Qed.
Print Assumptions C61_features_are_close.
Theorem C61_any_other_output_fails : forall output l, words output l -> length l <> 24%nat -> exists ys, features_of output = Returns ys /\ failed ys.
Proof. intros output l W N. apply words_split in W. apply features_failed. now rewrite W. Qed.
Print Assumptions C61_any_other_output_fails.
(** Two different scores may become the same feature: the best key need not be recognisable. *)
Theorem C61_strict_order_refuted : ~ (forall x x' y y' : b64, as_feature x y -> as_feature x' y' -> is_finite x = true -> is_finite x' = true -> (B2R x < B2R x')%R -> (B2R y < B2R y')%R).
Proof.
  intros H. destruct (feature_read (rat64 (-1234567) 1)) as (y & E & A). destruct (feature_read (rat64 (-12345671) 10)) as (y' & E' & A').
  assert (T : format_g (rat64 (-1234567) 1) = format_g (rat64 (-12345671) 10)) by (vm_compute; reflexivity). rewrite T, E' in E. apply returns_eq in E. subst y'.
  assert (X1 : B2SF (rat64 (-1234567) 1) = SpecFloat.S754_finite true 5302424889720832 (-32)) by (vm_compute; reflexivity).
  assert (X2 : B2SF (rat64 (-12345671) 10) = SpecFloat.S754_finite true 5302425319217562 (-32)) by (vm_compute; reflexivity).
  specialize (H _ _ _ _ A' A). assert (L : (B2R y < B2R y)%R); [|lra]. apply H.
  - rewrite <- is_finite_SF_B2SF, X2. reflexivity.
  - rewrite <- is_finite_SF_B2SF, X1. reflexivity.
  - rewrite <- !SF2R_B2SF, X1, X2. unfold SF2R, F2R. cbn [Fnum Fexp cond_Zopp]. apply Rmult_lt_compat_r; [apply bpow_gt_0|]. apply IZR_lt. reflexivity.
Qed.
Print Assumptions C61_strict_order_refuted.
Example C61_case : (exists y, python_number (" -2.5e1" ++ nl) y /\ B2R y = (-25)%R) /\ (forall y, ~ python_number "2,5" y) /\ (exists y, as_feature (rat64 (-1234567) 1) y) /\
  words (" a" ++ String "009" ("bc" ++ nl)) ["a"; "bc"]%string.
Proof.
  split; [|split; [|split]].
  - set (d := mkDecimal Minus [2] (Some [5]) (Some (false, NoSign, [1]))). assert (W : well_formed d) by (split; [repeat constructor; lia|split; [discriminate|split; [repeat constructor; lia|discriminate]]]).
    exists (nearest prec64 emax64 (numeral_of d)). assert (E : B2SF (nearest prec64 emax64 (numeral_of d)) = SpecFloat.S754_finite true 7036874417766400 (-48)) by (vm_compute; reflexivity). split.
    + apply float_iff. change (" -2.5e1" ++ nl)%string with (" " ++ show_decimal d ++ nl)%string. apply float_decimal; [constructor; [cbn; auto 10|constructor]|constructor; [cbn; auto 10|constructor]|exact W].
    + rewrite <- SF2R_B2SF, E. unfold SF2R, F2R. cbn [Fnum Fexp cond_Zopp]. rewrite (DumpFacts.bpow2_neg 48) by lia. change (2 ^ 48) with 281474976710656. rewrite opp_IZR. lra.
  - apply float_raises. reflexivity.
  - destruct (feature_read (rat64 (-1234567) 1)) as (y & _ & A). now exists y.
  - apply C61_words. reflexivity.
Qed.

(** C62: the rows of the ensemble. *)
Theorem C62_features_of_a_run : forall w dk dt kp kt (lp lt : table) file notes, behaves w -> assoc String.eqb kp dk = Some lp -> assoc String.eqb kt dt = Some lt ->
  weights lp -> weights lt -> some_weight lp -> every_weight lt -> gives w file notes -> Forall is_note notes -> notes <> [] ->
  exists trans locals K label ys, Forall2 transmitted lt trans /\ length locals = length notes /\ Forall is_key locals /\ is_key K /\
    main w (inl (label_options (text_of dk (Some kp)) (text_of dt (Some kt)) file)) = Ret (mkEnded 0 label "") /\ print_label (key_of_int K) = Ret label /\
    ens_run w dk dt file (Some kp, kt) = Some (Returns ys) /\ length ys = 24%nat /\
    forall J, is_key J -> exists y yK, nth_error ys (Z.to_nat J) = Some y /\ nth_error ys (Z.to_nat K) = Some yK /\ is_finite y = true /\ is_finite yK = true /\
      as_feature (global_score (w_log10 w) trans locals J) y /\ (B2R y <= B2R yK)%R.
Proof. exact run_works. Qed.
Print Assumptions C62_features_of_a_run.
Theorem C62_stored_tables : (forall n l, assoc String.eqb n initial_profiles = Some l -> weights l /\ some_weight (firstn 12 l) /\ some_weight (skipn 12 l)) /\
  (forall n l, assoc String.eqb n initial_transitions = Some l -> weights l /\ every_weight l).
Proof.
  split; intros n l H.
  - split; [apply (stored_weights n); now left|now apply (stored_halves n)].
  - split; [apply (stored_weights n); now right|now apply (stored_every n)].
Qed.
Print Assumptions C62_stored_tables.
Theorem C62_rows_of_an_ensemble : forall w ps ts file notes mixed, behaves w -> gives w file notes -> Forall is_note notes -> notes <> [] ->
  incl ps (map fst initial_profiles) -> incl ts (map fst initial_transitions) -> (mixed = true -> NoDup ps) ->
  exists dk pairs rows, snd (ens_evaluate w initial_profiles initial_transitions (ensembler ps ts) file mixed) = Some (Returns rows) /\
    in_product_order (if mixed then map (fun p => fst p ++ "_" ++ snd p)%string (list_prod ps ps) else ps) ts pairs /\
    (if mixed then forall a b la lb, In a ps -> In b ps -> assoc String.eqb a initial_profiles = Some la -> assoc String.eqb b initial_profiles = Some lb ->
       assoc String.eqb (a ++ "_" ++ b)%string dk = Some (firstn 12 la ++ skipn 12 lb)
     else dk = initial_profiles) /\
    Forall2 (fun p row => ens_run w dk initial_transitions file (Some (fst p), snd p) = Some (Returns row) /\ length row = 24%nat /\ Forall (fun y => is_finite y = true) row) pairs rows.
Proof. exact stored_ensemble. Qed.
Print Assumptions C62_rows_of_an_ensemble.
Theorem C62_shipped_ensemble : forall w file notes, behaves w -> gives w file notes -> Forall is_note notes -> notes <> [] ->
  exists rows, snd (ens_evaluate w initial_profiles initial_transitions (ensembler shipped_profiles shipped_transitions) file false) = Some (Returns rows) /\
    length rows = 30%nat /\ Forall (fun row => length row = 24%nat /\ Forall (fun y => is_finite y = true) row) rows.
Proof. exact shipped_rows. Qed.
Print Assumptions C62_shipped_ensemble.
Theorem C62_notes_of_a_midi_file : forall w base ext es ns, sized (base ++ "." ++ ext) -> lacks "." ext -> kind_of_extension ext (Some INPUT_MIDI) -> w_returned w = true ->
  snd (w_midi w (base ++ "." ++ ext)%string) = es -> Forall midi_event es -> heard es ns -> gives w (base ++ "." ++ ext) ns /\ Forall is_note ns.
Proof. intros w base ext es ns S L K R E F H. split; [exact (gives_midi w base ext es ns S L K R E F H)|exact (heard_notes es ns H)]. Qed.
Print Assumptions C62_notes_of_a_midi_file.
Theorem C62_notes_of_a_chromagram : forall w base ext kind c past l notes, sized (base ++ "." ++ ext) -> lacks "." ext -> kind_of_extension ext (Some kind) ->
  (kind = INPUT_CSV /\ chromagram_csv (w_csv w (base ++ "." ++ ext)%string) = Ret c \/ kind = INPUT_WAV /\ chromagram_audio (w_audio w (base ++ "." ++ ext)%string) = Ret c) ->
  ch_status c = CHROMAGRAM_DISCRETE_READY -> w_past w = Some past -> kept past (map snd (ch_discrete c)) l -> Forall2 spelled l notes -> gives w (base ++ "." ++ ext) (concat notes).
Proof. exact gives_chroma. Qed.
Print Assumptions C62_notes_of_a_chromagram.
Theorem C62_mixtures_under_their_names_refuted : ~ (forall d ps a b la lb dk names, (forall p, In p ps -> assoc String.eqb p d <> None) -> NoDup ps -> In a ps -> In b ps ->
  assoc String.eqb a d = Some la -> assoc String.eqb b d = Some lb -> mix_all d (list_prod ps ps) = (dk, names) -> assoc String.eqb (a ++ "_" ++ b)%string dk = Some (firstn 12 la ++ skipn 12 lb)).
Proof. intros H. destruct mixture_collision as (d & ps & a & b & la & lb & dk & names & H1 & H2 & H3 & H4 & H5 & H6 & H7 & H8). apply H8. now apply (H d ps a b la lb dk names). Qed.
Print Assumptions C62_mixtures_under_their_names_refuted.
Theorem C62_later_calls_ignore_the_flag : forall w w' dk dt e file file' mixed mixed', e_ensemble e = None -> let '(dk', e', _) := ens_evaluate w dk dt e file mixed in
  fst (ens_evaluate w' dk' dt e' file' mixed') = (dk', e') /\ ens_evaluate w' dk' dt e' file' mixed' = ens_evaluate w' dk' dt e' file' mixed.
Proof. exact cached. Qed.
Print Assumptions C62_later_calls_ignore_the_flag.
Definition band_events : list (list Z) := [[144; 60; 90]; [128; 60; 64]; [144; 64; 1]; [144; 67; 0]; [147; 67; 100]].
Definition band_world : world :=
  mkWorld toy_log10 (fun l => l) (fun l => l) (fun _ => None) (fun _ => PluginError) (fun _ => (true, band_events)) "usage" None true (repeat fzero 12) (repeat fzero 12) (repeat fzero 24).
Lemma band_behaves : behaves band_world.
Proof. constructor; try reflexivity; [exact toy_log10_ok|intros l; apply Permutation.Permutation_refl..]. Qed.
Lemma band_gives : gives band_world "song_C.mid" [0; 4; 7].
Proof.
  apply (gives_midi band_world "song_C" "mid" band_events [0; 4; 7]); [unfold sized; cbn; lia| |left; reflexivity|reflexivity|reflexivity|repeat constructor; lia|].
  - unfold lacks; cbn; intuition discriminate.
  - unfold band_events. apply (heard_note 0 60 90 []); [lia|lia|]. apply heard_other; [lia|lia|]. apply (heard_note 0 64 1 []); [lia|lia|]. apply (heard_release 0 67 []); [lia|]. apply (heard_note 3 67 100 []); [lia|lia|]. constructor.
Qed.
Example C62_case : behaves band_world /\ gives band_world "song_C.mid" [0; 4; 7] /\ Forall is_note [0; 4; 7] /\ incl ["sapp"; "temperley"]%string (map fst initial_profiles) /\ incl ["ktg_linear"]%string (map fst initial_transitions) /\ NoDup ["sapp"; "temperley"]%string /\
  exists rows, snd (ens_evaluate band_world initial_profiles initial_transitions (ensembler ["sapp"; "temperley"]%string ["ktg_linear"]%string) "song_C.mid" true) = Some (Returns rows) /\ length rows = 4%nat.
Proof.
  assert (I1 : incl ["sapp"; "temperley"]%string (map fst initial_profiles)) by (intros x H; apply elem_In; revert x H; apply forallb_forall; vm_compute; reflexivity).
  assert (I2 : incl ["ktg_linear"]%string (map fst initial_transitions)) by (intros x H; apply elem_In; revert x H; apply forallb_forall; vm_compute; reflexivity).
  assert (ND : NoDup ["sapp"; "temperley"]%string) by (apply nodupb_spec; reflexivity). assert (N : Forall is_note [0; 4; 7]) by (repeat constructor; unfold is_note; lia).
  split; [exact band_behaves|]. split; [exact band_gives|]. split; [exact N|]. split; [exact I1|]. split; [exact I2|]. split; [exact ND|].
  destruct (C62_rows_of_an_ensemble band_world _ _ "song_C.mid" [0; 4; 7] true band_behaves band_gives N ltac:(discriminate) I1 I2 (fun _ => ND)) as (dk & pairs & rows & E & (L & _) & _ & F).
  exists rows. split; [exact E|]. rewrite <- (OptFacts.Forall2_length_eq _ _ _ F). exact L.
Qed.

(** C63: the score the evaluator reads. *)
Theorem C63_every_score : forall w kp kt file s, evaluator_score w kp kt file = Some (Some s) -> exists n, In n [0; 2; 3; 5; 10] /\ tenths n s.
Proof. exact every_score. Qed.
Print Assumptions C63_every_score.
Theorem C63_scores_are_fair : forall w detector, (forall kp kt file s, detector kp kt file = Some s -> evaluator_score w kp kt file = Some (Some s)) -> fair_scores detector.
Proof. exact scores_are_fair. Qed.
Print Assumptions C63_scores_are_fair.
Theorem C63_score_of_a_run : forall w dk dt kp kt (lp lt : table) file notes s T, behaves w -> assoc String.eqb kp dk = Some lp -> assoc String.eqb kt dt = Some lt ->
  weights lp -> weights lt -> some_weight lp -> every_weight lt -> gives w file notes -> Forall is_note notes -> notes <> [] ->
  ground_truth file = Ret (Some s) -> named_key s = Some T ->
  exists K label n x, is_key K /\ main w (inl (label_options (text_of dk (Some kp)) (text_of dt (Some kt)) file)) = Ret (mkEnded 0 label "") /\ print_label (key_of_int K) = Ret label /\
    evaluator_score w (text_of dk (Some kp)) (text_of dt (Some kt)) file = Some (Some x) /\ tenths n x /\ (exists text, credit K T text /\ python_number (text ++ nl) x) /\ (n = 10 <-> K = T).
Proof. exact score_of_run. Qed.
Print Assumptions C63_score_of_a_run.
Theorem C63_full_score : forall n x, tenths n x -> In n [0; 2; 3; 5; 10] -> (B2R x = 1%R <-> n = 10).
Proof. exact tenths_one. Qed.
Print Assumptions C63_full_score.
Theorem C63_no_score_without_a_key_in_the_name : forall w kp kt file e, lacks "_" file \/ lacks "." file -> main w (inl (evaluator_options kp kt file)) = Ret e -> evaluator_score w kp kt file = Some None.
Proof. exact unmarked_score. Qed.
Print Assumptions C63_no_score_without_a_key_in_the_name.
Example C63_case : ground_truth "song_C.mid" = Ret (Some "C"%string) /\ named_key "C" = Some 0 /\
  exists x, evaluator_score band_world (text_of initial_profiles (Some "sapp"%string)) (text_of initial_transitions (Some "ktg_linear"%string)) "song_C.mid" = Some (Some x) /\ fraction x.
Proof.
  assert (G : ground_truth "song_C.mid" = Ret (Some "C"%string)) by (vm_compute; reflexivity). assert (K : named_key "C" = Some 0) by (vm_compute; reflexivity). split; [exact G|]. split; [exact K|].
  assert (E1 : exists l, assoc String.eqb "sapp"%string initial_profiles = Some l) by (eexists; reflexivity). assert (E2 : exists l, assoc String.eqb "ktg_linear"%string initial_transitions = Some l) by (eexists; reflexivity).
  destruct E1 as (lp & E1). destruct E2 as (lt & E2). destruct C62_stored_tables as (S1 & S2). destruct (S1 _ _ E1) as (W1 & _). destruct (S2 _ _ E2) as (W2 & V2).
  assert (N : Forall is_note [0; 4; 7]) by (repeat constructor; unfold is_note; lia).
  destruct (C63_score_of_a_run band_world _ _ _ _ lp lt "song_C.mid" [0; 4; 7] _ _ band_behaves E1 E2 W1 W2 (stored_some _ _ E1) V2 band_gives N ltac:(discriminate) G K) as (k & label & n & x & _ & _ & _ & E & _).
  exists x. split; [exact E|]. exact (detector_fair band_world _ _ _ x ltac:(unfold detector_of; now rewrite E)).
Qed.

(** C64: the scaling of the features. *)
Theorem C64_scaled_row : forall (row : list b64) lo hi, row <> [] -> moderate row -> least lo row -> greatest hi row ->
  exists ys, min_max_scale row = Returns ys /\ length ys = length row /\
    (forall i x y, nth_error row i = Some x -> nth_error ys i = Some y -> is_finite y = true /\
      ((lo < hi)%R -> (Rabs (B2R y - relative_place lo hi (B2R x)) <= / 2 ^ 49 * (1 + Rmax (Rabs lo) (Rabs hi) / (hi - lo)))%R) /\
      (lo = hi -> (Rabs (B2R y + 1) <= / 2 ^ 50 * (1 + Rabs lo))%R)) /\
    (forall i j x x' y y', nth_error row i = Some x -> nth_error row j = Some x' -> nth_error ys i = Some y -> nth_error ys j = Some y' -> (B2R x <= B2R x')%R -> (B2R y <= B2R y')%R).
Proof. exact scale_row. Qed.
Print Assumptions C64_scaled_row.
Theorem C64_infinite_features_are_refused : forall row : list b64, row = [] \/ Exists (fun x => is_finite x = false) row -> min_max_scale row = Raises ValueError.
Proof. exact scale_refused. Qed.
Print Assumptions C64_infinite_features_are_refused.
Theorem C64_each_row_on_its_own : forall rows zs, Forall (fun r => length r = 24%nat) rows -> Forall2 (fun r z => min_max_scale r = Returns z) rows zs -> feature_scaling1 (concat rows) = Returns (concat zs).
Proof. exact scaling_rows. Qed.
Print Assumptions C64_each_row_on_its_own.
Theorem C64_only_whole_rows : forall x, (length x mod 24 <> 0)%nat -> feature_scaling1 x = Raises ValueError.
Proof. intros x H. apply scaling_length. now apply Nat.eqb_neq. Qed.
Print Assumptions C64_only_whole_rows.
Theorem C64_within_the_range_refuted : ~ (forall row ys : list b64, moderate row -> min_max_scale row = Returns ys -> Forall (fun y => (-1 <= B2R y <= 1)%R) ys).
Proof. exact range_refuted. Qed.
Print Assumptions C64_within_the_range_refuted.
Example C64_case : moderate narrow_row /\ least (-60) narrow_row /\ greatest (-47) narrow_row /\ narrow_row <> [].
Proof. exact narrow_case. Qed.

(** C65: the printed answer. *)
Theorem C65_names_the_key : forall k, is_key k -> exists t, key_name k = (t ++ tab ++ mode_word k)%string /\ note_name t = Some (tonic k, true).
Proof. exact key_name_spec. Qed.
Print Assumptions C65_names_the_key.
Theorem C65_names_differ : forall j k, is_key j -> is_key k -> key_name j = key_name k -> j = k.
Proof. exact key_name_distinct. Qed.
Print Assumptions C65_names_differ.
Theorem C65_same_label_as_the_detector : forall k, is_key k -> (print_label (key_of_int k) = Ret (key_name k ++ nl)%string <-> k <> 1).
Proof. exact key_name_label. Qed.
Print Assumptions C65_same_label_as_the_detector.
Theorem C65_same_label_refuted : ~ (forall k, is_key k -> print_label (key_of_int k) = Ret (key_name k ++ nl)%string).
Proof. intros H. apply (key_name_label 1 ltac:(unfold is_key; lia)); [apply H; unfold is_key; lia|reflexivity]. Qed.
Print Assumptions C65_same_label_refuted.
Theorem C65_refused_files_all_get_one_answer : exists x : list b64, length x = 720%nat /\ Forall (fun y => is_finite y = true /\ B2R y = (-1)%R) x /\
  forall predict w file, behaves w -> refused w file -> ensemble_answer predict w file = Some (Returns (key_name (predict x))).
Proof. exact one_answer. Qed.
Print Assumptions C65_refused_files_all_get_one_answer.
Theorem C65_answer_for_a_file : forall predict w file notes, behaves w -> gives w file notes -> Forall is_note notes -> notes <> [] ->
  exists rows, Forall (fun row => length row = 24%nat) rows /\ length rows = 30%nat /\
    forall zs, Forall2 (fun r z => min_max_scale r = Returns z) rows zs -> ensemble_answer predict w file = Some (Returns (key_name (predict (concat zs)))).
Proof. exact answer_for_file. Qed.
Print Assumptions C65_answer_for_a_file.
Example C65_case : key_name 1 = ("C#" ++ String "009" "major")%string /\ print_label (key_of_int 1) = Ret ("Db" ++ String "009" ("major" ++ String "010" ""))%string /\ refused band_world "no extension" /\ refused band_world "gone.wav" /\ refused band_world "notes.txt".
Proof.
  split; [vm_compute; reflexivity|]. split; [vm_compute; reflexivity|]. split; [|split].
  - split; [unfold sized; cbn; lia|left; unfold lacks; cbn; intuition discriminate].
  - split; [unfold sized; cbn; lia|right]. exists "gone"%string, "wav"%string. split; [reflexivity|]. split; [unfold lacks; cbn; intuition discriminate|]. right. left. split; [reflexivity|now right].
  - split; [unfold sized; cbn; lia|right]. exists "notes"%string, "txt"%string. split; [reflexivity|]. split; [unfold lacks; cbn; intuition discriminate|]. right. right. split; [cbn; intuition discriminate|]. intros l W. apply C61_words in W. rewrite <- W. vm_compute. discriminate.
Qed.
