(** Facts about the whole ensemble: features, refused files, mixtures, the printed name. *)
From Coq Require Import Lia Lra Reals Ascii.
From Flocq Require Import Core.Core IEEE754.BinarySingleNaN Relative.
From Verif Require Import Base BaseFacts Fp FpFacts Key PitchClass KeyProfile KeyTransition Hmm Pipeline Text Options Output Chromagram Midi Main Py OptTables Dataset Ensemble.
From Verif Require Import MusicSpec TextSpec PrintSpec ChromaSpec SequenceFacts ChromaMain MainSpec OutputFacts OptSpec OptFacts HmmSpec PipelineSpec DumpFacts FloatKit EnsembleSpec EnsembleFacts EnsembleRun EnsembleScore EnsembleScale.
Open Scope Z_scope.

(** ** Features *)
Lemma feature_order (x x' y y' : b64) : as_feature x y -> as_feature x' y' -> is_finite x = true -> is_finite x' = true -> (B2R x <= B2R x')%R -> (B2R y <= B2R y')%R.
Proof.
  unfold as_feature. intros H H' F F'. rewrite F in H. rewrite F' in H'. destruct H as (_ & -> & _). destruct H' as (_ & -> & _). intros L.
  unfold rounded. apply round_le; [typeclasses eauto|typeclasses eauto|]. now apply six_le.
Qed.
Lemma feature_close (x y : b64) : as_feature x y -> is_finite x = true -> B2R x = 0%R \/ (/ 2 ^ 1000 <= Rabs (B2R x))%R -> is_finite y = true /\ (Rabs (B2R y - B2R x) <= 6 / 1000000 * Rabs (B2R x))%R.
Proof.
  unfold as_feature. intros H F. rewrite F in H. destruct H as (Fy & E & _). intros C. split; [exact Fy|]. pose proof (six_error (B2R x)) as S.
  change (rounded 53 1024) with rnd in E. pose proof (rnd_error (six_figures (B2R x))) as R. rewrite <- E in R. set (v := B2R x) in *. set (s := six_figures v) in *.
  destruct C as [C|C].
  - assert (Sv : s = 0%R) by (unfold s, six_figures; rewrite C; apply round_0; typeclasses eauto). rewrite Sv in E. assert (Z : rnd 0 = 0%R) by (apply round_0; typeclasses eauto). rewrite Z in E. rewrite E, C, Rminus_0_r, !Rabs_R0. lra.
  - assert (T : (bpow radix2 (-1075) <= / 10000000 * Rabs v)%R).
    { apply Rle_trans with (/ 10000000 * / 2 ^ 1000)%R; [|apply Rmult_le_compat_l; lra].
      apply Rle_trans with (bpow radix2 (-24) * bpow radix2 (-1000))%R; [rewrite <- bpow_plus; apply bpow_le; lia|].
      apply Rmult_le_compat; try apply bpow_ge_0.
      - rewrite (bpow2_neg 24) by lia. change (2 ^ 24)%Z with 16777216%Z. lra.
      - change (bpow radix2 (-1000)) with (bpow radix2 (- (1000))). rewrite bpow_opp. apply Req_le. f_equal. rewrite bpow_powerRZ. reflexivity. }
    rewrite (bpow2_neg 53) in R by lia. change (2 ^ 53)%Z with 9007199254740992%Z in R.
    assert (U : (Rabs s <= 2 * Rabs v)%R) by (pose proof (Rabs_triang (s - v) v) as X; replace (s - v + v)%R with s in X by ring; pose proof (Rabs_pos v); lra).
    pose proof (Rabs_triang (B2R y - s) (s - v)) as X. replace (B2R y - s + (s - v))%R with (B2R y - v)%R in X by ring. pose proof (Rabs_pos v). lra.
Qed.

(** ** Refused files *)
Lemma refused_runs w dk dt file pairs : behaves w -> refused w file ->
  (forall p, In p pairs -> exists n lp lt, fst p = Some n /\ assoc String.eqb n dk = Some lp /\ assoc String.eqb (snd p) dt = Some lt /\ weights lp /\ weights lt) ->
  all_runs (map (ens_run w dk dt file) pairs) = Some (Returns (repeat (repeat minus_million 24) (length pairs))).
Proof.
  intros B R OK. apply all_runs_forall2. induction pairs as [|[o t] pairs IH]; [constructor|]. cbn [map length repeat]. constructor; [|apply IH; intros p P; apply OK; now right].
  destruct (OK (o, t) (or_introl eq_refl)) as (n & lp & lt & E & A1 & A2 & W1 & W2). cbn [fst snd] in E, A2. subst o.
  destruct (refused_run w dk dt n t lp lt file B A1 A2 W1 W2 R) as (row & E & F). rewrite E. do 2 f_equal. now apply failed_repeat.
Qed.
Lemma scaled_repeat n : feature_scaling1 (concat (repeat (repeat minus_million 24) n)) = Returns (repeat minus_one (n * 24)).
Proof.
  rewrite (scaling_rows (repeat (repeat minus_million 24) n) (repeat (repeat minus_one 24) n)).
  - f_equal. generalize minus_one. intros z. induction n as [|n IH]; [reflexivity|]. change (repeat (repeat z 24) (S n)) with (repeat z 24 :: repeat (repeat z 24) n). cbn [concat]. rewrite IH. change (S n * 24)%nat with (24 + n * 24)%nat. now rewrite repeat_app.
  - apply Forall_forall. intros r H. apply repeat_spec in H. now subst.
  - induction n as [|n IH]; constructor; [exact failed_scaled|exact IH].
Qed.
Lemma shipped_stored : incl shipped_profiles all_names /\ incl shipped_transitions (map fst initial_transitions) /\ NoDup shipped_profiles.
Proof.
  split; [|split].
  - intros x H. apply elem_In. revert x H. apply forallb_forall. vm_compute. reflexivity.
  - intros x H. apply elem_In. revert x H. apply forallb_forall. vm_compute. reflexivity.
  - apply nodupb_spec. vm_compute. reflexivity.
Qed.
Lemma known_transition t : In t (map fst initial_transitions) -> assoc String.eqb t initial_transitions <> None.
Proof. generalize initial_transitions. induction l as [|[k v] l IH]; cbn; [tauto|]. intros H. destruct (String.eqb_spec t k); [discriminate|]. apply IH. destruct H; [congruence|assumption]. Qed.
Lemma refused_answer predict w file : behaves w -> refused w file -> ensemble_answer predict w file = Some (Returns (key_name (predict (repeat minus_one 720)))).
Proof.
  intros B R. unfold ensemble_answer, ens_evaluate. cbn [e_ensemble ensembler get_ensemble e_profiles e_transitions snd fst].
  rewrite (refused_runs w initial_profiles initial_transitions file _ B R).
  - assert (L : length (list_prod (map Some shipped_profiles) shipped_transitions) = 30%nat) by reflexivity. rewrite L. cbn [pybind]. rewrite scaled_repeat. reflexivity.
  - intros [o t] P. apply in_prod_iff in P. destruct P as (P1 & P2). apply in_map_iff in P1. destruct P1 as (n & <- & P1). destruct shipped_stored as (I1 & I2 & _).
    pose proof (known_name n (I1 n P1)) as K1. pose proof (known_transition t (I2 t P2)) as K2. cbn [fst snd].
    destruct (assoc String.eqb n initial_profiles) as [lp|] eqn:E1; [|congruence]. destruct (assoc String.eqb t initial_transitions) as [lt|] eqn:E2; [|congruence].
    exists n, lp, lt. split; [reflexivity|]. split; [exact E1|]. split; [reflexivity|]. split; [apply (stored_weights n); now left|apply (stored_weights t); now right].
Qed.
Lemma minus_one_value : is_finite minus_one = true /\ B2R minus_one = (-1)%R.
Proof. exact py_float_neg1. Qed.

(** ** Mixtures *)
Lemma mixture_collision : exists d ps a b la lb dk names, (forall p, In p ps -> assoc String.eqb p d <> None) /\ NoDup ps /\ In a ps /\ In b ps /\ assoc String.eqb a d = Some la /\ assoc String.eqb b d = Some lb /\
  mix_all d (list_prod ps ps) = (dk, names) /\ assoc String.eqb (a ++ "_" ++ b)%string dk <> Some (firstn 12 la ++ skipn 12 lb).
Proof.
  set (t := fun n : Z => repeat (rat64 n 8) 24). set (d := [("x", t 1); ("x_y", t 2); ("y_z", t 3); ("z", t 4)]%string).
  exists d, ["x"; "x_y"; "y_z"; "z"]%string, "x"%string, "y_z"%string, (t 1), (t 3), (fst (mix_all d (list_prod ["x"; "x_y"; "y_z"; "z"]%string ["x"; "x_y"; "y_z"; "z"]%string))), (snd (mix_all d (list_prod ["x"; "x_y"; "y_z"; "z"]%string ["x"; "x_y"; "y_z"; "z"]%string))).
  split; [intros p [<-|[<-|[<-|[<-|[]]]]]; discriminate|]. split; [apply nodupb_spec; reflexivity|]. split; [now left|]. split; [do 2 right; now left|]. split; [reflexivity|]. split; [reflexivity|]. split; [apply surjective_pairing|].
  intros E. apply (f_equal (fun o => match o with Some l => match l with x :: _ => B2SF x | [] => SpecFloat.S754_nan end | None => SpecFloat.S754_nan end)) in E. vm_compute in E. discriminate.
Qed.
(** ** The cached ensemble *)
Lemma cached w w' dk dt e file file' mixed mixed' : e_ensemble e = None -> let '(dk', e', _) := ens_evaluate w dk dt e file mixed in
  fst (ens_evaluate w' dk' dt e' file' mixed') = (dk', e') /\ ens_evaluate w' dk' dt e' file' mixed' = ens_evaluate w' dk' dt e' file' mixed.
Proof.
  intros E. unfold ens_evaluate at 1. rewrite E. unfold get_ensemble. destruct mixed.
  - destruct (mix_all dk _) as [d names]. split; reflexivity.
  - split; reflexivity.
Qed.
(** ** The printed name *)
Lemma key_name_spec k : is_key k -> exists t, key_name k = (t ++ tab ++ mode_word k)%string /\ note_name t = Some (tonic k, true).
Proof. intros H. exists (nth (Z.to_nat (k mod 12)) tonic_names ""%string). key H; split; vm_compute; reflexivity. Qed.
Lemma key_name_distinct j k : is_key j -> is_key k -> key_name j = key_name k -> j = k.
Proof.
  intros Hj Hk E. assert (B : forall j k, 0 <= j < Z.of_nat 24 -> 0 <= k < Z.of_nat 24 -> implb (key_name j =? key_name k)%string (j =? k) = true) by (apply zseq_sweep2; vm_compute; reflexivity).
  specialize (B j k ltac:(unfold is_key in Hj; lia) ltac:(unfold is_key in Hk; lia)). rewrite E, String.eqb_refl in B. cbn in B. apply Z.eqb_eq in B. exact B.
Qed.
Lemma key_name_label k : is_key k -> (print_label (key_of_int k) = Ret (key_name k ++ nl)%string <-> k <> 1).
Proof. intros H. key H; (split; [intros E; try discriminate; vm_compute in E; discriminate|intros N; try (now elim N); vm_compute; reflexivity]). Qed.

(** ** Chromagrams *)
(** The frames come from a CSV file or from the audio library; what lies past the end is a known vector. *)
Lemma gives_chroma w base ext kind c past l notes : sized (base ++ "." ++ ext) -> lacks "." ext -> kind_of_extension ext (Some kind) ->
  (kind = INPUT_CSV /\ chromagram_csv (w_csv w (base ++ "." ++ ext)%string) = Ret c \/ kind = INPUT_WAV /\ chromagram_audio (w_audio w (base ++ "." ++ ext)%string) = Ret c) ->
  ch_status c = CHROMAGRAM_DISCRETE_READY -> w_past w = Some past -> kept past (map snd (ch_discrete c)) l -> Forall2 spelled l notes -> gives w (base ++ "." ++ ext) (concat notes).
Proof.
  intros S L K C R P KE SP. exists base, ext, kind. split; [reflexivity|]. split; [exact S|]. split; [exact L|]. split; [exact K|]. intros o O. unfold read_input.
  destruct C as [(-> & C)|(-> & C)]; rewrite C; cbn [bind]; rewrite R, Z.eqb_refl; cbn [negb]; rewrite O; unfold get_sequence; rewrite P, (C38_proof past _ l notes KE SP); reflexivity.
Qed.

(** ** Summaries *)
Lemma shipped_rows w file notes : behaves w -> gives w file notes -> Forall is_note notes -> notes <> [] ->
  exists rows, snd (ens_evaluate w initial_profiles initial_transitions (ensembler shipped_profiles shipped_transitions) file false) = Some (Returns rows) /\
    length rows = 30%nat /\ Forall (fun row => length row = 24%nat /\ Forall (fun y => is_finite y = true) row) rows.
Proof.
  intros B G HN NE. destruct shipped_stored as (I1 & I2 & _).
  destruct (stored_ensemble w shipped_profiles shipped_transitions file notes false B G HN NE I1 I2 ltac:(discriminate)) as (dk & pairs & rows & E & (L & _) & _ & F).
  exists rows. split; [exact E|]. split; [rewrite <- (OptFacts.Forall2_length_eq _ _ _ F); exact L|]. clear - F. induction F as [|p r l l' (_ & H) _ IH]; constructor; assumption.
Qed.
Lemma one_answer : exists x : list b64, length x = 720%nat /\ Forall (fun y => is_finite y = true /\ B2R y = (-1)%R) x /\
  forall predict w file, behaves w -> refused w file -> ensemble_answer predict w file = Some (Returns (key_name (predict x))).
Proof.
  exists (repeat minus_one 720). split; [apply repeat_length|]. split; [|intros; now apply refused_answer]. apply Forall_forall. intros y Y. apply repeat_spec in Y. subst y. exact minus_one_value.
Qed.
Lemma answer_for_file predict w file notes : behaves w -> gives w file notes -> Forall is_note notes -> notes <> [] ->
  exists rows, Forall (fun row => length row = 24%nat) rows /\ length rows = 30%nat /\
    forall zs, Forall2 (fun r z => min_max_scale r = Returns z) rows zs -> ensemble_answer predict w file = Some (Returns (key_name (predict (concat zs)))).
Proof.
  intros B G HN NE. destruct (shipped_rows w file notes B G HN NE) as (rows & E & L & F). exists rows.
  assert (F' : Forall (fun row => length row = 24%nat) rows) by (eapply Forall_impl; [|exact F]; intros r H; apply H). split; [exact F'|]. split; [exact L|]. intros zs H. unfold ensemble_answer. rewrite E. cbn [pybind]. now rewrite (scaling_rows rows zs F' H).
Qed.
Lemma scores_are_fair w detector : (forall kp kt file s, detector kp kt file = Some s -> evaluator_score w kp kt file = Some (Some s)) -> GaSpec.fair_scores detector.
Proof. intros H kp kt file s E. apply (detector_fair w kp kt file s). unfold detector_of. now rewrite (H _ _ _ _ E). Qed.
Lemma unmarked_score w kp kt file e : lacks "_" file \/ lacks "." file -> main w (inl (evaluator_options kp kt file)) = Ret e -> evaluator_score w kp kt file = Some None.
Proof.
  intros LK M. unfold evaluator_score. destruct (float_of (out e)) as [x|u] eqn:F; [|rewrite M; cbn [stdout]; now rewrite F]. exfalso.
  destruct (every_score w kp kt file x) as (n & N & T); [unfold evaluator_score; rewrite M; cbn [stdout]; now rewrite F|].
  revert M F. unfold main. set (o := evaluator_options kp kt file). destruct (read_options _ _ _ o) as [[[[f [ty|]] tb]|m]| |] eqn:RO; cbn [bind]; try discriminate.
  - assert (EF : f = file).
    { revert RO. unfold read_options. cbn [o o_args evaluator_options]. destruct (choose_input _ _) as [[ty'|]| |]; cbn [bind]; try discriminate. destruct (choose_tables _ _ _ _) as [[tb'|]| |]; cbn [bind]; try discriminate. intros E. apply Ret_inj in E. congruence. }
    subst f. destruct (read_input w o file ty) as [[pcs|e']| |] eqn:RI; cbn [bind]; try discriminate.
    + destruct (detect _ _ _ tb pcs) as [[[h1 h2] k]| |]; cbn [bind]; try discriminate. unfold write_output. cbn [o o_probabilities o_evaluate evaluator_options]. rewrite (C27_silent_proof file k LK). cbn [bind]. intros E. apply Ret_inj in E. subst e. cbn [out]. rewrite not_number_empty. discriminate.
    + intros E. apply Ret_inj in E. subst e'. assert (OUT : out e = ""%string).
      { revert RI. unfold read_input. cbn [o o_chroma evaluator_options].
        assert (Q : forall c : outcome chromagram, (do c <- c; if negb (ch_status c =? CHROMAGRAM_DISCRETE_READY) then Ret (Done (read_error (ch_status c))) else do pcs <- get_sequence (w_past w) c; Ret (Notes pcs)) = Ret (Done e) -> out e = ""%string).
        { intros [c| |]; cbn [bind]; try discriminate. destruct (negb _); [intros E; apply Ret_inj in E; injection E as <-; reflexivity|]. destruct (get_sequence _ c); cbn [bind]; discriminate. }
        destruct ty; [apply Q|apply Q|]. destruct (w_midi w file) as [ok ev]. destruct (negb _); [intros E; apply Ret_inj in E; injection E as <-; reflexivity|]. destruct (midi_sequence _ ev); cbn [bind]; discriminate. }
      rewrite OUT, not_number_empty. discriminate.
  - intros E. apply Ret_inj in E. subst e. cbn [out]. destruct (help_messages _ _ _ file o m eq_refl RO) as [(t & ->)|(t & ->)]; rewrite app_string_assoc; [rewrite not_number_it|rewrite not_number_you]; discriminate.
Qed.
(** ** A row that leaves the range *)
Definition narrow_row : list b64 := rat64 (-60) 1 :: repeat (rat64 (-47) 1) 23.
Lemma narrow_values : B2R (rat64 (-60) 1) = (-60)%R /\ B2R (rat64 (-47) 1) = (-47)%R /\ is_finite (rat64 (-60) 1) = true /\ is_finite (rat64 (-47) 1) = true.
Proof.
  assert (E1 : B2SF (rat64 (-60) 1) = SpecFloat.S754_finite true 8444249301319680 (-47)) by (vm_compute; reflexivity).
  assert (E2 : B2SF (rat64 (-47) 1) = SpecFloat.S754_finite true 6614661952700416 (-47)) by (vm_compute; reflexivity).
  rewrite <- !SF2R_B2SF, <- !is_finite_SF_B2SF, E1, E2. unfold SF2R, F2R. cbn [Fnum Fexp cond_Zopp]. rewrite (bpow2_neg 47) by lia. change (2 ^ 47)%Z with 140737488355328%Z. rewrite !opp_IZR. repeat split; lra.
Qed.
Lemma narrow_in x : In x narrow_row -> x = rat64 (-60) 1 \/ x = rat64 (-47) 1.
Proof. intros [H|H]; [now left|right; now apply repeat_spec in H]. Qed.
Lemma narrow_case : moderate narrow_row /\ least (-60) narrow_row /\ greatest (-47) narrow_row /\ narrow_row <> [].
Proof.
  destruct narrow_values as (V1 & V2 & F1 & F2). assert (I1 : In (rat64 (-60) 1) narrow_row) by now left. assert (I2 : In (rat64 (-47) 1) narrow_row) by (right; now left).
  assert (P : (1 <= 2 ^ 100)%R) by (apply pow_R1_Rle; lra). assert (T : (100 <= 2 ^ 100)%R) by (rewrite pow_100; apply IZR_le; vm_compute; discriminate).
  split; [split|split; [split|split; [split|discriminate]]].
  - apply Forall_forall. intros x X. destruct (narrow_in x X) as [->| ->]; rewrite ?V1, ?V2; (split; [assumption|]); apply Rabs_le; lra.
  - intros x y X Y L. apply Rle_trans with 1%R; [rewrite <- Rinv_1; apply Rinv_le; lra|]. destruct (narrow_in x X) as [->| ->], (narrow_in y Y) as [->| ->]; rewrite ?V1, ?V2 in *; lra.
  - exists (rat64 (-60) 1). now split.
  - intros x X. destruct (narrow_in x X) as [->| ->]; rewrite ?V1, ?V2; lra.
  - exists (rat64 (-47) 1). now split.
  - intros x X. destruct (narrow_in x X) as [->| ->]; rewrite ?V1, ?V2; lra.
Qed.
Lemma range_refuted : ~ (forall row ys : list b64, moderate row -> min_max_scale row = Returns ys -> Forall (fun y => (-1 <= B2R y <= 1)%R) ys).
Proof.
  intros H. assert (X : match min_max_scale narrow_row with Returns l => match nth_error l 1 with Some y => B2SF y = SpecFloat.S754_finite false 4503599627370500 (-52) | None => False end | Raises _ => False end) by (vm_compute; reflexivity).
  specialize (H narrow_row). destruct (min_max_scale narrow_row) as [l|]; [|contradiction]. specialize (H l (proj1 narrow_case) eq_refl). destruct (nth_error l 1) as [y|] eqn:E; [|contradiction].
  rewrite Forall_forall in H. destruct (H y (nth_error_In _ _ E)) as (_ & U). rewrite <- SF2R_B2SF, X in U. unfold SF2R, F2R in U. cbn [Fnum Fexp cond_Zopp] in U. rewrite (bpow2_neg 52) in U by lia. change (2 ^ 52)%Z with 4503599627370496%Z in U. lra.
Qed.
