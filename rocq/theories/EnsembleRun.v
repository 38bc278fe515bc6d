(** Facts about one run of the ensemble: from a stored pair of tables and a readable file to 24 features. *)
From Coq Require Import Lia Lra Reals Ascii.
From Flocq Require Import Core.Core IEEE754.BinarySingleNaN.
From Verif Require Import Base BaseFacts Fp FpFacts Key PitchClass KeyProfile KeyTransition Hmm Pipeline Text Options Output Chromagram Midi Main Py OptTables Dataset Ensemble.
From Verif Require Import MusicSpec TextSpec PrintSpec ChromaSpec ChromaMain MainSpec MainFacts OutputFacts OptionFacts OptSpec OptFacts HmmSpec HmmFacts ProfileFacts TransitionFacts PipelineSpec PipelineFacts DumpFacts ReadFacts FloatKit FloatKit EnsembleSpec EnsembleFacts.
Open Scope Z_scope.

(** ** Vocabulary *)
(** Nothing strange about the platform: the logarithm, the hash tables, and arrays of the right size. *)
Record behaves (w : world) : Prop := {
  be_log : log10_ok (w_log10 w); be_iter1 : iteration_order (w_iter1 w); be_iter2 : iteration_order (w_iter2 w);
  be_size1 : length (w_garbage1 w) = 12%nat; be_size2 : length (w_garbage2 w) = 12%nat; be_size3 : length (w_garbage3 w) = 24%nat }.
(** A file with a known extension from which the detector reads these notes. *)
Definition gives (w : world) (file : string) (notes : list Z) : Prop :=
  exists base ext kind, file = (base ++ "." ++ ext)%string /\ sized file /\ lacks "." ext /\ kind_of_extension ext (Some kind) /\
    forall o, o_chroma o = false -> read_input w o file kind = Ret (Notes (map pc_of_int notes)).
(** The command line of a plain run with the same tables. *)
Definition label_options (kp kt file : string) : options := mkOptions [file] None (Some kp) "sapp" "sapp" (Some kt) "exponential10" false false false.
(** Half of the last of fifteen decimal places. *)
Definition tiny : R := (1 / 2 * / 10 ^ 15)%R.
(** Tables of the detector: 24 weights from 0 to 1, a profile with something in it, a transition table without zeros. *)
Definition weights (l : table) : Prop := length l = 24%nat /\ Forall (fun x => is_finite x = true /\ (0 <= B2R x <= 1)%R) l.
Definition some_weight (l : table) : Prop := Exists (fun x => (tiny < B2R x)%R) l.
Definition every_weight (l : table) : Prop := Forall (fun x => (tiny < B2R x)%R) l.

(** ** Tables *)
Lemma transmitted_clear (x y : b64) : transmitted x y -> B2R y = 0%R \/ (bpow radix2 (-50) <= Rabs (B2R y))%R.
Proof.
  intros (_ & E & _). rewrite E.
  assert (L : exists n, fifteen_places (B2R x) = (IZR n * powerRZ 10 (-15))%R) by (eexists; now apply fifteen_spec).
  destruct L as (n & L). destruct (Z.eq_dec n 0) as [->|N]; [left; rewrite L, Rmult_0_l; now apply rounded_0|right].
  assert (T : (bpow radix2 (-50) <= Rabs (fifteen_places (B2R x)))%R).
  { rewrite L, Rabs_mult. assert (Q : (0 < powerRZ 10 (-15))%R) by (apply powerRZ_lt; lra). rewrite (Rabs_pos_eq (powerRZ _ _)) by lra.
    apply Rle_trans with (1 * powerRZ 10 (-15))%R.
    - rewrite Rmult_1_l. change (powerRZ 10 (-15)) with (/ 10 ^ 15)%R. replace (bpow radix2 (-50)) with (/ bpow radix2 50)%R by (symmetry; apply (bpow_opp radix2 50)). apply Rinv_le; [apply pow_lt; lra|]. rewrite <- IZR_bpow by lia.
      rewrite (pow_IZR 10 15). apply IZR_le. vm_compute. discriminate.
    - apply Rmult_le_compat_r; [lra|]. rewrite <- abs_IZR. apply IZR_le. lia. }
  unfold rounded. apply abs_round_ge_generic; [typeclasses eauto|typeclasses eauto| |exact T]. apply generic_format_bpow. cbv. discriminate.
Qed.
Lemma transmitted_positive (x y : b64) : transmitted x y -> (tiny < B2R x <= 1)%R -> positive y.
Proof.
  intros T (L & U). assert (P : (0 < tiny)%R) by (unfold tiny; apply Rmult_lt_0_compat; [lra|apply Rinv_0_lt_compat, pow_lt; lra]).
  destruct (transmitted_unit x y T ltac:(lra)) as ((A & _) & _). unfold positive. destruct (Req_dec (B2R y) 0) as [Z|Z]; [|lra].
  apply (transmitted_zero x y T) in Z. rewrite Rabs_pos_eq in Z by lra. fold tiny in Z. lra.
Qed.
Lemma one_500 : (1 <= bpow radix2 500)%R.
Proof. change 1%R with (bpow radix2 0). apply bpow_le. lia. Qed.
Lemma arrived_usable (l l' : table) : Forall2 transmitted l l' -> Forall (fun x => is_finite x = true /\ (0 <= B2R x <= 1)%R) l -> usable l' /\ clear l'.
Proof.
  intros T W. induction T as [|x y l l' H _ IH]; [split; constructor|]. apply Forall_cons_iff in W. destruct W as ((_ & X) & W). destruct (IH W) as (I1 & I2).
  destruct (transmitted_unit x y H X) as (Y & _). pose proof one_500. split; constructor; try assumption.
  - split; [apply H|lra].
  - destruct (transmitted_clear x y H) as [Z|Z]; [now left|right]. rewrite Rabs_pos_eq in Z by lra. eapply Rle_trans; [|exact Z]. apply bpow_le. lia.
Qed.
Lemma arrived_some (l l' : table) : Forall2 transmitted l l' -> Forall (fun x => is_finite x = true /\ (0 <= B2R x <= 1)%R) l -> some_weight l -> Exists positive l'.
Proof.
  intros T. induction T as [|x y l l' H _ IH]; intros W S; [inversion S|]. apply Forall_cons_iff in W. destruct W as ((_ & X) & W). inversion S; subst.
  - left. apply (transmitted_positive x y H). lra.
  - right. now apply IH.
Qed.
Lemma arrived_every (l l' : table) : Forall2 transmitted l l' -> Forall (fun x => is_finite x = true /\ (0 <= B2R x <= 1)%R) l -> every_weight l -> Forall positive l'.
Proof.
  intros T. induction T as [|x y l l' H _ IH]; intros W S; [constructor|]. apply Forall_cons_iff in W. destruct W as ((_ & X) & W). inversion S; subst. constructor.
  - apply (transmitted_positive x y H). lra.
  - now apply IH.
Qed.
(** ** Scores are finite *)
Lemma sum_finite log10 T J ks : log10_ok log10 -> length T = 24%nat -> usable T -> Forall positive T -> is_key J -> Forall is_key ks -> forall acc, fin_score acc ->
  fin_score (fold_left (fun acc k => fadd acc (log10 (transition T J k))) ks acc).
Proof.
  intros H L U P KJ. induction 1 as [|k ks Kk _ IH]; intros acc A; [exact A|]. cbn [fold_left]. apply IH. apply fadd_fin; [exact A|].
  pose proof (transition_In T J k L KJ Kk) as I. apply (log10_pos log10 H); [now apply (usable_In T)|]. rewrite Forall_forall in P. exact (P _ I).
Qed.
Lemma score_finite log10 T locals J : log10_ok log10 -> length T = 24%nat -> usable T -> clear T -> Forall positive T -> is_key J -> Forall is_key locals -> locals <> [] ->
  fin_score (global_score log10 T locals J).
Proof.
  intros H L U C P KJ KL N. destruct KL as [|k0 ks K0 KS]; [congruence|]. cbn [global_score]. apply sum_finite; try assumption. apply fin_weight_score.
  pose proof (transition_In T J k0 L KJ K0) as I. destruct (usable_In T _ U I) as (F & R). rewrite Forall_forall in P. specialize (P _ I).
  pose proof (clear_In T _ C I P) as R'. destruct B2R_24 as (F1 & R1). pose proof (bpow_gt_0 radix2 (-500)).
  destruct (fmul_usable (rat64 1 24) (transition T J k0) F1 F ltac:(lra) R) as (A & _). apply (log10_pos log10 H); [exact A|]. apply fmul_clear; try assumption. split; [exact R'|apply R].
Qed.
(** ** A run *)
Lemma main_detects w (o : options) file notes tb : gives w file notes -> o_args o = [file] -> o_format o = None -> o_chroma o = false ->
  choose_tables (w_garbage1 w) (w_garbage2 w) (w_garbage3 w) o = Ret (Go tb) ->
  main w (inl o) = do r <- detect (w_log10 w) (w_iter1 w) (w_iter2 w) tb (map pc_of_int notes); let '(h1, h2, mainKey) := r in
    do text <- write_output o file (h_probs h2) mainKey; Ret (mkEnded 0 text "").
Proof.
  intros (base & ext & kind & E & S & L & K & R) A F C T. destruct (C28_proof base ext ltac:(now rewrite <- E) L) as (k & K' & X). pose proof (kind_unique ext k _ K' K) as ->.
  unfold main, read_options, choose_input. rewrite A, F, T. rewrite E at 1. rewrite X. cbn [bind]. rewrite R by exact C. reflexivity.
Qed.
Lemma run_detects w dk dt kp kt (lp lt : table) file notes : behaves w -> assoc String.eqb kp dk = Some lp -> assoc String.eqb kt dt = Some lt ->
  weights lp -> weights lt -> some_weight lp -> every_weight lt -> gives w file notes -> Forall is_note notes -> notes <> [] ->
  exists trans locals K label ys, Forall2 transmitted lt trans /\ length locals = length notes /\ Forall is_key locals /\ is_key K /\
    (exists probs, forall o, o_args o = [file] -> o_format o = None -> o_chroma o = false -> o_profiles o = Some (text_of dk (Some kp)) -> o_transitions o = Some (text_of dt (Some kt)) ->
      main w (inl o) = do text <- write_output o file probs (key_of_int K); Ret (mkEnded 0 text "")) /\
    main w (inl (label_options (text_of dk (Some kp)) (text_of dt (Some kt)) file)) = Ret (mkEnded 0 label "") /\ print_label (key_of_int K) = Ret label /\
    ens_run w dk dt file (Some kp, kt) = Some (Returns ys) /\ length ys = 24%nat /\
    forall J, is_key J -> exists y yK, nth_error ys (Z.to_nat J) = Some y /\ nth_error ys (Z.to_nat K) = Some yK /\ is_finite y = true /\ is_finite yK = true /\
      as_feature (global_score (w_log10 w) trans locals J) y /\ (B2R y <= B2R yK)%R.
Proof.
  intros B A1 A2 (L1 & W1) (L2 & W2) S1 S2 G HN NE. destruct B as [Blog Bi1 Bi2 G1 G2 G3].
  assert (F1 : Forall (fun x => is_finite x = true) lp) by (eapply Forall_impl; [|exact W1]; intros x X; apply X).
  assert (F2 : Forall (fun x => is_finite x = true) lt) by (eapply Forall_impl; [|exact W2]; intros x X; apply X).
  set (sp := text_of dk (Some kp)). set (st := text_of dt (Some kt)).
  assert (CH : exists major minor trans, (forall o, o_profiles o = Some sp -> o_transitions o = Some st -> choose_tables (w_garbage1 w) (w_garbage2 w) (w_garbage3 w) o = Ret (Go (mkTables "custom" "custom" major minor "custom" trans))) /\
    Forall2 transmitted (firstn 12 lp) major /\ Forall2 transmitted (skipn 12 lp) minor /\ Forall2 transmitted lt trans).
  { destruct (reach_detector dk dt kp kt lp lt (label_options sp st file) (w_garbage1 w) (w_garbage2 w) (w_garbage3 w) A1 A2 L1 L2 F1 F2 eq_refl eq_refl G1 G2 G3) as (a & b & c & E & T).
    exists a, b, c. split; [|exact T]. intros o O1 O2. rewrite <- E. unfold choose_tables. rewrite O1, O2. reflexivity. }
  destruct CH as (A & Bm & T & CH & TA & TB & TT). set (tb := mkTables "custom" "custom" A Bm "custom" T) in *.
  assert (LA : length A = 12%nat) by (rewrite <- (OptFacts.Forall2_length_eq _ _ _ TA), firstn_length; lia).
  assert (LB : length Bm = 12%nat) by (rewrite <- (OptFacts.Forall2_length_eq _ _ _ TB), skipn_length; lia).
  assert (LT : length T = 24%nat) by (rewrite <- (OptFacts.Forall2_length_eq _ _ _ TT); exact L2).
  assert (SEL : selects tb A Bm T) by (split; [reflexivity|reflexivity|reflexivity|]; cbn; auto).
  assert (W1' : Forall (fun x => is_finite x = true /\ (0 <= B2R x <= 1)%R) (firstn 12 lp ++ skipn 12 lp)) by now rewrite firstn_skipn.
  apply Forall_app in W1'. destruct W1' as (WA & WB).
  destruct (arrived_usable _ _ TA WA) as (UA & CA). destruct (arrived_usable _ _ TB WB) as (UB & CB). destruct (arrived_usable _ _ TT W2) as (UT & CT).
  assert (EX : Exists positive A \/ Exists positive Bm).
  { unfold some_weight in S1. rewrite <- (firstn_skipn 12 lp) in S1. apply Exists_app in S1. destruct S1 as [S1|S1]; [left|right]; eapply arrived_some; eauto. }
  pose proof (arrived_every _ _ TT W2 S2) as PT.
  destruct (C22_proof _ Blog _ _ Bi1 Bi2 tb A Bm T notes SEL UA UB UT CA CB CT EX PT HN NE) as (h1 & h2 & K & D & HK & _).
  destruct (C24_proof _ Blog _ _ Bi1 Bi2 tb A Bm T notes h1 h2 _ SEL UT HN NE D) as (locals & K2 & Ek1 & Ll & Kl & HK2 & EK & _ & Ent & Max).
  assert (K2 = K) by (apply (f_equal kint) in EK; rewrite !kint_key in EK by assumption; congruence). subst K2.
  assert (Lne : locals <> []) by (intros X; subst; destruct notes; [contradiction|discriminate]).
  destruct (detect_inv _ _ _ Bi1 Bi2 tb notes h1 h2 _ HN NE D) as (locals' & path & K' & _ & _ & Ll' & _ & E2 & _).
  assert (Lp : length (h_probs h2) = 24%nat).
  { assert (Lne' : locals' <> []) by (intros X; subst; destruct notes; [contradiction|discriminate]).
    destruct (C16_score_proof _ _ Bi2 (model2 tb locals') h2 eq_refl Lne' E2) as (? & ? & _ & _ & _ & _ & _ & _ & X & _). exact X. }
  destruct (feature_total (h_probs h2)) as (ys & Y).
  destruct (C25_label_proof K HK) as (t & EL & _). set (label := (t ++ tab ++ mode_word K ++ nl)%string) in *.
  exists T, locals, K, label, ys. split; [exact TT|]. split; [exact Ll|]. split; [exact Kl|]. split; [exact HK|]. split; [|split; [|split; [exact EL|split; [|split]]]].
  - exists (h_probs h2). intros o O1 O2 O3 O4 O5. rewrite (main_detects w o file notes tb G O1 O2 O3 (CH o O4 O5)). rewrite D. reflexivity.
  - rewrite (main_detects w (label_options sp st file) file notes tb G eq_refl eq_refl eq_refl (CH (label_options sp st file) eq_refl eq_refl)). rewrite D. cbn [bind]. unfold write_output. cbn [o_probabilities o_evaluate label_options]. rewrite EL. reflexivity.
  - unfold ens_run. cbn [fst snd]. fold sp st. rewrite (main_detects w (ensembler_options sp st file) file notes tb G eq_refl eq_refl eq_refl (CH (ensembler_options sp st file) eq_refl eq_refl)). rewrite D. cbn [bind]. unfold write_output.
    cbn [o_probabilities o_evaluate ensembler_options bind stdout out]. now rewrite (features_printed _ ys Lp Y).
  - rewrite <- (OptFacts.Forall2_length_eq _ _ _ Y). exact Lp.
  - assert (AT : forall J, is_key J -> exists y, nth_error ys (Z.to_nat J) = Some y /\ is_finite y = true /\ as_feature (global_score (w_log10 w) T locals J) y).
    { intros J HJ. assert (Lt : (Z.to_nat J < length (h_probs h2))%nat) by (rewrite Lp; unfold is_key in HJ; lia).
      destruct (nth_error (h_probs h2) (Z.to_nat J)) as [x|] eqn:Nx; [|apply nth_error_None in Nx; lia].
      assert (Nv : forall l l', Forall2 as_feature l l' -> forall i x, nth_error l i = Some x -> exists y, nth_error l' i = Some y /\ as_feature x y).
      { clear. induction 1 as [|a b l l' H _ IH]; intros [|i] x X; try discriminate; cbn in *; [injection X as <-; eauto|now apply IH]. }
      destruct (Nv _ _ Y _ _ Nx) as (y & Ny & Fy). exists y. split; [exact Ny|].
      assert (EQ : x = global_score (w_log10 w) T locals J).
      { rewrite <- (Ent J HJ). unfold prob_entry, znth. destruct (Z.ltb_spec J 0); [unfold is_key in HJ; lia|]. symmetry. now apply nth_error_nth. }
      rewrite <- EQ. split; [|exact Fy]. pose proof (score_finite _ T locals J Blog LT UT CT PT HJ Kl Lne) as FS. rewrite <- EQ in FS. unfold as_feature in Fy.
      destruct FS as (FS & _). rewrite FS in Fy. apply Fy. }
    intros J HJ. destruct (AT J HJ) as (y & N1 & N2 & N3). destruct (AT K HK) as (yK & M1 & M2 & M3). exists y, yK. split; [exact N1|]. split; [exact M1|]. split; [exact N2|]. split; [exact M2|]. split; [exact N3|].
    specialize (Max J HJ). pose proof (score_finite _ T locals J Blog LT UT CT PT HJ Kl Lne) as FJ. pose proof (score_finite _ T locals K Blog LT UT CT PT HK Kl Lne) as FK.
    rewrite fgt_finite in Max by (apply FJ || apply FK). unfold as_feature in N3, M3. destruct FJ as (FJ & _). destruct FK as (FK & _). rewrite FJ in N3. rewrite FK in M3. destruct N3 as (_ & -> & _). destruct M3 as (_ & -> & _).
    unfold rounded. apply round_le; [typeclasses eauto|typeclasses eauto|]. apply six_le. destruct (Rlt_bool_spec (B2R (global_score (w_log10 w) T locals K)) (B2R (global_score (w_log10 w) T locals J))); [discriminate|assumption].
Qed.
Lemma run_works w dk dt kp kt (lp lt : table) file notes : behaves w -> assoc String.eqb kp dk = Some lp -> assoc String.eqb kt dt = Some lt ->
  weights lp -> weights lt -> some_weight lp -> every_weight lt -> gives w file notes -> Forall is_note notes -> notes <> [] ->
  exists trans locals K label ys, Forall2 transmitted lt trans /\ length locals = length notes /\ Forall is_key locals /\ is_key K /\
    main w (inl (label_options (text_of dk (Some kp)) (text_of dt (Some kt)) file)) = Ret (mkEnded 0 label "") /\ print_label (key_of_int K) = Ret label /\
    ens_run w dk dt file (Some kp, kt) = Some (Returns ys) /\ length ys = 24%nat /\
    forall J, is_key J -> exists y yK, nth_error ys (Z.to_nat J) = Some y /\ nth_error ys (Z.to_nat K) = Some yK /\ is_finite y = true /\ is_finite yK = true /\
      as_feature (global_score (w_log10 w) trans locals J) y /\ (B2R y <= B2R yK)%R.
Proof.
  intros B A1 A2 L1 L2 S1 S2 G HN NE. destruct (run_detects w dk dt kp kt lp lt file notes B A1 A2 L1 L2 S1 S2 G HN NE) as (trans & locals & K & label & ys & H1 & H2 & H3 & H4 & _ & H5).
  exists trans, locals, K, label, ys. auto.
Qed.

(** ** Stored tables *)
Lemma assoc_In {V} (d : list (string * V)) n v : assoc String.eqb n d = Some v -> In (n, v) d.
Proof. induction d as [|[k u] d IH]; cbn; [discriminate|]. destruct (String.eqb_spec n k) as [->|]; [intros H; left; congruence|auto]. Qed.
Definition large (x : b64) : bool := fgt x (dec 1 14).
Lemma large_spec (x : b64) : is_finite x = true -> large x = true -> (tiny < B2R x)%R.
Proof.
  intros F H. unfold large in H.
  assert (E : B2SF (dec 1 14) = SpecFloat.S754_finite false 6338253001141147 (-99)) by (vm_compute; reflexivity).
  assert (FD : is_finite (dec 1 14) = true) by (rewrite <- is_finite_SF_B2SF, E; reflexivity).
  revert E FD H. generalize (dec 1 14). intros d E FD H.
  rewrite fgt_finite in H by assumption. destruct (Rlt_bool_spec (B2R d) (B2R x)) as [L|L]; [|discriminate]. eapply Rle_lt_trans; [|exact L].
  rewrite <- SF2R_B2SF, E. unfold SF2R, F2R. cbn [Fnum Fexp cond_Zopp]. rewrite (bpow2_neg 99) by lia. change (2 ^ 99) with 633825300114114700748351602688. unfold tiny. rewrite (pow_IZR 10 15). change (10 ^ Z.of_nat 15) with 1000000000000000. lra.
Qed.
Lemma halves_stored : forallb (fun e => existsb large (firstn 12 (snd e)) && existsb large (skipn 12 (snd e))) initial_profiles = true.
Proof. vm_compute. reflexivity. Qed.
Lemma rows_stored : forallb (fun e => forallb large (snd e)) initial_transitions = true.
Proof. vm_compute. reflexivity. Qed.
Lemma stored_weights name l : assoc String.eqb name initial_profiles = Some l \/ assoc String.eqb name initial_transitions = Some l -> weights l.
Proof. intros H. apply (stored_tables name). apply in_or_app. destruct H as [H|H]; apply assoc_In in H; auto. Qed.
Lemma existsb_weight l : Forall (fun x => is_finite x = true /\ (0 <= B2R x <= 1)%R) l -> existsb large l = true -> some_weight l.
Proof.
  intros W H. apply existsb_exists in H. destruct H as (x & X & L). apply Exists_exists. exists x. split; [exact X|]. rewrite Forall_forall in W. apply large_spec; [now apply W|exact L].
Qed.
Lemma stored_halves name l : assoc String.eqb name initial_profiles = Some l -> some_weight (firstn 12 l) /\ some_weight (skipn 12 l).
Proof.
  intros H. destruct (stored_weights name l (or_introl H)) as (_ & W). rewrite <- (firstn_skipn 12 l) in W. apply Forall_app in W. destruct W as (WA & WB).
  pose proof halves_stored as C. rewrite forallb_forall in C. specialize (C _ (assoc_In _ _ _ H)). cbn [snd] in C. apply andb_prop in C. destruct C as (C1 & C2). split; now apply existsb_weight.
Qed.
Lemma stored_some name l : assoc String.eqb name initial_profiles = Some l -> some_weight l.
Proof. intros H. destruct (stored_halves name l H) as (A & _). unfold some_weight. rewrite <- (firstn_skipn 12 l). apply Exists_app. now left. Qed.
Lemma stored_every name l : assoc String.eqb name initial_transitions = Some l -> every_weight l.
Proof.
  intros H. destruct (stored_weights name l (or_intror H)) as (_ & W). pose proof rows_stored as C. rewrite forallb_forall in C. specialize (C _ (assoc_In _ _ _ H)). cbn [snd] in C.
  rewrite forallb_forall in C. apply Forall_forall. intros x X. rewrite Forall_forall in W. apply large_spec; [now apply W|now apply C].
Qed.

(** ** Files *)
Lemma gives_midi w base ext es ns : sized (base ++ "." ++ ext) -> lacks "." ext -> kind_of_extension ext (Some INPUT_MIDI) -> w_returned w = true ->
  snd (w_midi w (base ++ "." ++ ext)%string) = es -> Forall midi_event es -> heard es ns -> gives w (base ++ "." ++ ext) ns.
Proof.
  intros S L K R E F H. exists base, ext, INPUT_MIDI. split; [reflexivity|]. split; [exact S|]. split; [exact L|]. split; [exact K|]. intros o _. unfold read_input.
  destruct (w_midi w (base ++ "." ++ ext)%string) as [ok events]. cbn [snd] in E. subst es. cbn [midi_status MIDI_READY Z.eqb Pos.eqb negb]. now rewrite R, (C41_collected_proof events ns H F).
Qed.
Lemma heard_notes es ns : heard es ns -> Forall is_note ns.
Proof. induction 1; try assumption; constructor; [|assumption]. unfold is_note. apply Z.mod_pos_bound. lia. Qed.

(** ** Mixtures *)
Definition mixed_name (p : string * string) : string := (fst p ++ "_" ++ snd p)%string.
Definition mixture (la lb : table) : table := firstn 12 la ++ skipn 12 lb.
Lemma mix_all_spec pairs : forall d, (forall p, In p pairs -> assoc String.eqb (fst p) d <> None /\ assoc String.eqb (snd p) d <> None) ->
  NoDup (map mixed_name pairs) -> (forall p q, In p pairs -> In q pairs -> mixed_name p <> fst q /\ mixed_name p <> snd q) ->
  snd (mix_all d pairs) = map (fun p => Some (mixed_name p)) pairs /\
  (forall p la lb, In p pairs -> assoc String.eqb (fst p) d = Some la -> assoc String.eqb (snd p) d = Some lb -> assoc String.eqb (mixed_name p) (fst (mix_all d pairs)) = Some (mixture la lb)) /\
  (forall n, ~ In n (map mixed_name pairs) -> assoc String.eqb n (fst (mix_all d pairs)) = assoc String.eqb n d).
Proof.
  induction pairs as [|[a b] pairs IH]; intros d K ND FR; [repeat split; try (intros; contradiction)|].
  destruct (K (a, b) (or_introl eq_refl)) as (KA & KB). cbn [fst snd] in KA, KB.
  destruct (assoc String.eqb a d) as [la|] eqn:A; [|congruence]. destruct (assoc String.eqb b d) as [lb|] eqn:B; [|congruence].
  destruct (mix_known d a b la lb A B) as (d1 & M & N1 & N2). cbn [mix_all]. rewrite M.
  inversion ND as [|? ? NI ND']; subst. fold (mixed_name (a, b)) in N1, N2. change (a ++ "_" ++ b)%string with (mixed_name (a, b)) in *.
  assert (KEEP : forall p, In p ((a, b) :: pairs) -> assoc String.eqb (fst p) d1 = assoc String.eqb (fst p) d /\ assoc String.eqb (snd p) d1 = assoc String.eqb (snd p) d).
  { intros p P. destruct (FR (a, b) p (or_introl eq_refl) P) as (F1 & F2). split; apply N2; congruence. }
  destruct (IH d1) as (R1 & R2 & R3).
  - intros p P. destruct (KEEP p (or_intror P)) as (E1 & E2). rewrite E1, E2. apply K. now right.
  - exact ND'.
  - intros p q P Q. apply FR; now right.
  - destruct (mix_all d1 pairs) as [d2 names]. cbn [fst snd] in *. split; [cbn [map]; now rewrite R1|]. split.
    + intros p la' lb' [<-|P] E1 E2.
      * cbn [fst snd] in E1, E2. rewrite A in E1. rewrite B in E2. apply Some_inj in E1, E2. subst la' lb'. rewrite R3 by exact NI. exact N1.
      * destruct (KEEP p (or_intror P)) as (X1 & X2). apply R2; [exact P|now rewrite X1|now rewrite X2].
    + intros n H. cbn [map] in H. rewrite R3 by (intros X; apply H; now right). apply N2. intros ->. apply H. now left.
Qed.
Lemma mixture_weights la lb : weights la -> weights lb -> weights (mixture la lb).
Proof.
  intros (L1 & W1) (L2 & W2). split; [unfold mixture; rewrite app_length, firstn_length, skipn_length; lia|]. apply Forall_app. split.
  - rewrite <- (firstn_skipn 12 la) in W1. now apply Forall_app in W1.
  - rewrite <- (firstn_skipn 12 lb) in W2. now apply Forall_app in W2.
Qed.

(** ** The whole ensemble *)
Lemma all_runs_forall2 {A} (l : list (option (py A))) ys : Forall2 (fun r y => r = Some (Returns y)) l ys -> all_runs l = Some (Returns ys).
Proof. induction 1 as [|r y l ys -> _ IH]; [reflexivity|]. cbn. rewrite IH. reflexivity. Qed.
Lemma product_nth {A B} (l : list A) (m : list B) : in_product_order l m (list_prod l m).
Proof.
  split; [apply prod_length|]. induction l as [|a l IH]; intros i j x y X Y; [destruct i; discriminate|]. cbn [list_prod].
  assert (LJ : (j < length m)%nat) by (apply nth_error_Some; congruence). destruct i as [|i]; cbn in X.
  - injection X as <-. cbn [Nat.mul Nat.add]. rewrite nth_error_app1 by (now rewrite map_length). now apply (map_nth_error (fun y => (a, y))).
  - rewrite nth_error_app2 by (rewrite map_length; cbn [Nat.mul]; lia). rewrite map_length. replace (S i * length m + j - length m)%nat with (i * length m + j)%nat by (cbn [Nat.mul]; lia). now apply IH.
Qed.
Lemma ensemble_works w dk dt (e : ens) file notes mixed dk' e' pairs : behaves w -> gives w file notes -> Forall is_note notes -> notes <> [] ->
  match e_ensemble e with None => get_ensemble dk e mixed | Some _ => (dk, e) end = (dk', e') -> e_ensemble e' = Some pairs ->
  (forall p, In p pairs -> exists n lp lt, fst p = Some n /\ assoc String.eqb n dk' = Some lp /\ assoc String.eqb (snd p) dt = Some lt /\ weights lp /\ weights lt /\ some_weight lp /\ every_weight lt) ->
  exists rows, ens_evaluate w dk dt e file mixed = (dk', e', Some (Returns rows)) /\
    Forall2 (fun p row => ens_run w dk' dt file p = Some (Returns row) /\ length row = 24%nat /\ Forall (fun y => is_finite y = true) row) pairs rows.
Proof.
  intros B G HN NE E P OK. unfold ens_evaluate. rewrite E, P. clear E P.
  assert (X : exists rows, Forall2 (fun p row => ens_run w dk' dt file p = Some (Returns row) /\ length row = 24%nat /\ Forall (fun y => is_finite y = true) row) pairs rows).
  { induction pairs as [|[o t] pairs IH]; [now exists []|]. destruct IH as (rows & R); [intros p Q; apply OK; now right|].
    destruct (OK (o, t) (or_introl eq_refl)) as (n & lp & lt & E1 & A1 & A2 & W1 & W2 & S1 & S2). cbn [fst snd] in E1, A2. subst o.
    destruct (run_works w dk' dt n t lp lt file notes B A1 A2 W1 W2 S1 S2 G HN NE) as (trans & locals & K & label & ys & _ & _ & _ & HK & _ & _ & R1 & L & F).
    exists (ys :: rows). constructor; [|exact R]. split; [exact R1|]. split; [exact L|]. apply Forall_forall. intros y Y. apply In_nth_error in Y. destruct Y as (i & Y).
    assert (Li : (i < 24)%nat) by (rewrite <- L; apply nth_error_Some; congruence).
    destruct (F (Z.of_nat i) ltac:(unfold is_key; lia)) as (y' & yK & Y1 & _ & Y2 & _). rewrite Nat2Z.id in Y1. congruence. }
  destruct X as (rows & R). exists rows. split; [|exact R]. do 2 f_equal. apply all_runs_forall2. clear OK. induction R as [|p row pairs rows (R1 & _) _ IH]; constructor; [exact R1|exact IH].
Qed.
(** Distinct names for all mixtures of stored profiles, none of them a stored name. *)
Fixpoint nodupb (l : list string) : bool := match l with [] => true | x :: l' => negb (elem x l') && nodupb l' end.
Lemma elem_In x l : elem x l = true <-> In x l.
Proof. unfold elem. rewrite existsb_exists. split; [intros (y & Y & E); apply String.eqb_eq in E; now subst|intros H; exists x; split; [exact H|apply String.eqb_refl]]. Qed.
Lemma nodupb_spec l : nodupb l = true -> NoDup l.
Proof.
  induction l as [|x l IH]; [constructor|]. cbn. intros H. apply andb_prop in H. destruct H as (A & B). constructor; [|now apply IH]. intros X. apply elem_In in X. rewrite X in A. discriminate.
Qed.
Definition all_names : list string := map fst initial_profiles.
Lemma mixed_distinct : nodupb (map mixed_name (list_prod all_names all_names)) = true /\
  forallb (fun p => negb (elem (mixed_name p) all_names)) (list_prod all_names all_names) = true.
Proof. split; vm_compute; reflexivity. Qed.
Lemma NoDup_map_inj {A B} (f : A -> B) l : NoDup (map f l) -> forall x y, In x l -> In y l -> f x = f y -> x = y.
Proof.
  induction l as [|a l IH]; intros H x y X Y E; [contradiction|]. inversion H; subst. destruct X as [<-|X], Y as [<-|Y]; try reflexivity.
  - elim H2. rewrite E. now apply in_map.
  - elim H2. rewrite <- E. now apply in_map.
  - now apply IH.
Qed.
Lemma NoDup_incl_map {A B} (f : A -> B) l m : NoDup (map f m) -> NoDup l -> incl l m -> NoDup (map f l).
Proof.
  intros H N I. induction N as [|x l X N IH]; [constructor|]. cbn. constructor; [|apply IH; intros y Y; apply I; now right].
  intros Q. apply in_map_iff in Q. destruct Q as (y & E & Y). apply X. rewrite <- (NoDup_map_inj f m H y x); [exact Y|apply I; now right|apply I; now left|exact E].
Qed.
Lemma NoDup_both {A} (l m : list A) : NoDup l -> NoDup m -> (forall x, In x l -> ~ In x m) -> NoDup (l ++ m).
Proof.
  intros L M D. induction L as [|x l X L IH]; [exact M|]. cbn. constructor; [|apply IH; intros y Y; apply D; now right]. intros H. apply in_app_or in H. destruct H as [H|H]; [now apply X|]. revert H. apply D. now left.
Qed.
Lemma NoDup_prod {A B} (l : list A) (m : list B) : NoDup l -> NoDup m -> NoDup (list_prod l m).
Proof.
  intros L M. induction L as [|x l X L IH]; [constructor|]. cbn. apply NoDup_both.
  - apply FinFun.Injective_map_NoDup; [intros a b E; congruence|exact M].
  - exact IH.
  - intros [a b] P Q. apply in_map_iff in P. destruct P as (b' & E & _). injection E as <- _. apply in_prod_iff in Q. now apply X.
Qed.
Lemma known_name n : In n all_names -> assoc String.eqb n initial_profiles <> None.
Proof.
  unfold all_names. generalize initial_profiles. induction l as [|[k v] l IH]; cbn; [tauto|]. intros H. destruct (String.eqb_spec n k); [discriminate|]. apply IH. destruct H; [congruence|assumption].
Qed.
Lemma stored_ensemble w ps ts file notes mixed : behaves w -> gives w file notes -> Forall is_note notes -> notes <> [] ->
  incl ps all_names -> incl ts (map fst initial_transitions) -> (mixed = true -> NoDup ps) ->
  exists dk pairs rows, snd (ens_evaluate w initial_profiles initial_transitions (ensembler ps ts) file mixed) = Some (Returns rows) /\
    in_product_order (if mixed then map mixed_name (list_prod ps ps) else ps) ts pairs /\
    (if mixed then forall a b la lb, In a ps -> In b ps -> assoc String.eqb a initial_profiles = Some la -> assoc String.eqb b initial_profiles = Some lb -> assoc String.eqb (mixed_name (a, b)) dk = Some (mixture la lb)
     else dk = initial_profiles) /\
    Forall2 (fun p row => ens_run w dk initial_transitions file (Some (fst p), snd p) = Some (Returns row) /\ length row = 24%nat /\ Forall (fun y => is_finite y = true) row) pairs rows.
Proof.
  intros B G HN NE IP IT ND.
  assert (TR : forall t, In t ts -> exists lt, assoc String.eqb t initial_transitions = Some lt /\ weights lt /\ every_weight lt).
  { intros t T. apply IT in T. assert (N : assoc String.eqb t initial_transitions <> None).
    { revert T. generalize initial_transitions. induction l as [|[k v] l IH]; cbn; [tauto|]. intros H. destruct (String.eqb_spec t k); [discriminate|]. apply IH. destruct H; [congruence|assumption]. }
    destruct (assoc String.eqb t initial_transitions) as [lt|] eqn:E; [|congruence]. exists lt. split; [reflexivity|]. split; [apply (stored_weights t); now right|now apply (stored_every t)]. }
  assert (FIN : forall dk' names, (forall n, In n names -> exists lp, assoc String.eqb n dk' = Some lp /\ weights lp /\ some_weight lp) ->
    match e_ensemble (ensembler ps ts) with None => get_ensemble initial_profiles (ensembler ps ts) mixed | Some _ => (initial_profiles, ensembler ps ts) end =
      (dk', mkEns ps ts (Some (list_prod (map Some names) ts))) ->
    exists pairs rows, snd (ens_evaluate w initial_profiles initial_transitions (ensembler ps ts) file mixed) = Some (Returns rows) /\ in_product_order names ts pairs /\
      Forall2 (fun p row => ens_run w dk' initial_transitions file (Some (fst p), snd p) = Some (Returns row) /\ length row = 24%nat /\ Forall (fun y => is_finite y = true) row) pairs rows).
  { intros dk' names HN' EQ. destruct (ensemble_works w initial_profiles initial_transitions (ensembler ps ts) file notes mixed dk' _ (list_prod (map Some names) ts) B G HN NE EQ eq_refl) as (rows & R1 & R2).
    { intros [o t] P. apply in_prod_iff in P. destruct P as (P1 & P2). apply in_map_iff in P1. destruct P1 as (n & <- & P1). destruct (HN' n P1) as (lp & A1 & W1 & S1). destruct (TR t P2) as (lt & A2 & W2 & S2).
      exists n, lp, lt. cbn [fst snd]. auto 8. }
    exists (list_prod names ts), rows. rewrite R1. split; [reflexivity|]. split; [apply product_nth|].
    assert (MP : list_prod (map Some names) ts = map (fun p => (Some (fst p), snd p)) (list_prod names ts)).
    { clear. induction names as [|n names IH]; [reflexivity|]. cbn [map list_prod]. rewrite IH, map_app, map_map. reflexivity. }
    rewrite MP in R2. clear - R2. revert R2. generalize (list_prod names ts). intros l. revert rows. induction l as [|p l IH]; intros rows R; inversion R; subst; constructor; [assumption|now apply IH]. }
  destruct mixed.
  - specialize (ND eq_refl). destruct mixed_distinct as (MD1 & MD2). apply nodupb_spec in MD1. rewrite forallb_forall in MD2.
    assert (IPP : incl (list_prod ps ps) (list_prod all_names all_names)) by (intros [a b] P; apply in_prod_iff in P; apply in_prod_iff; split; now apply IP).
    destruct (mix_all_spec (list_prod ps ps) initial_profiles) as (M1 & M2 & M3).
    { intros [a b] P. apply IPP in P. apply in_prod_iff in P. split; now apply known_name. }
    { apply (NoDup_incl_map mixed_name _ _ MD1); [now apply NoDup_prod|exact IPP]. }
    { intros p q P Q. apply IPP in P, Q. specialize (MD2 p P). destruct q as [a b]. apply in_prod_iff in Q. cbn [fst snd].
      split; intros X; rewrite X in MD2; [destruct Q as (Q & _)|destruct Q as (_ & Q)]; apply elem_In in Q; rewrite Q in MD2; discriminate. }
    assert (MIX : forall a b la lb, In a ps -> In b ps -> assoc String.eqb a initial_profiles = Some la -> assoc String.eqb b initial_profiles = Some lb -> assoc String.eqb (mixed_name (a, b)) (fst (mix_all initial_profiles (list_prod ps ps))) = Some (mixture la lb)).
    { intros a b la lb A1 A2 E1 E2. apply (M2 (a, b)); [now apply in_prod|exact E1|exact E2]. }
    destruct (FIN (fst (mix_all initial_profiles (list_prod ps ps))) (map mixed_name (list_prod ps ps))) as (pairs & rows & R1 & R2 & R3).
    + intros n N. apply in_map_iff in N. destruct N as ([a b] & <- & P). apply in_prod_iff in P. destruct P as (P1 & P2).
      pose proof (known_name a (IP a P1)) as KA. pose proof (known_name b (IP b P2)) as KB.
      destruct (assoc String.eqb a initial_profiles) as [la|] eqn:EA; [|congruence]. destruct (assoc String.eqb b initial_profiles) as [lb|] eqn:EB; [|congruence].
      exists (mixture la lb). split; [now apply MIX|]. split; [apply mixture_weights; eapply stored_weights; left; eassumption|]. apply Exists_app. left. now apply (stored_halves a).
    + unfold get_ensemble. cbn [e_ensemble ensembler e_profiles e_transitions]. destruct (mix_all initial_profiles (list_prod ps ps)) as [d' names']. cbn [fst snd] in *. rewrite M1. rewrite map_map. reflexivity.
    + exists (fst (mix_all initial_profiles (list_prod ps ps))), pairs, rows. split; [exact R1|]. split; [exact R2|]. split; [exact MIX|exact R3].
  - destruct (FIN initial_profiles ps) as (pairs & rows & R1 & R2 & R3).
    + intros n N. pose proof (known_name n (IP n N)) as KA. destruct (assoc String.eqb n initial_profiles) as [la|] eqn:EA; [|congruence]. exists la. split; [reflexivity|]. split; [apply (stored_weights n); now left|now apply (stored_some n)].
    + reflexivity.
    + exists initial_profiles, pairs, rows. split; [exact R1|]. split; [exact R2|]. split; [reflexivity|exact R3].
Qed.
