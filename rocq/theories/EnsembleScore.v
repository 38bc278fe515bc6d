(** Facts about the score the evaluator reads from the detector, about failed runs and about what becomes of their features. *)
From Coq Require Import Lia Lra Reals Ascii.
From Flocq Require Import Core.Core IEEE754.BinarySingleNaN.
From Verif Require Import Base BaseFacts Fp FpFacts Key PitchClass KeyProfile KeyTransition Hmm Pipeline Text Options Output Chromagram Midi Main Py OptTables Dataset Ensemble.
From Verif Require Import MusicSpec TextSpec TextFacts NumberFacts PrintSpec ChromaSpec ChromaMain MainSpec MainFacts OutputFacts OptionFacts OptSpec OptFacts HmmSpec PipelineSpec PipelineFacts ReadFacts FloatKit GaSpec EnsembleSpec EnsembleFacts EnsembleRun.
Open Scope Z_scope.

(** ** The score *)
Definition one_place (n : Z) : decimal := mkDecimal NoSign [0] (Some [n]) None.
Definition whole (n : Z) : decimal := mkDecimal NoSign [n] None None.
Lemma one_place_formed n : is_dig n -> well_formed (one_place n).
Proof. intros H. split; [|split; [discriminate|exact I]]. repeat constructor; try lia; apply H. Qed.
Lemma whole_formed n : is_dig n -> well_formed (whole n).
Proof. intros H. split; [|split; [discriminate|exact I]]. repeat constructor; apply H. Qed.
Lemma rounded_0' : rounded 53 1024 0 = 0%R.
Proof. apply round_0. typeclasses eauto. Qed.
Lemma rounded_1 : rounded 53 1024 1 = 1%R.
Proof. apply round_generic; [typeclasses eauto|]. change 1%R with (bpow radix2 0). apply generic_format_bpow. cbv. discriminate. Qed.
Lemma rounded_unit v : (0 <= v <= 1)%R -> (0 <= rounded 53 1024 v <= 1)%R.
Proof.
  intros (A & B). split.
  - rewrite <- rounded_0'. apply round_le; [typeclasses eauto|typeclasses eauto|exact A].
  - rewrite <- rounded_1. apply round_le; [typeclasses eauto|typeclasses eauto|exact B].
Qed.
Lemma unit_fits d : (0 <= decimal_value d <= 1)%R -> ~ overflows 53 1024 d.
Proof.
  intros H X. unfold overflows in X. pose proof (rounded_unit _ H) as U. rewrite Rabs_pos_eq in X by apply U.
  assert (M : (1 < bpow radix2 1024)%R) by (change 1%R with (bpow radix2 0); apply bpow_lt; lia). lra.
Qed.
Lemma float_unit d n : well_formed d -> decimal_value d = (IZR n / 10)%R -> 0 <= n <= 10 -> exists x, float_of (show_decimal d ++ nl) = Returns x /\ tenths n x.
Proof.
  intros W V N. assert (U : (0 <= decimal_value d <= 1)%R) by (rewrite V; destruct N as (N1 & N2); apply IZR_le in N1, N2; lra).
  exists (nearest prec64 emax64 (numeral_of d)). split.
  - apply (float_decimal "" d nl); [constructor| |exact W]. constructor; [|constructor]. cbn. auto 10.
  - destruct (nearest_numeral prec64 emax64 d ltac:(apply W)) as [((F & E & _) & _)|(O & _)]; [|now elim (unit_fits d U)]. split; [exact F|]. rewrite E, V. reflexivity.
Qed.
Lemma credit_number K T text : credit K T text -> exists n x, float_of (text ++ nl) = Returns x /\ tenths n x /\ In n [0; 2; 3; 5; 10] /\ (n = 10 <-> K = T).
Proof.
  assert (D : forall n, In n [2; 3; 5] -> is_dig n) by (intros n H; cbn in H; unfold is_dig; lia).
  assert (V : forall n, decimal_value (one_place n) = (IZR n / 10)%R).
  { intros n. unfold decimal_value. replace (signed (d_mark (one_place n)) (digits_value (mantissa (one_place n)))) with n by (cbn; lia).
    change (powerRZ 10 (exponent_value (one_place n) - Z.of_nat (length (frac_digits (one_place n))))) with (/ (10 * 1))%R. lra. }
  assert (V' : forall n, decimal_value (whole n) = (IZR (10 * n) / 10)%R).
  { intros n. unfold decimal_value. replace (signed (d_mark (whole n)) (digits_value (mantissa (whole n)))) with n by (cbn; lia).
    change (powerRZ 10 (exponent_value (whole n) - Z.of_nat (length (frac_digits (whole n))))) with 1%R. rewrite mult_IZR. lra. }
  intros C. assert (NE : text <> "1"%string -> K <> T).
  { intros N E. destruct C as [C|C|C|C|A1 A2 A3 A4]; [now elim N| | | |].
    - destruct C as (C & _). subst T. unfold tonic in C. pose proof (Z.mod_pos_bound K 12 eq_refl) as X. assert (Q : (K mod 12 + 7) mod 12 <> K mod 12) by (assert (B : K mod 12 < 5 \/ 5 <= K mod 12) by lia; destruct B; [rewrite Z.mod_small by lia; lia|replace (K mod 12 + 7) with (K mod 12 - 5 + 1 * 12) by lia; rewrite Z.mod_add by lia; rewrite Z.mod_small by lia; lia]). congruence.
    - destruct C as (_ & C). now subst.
    - destruct C as (_ & C). now subst.
    - contradiction. }
  assert (NEQ : forall n, n <> 10 -> text <> "1"%string -> (n = 10 <-> K = T)) by (intros n A B; specialize (NE B); split; contradiction).
  destruct C as [C|C|C|C|A1 A2 A3 A4].
  - destruct (float_unit (whole 1) 10 (whole_formed 1 ltac:(unfold is_dig; lia)) (V' 1) ltac:(lia)) as (x & F & X). exists 10, x. split; [exact F|]. split; [exact X|]. split; [cbn; auto 8|tauto].
  - destruct (float_unit (one_place 5) 5 (one_place_formed 5 (D 5 ltac:(cbn; auto))) (V 5) ltac:(lia)) as (x & F & X). exists 5, x. split; [exact F|]. split; [exact X|]. split; [cbn; auto 8|apply NEQ; [lia|discriminate]].
  - destruct (float_unit (one_place 3) 3 (one_place_formed 3 (D 3 ltac:(cbn; auto))) (V 3) ltac:(lia)) as (x & F & X). exists 3, x. split; [exact F|]. split; [exact X|]. split; [cbn; auto 8|apply NEQ; [lia|discriminate]].
  - destruct (float_unit (one_place 2) 2 (one_place_formed 2 (D 2 ltac:(cbn; auto))) (V 2) ltac:(lia)) as (x & F & X). exists 2, x. split; [exact F|]. split; [exact X|]. split; [cbn; auto 8|apply NEQ; [lia|discriminate]].
  - destruct (float_unit (whole 0) 0 (whole_formed 0 ltac:(unfold is_dig; lia)) (V' 0) ltac:(lia)) as (x & F & X). exists 0, x. split; [exact F|]. split; [exact X|]. split; [cbn; auto 8|apply NEQ; [lia|discriminate]].
Qed.

(** ** What is not a number *)
Lemma strip_two c1 c2 s : is_space c1 = false -> is_space c2 = false -> exists u, strip_with is_space (String c1 (String c2 s)) = String c1 (String c2 u).
Proof.
  intros H1 H2. destruct (strip_parts (String c1 (String c2 s))) as (a & b & E & A & B). set (u := strip_with is_space (String c1 (String c2 s))) in *. clearbody u.
  destruct a as [|x a]; [|cbn in E; injection E as -> _; inversion A; subst; apply is_space_chars in H3; congruence].
  destruct u as [|x u]; [cbn in E; subst b; inversion B; subst; apply is_space_chars in H3; congruence|]. cbn in E. injection E as <- E.
  destruct u as [|y u]; [cbn in E; subst b; inversion B; subst; apply is_space_chars in H3; congruence|]. cbn in E. injection E as <- E. now exists u.
Qed.
Lemma not_number_it s : float_of ("It" ++ s) = Raises ValueError.
Proof. unfold float_of. cbn [append]. destruct (strip_two "I" "t" s eq_refl eq_refl) as (u & ->). reflexivity. Qed.
Lemma not_number_you s : float_of ("You" ++ s) = Raises ValueError.
Proof. unfold float_of. cbn [append]. destruct (strip_two "Y" "o" (String "u" s) eq_refl eq_refl) as (u & ->). reflexivity. Qed.
Lemma not_number_empty : float_of "" = Raises ValueError.
Proof. reflexivity. Qed.

(** ** Every score *)
Lemma score_range mainKey truth v : score mainKey truth = Ret v -> In v [rat64 1 1; rat64 5 10; rat64 3 10; rat64 2 10; fzero].
Proof.
  unfold score. destruct (key_eq mainKey truth) as [[|]| |]; cbn [bind]; try discriminate; [intros E; apply Ret_inj in E; subst; now left|].
  destruct (get_dominant truth) as [d| |]; cbn [bind]; try discriminate. destruct (key_eq mainKey d) as [[|]| |]; cbn [bind]; try discriminate; [intros E; apply Ret_inj in E; subst; right; now left|].
  destruct (get_relative truth) as [r| |]; cbn [bind]; try discriminate. destruct (key_eq mainKey r) as [[|]| |]; cbn [bind]; try discriminate; [intros E; apply Ret_inj in E; subst; do 2 right; now left|].
  destruct (get_parallel truth) as [q| |]; cbn [bind]; try discriminate. destruct (key_eq mainKey q) as [[|]| |]; cbn [bind]; try discriminate; intros E; apply Ret_inj in E; subst; [do 3 right; now left|do 4 right; now left].
Qed.
Lemma score_printed mainKey truth v : score mainKey truth = Ret v -> exists K T, credit K T (format_g v).
Proof.
  intros H. apply score_range in H. cbn [In] in H.
  assert (X : format_g (rat64 1 1) = "1"%string /\ format_g (rat64 5 10) = "0.5"%string /\ format_g (rat64 3 10) = "0.3"%string /\ format_g (rat64 2 10) = "0.2"%string /\ format_g fzero = "0"%string) by (vm_compute; repeat split).
  destruct X as (X1 & X2 & X3 & X4 & X5). destruct H as [<-|[<-|[<-|[<-|[<-|[]]]]]].
  - rewrite X1. exists 0, 0. now constructor.
  - rewrite X2. exists 7, 0. constructor. split; reflexivity.
  - rewrite X3. exists 21, 0. apply credit_relative, same_notesb_spec. vm_compute. reflexivity.
  - rewrite X4. exists 12, 0. constructor. split; [reflexivity|discriminate].
  - rewrite X5. exists 1, 0. assert (E : creditb 1 0 "0" = true) by (vm_compute; reflexivity). now apply creditb_spec.
Qed.
Lemma help_messages g1 g2 g3 file o m : o_args o = [file] -> read_options g1 g2 g3 o = Ret (Help m) -> (exists t, m = "It" ++ t)%string \/ (exists t, m = "You" ++ t)%string.
Proof.
  intros A. unfold read_options. rewrite A. unfold choose_input, choose_tables.
  assert (CP : forall text a b m, custom_profiles text a b = Ret (Help m) -> exists t, m = ("You" ++ t)%string).
  { intros text a b m'. unfold custom_profiles. destruct (fill_profiles _ _ _ _) as [[[i x] y]| |]; cbn [bind]; try discriminate. destruct (i =? NUMBER_OF_KEYS); [discriminate|]. intros E. apply Ret_inj in E. injection E as <-. eexists. reflexivity. }
  assert (CT : forall text a m, custom_transitions text a = Ret (Help m) -> exists t, m = ("You" ++ t)%string).
  { intros text a m'. unfold custom_transitions. destruct (fill_transitions _ _ _) as [[i x]| |]; cbn [bind]; try discriminate. destruct (i =? NUMBER_OF_KEYS); [discriminate|]. intros E. apply Ret_inj in E. injection E as <-. eexists. reflexivity. }
  assert (TB : forall s : outcome (step (option input_type)), match s with Ret (Help m') => exists t, m' = ("It" ++ t)%string | _ => True end ->
    (do c <- s; match c with Go ty => do t <- choose_tables g1 g2 g3 o; Ret (match t with Help m => Help m | Go tb => Go (file, ty, tb) end) | Help m => Ret (Help m) end) = Ret (Help m) ->
    (exists t, m = "It" ++ t)%string \/ (exists t, m = "You" ++ t)%string).
  { intros s HS. unfold choose_tables. destruct s as [[ty|m']| |]; cbn [bind]; try discriminate; [|intros E; apply Ret_inj in E; injection E as <-; now left].
    intros E. right. revert E. destruct (o_profiles o) as [text|].
    - destruct (custom_profiles text g1 g2) as [[[a b]|m']| |] eqn:E1; cbn [bind]; try discriminate; [|intros E; apply Ret_inj in E; injection E as <-; exact (CP _ _ _ _ E1)].
      destruct (o_transitions o) as [text'|]; [|cbn [bind]; discriminate].
      destruct (custom_transitions text' g3) as [[c|m']| |] eqn:E2; cbn [bind]; try discriminate. intros E; apply Ret_inj in E; injection E as <-; exact (CT _ _ _ E2).
    - cbn [bind]. destruct (o_transitions o) as [text'|]; [|cbn [bind]; discriminate].
      destruct (custom_transitions text' g3) as [[c|m']| |] eqn:E2; cbn [bind]; try discriminate. intros E; apply Ret_inj in E; injection E as <-; exact (CT _ _ _ E2). }
  intros H. apply (TB (choose_input o file)); [|exact H]. unfold choose_input. destruct (o_format o); [exact I|]. unfold input_of_extension.
  destruct (substr _ _ _) as [e| |]; cbn [bind]; try exact I. destruct (_ =? ".wav")%string; [exact I|]. destruct (_ =? ".csv")%string; [exact I|]. destruct (_ || _)%bool; [exact I|]. eexists. reflexivity.
Qed.
Lemma app_string_assoc a b c : ((a ++ b) ++ c)%string = (a ++ (b ++ c))%string.
Proof. induction a as [|x a IH]; [reflexivity|]. cbn. now rewrite IH. Qed.
Lemma every_score w kp kt file s : evaluator_score w kp kt file = Some (Some s) -> exists n, In n [0; 2; 3; 5; 10] /\ tenths n s.
Proof.
  unfold evaluator_score. set (o := evaluator_options kp kt file). unfold main. destruct (read_options _ _ _ o) as [[[[f [ty|]] tb]|m]| |] eqn:RO; cbn [bind stdout]; try discriminate.
  - assert (EF : f = file).
    { revert RO. unfold read_options. cbn [o o_args evaluator_options]. destruct (choose_input _ _) as [[ty'|]| |]; cbn [bind]; try discriminate. destruct (choose_tables _ _ _ _) as [[tb'|]| |]; cbn [bind]; try discriminate. intros E. apply Ret_inj in E. congruence. }
    subst f. destruct (read_input w o file ty) as [[pcs|e]| |] eqn:RI; cbn [bind stdout]; try discriminate.
    + destruct (detect _ _ _ tb pcs) as [[[h1 h2] k]| |]; cbn [bind stdout]; try discriminate. unfold write_output. cbn [o o_probabilities o_evaluate evaluator_options]. unfold print_evaluation.
      destruct (ground_truth file) as [[t|]| |]; cbn [bind stdout out]; try discriminate; try (rewrite not_number_empty; discriminate).
      destruct (score k (key_of_string t)) as [v| |] eqn:SC; cbn [bind stdout out]; try discriminate; try (rewrite not_number_empty; discriminate).
      destruct (score_printed _ _ _ SC) as (K & T & C). destruct (credit_number K T _ C) as (n & x & F & X & N & _). rewrite F. intros E. apply Some_inj, Some_inj in E. subst s. eauto.
    + assert (OUT : out e = ""%string).
      { revert RI. unfold read_input. cbn [o o_chroma evaluator_options].
        assert (Q : forall c : outcome chromagram, (do c <- c; if negb (ch_status c =? CHROMAGRAM_DISCRETE_READY) then Ret (Done (read_error (ch_status c))) else do pcs <- get_sequence (w_past w) c; Ret (Notes pcs)) = Ret (Done e) -> out e = ""%string).
        { intros [c| |]; cbn [bind]; try discriminate. destruct (negb _); [intros E; apply Ret_inj in E; injection E as <-; reflexivity|]. destruct (get_sequence _ c); cbn [bind]; discriminate. }
        destruct ty; [apply Q|apply Q|]. destruct (w_midi w file) as [ok ev]. destruct (negb _); [intros E; apply Ret_inj in E; injection E as <-; reflexivity|]. destruct (midi_sequence _ ev); cbn [bind]; discriminate. }
      rewrite OUT, not_number_empty. discriminate.
  - cbn [out]. destruct (help_messages _ _ _ file o m eq_refl RO) as [(t & ->)|(t & ->)]; rewrite app_string_assoc; [rewrite not_number_it|rewrite not_number_you]; discriminate.
Qed.
Lemma tenths_fraction n x : tenths n x -> 0 <= n <= 10 -> fraction x.
Proof. intros (F & E) (N1 & N2). split; [exact F|]. rewrite E. apply rounded_unit. apply IZR_le in N1, N2. lra. Qed.
Lemma tenths_one n x : tenths n x -> In n [0; 2; 3; 5; 10] -> (B2R x = 1%R <-> n = 10).
Proof.
  intros (_ & E) N. rewrite E. split; [|intros ->; replace (10 / 10)%R with 1%R by lra; exact rounded_1].
  intros H. destruct (Z.eq_dec n 10) as [|D]; [assumption|exfalso].
  assert (L : (IZR n / 10 <= / 2)%R) by (cbn in N; assert (Q : n <= 5) by lia; apply IZR_le in Q; lra).
  assert (R : rounded 53 1024 (/ 2) = (/ 2)%R) by (apply round_generic; [typeclasses eauto|]; change (/ 2)%R with (bpow radix2 (-1)); apply generic_format_bpow; cbv; discriminate).
  assert (M : (rounded 53 1024 (IZR n / 10) <= rounded 53 1024 (/ 2))%R) by (apply round_le; [typeclasses eauto|typeclasses eauto|exact L]). rewrite R in M. lra.
Qed.
(** The detector of the evaluator; where a run has undefined behaviour nothing is claimed. *)
Definition detector_of (w : world) (kp kt file : string) : option b64 := match evaluator_score w kp kt file with Some r => r | None => None end.
Lemma detector_fair w : fair_scores (detector_of w).
Proof.
  intros kp kt file s. unfold detector_of. destruct (evaluator_score w kp kt file) as [[x|]|] eqn:E; try discriminate. intros H. apply Some_inj in H. subst x.
  destruct (every_score _ _ _ _ _ E) as (n & N & T). apply (tenths_fraction n s T). cbn in N. lia.
Qed.
Lemma score_of_run w dk dt kp kt (lp lt : table) file notes s T : behaves w -> assoc String.eqb kp dk = Some lp -> assoc String.eqb kt dt = Some lt ->
  weights lp -> weights lt -> some_weight lp -> every_weight lt -> gives w file notes -> Forall is_note notes -> notes <> [] ->
  ground_truth file = Ret (Some s) -> named_key s = Some T ->
  exists K label n x, is_key K /\ main w (inl (label_options (text_of dk (Some kp)) (text_of dt (Some kt)) file)) = Ret (mkEnded 0 label "") /\ print_label (key_of_int K) = Ret label /\
    evaluator_score w (text_of dk (Some kp)) (text_of dt (Some kt)) file = Some (Some x) /\ tenths n x /\ (exists text, credit K T text /\ python_number (text ++ nl) x) /\ (n = 10 <-> K = T).
Proof.
  intros B A1 A2 L1 L2 S1 S2 G HN NE GT NK. destruct (run_detects w dk dt kp kt lp lt file notes B A1 A2 L1 L2 S1 S2 G HN NE) as (trans & locals & K & label & ys & _ & _ & _ & HK & (probs & M) & ML & PL & _).
  destruct (C26_score_proof K s T HK NK file GT) as (text & PE & C). destruct (credit_number K T text C) as (n & x & F & X & N & IFF).
  exists K, label, n, x. split; [exact HK|]. split; [exact ML|]. split; [exact PL|]. split; [|split; [exact X|split; [|exact IFF]]].
  - unfold evaluator_score. rewrite (M (evaluator_options _ _ file) eq_refl eq_refl eq_refl eq_refl eq_refl). unfold write_output. cbn [o_probabilities o_evaluate evaluator_options]. rewrite PE. cbn [bind stdout out]. now rewrite F.
  - exists text. split; [exact C|]. now apply float_iff.
Qed.

(** ** Failed runs *)
(** Files that the detector refuses. *)
Definition refused (w : world) (file : string) : Prop := sized file /\ (lacks "." file \/
  exists base ext, file = (base ++ "." ++ ext)%string /\ lacks "." ext /\
    (lower_string ext = "csv"%string /\ w_csv w file = None \/
     lower_string ext = "wav"%string /\ (w_audio w file = CannotOpen \/ w_audio w file = PluginError) \/
     kind_of_extension ext None /\ forall l, words (help_text w neither_message) l -> length l <> 24%nat)).
Lemma refused_run w dk dt kp kt (lp lt : table) file : behaves w -> assoc String.eqb kp dk = Some lp -> assoc String.eqb kt dt = Some lt -> weights lp -> weights lt -> refused w file ->
  exists row, ens_run w dk dt file (Some kp, kt) = Some (Returns row) /\ failed row.
Proof.
  intros B A1 A2 (L1 & W1) (L2 & W2) (S & R). unfold ens_run. cbn [fst snd]. set (sp := text_of dk (Some kp)). set (st := text_of dt (Some kt)). set (o := ensembler_options sp st file).
  assert (F1 : Forall (fun x => is_finite x = true) lp) by (eapply Forall_impl; [|exact W1]; intros x X; apply X).
  assert (F2 : Forall (fun x => is_finite x = true) lt) by (eapply Forall_impl; [|exact W2]; intros x X; apply X).
  destruct B as [Blog Bi1 Bi2 G1 G2 G3].
  destruct (reach_detector dk dt kp kt lp lt o (w_garbage1 w) (w_garbage2 w) (w_garbage3 w) A1 A2 L1 L2 F1 F2 eq_refl eq_refl G1 G2 G3) as (a & b & c & CT & _).
  assert (E0 : exists row, features_of "" = Returns row /\ failed row) by (apply features_failed; cbn; discriminate).
  assert (IN : exists t, stdout (main w (inl o)) = Some t /\ length (bytes_split t) <> 24%nat).
  { assert (Q0 : length (bytes_split "") <> 24%nat) by (cbn; discriminate).
    destruct R as [D|(base & ext & E & D & R)].
    - rewrite (C28_main_throws_proof w o file); [now exists ""%string|split; reflexivity|exact S|exact D].
    - destruct R as [(X & C)|[(X & C)|(X & C)]].
      + exists ""%string. split; [|exact Q0]. destruct (C28_proof base ext ltac:(now rewrite <- E) D) as (k & K' & EX). pose proof (kind_unique ext k (Some INPUT_CSV) K' X) as ->.
        unfold main, read_options, choose_input. cbn [o_args o_format o ensembler_options]. fold o. rewrite CT. rewrite E at 1. rewrite EX. cbn [bind]. unfold read_input. rewrite C. reflexivity.
      + exists ""%string. split; [|exact Q0]. destruct (C28_proof base ext ltac:(now rewrite <- E) D) as (k & K' & EX). pose proof (kind_unique ext k (Some INPUT_WAV) K' X) as ->.
        unfold main, read_options, choose_input. cbn [o_args o_format o ensembler_options]. fold o. rewrite CT. rewrite E at 1. rewrite EX. cbn [bind]. unfold read_input. destruct C as [C|C]; rewrite C; reflexivity.
      + rewrite (C28_main_help_proof w o file base ext); [|split; reflexivity|exact E|exact S|exact D|exact X]. eexists. split; [reflexivity|]. cbn [out]. apply C. apply split_words. }
  destruct IN as (t & -> & N). destruct (features_failed t N) as (row & E & F). exists row. split; [now rewrite E|exact F].
Qed.
