(** Facts about [main] as a whole. *)
From Coq Require Import Lia Ascii.
From Verif Require Import Base BaseFacts Fp Key PitchClass KeyProfile KeyTransition Hmm Pipeline Text Options Output Chromagram Midi Main MusicSpec TextSpec TextFacts MainSpec OutputFacts OptionFacts.
From Coq Require Import ZifyBool ZifyNat.
Open Scope Z_scope.

(** One file, no -f. *)
Definition plain_file (o : options) (f : string) : Prop := o_args o = [f] /\ o_format o = None.
Definition no_custom (o : options) : Prop := o_profiles o = None /\ o_transitions o = None.
Definition error_text : string := ("There was an error while reading the input file." ++ nl)%string.
Definition help_text (w : world) (message : string) : string := (message ++ nl ++ w_help w)%string.
Definition selected (o : options) (w : world) : tables := mkTables (o_major o) (o_minor o) (w_garbage1 w) (w_garbage2 w) (o_transition o) (w_garbage3 w).

Lemma read_type o f g1 g2 g3 ty tb : plain_file o f -> read_options g1 g2 g3 o = Ret (Go (f, ty, tb)) -> exists t, ty = Some t.
Proof.
  intros [A F]. unfold read_options, choose_input. rewrite A, F. destruct (input_of_extension f) as [[t|m]| |]; cbn; try discriminate.
  destruct (choose_tables g1 g2 g3 o) as [[tb'|m]| |]; cbn; intros E; try discriminate. exists t. congruence.
Qed.
Lemma read_plain o f base ext kind g1 g2 g3 : plain_file o f -> no_custom o -> f = (base ++ "." ++ ext)%string -> sized f -> lacks "." ext ->
  kind_of_extension ext kind ->
  read_options g1 g2 g3 o =
  Ret (match kind with Some t => Go (f, Some t, mkTables (o_major o) (o_minor o) g1 g2 (o_transition o) g3) | None => Help neither_message end).
Proof.
  intros [A F] [P T] -> S L K. destruct (C28_proof base ext S L) as (k & K' & E). pose proof (kind_unique ext k kind K' K) as ->. clear K'.
  unfold read_options, choose_input, choose_tables. rewrite A, F, E, P, T. destruct kind; reflexivity.
Qed.
Lemma C28_main_help_proof w o f base ext : plain_file o f -> f = (base ++ "." ++ ext)%string -> sized f -> lacks "." ext ->
  kind_of_extension ext None -> main w (inl o) = Ret (mkEnded 0 (help_text w neither_message) "").
Proof.
  intros [A F] -> S L K. destruct (C28_proof base ext S L) as (k & K' & E). pose proof (kind_unique ext k None K' K) as ->.
  unfold main, read_options, choose_input. rewrite A, F, E. reflexivity.
Qed.
Lemma C28_main_throws_proof w o f : plain_file o f -> sized f -> lacks "." f -> main w (inl o) = Throws StdOutOfRange.
Proof. intros [A F] S L. unfold main, read_options, choose_input. rewrite A, F, (C28_dotless_proof f S L). reflexivity. Qed.
(** ** C29 *)
Lemma format_nothing f : In f format_choices -> input_of_format f = None.
Proof. intros H. cbn in H. repeat (destruct H as [<-|H]; [reflexivity|]). destruct H. Qed.
Lemma C29_proof w o f format : admitted o -> o_args o = [f] -> o_format o = Some format -> no_custom o -> main w (inl o) = Undef UninitRead.
Proof.
  intros (Ad & _) A F [P T]. unfold main, read_options, choose_input, choose_tables. rewrite A, F, P, T.
  cbn [bind]. now rewrite (format_nothing format (Ad _ F)).
Qed.
(** Any table options: the program ends only in the help text or an error of the options, never with a result. *)
Lemma C29_never_proof w o format e : admitted o -> o_format o = Some format -> main w (inl o) = Ret e -> exists message, e = mkEnded 0 (help_text w message) "".
Proof.
  intros (Ad & _) F. unfold main, read_options, choose_input. rewrite F.
  destruct (o_args o) as [|f [|f' l]]; cbn [bind]; try (intros E; apply Ret_inj in E; eexists; symmetry; exact E).
  rewrite (format_nothing format (Ad _ F)). destruct (choose_tables _ _ _ o) as [[tb|m]| |]; cbn [bind]; try discriminate.
  intros E. apply Ret_inj in E. eexists. symmetry. exact E.
Qed.
(** ** C30, C31 on the whole program *)
Lemma C30_main_proof w o f base ext kind text (vals : list b64) : plain_file o f -> f = (base ++ "." ++ ext)%string -> sized f -> lacks "." ext ->
  kind_of_extension ext (Some kind) -> o_profiles o = Some text -> short text -> reads text vals ->
  length (w_garbage1 w) = 12%nat -> length (w_garbage2 w) = 12%nat -> length vals <> 24%nat ->
  main w (inl o) = Ret (mkEnded 0 (help_text w (count_message "profiles" (Z.of_nat (length vals)))) "").
Proof.
  intros [A F] -> S L K P Sh R G1 G2 N. destruct (C28_proof base ext S L) as (k & K' & E). pose proof (kind_unique ext k _ K' K) as ->.
  unfold main, read_options, choose_input, choose_tables. rewrite A, F, E, P. cbn [bind].
  now rewrite (C30_reject_proof text vals _ _ Sh R G1 G2 N).
Qed.
Lemma tables_custom (o : options) kt tt (vp vt : list b64) g1 g2 g3 : o_profiles o = Some kt -> o_transitions o = Some tt ->
  reads kt vp -> reads tt vt -> length vp = 24%nat -> length vt = 24%nat -> length g1 = 12%nat -> length g2 = 12%nat -> length g3 = 24%nat ->
  choose_tables g1 g2 g3 o = Ret (Go (mkTables "custom" "custom" (firstn 12 vp) (skipn 12 vp) "custom" vt)).
Proof.
  intros P T R1 R2 L1 L2 G1 G2 G3. unfold choose_tables. rewrite P, T. rewrite (C30_accept_proof kt vp g1 g2 R1 G1 G2 L1). cbn [bind].
  rewrite (C31_accept_proof tt vt g3 R2 G3 L2). reflexivity.
Qed.
Lemma tables_profiles (o : options) kt (vp : list b64) g1 g2 g3 : o_profiles o = Some kt -> o_transitions o = None ->
  reads kt vp -> length vp = 24%nat -> length g1 = 12%nat -> length g2 = 12%nat ->
  choose_tables g1 g2 g3 o = Ret (Go (mkTables "custom" "custom" (firstn 12 vp) (skipn 12 vp) (o_transition o) g3)).
Proof.
  intros P T R1 L1 G1 G2. unfold choose_tables. rewrite P, T. rewrite (C30_accept_proof kt vp g1 g2 R1 G1 G2 L1). reflexivity.
Qed.
Lemma tables_transitions (o : options) tt (vt : list b64) g1 g2 g3 : o_profiles o = None -> o_transitions o = Some tt ->
  reads tt vt -> length vt = 24%nat -> length g3 = 24%nat ->
  choose_tables g1 g2 g3 o = Ret (Go (mkTables (o_major o) (o_minor o) g1 g2 "custom" vt)).
Proof.
  intros P T R2 L2 G3. unfold choose_tables. rewrite P, T. cbn [bind]. rewrite (C31_accept_proof tt vt g3 R2 G3 L2). reflexivity.
Qed.
Lemma C31_main_overrun_proof w o f base ext kind text (vals : list b64) : plain_file o f -> f = (base ++ "." ++ ext)%string -> sized f -> lacks "." ext ->
  kind_of_extension ext (Some kind) -> o_profiles o = None -> o_transitions o = Some text -> reads text vals ->
  length (w_garbage3 w) = 24%nat -> (24 < length vals)%nat -> main w (inl o) = Undef OutOfBounds.
Proof.
  intros [A F] -> S L K P T R G N. destruct (C28_proof base ext S L) as (k & K' & E). pose proof (kind_unique ext k _ K' K) as ->.
  unfold main, read_options, choose_input, choose_tables. rewrite A, F, E, P, T. cbn [bind].
  now rewrite (C31_overrun_proof text vals _ R G N).
Qed.
Lemma C31_main_help_proof w o f base ext kind text (vals : list b64) : plain_file o f -> f = (base ++ "." ++ ext)%string -> sized f -> lacks "." ext ->
  kind_of_extension ext (Some kind) -> o_profiles o = None -> o_transitions o = Some text -> reads text vals ->
  length (w_garbage3 w) = 24%nat -> (length vals < 24)%nat ->
  main w (inl o) = Ret (mkEnded 0 (help_text w (count_message "transitions" (Z.of_nat (length vals)))) "").
Proof.
  intros [A F] -> S L K P T R G N. destruct (C28_proof base ext S L) as (k & K' & E). pose proof (kind_unique ext k _ K' K) as ->.
  unfold main, read_options, choose_input, choose_tables. rewrite A, F, E, P, T. cbn [bind].
  now rewrite (C31_reject_proof text vals _ R G N).
Qed.
(** ** C32 *)
Lemma C32_csv_proof w o f base ext : plain_file o f -> no_custom o -> f = (base ++ "." ++ ext)%string -> sized f -> lower_string ext = "csv"%string -> lacks "." ext ->
  w_csv w f = None -> main w (inl o) = Ret (mkEnded 1 "" error_text).
Proof.
  intros PF NC E S X L C. unfold main. rewrite (read_plain o f base ext (Some INPUT_CSV) _ _ _ PF NC E S L X). cbn [bind].
  unfold read_input. rewrite C. reflexivity.
Qed.
Lemma C32_audio_proof w o f base ext : plain_file o f -> no_custom o -> f = (base ++ "." ++ ext)%string -> sized f -> lower_string ext = "wav"%string -> lacks "." ext ->
  (w_audio w f = CannotOpen -> main w (inl o) = Ret (mkEnded 1 "" error_text)) /\
  (w_audio w f = PluginError -> main w (inl o) = Ret (mkEnded 2 "" error_text)).
Proof.
  intros PF NC E S X L. split; intros C; unfold main; rewrite (read_plain o f base ext (Some INPUT_WAV) _ _ _ PF NC E S L X); cbn [bind];
  unfold read_input; rewrite C; reflexivity.
Qed.
(** The same world with another verdict of the MIDI reader. *)
Definition with_verdict (ok : bool) (w : world) : world :=
  mkWorld (w_log10 w) (w_iter1 w) (w_iter2 w) (w_csv w) (w_audio w) (fun f => (ok, snd (w_midi w f))) (w_help w) (w_past w) (w_returned w)
    (w_garbage1 w) (w_garbage2 w) (w_garbage3 w).
Lemma C32_midi_proof w o ok : main (with_verdict ok w) (inl o) = main w (inl o).
Proof.
  unfold main. cbn. destruct (read_options _ _ _ o) as [[[[f [ty|]] tb]|m]| |]; cbn [bind]; try reflexivity.
  destruct ty; cbn; try reflexivity. now destruct (w_midi w f) as [ok' events].
Qed.
Lemma C32_midi_status_proof w o f base ext e : plain_file o f -> f = (base ++ "." ++ ext)%string -> sized f -> lacks "." ext ->
  kind_of_extension ext (Some INPUT_MIDI) -> main w (inl o) = Ret e -> exit_code e = 0 /\ err e = ""%string.
Proof.
  intros [A F] -> S L K. destruct (C28_proof base ext S L) as (k & K' & E). pose proof (kind_unique ext k _ K' K) as ->.
  unfold main, read_options, choose_input. rewrite A, F, E. cbn [bind].
  destruct (choose_tables _ _ _ o) as [[tb|m]| |]; cbn [bind]; try discriminate.
  2:{ intros X. apply Ret_inj in X. now subst e. }
  unfold read_input. destruct (w_midi w _) as [ok events]. cbn [midi_status MIDI_READY Z.eqb Pos.eqb negb].
  destruct (midi_sequence _ events) as [pcs| |]; cbn [bind]; try discriminate.
  destruct (detect _ _ _ tb pcs) as [[[h1 h2] k]| |]; cbn [bind]; try discriminate.
  destruct (write_output _ _ _ k) as [t| |]; cbn [bind]; try discriminate. intros X. apply Ret_inj in X. now subst e.
Qed.
(** Exit codes: everything that is not an input error or a parser error ends with 0. *)
Lemma C32_codes_proof w o e : main w (inl o) = Ret e -> exit_code e = 0 /\ err e = ""%string \/ exit_code e = 1 /\ out e = ""%string /\ err e = error_text \/
  exit_code e = 2 /\ out e = ""%string /\ err e = error_text.
Proof.
  unfold main. destruct (read_options _ _ _ o) as [[[[f [ty|]] tb]|m]| |]; cbn [bind]; try discriminate.
  2:{ intros X. apply Ret_inj in X. left. now subst e. }
  destruct (read_input w o f ty) as [[pcs|e']| |] eqn:RI; cbn [bind]; try discriminate.
  - destruct (detect _ _ _ tb pcs) as [[[h1 h2] k]| |]; cbn [bind]; try discriminate.
    destruct (write_output _ _ _ k) as [t| |]; cbn [bind]; try discriminate. intros X. apply Ret_inj in X. left. now subst e.
  - intros X. apply Ret_inj in X. subst e'. revert RI. unfold read_input.
    assert (C : forall c0 (r : outcome (Z * chroma_map)), chromagram_of r = Ret c0 -> (forall s m, r = Ret (s, m) -> s = 1 \/ s = 2 \/ s = 3) ->
       ch_status c0 = 1 \/ ch_status c0 = 2 \/ ch_status c0 = 4).
    { intros c0 r. unfold chromagram_of. destruct r as [[s m]| |]; cbn [bind]; try discriminate. intros E V. destruct (V s m eq_refl) as [-> | [-> | ->]];
      cbn in E; apply Ret_inj in E; subst c0; cbn; auto. }
    assert (D : forall c0, ch_status c0 = 1 \/ ch_status c0 = 2 \/ ch_status c0 = 4 ->
       (if negb (ch_status c0 =? CHROMAGRAM_DISCRETE_READY) then Ret (Done (read_error (ch_status c0)))
        else if o_chroma o then Ret (Done (mkEnded 0 (print_original true c0) "")) else do pcs <- get_sequence (w_past w) c0; Ret (Notes pcs)) = Ret (Done e) ->
       exit_code e = 0 /\ err e = ""%string \/ exit_code e = 1 /\ out e = ""%string /\ err e = error_text \/ exit_code e = 2 /\ out e = ""%string /\ err e = error_text).
    { intros c0 H. destruct H as [-> | [-> | ->]]; cbn [Z.eqb CHROMAGRAM_DISCRETE_READY Pos.eqb negb].
      - intros X. apply Ret_inj in X. injection X as <-. right. left. repeat split.
      - intros X. apply Ret_inj in X. injection X as <-. right. right. repeat split.
      - destruct (o_chroma o); [intros X; apply Ret_inj in X; injection X as <-; left; now split|].
        destruct (get_sequence _ c0); cbn [bind]; discriminate. }
    destruct ty; cbn [bind].
    + destruct (chromagram_csv (w_csv w f)) as [c0| |] eqn:EC; cbn [bind]; try discriminate. apply D. apply (C c0 _ EC).
      intros s m. unfold chromagram_from_csv. destruct (w_csv w f); cbn [bind]; [|intros X; injection X as <- <-; now left].
      destruct (csv_lines _ _ _); cbn [bind]; try discriminate. intros X; injection X as <- <-; now right; right.
    + destruct (chromagram_audio (w_audio w f)) as [c0| |] eqn:EC; cbn [bind]; try discriminate. apply D. apply (C c0 _ EC).
      intros s m. unfold chromagram_from_audio. destruct (w_audio w f); cbn [bind]; [intros X; injection X as <- <-; now left|intros X; injection X as <- <-; now right; left|].
      destruct (feature_list _ _); cbn [bind]; try discriminate. intros X; injection X as <- <-; now right; right.
    + destruct (w_midi w f) as [ok events]. cbn [midi_status MIDI_READY Z.eqb Pos.eqb negb]. destruct (midi_sequence _ events); cbn [bind]; discriminate.
Qed.
