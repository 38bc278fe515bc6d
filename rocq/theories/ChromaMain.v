(** Facts about audio features, MIDI events and the mix-down, and what they mean for [main]. *)
From Coq Require Import Lia Lra Ascii Reals Sorted Permutation.
From Flocq Require Import Core.Core IEEE754.BinarySingleNaN.
From Verif Require Import Base BaseFacts Fp Key PitchClass KeyProfile KeyTransition Hmm Pipeline Text Options Output Chromagram Midi Mixdown Main MusicSpec TextSpec TextFacts NumberFacts ReadFacts ChromaSpec ChromaFacts SequenceFacts MainSpec OutputFacts OptionFacts MainFacts.
From Coq Require Import ZifyBool ZifyNat.
Open Scope Z_scope.

(** ** Audio features *)
Lemma widened_iff x y : widened x y <-> f32_to_64 x = y.
Proof.
  assert (A : widened x (f32_to_64 x)).
  { destruct x as [s|s| |s m e B]; try reflexivity; [repeat split|]. exact (f32_to_64_value (B754_finite s m e B) eq_refl). }
  split; [|intros <-; exact A]. intros W. destruct x as [s|s| |s m e B]; try (symmetry; exact W).
  - destruct W as (F & V & G). apply B2R_Bsign_inj; [reflexivity|exact F|symmetry; exact V|symmetry; exact G].
  - destruct W as (F & V & G). destruct A as (F' & V' & G'). apply B2R_Bsign_inj; [exact F'|exact F|etransitivity; [exact V'|symmetry; exact V]|etransitivity; [exact G'|symmetry; exact G]].
Qed.
Lemma features_values vals : forall ys t m es j, Forall2 widened vals ys -> (vals <> [] -> is_nan t = false) -> clean es -> shows m es ->
  exists m', feature_values (Z.of_nat j) t m vals = Ret m' /\ shows m' (es ++ indexed_events t j ys).
Proof.
  induction vals as [|x vals IH]; intros ys t m es j F T C S; destruct ys as [|y ys]; try (inversion F; fail).
  - exists m. split; [reflexivity|]. now rewrite app_nil_r.
  - inversion F as [|? ? ? ? Ft F']; subst. apply widened_iff in Ft. cbn [feature_values]. rewrite Ft.
    specialize (T ltac:(discriminate)). rewrite set_cell_ok by exact T. cbn [bind]. rewrite column_index_mod by lia.
    assert (P : 0 <= (9 + Z.of_nat j) mod 12 < 12) by (apply Z.mod_pos_bound; lia).
    pose proof (shows_snoc m es t ((9 + Z.of_nat j) mod 12) y C S T P) as S'.
    assert (C' : clean (es ++ [(t, (9 + Z.of_nat j) mod 12, y)])).
    { apply clean_app. split; [exact C|]. constructor; [split; [exact T|exact P]|constructor]. }
    destruct (IH ys t _ _ (Datatypes.S j) F' (fun _ => T) C' S') as (m' & E & S'').
    exists m'. split.
    + replace (Z.of_nat j + 1) with (Z.of_nat (Datatypes.S j)) by lia. exact E.
    + rewrite <- app_assoc in S''. exact S''.
Qed.
Lemma feature_lines fs rows : Forall2 feature_row fs rows -> Forall proper_row rows -> forall m es, clean es -> shows m es ->
  exists m', feature_list m fs = Ret m' /\ shows m' (es ++ rows_events rows).
Proof.
  induction 1 as [|[time vals] row fs rows (t & vs & -> & Ht & Hv) F IH]; intros P m es C S.
  - exists m. split; [reflexivity|]. now rewrite app_nil_r.
  - cbn [fst snd] in *. apply Forall_cons_iff in P. destruct P as [P Ps]. destruct (token_stof time t Ht) as (x & Ex & Ey).
    destruct (features_values vals vs t m es 0 Hv) as (m' & E & S'); [|exact C|exact S|].
    { intros N. destruct Hv; [now elim N|]. exact P. }
    destruct (IH Ps m' (es ++ row_events (t :: vs))) as (m'' & E' & S''); [apply clean_app; split; [exact C|now apply row_clean]|exact S'|].
    exists m''. split; [|rewrite <- app_assoc in S''; exact S'']. cbn [feature_list]. rewrite Ex. cbn [bind]. rewrite Ey.
    change (feature_values 0 t m vals = Ret m') in E. rewrite E. exact E'.
Qed.
Lemma C33_audio_proof fs rows : Forall2 feature_row fs rows -> Forall proper_row rows ->
  exists m, chromagram_from_audio (Features fs) = Ret (CHROMAGRAM_ORIGINAL_READY, m) /\ shows m (rows_events rows).
Proof.
  intros F P. destruct (feature_lines fs rows F P [] [] (Forall_nil _) shows_nil) as (m & E & S). exists m. split; [|exact S]. unfold chromagram_from_audio. now rewrite E.
Qed.
Lemma C36_audio_proof fs rows : Forall2 feature_row fs rows -> Forall proper_row rows ->
  exists c, chromagram_audio (Features fs) = Ret c /\ ch_status c = CHROMAGRAM_DISCRETE_READY /\ shows (ch_original c) (rows_events rows) /\
    map fst (ch_discrete c) = map fst (ch_original c) /\ Forall2 (fun f g => Forall2 floored (snd f) (snd g)) (ch_original c) (ch_discrete c).
Proof.
  intros T P. destruct (C33_audio_proof fs rows T P) as (m & E & S). exists (mkChromagram CHROMAGRAM_DISCRETE_READY m (discretize m)).
  unfold chromagram_audio, chromagram_of. rewrite E. cbn [bind]. split; [reflexivity|]. split; [reflexivity|]. cbn [ch_original ch_discrete]. split; [exact S|].
  rewrite discretize_spec.
  - rewrite map_map. split; [now apply map_ext|]. clear. induction m as [|[t v] m IH]; constructor; [|exact IH]. cbn [snd]. induction v; constructor; [apply ffloor_floored|assumption].
  - exact (sh_sorted _ _ S).
  - apply (shows_no_nan m (rows_events rows)); [now apply rows_clean|exact S].
  - apply Forall_forall. intros [t v] I. exact (sh_width _ _ S t v I).
Qed.

(** ** [main] on a CSV or WAV file *)
Lemma C35_main_proof w o f base ext content tok : plain_file o f -> no_custom o -> f = (base ++ "." ++ ext)%string -> sized f -> lower_string ext = "csv"%string -> lacks "." ext ->
  w_csv w f = Some content -> first_bad content tok -> ~ begins_number tok -> main w (inl o) = Throws StdInvalidArgument.
Proof.
  intros PF NC E S X L C B N. unfold main. rewrite (read_plain o f base ext (Some INPUT_CSV) _ _ _ PF NC E S L X). cbn [bind].
  unfold read_input. rewrite C. unfold chromagram_csv. now rewrite (C35_invalid_proof content tok B N).
Qed.
Lemma rows_frames m rows : shows m (rows_events rows) -> Exists giving rows -> m <> [].
Proof.
  intros S G N. subst m. apply Exists_exists in G. destruct G as (r & I & G). destruct (giving_event r G) as (p & v & b & E).
  assert (Q : exists t, first_use (rows_events rows) t).
  { assert (exists e es, rows_events rows = e :: es) as ([[t q] u] & es & Ees).
    { apply in_split in I. destruct I as (x & y & ->). rewrite rows_events_app. cbn [rows_events flat_map]. rewrite E. destruct (flat_map row_events x) eqn:Q; [change (rows_events x) with (flat_map row_events x); rewrite Q; cbn; eauto|].
      change (rows_events x) with (flat_map row_events x). rewrite Q. cbn. eauto. }
    exists t, [], q, u, es. split; [exact Ees|]. intros e []. }
  destruct Q as (t & Q). apply (sh_times _ _ S) in Q. exact Q.
Qed.
Lemma C37_csv_proof w o f base ext content rows : plain_file o f -> no_custom o -> f = (base ++ "." ++ ext)%string -> sized f -> lower_string ext = "csv"%string -> lacks "." ext ->
  o_chroma o = false -> w_past w = None -> w_csv w f = Some content -> csv_text content rows -> Forall proper_row rows -> Exists giving rows ->
  exists u, main w (inl o) = Undef u.
Proof.
  intros PF NC E S X L Ch Pa C T P G. unfold main. rewrite (read_plain o f base ext (Some INPUT_CSV) _ _ _ PF NC E S L X). cbn [bind].
  destruct (C36_proof content rows T P) as (c & Ec & St & Sh & K & _). unfold read_input. rewrite C, Ec, Ch, Pa. cbn [bind]. rewrite St. cbn [Z.eqb CHROMAGRAM_DISCRETE_READY Pos.eqb negb].
  assert (N : ch_discrete c <> []).
  { intros Q. apply (rows_frames _ _ Sh G). rewrite Q in K. now destruct (ch_original c). }
  destruct (C37_proof (ch_discrete c) N) as (u & U). unfold get_sequence. rewrite U. now exists u.
Qed.
Lemma C37_audio_proof w o f base ext fs rows : plain_file o f -> no_custom o -> f = (base ++ "." ++ ext)%string -> sized f -> lower_string ext = "wav"%string -> lacks "." ext ->
  o_chroma o = false -> w_past w = None -> w_audio w f = Features fs -> Forall2 feature_row fs rows -> Forall proper_row rows -> Exists giving rows ->
  exists u, main w (inl o) = Undef u.
Proof.
  intros PF NC E S X L Ch Pa C T P G. unfold main. rewrite (read_plain o f base ext (Some INPUT_WAV) _ _ _ PF NC E S L X). cbn [bind].
  destruct (C36_audio_proof fs rows T P) as (c & Ec & St & Sh & K & _). unfold read_input. rewrite C, Ec, Ch, Pa. cbn [bind]. rewrite St. cbn [Z.eqb CHROMAGRAM_DISCRETE_READY Pos.eqb negb].
  assert (N : ch_discrete c <> []).
  { intros Q. apply (rows_frames _ _ Sh G). rewrite Q in K. now destruct (ch_original c). }
  destruct (C37_proof (ch_discrete c) N) as (u & U). unfold get_sequence. rewrite U. now exists u.
Qed.

(** ** MIDI *)
Lemma high_nibble s : 0 <= s < 256 -> (Z.land s 240 =? 144) = (144 <=? s) && (s <? 160).
Proof.
  intros H. apply (zseq_sweep 256 (fun s => Bool.eqb (Z.land s 240 =? 144) ((144 <=? s) && (s <? 160)))) in H; [|vm_compute; reflexivity]. now apply Bool.eqb_prop.
Qed.
Lemma heard_total es : Forall midi_event es -> exists ns, heard es ns.
Proof.
  induction 1 as [|e es (B & K) F (ns & IH)]; [eexists; constructor|]. destruct e as [|s r]; [destruct K|]. apply Forall_cons_iff in B. destruct B as [B Br].
  destruct (Z_le_dec 144 s) as [L|L]; [destruct (Z_lt_dec s 160) as [M|M]|].
  - destruct r as [|p [|v r]]; try (cbn in K; lia). replace s with (144 + (s - 144)) by lia. destruct (Z.eq_dec v 0) as [-> |V]; eexists; constructor; try eassumption; lia.
  - exists ns. apply heard_other; [exact B|lia|exact IH].
  - exists ns. apply heard_other; [exact B|lia|exact IH].
Qed.
Lemma midi_step s p v r es : midi_loop ((s :: p :: v :: r) :: es) =
  if (Z.land s 240 =? 144) && negb (v =? 0) then do ns <- midi_loop es; Ret (pc_of_int (Z.rem p 12) :: ns) else midi_loop es.
Proof. cbn [midi_loop]. change (byte_at (s :: p :: v :: r) 0) with (Ret s). cbn [bind]. destruct (Z.land s 240 =? 144); [|reflexivity].
  change (byte_at (s :: p :: v :: r) 2) with (Ret v). cbn [bind andb]. destruct (v =? 0); reflexivity. Qed.
Lemma midi_heard es ns : heard es ns -> Forall midi_event es -> midi_loop es = Ret (map pc_of_int ns).
Proof.
  induction 1 as [|ch p v r es ns C V H IH|ch p r es ns C H IH|s r es ns C N H IH]; intros F; [reflexivity|..]; apply Forall_cons_iff in F; destruct F as [(B & K) F].
  - rewrite midi_step, high_nibble by lia. replace ((144 <=? 144 + ch) && (144 + ch <? 160)) with true by lia. replace (v =? 0) with false by lia. cbn [negb andb].
    rewrite IH by exact F. cbn [bind map]. rewrite Forall_forall in B. rewrite Z.rem_mod_nonneg; [reflexivity| |lia]. apply B. cbn. auto.
  - rewrite midi_step. cbn [Z.eqb negb]. rewrite andb_false_r. now apply IH.
  - cbn [midi_loop]. change (byte_at (s :: r) 0) with (Ret s). cbn [bind]. rewrite high_nibble by exact C. replace ((144 <=? s) && (s <? 160)) with false by lia. cbn [bind]. now apply IH.
Qed.
Lemma C41_collected_proof es ns : heard es ns -> Forall midi_event es -> midi_sequence true es = Ret (map pc_of_int ns).
Proof. intros H F. unfold midi_sequence. now rewrite (midi_heard es ns H F). Qed.
Lemma C41_not_returned_proof es : Forall midi_event es -> midi_sequence false es = Undef MissingReturn.
Proof. intros F. destruct (heard_total es F) as (ns & H). unfold midi_sequence. now rewrite (midi_heard es ns H F). Qed.
Lemma C41_main_proof w o f base ext : plain_file o f -> no_custom o -> f = (base ++ "." ++ ext)%string -> sized f -> lacks "." ext ->
  kind_of_extension ext (Some INPUT_MIDI) -> w_returned w = false -> Forall midi_event (snd (w_midi w f)) -> main w (inl o) = Undef MissingReturn.
Proof.
  intros PF NC E S L K R F. unfold main. rewrite (read_plain o f base ext (Some INPUT_MIDI) _ _ _ PF NC E S L K). cbn [bind]. unfold read_input.
  destruct (w_midi w f) as [ok es]. cbn [snd] in F. cbn [midi_status MIDI_READY Z.eqb Pos.eqb negb]. rewrite R, C41_not_returned_proof by exact F. reflexivity.
Qed.
