(** Property theorem C81: a whole run of the detector. *)
From Coq Require Import Reals Lia Ascii.
From Flocq Require Import Core.Core IEEE754.BinarySingleNaN.
From Verif Require Import Base BaseFacts Fp FpFacts Key PitchClass KeyProfile KeyTransition Hmm Pipeline Text Options Output Chromagram Midi Main.
From Verif Require Import MusicSpec TextSpec TextFacts NumberFacts FormatFacts MainSpec OutputFacts MainFacts OptionFacts ViterbiSpec HmmSpec HmmFacts LogFacts PipelineSpec PipelineFacts TableCheck ChromaSpec EnsembleFacts EnsembleRun EnsembleMain RunSpec MainRun PropsMain.
Open Scope Z_scope.

(** [gives w file notes]: the detector reads these notes from the file (C62, C33-C36 say which). [behaves w]: log10 is monotone and correct at 0 and 1, and the hash tables iterate over their entries in some order. *)

(** Stored tables: each note gets a key such that no other keys for the notes have a larger score; then the piece gets a key that no other key beats. With -p all 24 scores are printed, with -e instead the credit, otherwise the key. *)
Theorem C81_stored_tables : forall w o file notes, behaves w -> gives w file notes -> Forall is_note notes -> notes <> [] ->
  o_args o = [file] -> o_format o = None -> o_chroma o = false -> no_custom o -> admitted o ->
  exists A B T locals K, In (o_major o, A) builtin_major /\ In (o_minor o, B) builtin_minor /\ In (o_transition o, T) builtin_transitions /\
    best_path fgt (local_score (w_log10 w) A B T notes) (zseq 24) notes locals /\ is_key K /\
    (forall J, is_key J -> fgt (piece_score (w_log10 w) T locals J) (piece_score (w_log10 w) T locals K) = false) /\
    main w (inl o) = (if o_probabilities o then Ret (mkEnded 0 (scores_line (map (piece_score (w_log10 w) T locals) (zseq 24))) "")
      else do text <- (if o_evaluate o then print_evaluation file (key_of_int K) else print_label (key_of_int K)); Ret (mkEnded 0 text "")).
Proof.
  intros w o file notes W G HN NE OA OF OC NC AD. destruct (admitted_stored o AD) as (A & B & T & HA & HB & HT & NZ). exists A, B, T.
  destruct (run_stored w W o file notes G HN NE OA OF OC A B T NC HA HB HT NZ) as (locals & K & H). exists locals, K. split; [exact HA|]. split; [exact HB|]. split; [exact HT|]. exact H.
Qed.
Print Assumptions C81_stored_tables.
(** The same for tables of the user (C30 and C31 say which tables are chosen). *)
Theorem C81_chosen_tables : forall w o file notes, behaves w -> gives w file notes -> Forall is_note notes -> notes <> [] ->
  o_args o = [file] -> o_format o = None -> o_chroma o = false -> forall tb A B T, choose_tables (w_garbage1 w) (w_garbage2 w) (w_garbage3 w) o = Ret (Go tb) -> selects tb A B T ->
  usable A -> usable B -> usable T -> clear A -> clear B -> clear T -> (Exists positive A \/ Exists positive B) -> Forall positive T ->
  exists locals K, best_path fgt (local_score (w_log10 w) A B T notes) (zseq 24) notes locals /\ is_key K /\
    (forall J, is_key J -> fgt (piece_score (w_log10 w) T locals J) (piece_score (w_log10 w) T locals K) = false) /\
    main w (inl o) = (if o_probabilities o then Ret (mkEnded 0 (scores_line (map (piece_score (w_log10 w) T locals) (zseq 24))) "")
      else do text <- (if o_evaluate o then print_evaluation file (key_of_int K) else print_label (key_of_int K)); Ret (mkEnded 0 text "")).
Proof. exact (fun w o file notes W => run_with w W o file notes). Qed.
Print Assumptions C81_chosen_tables.
(** From a MIDI file with at least one note to the line that is printed, without options. *)
Theorem C81_midi_file : forall w base ext es ns, behaves w -> sized (base ++ "." ++ ext) -> lacks "." ext -> lower_string ext = "mid"%string \/ lower_string ext = "midi"%string -> w_returned w = true ->
  snd (w_midi w (base ++ "." ++ ext)%string) = es -> Forall midi_event es -> heard es ns -> ns <> [] ->
  exists A B T locals K name, In ("sapp"%string, A) builtin_major /\ In ("sapp"%string, B) builtin_minor /\ In ("exponential10"%string, T) builtin_transitions /\
    best_path fgt (local_score (w_log10 w) A B T ns) (zseq 24) ns locals /\ is_key K /\
    (forall J, is_key J -> fgt (piece_score (w_log10 w) T locals J) (piece_score (w_log10 w) T locals K) = false) /\
    note_name name = Some (tonic K, true) /\
    main w (inl (plain_options (base ++ "." ++ ext))) = Ret (mkEnded 0 (name ++ String "009" ((if majorb K then "major" else "minor") ++ String "010" "")) "").
Proof.
  intros w base ext es ns W S L X R E F H NE. assert (G := gives_midi w base ext es ns S L X R E F H).
  destruct (C81_stored_tables w (plain_options (base ++ "." ++ ext)) _ ns W G (heard_notes es ns H) NE eq_refl eq_refl eq_refl (conj eq_refl eq_refl)) as (A & B & T & locals & K & HA & HB & HT & P & HK & M & Q).
  { split; [discriminate|]. cbn. auto 12. }
  destruct (C25_label_names_the_key K HK) as (name & EL & NN & _). exists A, B, T, locals, K, name. do 6 (split; [assumption|]). split; [exact NN|]. rewrite Q. cbn [plain_options o_probabilities o_evaluate]. rewrite EL. reflexivity.
Qed.
Print Assumptions C81_midi_file.
(** Bad options: the code of the parser is both printed and returned. *)
Theorem C81_bad_options : forall w n, 0 <= n -> exists ds, Forall is_dig ds /\ digits_value ds = n /\ ds <> [] /\ (hd 0 ds = 0 -> ds = [0]) /\
  main w (inr n) = Ret (mkEnded n "" ("Error " ++ show_digits ds ++ String "010" "")).
Proof.
  intros w n H. destruct (format_int_spec n H) as (ds & E & D & V & N & Z0). exists ds. split; [exact D|]. split; [exact V|]. split; [exact N|]. split; [exact Z0|]. unfold main. now rewrite E.
Qed.
Print Assumptions C81_bad_options.
(** A C major triad with -e, with -p, and with both, where -p wins. *)
Definition asked (evaluate probabilities : bool) : options := mkOptions ["x_F.mid"%string] None None "sapp" "sapp" None "exponential10" evaluate probabilities false.
Example C81_case : behaves toy_world /\ gives toy_world "x_F.mid" [0; 4; 7] /\ admitted (asked true true) /\ no_custom (asked true true) /\
  main toy_world (inl (asked false false)) = Ret (mkEnded 0 ("C" ++ String "009" ("major" ++ String "010" ""))%string "") /\
  main toy_world (inl (asked true false)) = Ret (mkEnded 0 ("0.5" ++ String "010" "")%string "") /\
  main toy_world (inl (asked true true)) = main toy_world (inl (asked false true)) /\
  main toy_world (inl (asked true true)) <> main toy_world (inl (asked true false)) /\
  main toy_world (inr 2) = Ret (mkEnded 2 "" ("Error 2" ++ String "010" "")%string).
Proof.
  split; [split; [exact toy_log10_ok|intros l; apply Permutation.Permutation_refl|intros l; apply Permutation.Permutation_refl|reflexivity|reflexivity|reflexivity]|].
  split.
  { apply (gives_midi toy_world "x_F" "mid" [[144; 60; 90]; [128; 60; 0]; [147; 64; 1]; [144; 61; 0]; [144; 67; 100]]); [unfold sized; cbn; lia| |left; reflexivity|reflexivity|reflexivity|repeat constructor; lia|].
    - unfold lacks; cbn; intuition discriminate.
    - apply (heard_note 0 60 90 []); [lia|lia|]. apply heard_other; [lia|lia|]. apply (heard_note 3 64 1 []); [lia|lia|]. apply (heard_release 0 61 []); [lia|]. apply (heard_note 0 67 100 []); [lia|lia|]. constructor. }
  split; [split; [discriminate|]; cbn; auto 12|]. split; [now split|]. split; [vm_compute; reflexivity|]. split; [vm_compute; reflexivity|]. split; [vm_compute; reflexivity|]. split; [vm_compute; discriminate|vm_compute; reflexivity].
Qed.
