(** Property theorems C98 to C100: the scripts that prepare datasets. *)
From Coq Require Import Lia Ascii Permutation.
From Verif Require Import Base BaseFacts Fp Text PitchClass Py Optimizer Creator MusicSpec TextSpec TextFacts ChromaSpec Chromagram ChromaFacts ChromaCases Midi CreatorSpec CreatorFacts Tools ToolsSpec ToolsFacts.
Open Scope list_scope.
Open Scope Z_scope.

(** C98: of a file with bass and treble chroma, the times and the treble chroma are left, and the detector reads them. *)
Theorem C98_treble_is_read : forall frames values, Forall (fun f => Forall plain_field (frame_row f) /\ length (fr_bass f) = 12%nat) frames ->
  Forall2 (fun f v => row_values (fr_time f :: fr_treble f) v) frames values -> Forall proper_row values ->
  exists text m, convert treble_columns (table (map frame_row frames)) = Some text /\ text = table (map (fun f => fr_time f :: fr_treble f) frames) /\
    chromagram_from_csv (Some text) = Ret (CHROMAGRAM_ORIGINAL_READY, m) /\ shows m (rows_events values).
Proof.
  intros frames values F V P. set (rows := map (fun f => fr_time f :: fr_treble f) frames).
  assert (E : convert treble_columns (table (map frame_row frames)) = Some (table rows)).
  { rewrite convert_table.
    - do 2 f_equal. unfold rows. rewrite map_map. apply map_ext_in. intros f I. rewrite Forall_forall in F. now apply treble_row, F.
    - apply Forall_map. eapply Forall_impl; [|exact F]. intros f (A & _). exact A.
    - apply Forall_map. apply Forall_forall. intros f _. discriminate. }
  assert (R : Forall plain_row rows).
  { apply Forall_map. eapply Forall_impl; [|exact F]. intros f (A & _). unfold frame_row in A. apply Forall_cons_iff in A as (_ & A). apply Forall_cons_iff in A as (T & A). apply Forall_app in A as (_ & A). now constructor. }
  assert (C : csv_text (table rows) values) by (apply table_csv; [exact R|]; unfold rows; clear - V; induction V; cbn [map]; constructor; auto).
  destruct (C33_proof (table rows) values C P) as (m & M & S). exists (table rows), m. auto.
Qed.
Print Assumptions C98_treble_is_read.
(** A first column is removed, whatever it is: a second run removes the times. *)
Theorem C98_first_column_is_removed : forall rows, Forall (Forall plain_field) rows -> Forall (fun r => r <> [""%string]) rows -> convert other_columns (table rows) = Some (table (map (@tl string) rows)).
Proof. intros rows P N. rewrite convert_table by assumption. reflexivity. Qed.
Print Assumptions C98_first_column_is_removed.
Theorem C98_rest_is_read : forall rows values, Forall (Forall plain_field) rows -> Forall2 (fun r v => row_values (tl r) v) rows values -> Forall (fun r => r <> [""%string]) rows -> Forall proper_row values ->
  exists text m, convert other_columns (table rows) = Some text /\ chromagram_from_csv (Some text) = Ret (CHROMAGRAM_ORIGINAL_READY, m) /\ shows m (rows_events values).
Proof.
  intros rows values P V N PR. exists (table (map (@tl string) rows)). assert (C : csv_text (table (map (@tl string) rows)) values).
  { apply table_csv; [|clear - V; induction V; cbn [map]; constructor; auto]. apply Forall_map. eapply Forall_impl; [|exact P]. intros [|x r] R; [constructor|]. now apply Forall_inv_tail in R. }
  destruct (C33_proof _ values C PR) as (m & M & S). exists m. split; [now apply C98_first_column_is_removed|auto].
Qed.
Print Assumptions C98_rest_is_read.

(** C99: a feature is kept exactly if an annotation has the same text before its first dot. *)
Theorem C99_kept_features : forall annotations features f, In f (filter_features annotations features) <-> In f features /\ exists a p, In a annotations /\ before_dot a p /\ before_dot f p.
Proof. exact filter_iff. Qed.
Print Assumptions C99_kept_features.
(** For names with one dot that is the annotation with the same stem. *)
Theorem C99_kept_features_have_annotations : forall annotations features, (forall a, In a annotations -> exists s, a = (s ++ ".key")%string /\ lacks "." s) ->
  forall s e, lacks "." s -> lacks "." e -> (In (s ++ "." ++ e)%string (filter_features annotations features) <-> In (s ++ "." ++ e)%string features /\ In (s ++ ".key")%string annotations).
Proof.
  intros annotations features A s e S E. rewrite filter_iff. assert (B : forall t x, lacks "." t -> before_dot (t ++ "." ++ x) t) by (intros t x T; split; [exact T|right; now exists x]). split; intros (I & H); (split; [exact I|]).
  - destruct H as (a & p & J & P & Q). destruct (A a J) as (t & -> & T). apply first_part_iff in P, Q. assert (X := B t "key"%string T). assert (Y := B s e S). apply first_part_iff in X, Y. change ("." ++ "key")%string with ".key"%string in X. assert (t = s) by congruence. now subst t.
  - exists (s ++ ".key")%string, s. split; [exact H|]. split; [exact (B s "key"%string S)|now apply B].
Qed.
Print Assumptions C99_kept_features_have_annotations.
(** With more dots it can be another one. *)
Theorem C99_kept_means_annotated_refuted : ~ forall annotations features s e, lacks "." e -> In (s ++ "." ++ e)%string (filter_features annotations features) -> In (s ++ ".key")%string annotations.
Proof. intros X. specialize (X ["a.key"]%string ["a.b.csv"]%string "a.b"%string "csv"%string). cbn in X. assert (Y : "a.key"%string = "a.b.key"%string \/ False); [|destruct Y as [Y|[]]; discriminate Y]. apply X; [intros I; cbn in I; intuition discriminate|now left]. Qed.
Print Assumptions C99_kept_means_annotated_refuted.
(** Of the files with the same notes the first is unique and the others are duplicates of it. *)
Theorem C99_first_of_each : forall mid files, NoDup files -> ~ In ""%string files ->
  let leader g := exists a b, files = a ++ g :: b /\ forall h, In h a -> notes_of (mid h) <> notes_of (mid g) in
  let '(unique, duplicates) := find_duplicates mid files [] [] in
  Permutation (map fst unique ++ map fst duplicates) files /\
  (forall f v, In (f, v) unique <-> leader f /\ v = notes_of (mid f)) /\
  (forall f k, In (f, k) duplicates <-> In f files /\ k <> f /\ leader k /\ notes_of (mid k) = notes_of (mid f)).
Proof.
  intros mid files ND NE. cbv zeta. assert (M := find_duplicates_all mid files ND NE). destruct (find_duplicates mid files [] []) as (u, d). destruct M as [MK MU MD]. split; [exact MK|]. split; [|exact MD].
  intros f v. rewrite MU. split; [tauto|]. intros (L & V). split; [|auto]. destruct L as (a & b & -> & _). apply in_or_app. right. now left.
Qed.
Print Assumptions C99_first_of_each.
(** Files with the same notes give the detector the same sequence, if both libraries give the events in the same order. *)
Theorem C99_duplicates_sound_alike : forall es es', Forall proper_event es -> Forall proper_event es' -> notes_of (map decode es) = notes_of (map decode es') ->
  exists l, midi_sequence true es = Ret l /\ midi_sequence true es' = Ret l /\ length l = length (notes_of (map decode es)).
Proof.
  intros es es' H H' E. exists (map pc_of_int (notes_of (map decode es))). unfold midi_sequence. rewrite (notes_sequence es H), (notes_sequence es' H'), <- E. rewrite map_length. auto.
Qed.
Print Assumptions C99_duplicates_sound_alike.

(** C100: a fifth of the files is drawn, and every file is in one of the two parts. *)
Theorem C100_size : forall n, 0 <= n <= 2 ^ 49 -> sample_size n = n / 5.
Proof. exact sample_size_fifth. Qed.
Print Assumptions C100_size.
Theorem C100_parts : forall files draw, NoDup files -> NoDup draw -> Forall (fun i => (i < length files)%nat) draw -> Z.of_nat (length files) <= 2 ^ 49 -> Z.of_nat (length draw) = sample_size (Z.of_nat (length files)) ->
  let '(training, test) := split_files_of files draw in
  Permutation (training ++ test) (map trim files) /\ Z.of_nat (length test) = Z.of_nat (length files) / 5 /\
  (NoDup (map trim files) -> forall x, In x training -> ~ In x test).
Proof.
  intros files draw ND NI B S L. unfold split_files_of. assert (P := sample_permutation files draw ND NI B). apply (Permutation_map trim) in P as Q. rewrite map_app in Q. split; [exact Q|]. split.
  - unfold sample_of. rewrite !map_length, L. apply sample_size_fifth. lia.
  - intros N x X Y. apply Permutation_sym in Q. apply (Permutation_NoDup Q) in N. apply in_split in X as (a & b & X). rewrite X, <- app_assoc in N. cbn [app] in N. apply NoDup_remove_2 in N. apply N. apply in_or_app. right. apply in_or_app. now right.
Qed.
Print Assumptions C100_parts.
(** Two files that differ in the extension only can be in both parts. *)
Theorem C100_disjoint_refuted : ~ forall files draw, NoDup files -> NoDup draw -> Forall (fun i => (i < length files)%nat) draw -> Z.of_nat (length draw) = sample_size (Z.of_nat (length files)) ->
  forall x, In x (fst (split_files_of files draw)) -> ~ In x (snd (split_files_of files draw)).
Proof.
  intros X. specialize (X ["a.csv"; "a.mid"; "b.csv"; "c.csv"; "d.csv"]%string [0%nat]). apply (X ltac:(repeat constructor; cbn; intuition discriminate) ltac:(repeat constructor; intros []) ltac:(repeat constructor) eq_refl "a"%string); cbn; auto.
Qed.
Print Assumptions C100_disjoint_refuted.

Example C98_a_frame : convert treble_columns (table [["x"; "0.5"]%string ++ repeat "1"%string 12 ++ repeat "2"%string 12; ["y"; "1.5"]%string]) = Some (table ["0.5"%string :: repeat "2"%string 12; ["1.5"]%string]) /\
  convert other_columns (table [["x"; "0.5"; "1"]%string]) = Some (table [["0.5"; "1"]%string]) /\
  (match convert treble_columns (table [["x"; "0.5"]%string ++ repeat "1"%string 12 ++ repeat "2"%string 12; ["y"; "1.5"]%string ++ repeat "1"%string 12 ++ ["3"]%string]) with
   | Some text => match chromagram_from_csv (Some text) with Ret (status, m) => (status =? CHROMAGRAM_ORIGINAL_READY) && (Z.of_nat (length m) =? 2) | _ => false end | None => false end) = true.
Proof. vm_compute. auto. Qed.
Example C99_three_files : find_duplicates (fun f => if (f =? "c")%string then [mkMessage true 61 1] else [mkMessage true 60 0; mkMessage true (if (f =? "a")%string then 60 else 72) 9]) ["a"; "b"; "c"]%string [] [] = ([("a", [0]); ("c", [1])], [("b", "a")])%string /\
  filter_features ["x.key"; "z.key"]%string ["x.csv"; "y.csv"; "z.csv"]%string = ["x.csv"; "z.csv"]%string.
Proof. vm_compute. auto. Qed.
Example C100_ten : split_files_of ["a.csv"; "b.csv"; "c.csv"; "d.csv"; "e.csv"]%string [3%nat] = (["a"; "b"; "c"; "e"]%string, ["d"]%string) /\ sample_size 5 = 1 /\ sample_size 14 = 2.
Proof. vm_compute. auto. Qed.
