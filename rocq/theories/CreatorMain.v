(** Facts about a whole dataset: the rows and labels of a DatasetCreator, and what a Dataset reads back. *)
From Coq Require Import Lia Ascii Permutation.
From Flocq Require Import IEEE754.BinarySingleNaN.
From Verif Require Import Base BaseFacts Fp Text PitchClass Py Output OptTables Main Dataset Ensemble Creator.
From Verif Require Import MusicSpec TextSpec TextFacts OptionFacts DatasetSpec LabelFacts EnsembleRun CreatorSpec CreatorFacts CreatorLoop CreatorStore.
Open Scope Z_scope.

(** ** What a creator collects *)
(** The features of one file of the folder: all rows of a new ensemble for its path, laid end to end. *)
Definition answers (w : world) (dk dt : dict) (ps ts : list string) (mixed : bool) (folder f : string) (x : list b64) : Prop :=
  exists p rows, located folder f p /\ snd (ens_evaluate w dk dt (ensembler ps ts) p mixed) = Some (Returns rows) /\ x = concat rows.
(** The label in the annotations of a stem. *)
Definition marks (texts : list (string * string)) (stem : string) (k : Z) : Prop := exists text, In ((stem ++ ".key")%string, text) texts /\ annotated text k.

Lemma located_total folder f : folder <> ""%string -> located folder f (path_of folder f).
Proof.
  intros N. unfold path_of. destruct (ends_with "/" folder) eqn:E.
  - apply ends_with_spec in E. assert (L : located folder f (folder ++ "features/" ++ f)) by (left; split; [exact E|reflexivity]). now rewrite (located_path _ _ _ L).
  - assert (L : located folder f (folder ++ "/features/" ++ f)).
    { right. split; [|split; [exact N|reflexivity]]. intros d ->. assert (X : ends_with "/" (d ++ "/") = true) by (apply ends_with_spec; now exists d). congruence. }
    now rewrite (located_path _ _ _ L).
Qed.
Lemma featured_answers w dk dt ps ts mixed folder f s x : folder <> ""%string -> (featured w dt folder dk ps ts mixed (f, s) x <-> answers w dk dt ps ts mixed folder f x).
Proof.
  intros N. split.
  - intros (rows & A & ->). exists (path_of folder f), rows. split; [now apply located_total|]. split; [exact A|reflexivity].
  - intros (p & rows & L & A & ->). exists rows. split; [|reflexivity]. unfold alone, path_of. cbn [fst]. now rewrite (located_path _ _ _ L).
Qed.
Lemma marked_marks texts f s k : marked texts (f, s) k -> marks texts s k.
Proof. intros (text & A & AN). exists text. split; [now apply assoc_In|exact AN]. Qed.
Lemma marks_marked texts f s k : NoDup (map fst texts) -> marks texts s k -> marked texts (f, s) k.
Proof. intros N (text & A & AN). exists text. split; [now apply (NoDup_assoc String.eqb Seqb_spec')|exact AN]. Qed.
Lemma Forall2_combine {A B} (P : A -> B -> Prop) l m : Forall2 P l m -> map fst (combine l m) = l /\ map snd (combine l m) = m.
Proof. induction 1 as [|a b l m _ _ (E1 & E2)]; [split; reflexivity|]. cbn. now rewrite E1, E2. Qed.
Lemma combine_fst_same {A B} (l : list A) (m : list B) : length l = length m -> map fst (combine l m) = l.
Proof. revert m. induction l as [|a l IH]; intros [|b m] E; try discriminate; [reflexivity|]. cbn. injection E as E. now rewrite IH. Qed.
Lemma Forall2_split {A B} (P : A -> B -> Prop) l a r m : Forall2 P (l ++ a :: r) m -> exists m1 b m2, m = m1 ++ b :: m2 /\ P a b /\ length l = length m1 /\ Forall2 P r m2.
Proof.
  intros F. apply Forall2_app_inv_l in F. destruct F as (m1 & m' & F1 & F2 & ->). inversion F2 as [|? b ? m2 H F3]; subst. exists m1, b, m2. split; [reflexivity|]. split; [exact H|]. split; [exact (OptFacts.Forall2_length_eq _ _ _ F1)|exact F3].
Qed.
Lemma combine_app {A B} (l r : list A) (m s : list B) : length l = length m -> combine (l ++ r) (m ++ s) = combine l m ++ combine r s.
Proof. revert m. induction l as [|a l IH]; intros [|b m] E; try discriminate; [reflexivity|]. cbn. injection E as E. now rewrite IH. Qed.
Lemma record_of_last {V} (P : string * string -> V -> Prop) files vs before f s after : Forall2 P files vs -> files = before ++ (f, s) :: after -> ~ In s (map snd after) ->
  exists v, P (f, s) v /\ In (s, v) (record (combine (map snd files) vs) []).
Proof.
  intros F -> N. apply Forall2_split in F. destruct F as (m1 & v & m2 & -> & H & L & F3). exists v. split; [exact H|]. apply assoc_In.
  rewrite map_app. cbn [map snd]. rewrite combine_app by (now rewrite map_length). cbn [combine]. apply record_last.
  rewrite combine_fst_same; [exact N|]. rewrite map_length. exact (OptFacts.Forall2_length_eq _ _ _ F3).
Qed.

(** The rows and labels when every file was read. *)
Lemma collected w dk dt path disk c ps ts mixed dk' c' : path <> ""%string -> new_creator path disk = Returns c ->
  compute_features w dk dt c ps ts mixed = Some (Returns (dk', c')) -> c_has_features c' = true ->
  exists d names stems, disk = Some d /\ f_features d = Some names /\ Forall2 music_file names stems /\
    c_name c' = dataset_name path /\ c_tables c' = Some (ps, ts, mixed) /\ c_splits c' = c_splits c /\
    NoDup (map fst (c_features c')) /\ (forall s, In s (map fst (c_features c')) <-> In s stems) /\
    match f_annotations d with None => c_labels c' = [] | Some _ => map fst (c_labels c') = map fst (c_features c') end /\
    forall before f s after, combine names stems = before ++ (f, s) :: after -> ~ In s (map snd after) ->
      (exists x, answers w dk dt ps ts mixed path f x /\ In (s, x) (c_features c')) /\
      forall texts, f_annotations d = Some texts -> exists k, marks texts s k /\ In (s, k) (c_labels c').
Proof.
  intros NE C H HF. destruct (new_creator_inv _ _ _ C) as (d & names & stems & -> & FE & NN & M & ->). unfold compute_features in H. cbn [c_folder c_annotations c_files c_features c_labels c_name c_splits] in H.
  destruct (compute_loop _ _ _ _ _ _ _ _ _ _) as [[[[[dk2 F'] L'] b]|]|] eqn:E; try discriminate. injection H as <- <-. cbn [c_has_features] in HF. rewrite orb_false_r in HF. subst b.
  pose proof (loop_inv w dt path dk ps ts mixed _ _ _ _ _ _ _ _ _ _ (or_introl (conj eq_refl eq_refl)) E) as (rows & FF & -> & AN). cbn [c_name c_tables c_splits c_features c_labels].
  exists d, names, stems. destruct (Forall2_combine _ _ _ M) as (M1 & M2). rewrite M2 in *.
  assert (LR : length stems = length rows) by (rewrite <- (OptFacts.Forall2_length_eq _ _ _ FF), combine_length, (OptFacts.Forall2_length_eq _ _ _ M); lia).
  split; [reflexivity|]. split; [exact FE|]. split; [exact M|]. split; [reflexivity|]. split; [reflexivity|]. split; [reflexivity|]. split; [apply record_NoDup; constructor|].
  split; [intros s; rewrite record_keys, (combine_fst_same _ _ LR); cbn; tauto|]. split.
  - destruct (f_annotations d) as [texts|]; [|exact AN]. destruct AN as (ks & MM & ->). apply record_same_keys; [|reflexivity].
    assert (LK : length stems = length ks) by (rewrite <- (OptFacts.Forall2_length_eq _ _ _ MM), combine_length, (OptFacts.Forall2_length_eq _ _ _ M); lia). now rewrite !combine_fst_same.
  - intros before f s after CO N. split.
    + destruct (record_of_last _ _ _ _ _ _ _ FF CO N) as (x & A & I). rewrite M2 in I. exists x. split; [now apply (featured_answers _ _ _ _ _ _ _ f s x NE)|exact I].
    + intros texts T. rewrite T in AN. destruct AN as (ks & MM & ->). destruct (record_of_last _ _ _ _ _ _ _ MM CO N) as (k & A & I). rewrite M2 in I. exists k. split; [now apply marked_marks in A|exact I].
Qed.
(** When it succeeds. *)
Lemma Forall2_pair {A B C} (P : A -> B -> Prop) (Q : A -> C -> Prop) (R : A * B -> C -> Prop) l m n : Forall2 P l m -> Forall2 Q l n -> (forall a b c, Q a c -> R (a, b) c) -> Forall2 R (combine l m) n.
Proof. intros F G H. revert n G. induction F as [|a b l m _ _ IH]; intros n G; inversion G; subst; constructor; auto. Qed.
Lemma Forall2_pair_r {A B C} (P : A -> B -> Prop) (Q : B -> C -> Prop) (R : A * B -> C -> Prop) l m n : Forall2 P l m -> Forall2 Q m n -> (forall a b c, Q b c -> R (a, b) c) -> Forall2 R (combine l m) n.
Proof. intros F G H. revert n G. induction F as [|a b l m _ _ IH]; intros n G; inversion G; subst; constructor; auto. Qed.
Lemma completed w dk dt path d names stems ps ts mixed rows ks : path <> ""%string -> f_features d = Some names -> names <> [] -> Forall2 music_file names stems -> NoDup stems ->
  Forall2 (answers w dk dt ps ts mixed path) names rows -> match f_annotations d with None => ks = [] | Some texts => NoDup (map fst texts) /\ Forall2 (marks texts) stems ks end ->
  exists c dk' c', new_creator path (Some d) = Returns c /\ compute_features w dk dt c ps ts mixed = Some (Returns (dk', c')) /\ c_has_features c' = true /\ c_name c' = dataset_name path /\
    c_tables c' = Some (ps, ts, mixed) /\ c_features c' = combine stems rows /\ c_labels c' = combine stems ks.
Proof.
  intros NE FE NN M ND A MK. pose proof (new_creator_ok path d names stems FE NN M) as C.
  set (c := mkCreator _ _ _ _ _ _ _ _ _) in C. destruct (Forall2_combine _ _ _ M) as (M1 & M2).
  assert (FF : Forall2 (featured w dt path dk ps ts mixed) (combine names stems) rows) by (apply (Forall2_pair _ _ _ _ _ _ M A); intros f s x; apply (featured_answers w dk dt ps ts mixed path f s x NE)).
  assert (L : compute_loop w dt path (f_annotations d) mixed (combine names stems) dk (ensembler ps ts) [] [] = Some (Returns (fst (get_ensemble dk (ensembler ps ts) mixed), combine stems rows, combine stems ks, true))).
  { rewrite (loop_ok w dt path dk ps ts mixed (f_annotations d) _ dk (ensembler ps ts) [] [] rows ks).
    - rewrite M2. assert (X : forall V (vs : list V), NoDup (map fst (@nil (string * V)) ++ map fst (combine stems vs))).
      { intros V vs. cbn. clear - ND. revert vs. induction ND as [|s stems NI _ IH]; intros [|v vs]; cbn; try constructor; [|apply IH]. intros I. apply NI. clear - I. revert vs I. induction stems as [|t stems IH]; intros [|v vs]; cbn; try tauto. intros [->|I]; [now left|right; now apply (IH vs)]. }
      rewrite !record_new by apply X. reflexivity.
    - now left.
    - destruct M; [congruence|discriminate].
    - exact FF.
    - destruct (f_annotations d) as [texts|]; [|exact MK]. destruct MK as (NT & MK). apply (Forall2_pair_r _ _ _ _ _ _ M MK). intros f s k. now apply marks_marked. }
  exists c. do 2 eexists. split; [exact C|]. split; [unfold compute_features, c; cbn [c_folder c_annotations c_files c_features c_labels]; rewrite L; reflexivity|]. repeat split; reflexivity.
Qed.
(** A missing annotation. *)
Lemma unmarked_nothing w dk dt path disk c ps ts mixed dk' c' d names stems texts s : new_creator path disk = Returns c -> compute_features w dk dt c ps ts mixed = Some (Returns (dk', c')) ->
  disk = Some d -> f_features d = Some names -> Forall2 music_file names stems -> f_annotations d = Some texts -> In s stems -> ~ In (s ++ ".key")%string (map fst texts) -> written c' = Returns [].
Proof.
  intros C H -> FE M AN I N. destruct names as [|f0 names]; [inversion M; subst; destruct I|]. rewrite (new_creator_ok path d _ stems FE ltac:(discriminate) M) in C. injection C as <-.
  unfold compute_features in H. cbn [c_folder c_annotations c_files c_features c_labels c_has_features] in H. rewrite AN in H.
  destruct (compute_loop _ _ _ _ _ _ _ _ _ _) as [[[[[dk2 F'] L'] b]|]|] eqn:E; try discriminate. injection H as <- <-.
  pose proof (loop_inv w dt path dk ps ts mixed _ _ _ _ _ _ _ _ _ _ (or_introl (conj eq_refl eq_refl)) E) as X. unfold written. cbn [c_has_features]. rewrite orb_false_r. destruct b; [|reflexivity]. exfalso.
  destruct X as (rows & _ & _ & ks & MM & _). destruct (Forall2_combine _ _ _ M) as (_ & M2). rewrite <- M2 in I. apply in_map_iff in I. destruct I as ((g & s') & <- & I). cbn [snd] in N.
  assert (MM' : Forall2 (marked texts) (combine (f0 :: names) stems) ks) by exact MM. clear MM. rename MM' into MM. destruct (in_split _ _ I) as (l & r & EQ). rewrite EQ in MM. apply Forall2_split in MM. destruct MM as (_ & k & _ & _ & MK & _). destruct MK as (text & A & _). apply assoc_In in A. apply N. apply in_map_iff. now exists ((s' ++ ".key")%string, text).
Qed.
Lemma accepts path d : (exists c, new_creator path (Some d) = Returns c) <-> exists names stems, f_features d = Some names /\ names <> [] /\ Forall2 music_file names stems.
Proof.
  split.
  - intros (c & C). destruct (new_creator_inv _ _ _ C) as (d' & names & stems & E & FE & NN & M & _). injection E as ->. now exists names, stems.
  - intros (names & stems & FE & NN & M). eexists. exact (new_creator_ok path d names stems FE NN M).
Qed.
Lemma refuses path d good stems f rest : f_features d = Some (good ++ f :: rest) -> Forall2 music_file good stems -> (forall s, ~ music_file f s) ->
  (lacks "." f -> new_creator path (Some d) = Raises IndexError) /\ (~ lacks "." f -> new_creator path (Some d) = Raises SystemExit).
Proof.
  intros FE G B. unfold new_creator. rewrite FE, (feature_files_bad good stems f rest G B). cbn [pybind]. destruct (existsb _ (chars f)) eqn:X; (split; intros L; [|]); try reflexivity; exfalso.
  - apply existsb_exists in X. destruct X as (c & I & E). apply Ascii.eqb_eq in E. subst c. now apply L.
  - apply L. intros I. assert (Y : existsb (fun c => (c =? ".")%char) (chars f) = true) by (apply existsb_exists; exists "."%char; split; [exact I|reflexivity]). congruence.
Qed.

(** ** Splits *)
Lemma read_splits_record files : read_splits files = record (map (fun f => (fst (rsplit_dot (fst f)), map py_strip (readlines false (snd f)))) files) [].
Proof. unfold read_splits, record. generalize (@nil (string * list string)). induction files as [|f files IH]; intros m; [reflexivity|]. cbn [fold_left map fst snd]. apply IH. Qed.
Definition split_stem (f stem : string) : Prop := stem_of f stem \/ lacks "." f /\ stem = f.
Lemma split_stem_of f stem : split_stem f stem -> fst (rsplit_dot f) = stem.
Proof. intros [(ext & -> & L)|(L & ->)]; [now rewrite rsplit_dot_some|now rewrite rsplit_dot_none]. Qed.
Lemma read_split_ok files before f text after k ls v : files = before ++ (f, text) :: after -> split_stem f k -> (forall g t, In (g, t) after -> ~ split_stem g k) ->
  lines text ls -> Forall2 trimmed ls v -> In (k, v) (read_splits files).
Proof.
  intros -> S N L T. rewrite read_splits_record, map_app. cbn [map fst snd]. rewrite (split_stem_of f k S). apply assoc_In.
  assert (V : map py_strip (readlines false text) = v).
  { pose proof (readlines_lines false text ls L) as R. clear - R T. revert v T. induction R as [|l r ls rs (e & -> & B) _ IH]; intros v T; inversion T; subst; [reflexivity|]. cbn. f_equal; [apply strip_trimmed; now apply trimmed_end|now apply IH]. }
  rewrite V. apply record_last. rewrite map_map. cbn [fst]. intros I. apply in_map_iff in I. destruct I as ((g & t) & E & I). cbn [fst] in E. apply (N g t I). unfold split_stem.
  destruct (last_split "." g) as [LG|(a & b & -> & LG)]; [right; split; [exact LG|]; rewrite rsplit_dot_none in E by exact LG; now rewrite <- E|].
  left. exists b. split; [|exact LG]. change (String "." b) with ("." ++ b)%string in E. rewrite rsplit_dot_some in E by exact LG. cbn in E. now subst a.
Qed.
Lemma read_splits_NoDup files : NoDup (map fst (read_splits files)).
Proof. rewrite read_splits_record. apply record_NoDup. constructor. Qed.
