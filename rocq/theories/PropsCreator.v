(** Properties C66 and C67: datasets of features and labels. *)
From Coq Require Import Lia Ascii Permutation.
From Flocq Require Import IEEE754.BinarySingleNaN.
From Verif Require Import Base BaseFacts Fp Text Options PitchClass Py Output OptTables Midi Main Dataset Ensemble Creator.
From Verif Require Import MusicSpec TextSpec TextFacts OptionFacts OutputFacts MainSpec ChromaSpec DatasetSpec LabelFacts EnsembleFacts EnsembleRun EnsembleScore EnsembleMain PropsEnsemble CreatorSpec CreatorFacts CreatorLoop CreatorStore CreatorMain CreatorRead.
Open Scope Z_scope.

(** C66: the rows and the labels of a dataset belong together. *)
Theorem C66_accepts_music : forall path d, (exists c, new_creator path (Some d) = Returns c) <-> exists names stems, f_features d = Some names /\ names <> [] /\ Forall2 music_file names stems.
Proof. exact accepts. Qed.
Print Assumptions C66_accepts_music.
Theorem C66_refuses_other_files : forall path d good stems f rest, f_features d = Some (good ++ f :: rest) -> Forall2 music_file good stems -> (forall s, ~ music_file f s) ->
  (lacks "." f -> new_creator path (Some d) = Raises IndexError) /\ (~ lacks "." f -> new_creator path (Some d) = Raises SystemExit).
Proof. exact refuses. Qed.
Print Assumptions C66_refuses_other_files.
Theorem C66_name : forall path n disk c, last_name path n -> n <> ""%string -> new_creator path disk = Returns c -> c_name c = n.
Proof. intros path n disk c L N C. destruct (new_creator_inv _ _ _ C) as (d & names & stems & _ & _ & _ & _ & ->). cbn [c_name]. now apply dataset_name_ok. Qed.
Print Assumptions C66_name.
Theorem C66_rows_and_labels : forall w dk dt path disk c ps ts mixed dk' c', path <> ""%string -> new_creator path disk = Returns c ->
  compute_features w dk dt c ps ts mixed = Some (Returns (dk', c')) -> c_has_features c' = true ->
  exists d names stems, disk = Some d /\ f_features d = Some names /\ Forall2 music_file names stems /\
    c_name c' = dataset_name path /\ c_tables c' = Some (ps, ts, mixed) /\ c_splits c' = c_splits c /\
    NoDup (map fst (c_features c')) /\ (forall s, In s (map fst (c_features c')) <-> In s stems) /\
    match f_annotations d with None => c_labels c' = [] | Some _ => map fst (c_labels c') = map fst (c_features c') end /\
    forall before f s after, combine names stems = before ++ (f, s) :: after -> ~ In s (map snd after) ->
      (exists x, answers w dk dt ps ts mixed path f x /\ In (s, x) (c_features c')) /\
      forall texts, f_annotations d = Some texts -> exists k, marks texts s k /\ In (s, k) (c_labels c').
Proof. exact collected. Qed.
Print Assumptions C66_rows_and_labels.
Theorem C66_one_row_per_name : forall w dk dt path d names stems ps ts mixed rows ks, path <> ""%string -> f_features d = Some names -> names <> [] -> Forall2 music_file names stems -> NoDup stems ->
  Forall2 (answers w dk dt ps ts mixed path) names rows -> match f_annotations d with None => ks = [] | Some texts => NoDup (map fst texts) /\ Forall2 (marks texts) stems ks end ->
  exists c dk' c', new_creator path (Some d) = Returns c /\ compute_features w dk dt c ps ts mixed = Some (Returns (dk', c')) /\ c_has_features c' = true /\ c_name c' = dataset_name path /\
    c_tables c' = Some (ps, ts, mixed) /\ c_features c' = combine stems rows /\ c_labels c' = combine stems ks.
Proof. exact completed. Qed.
Print Assumptions C66_one_row_per_name.
Theorem C66_missing_annotation : forall w dk dt path disk c ps ts mixed dk' c' d names stems texts s, new_creator path disk = Returns c -> compute_features w dk dt c ps ts mixed = Some (Returns (dk', c')) ->
  disk = Some d -> f_features d = Some names -> Forall2 music_file names stems -> f_annotations d = Some texts -> In s stems -> ~ In (s ++ ".key")%string (map fst texts) -> written c' = Returns [].
Proof. exact unmarked_nothing. Qed.
Print Assumptions C66_missing_annotation.
Theorem C66_splits : forall files before f text after k ls v, files = before ++ (f, text) :: after -> split_stem f k -> (forall g t, In (g, t) after -> ~ split_stem g k) ->
  lines text ls -> Forall2 trimmed ls v -> In (k, v) (read_splits files) /\ NoDup (map fst (read_splits files)).
Proof. intros files before f text after k ls v E S N L T. split; [exact (read_split_ok files before f text after k ls v E S N L T)|apply read_splits_NoDup]. Qed.
Print Assumptions C66_splits.
Lemma refused_features w file : behaves w -> refused w file -> snd (ens_evaluate w initial_profiles initial_transitions (ensembler shipped_profiles shipped_transitions) file false) = Some (Returns (repeat (repeat minus_million 24) 30)).
Proof.
  intros B R. unfold ens_evaluate. cbn [e_ensemble ensembler get_ensemble e_profiles e_transitions snd fst]. rewrite (refused_runs w initial_profiles initial_transitions file _ B R); [reflexivity|].
  intros [o t] P. apply in_prod_iff in P. destruct P as (P1 & P2). apply in_map_iff in P1. destruct P1 as (n & <- & P1). destruct shipped_stored as (I1 & I2 & _).
  pose proof (known_name n (I1 n P1)) as K1. pose proof (known_transition t (I2 t P2)) as K2. cbn [fst snd].
  destruct (assoc String.eqb n initial_profiles) as [lp|] eqn:E1; [|congruence]. destruct (assoc String.eqb t initial_transitions) as [lt|] eqn:E2; [|congruence].
  exists n, lp, lt. split; [reflexivity|]. split; [exact E1|]. split; [reflexivity|]. split; [apply (stored_weights n); now left|apply (stored_weights t); now right].
Qed.
Definition twin_folder : folder := mkFolder (Some ["a.mid"; "a.wav"]%string) None None.
Lemma located_dir f : located "d" f ("d/features/" ++ f).
Proof. right. split; [intros d E; destruct d as [|c d]; [discriminate|]; injection E as _ E; destruct d; discriminate|]. split; [discriminate|reflexivity]. Qed.
Lemma music_mid s : lacks "." "mid" /\ music_file (s ++ ".mid") s.
Proof. assert (L : lacks "." "mid") by (unfold lacks; cbn; intuition discriminate). split; [exact L|]. exists "mid"%string. split; [reflexivity|]. split; [exact L|]. now left. Qed.
Lemma band_gives_any base : sized (base ++ ".mid") -> gives band_world (base ++ ".mid") [0; 4; 7].
Proof.
  intros S. apply (gives_midi band_world base "mid" band_events [0; 4; 7]); [exact S|apply (music_mid "")|left; reflexivity|reflexivity|reflexivity|repeat constructor; lia|].
  unfold band_events. apply (heard_note 0 60 90 []); [lia|lia|]. apply heard_other; [lia|lia|]. apply (heard_note 0 64 1 []); [lia|lia|]. apply (heard_release 0 67 []); [lia|]. apply (heard_note 3 67 100 []); [lia|lia|]. constructor.
Qed.
Lemma band_answers base : sized ("d/features/" ++ base ++ ".mid") -> exists x, answers band_world initial_profiles initial_transitions shipped_profiles shipped_transitions false "d" (base ++ ".mid") x.
Proof.
  intros S. assert (N : Forall PipelineSpec.is_note [0; 4; 7]) by (repeat constructor; unfold PipelineSpec.is_note; lia). destruct (shipped_rows band_world ("d/features/" ++ base ++ ".mid") [0; 4; 7] band_behaves (band_gives_any ("d/features/" ++ base) S) N ltac:(discriminate)) as (rows & E & _).
  exists (concat rows), ("d/features/" ++ base ++ ".mid")%string, rows. split; [apply located_dir|]. split; [exact E|reflexivity].
Qed.
Lemma twins : exists c dk' c', new_creator "d" (Some twin_folder) = Returns c /\ compute_features band_world initial_profiles initial_transitions c shipped_profiles shipped_transitions false = Some (Returns (dk', c')) /\ c_has_features c' = true /\
  map fst (c_features c') = ["a"%string] /\ map snd (c_features c') = [repeat minus_million 720].
Proof.
  assert (M : Forall2 music_file ["a.mid"; "a.wav"]%string ["a"; "a"]%string).
  { constructor; [apply (music_mid "a")|]. constructor; [|constructor]. exists "wav"%string. split; [reflexivity|]. split; [unfold lacks; cbn; intuition discriminate|]. right. right. now left. }
  pose proof (new_creator_ok "d" twin_folder _ _ eq_refl ltac:(discriminate) M) as C. destruct (band_answers "a" ltac:(unfold sized; cbn; lia)) as (x & A).
  assert (B : answers band_world initial_profiles initial_transitions shipped_profiles shipped_transitions false "d" "a.wav" (repeat minus_million 720)).
  { exists "d/features/a.wav"%string, (repeat (repeat minus_million 24) 30). split; [apply located_dir|]. split; [|reflexivity]. apply refused_features; [exact band_behaves|]. split; [unfold sized; cbn; lia|right]. exists "d/features/a"%string, "wav"%string. split; [reflexivity|]. split; [unfold lacks; cbn; intuition discriminate|]. right. left. split; [reflexivity|now right]. }
  eexists. do 2 eexists. split; [exact C|]. split.
  - unfold compute_features. cbn [c_folder c_annotations c_files c_features c_labels f_annotations twin_folder combine].
    rewrite (loop_ok band_world initial_transitions "d" initial_profiles shipped_profiles shipped_transitions false None [("a.mid", "a"); ("a.wav", "a")]%string initial_profiles (ensembler shipped_profiles shipped_transitions) [] [] [x; repeat minus_million 720] []); [reflexivity|now left|discriminate| |reflexivity].
    constructor; [apply featured_answers; [discriminate|exact A]|]. constructor; [apply featured_answers; [discriminate|exact B]|constructor].
  - split; [reflexivity|]. split; reflexivity.
Qed.
Theorem C66_one_row_per_file_refuted : ~ (forall w dk dt path d names c ps ts mixed dk' c', path <> ""%string -> f_features d = Some names -> NoDup names -> new_creator path (Some d) = Returns c ->
  compute_features w dk dt c ps ts mixed = Some (Returns (dk', c')) -> c_has_features c' = true -> length (c_features c') = length names).
Proof.
  intros H. destruct twins as (c & dk' & c' & C & F & HF & K & _). specialize (H _ _ _ "d"%string twin_folder _ c _ _ _ dk' c' ltac:(discriminate) eq_refl ltac:(apply nodupb_spec; reflexivity) C F HF).
  rewrite <- (map_length fst), K in H. discriminate.
Qed.
Print Assumptions C66_one_row_per_file_refuted.
Definition two_songs : folder := mkFolder (Some ["one.mid"; "two.mid"]%string) (Some [("two.key", "a minor"); ("one.key", String.append "C major" (String "010" "x"))]%string) (Some [("test.txt", "one "); (".DS_Store", "")]%string).
Example C66_case : exists rows, Forall2 music_file ["one.mid"; "two.mid"]%string ["one"; "two"]%string /\ NoDup ["one"; "two"]%string /\ NoDup ["two.key"; "one.key"]%string /\
  Forall2 (answers band_world initial_profiles initial_transitions shipped_profiles shipped_transitions false "d") ["one.mid"; "two.mid"]%string rows /\
  Forall2 (marks [("two.key", "a minor"); ("one.key", String.append "C major" (String "010" "x"))]%string) ["one"; "two"]%string [0; 21] /\
  last_name "data/songs/" "songs" /\ (forall s, ~ music_file ".DS_Store" s) /\ read_splits [("test.txt", "one "); (".DS_Store", "")]%string = [("test", ["one"]); ("", [])]%string.
Proof.
  destruct (band_answers "one" ltac:(unfold sized; cbn; lia)) as (x & A). destruct (band_answers "two" ltac:(unfold sized; cbn; lia)) as (y & B). exists [x; y].
  split; [constructor; [apply (music_mid "one")|constructor; [apply (music_mid "two")|constructor]]|]. split; [apply nodupb_spec; reflexivity|]. split; [apply nodupb_spec; reflexivity|]. split; [constructor; [exact A|constructor; [exact B|constructor]]|].
  split; [constructor; [|constructor; [|constructor]]|split; [|split]].
  - exists (String.append "C major" (String "010" "x")). split; [right; now left|]. exact (label_annotated (String.append "C major" (String "010" "x")) (String.append "C major" (String "010" "")) ["x"%string] eq_refl).
  - exists "a minor"%string. split; [now left|]. exact (label_annotated "a minor" "a minor" [] eq_refl).
  - split; [unfold lacks; cbn; intuition discriminate|]. exists "data/"%string. split; [right; now exists "data"%string|now right].
  - intros s H. apply feature_file_ok in H. vm_compute in H. discriminate.
  - vm_compute. reflexivity.
Qed.

(** C67: a dataset that is stored and read again. *)
Theorem C67_tables_come_back : forall ps ts mixed, ps <> [] -> ts <> [] -> Forall listable ps -> Forall listable ts -> read_ensemble (ensemble_text ps ts mixed) = Returns (ps, ts, false).
Proof. exact tables_round_trip. Qed.
Print Assumptions C67_tables_come_back.
Lemma listable_check n : forallb (fun c => negb ((c =? ",") || (c =? newline) || (c =? return_))%char) (chars n) && (py_strip n =? n)%string = true -> listable n.
Proof.
  intros H. apply andb_true_iff in H. destruct H as (H & E). apply String.eqb_eq in E. rewrite forallb_forall in H.
  split; [intros I; now apply H in I|]. split; [split; intros I; now apply H in I|]. destruct (trimmed_strip n) as (a & b & _ & _ & _ & U). now rewrite E in U.
Qed.
Theorem C67_mixed_comes_back_refuted : ~ (forall ps ts mixed, ps <> [] -> ts <> [] -> Forall listable ps -> Forall listable ts -> read_ensemble (ensemble_text ps ts mixed) = Returns (ps, ts, mixed)).
Proof.
  intros H. assert (L : Forall listable ["a"%string]) by (constructor; [apply listable_check; vm_compute; reflexivity|constructor]).
  specialize (H ["a"%string] ["a"%string] true ltac:(discriminate) ltac:(discriminate) L L). rewrite C67_tables_come_back in H by (assumption || discriminate). discriminate.
Qed.
Print Assumptions C67_mixed_comes_back_refuted.
Theorem C67_stored_dataset : forall c ps ts mixed files dir listing, plain_name (c_name c) -> split_ok c -> c_has_features c = true -> c_tables c = Some (ps, ts, mixed) ->
  ps <> [] -> ts <> [] -> Forall listable ps -> Forall listable ts -> NoDup (map fst (c_features c)) -> c_labels c = [] \/ map fst (c_labels c) = map fst (c_features c) ->
  written c = Returns files -> NoDup (map fst dir) ->
  (forall f, In f dir -> String.prefix (c_name c) (fst f) = true -> In (fst f) (map fst files)) -> Permutation listing (put_files files dir) ->
  exists ds, read_dataset (c_name c) listing = Returns ds /\ ds_ensemble ds = Some (ps, ts, false) /\
    get_X ds = Returns (map snd (c_features c)) /\
    (c_labels c <> [] -> get_y ds = Returns (map snd (c_labels c))) /\ (c_labels c = [] -> get_y ds = Raises AttributeError) /\
    forall k v, In (k, v) (c_splits c) ->
      (forall xs, v <> [] -> Forall2 (fun s x => In (s, x) (c_features c)) v xs -> assoc String.eqb (k ++ "_X")%string (ds_arrays ds) = Some (Rows xs)) /\
      (forall ys, v <> [] -> Forall2 (fun s y => In (s, y) (c_labels c)) v ys -> assoc String.eqb (k ++ "_y")%string (ds_arrays ds) = Some (Labels ys)) /\
      (v = [] \/ (exists s, In s v /\ ~ In s (map fst (c_features c))) -> assoc String.eqb (k ++ "_X")%string (ds_arrays ds) = None /\ assoc String.eqb (k ++ "_y")%string (ds_arrays ds) = None).
Proof. exact stored_dataset. Qed.
Print Assumptions C67_stored_dataset.
Definition half : b64 := rat64 1 2.
Theorem C67_stale_labels_refuted : ~ (forall c files dir listing ds X y, c_has_features c = true -> plain_name (c_name c) -> written c = Returns files -> NoDup (map fst dir) -> Permutation listing (put_files files dir) ->
  read_dataset (c_name c) listing = Returns ds -> get_X ds = Returns X -> get_y ds = Returns y -> length X = length y).
Proof.
  intros H. set (c := mkCreator "n" "n" [] None [] [("a"%string, [half])] [] (Some (["p"], ["t"], false)%string) true).
  assert (PN : plain_name "n") by (split; apply never_check; vm_compute; reflexivity).
  specialize (H c _ [("n_annotations.pkl"%string, Labels [1; 2; 3])] _ _ [[half]] [1; 2; 3] eq_refl PN eq_refl ltac:(apply nodupb_spec; reflexivity) (Permutation_refl _) eq_refl eq_refl eq_refl). discriminate.
Qed.
Print Assumptions C67_stale_labels_refuted.
Theorem C67_order_of_files_refuted : ~ (forall c files listing listing' ds ds', c_has_features c = true -> NoDup (map fst (c_splits c)) -> written c = Returns files -> Permutation listing files -> Permutation listing' files ->
  read_dataset (c_name c) listing = Returns ds -> read_dataset (c_name c) listing' = Returns ds' -> get_X ds = get_X ds').
Proof.
  intros H. set (c := mkCreator "n" "n" [] None (read_splits [(".txt", "a")]%string) [("a"%string, [half]); ("b"%string, [half])] [] (Some (["p"], ["t"], false)%string) true).
  set (f1 := ("n_ensemble.txt"%string, Plain (ensemble_text ["p"%string] ["t"%string] false))). set (f2 := ("n_features.pkl"%string, Rows [[half]; [half]])). set (f3 := ("n-_features.pkl"%string, Rows [[half]])).
  set (t := Some (["p"], ["t"], false)%string). assert (ND : NoDup (map fst (c_splits c))) by (apply nodupb_spec; reflexivity).
  specialize (H c [f1; f2; f3] [f1; f2; f3] [f1; f3; f2] (mkDataset t [("X"%string, Rows [[half]])]) (mkDataset t [("X"%string, Rows [[half]; [half]])]) eq_refl ND eq_refl (Permutation_refl _) (perm_skip _ (perm_swap _ _ _)) eq_refl eq_refl). discriminate.
Qed.
Print Assumptions C67_order_of_files_refuted.
Definition small_set : creator := mkCreator "data/songs" "songs" [] (Some []) [("test", ["two"]); ("train", ["one"; ""])]%string [("one"%string, [half]); ("two"%string, [fzero])] [("one"%string, 0); ("two"%string, 21)] (Some (["sapp"; "temperley"], ["ktg_linear"], true)%string) true.
Example C67_case : plain_name (c_name small_set) /\ split_ok small_set /\ Forall listable ["sapp"; "temperley"; "ktg_linear"]%string /\ (exists files, written small_set = Returns files /\ length files = 5%nat) /\
  (exists s, In s ["one"; ""]%string /\ ~ In s (map fst (c_features small_set))) /\ Forall2 (fun s x => In (s, x) (c_features small_set)) ["two"%string] [[fzero]].
Proof.
  assert (PN : forall n, forallb (fun p => forallb (fun i => negb (lower_string (substring i (String.length p) n) =? p)%string) (seq 0 (S (String.length n)))) ["_features"; "_annotations"]%string = true -> plain_name n).
  { intros n C. cbn [forallb] in C. rewrite andb_true_r in C. apply andb_true_iff in C. destruct C. split; now apply never_check. }
  split; [apply PN; vm_compute; reflexivity|]. split; [|split; [|split; [|split]]].
  - split; [apply nodupb_spec; reflexivity|]. cbn [small_set c_splits map fst]. repeat constructor; try (apply PN; vm_compute; reflexivity); try discriminate; unfold lacks; cbn; intuition discriminate.
  - repeat (constructor; [apply listable_check; vm_compute; reflexivity|]). constructor.
  - eexists. split; [reflexivity|reflexivity].
  - exists ""%string. split; [right; now left|]. cbn. intuition discriminate.
  - constructor; [|constructor]. right. now left.
Qed.
