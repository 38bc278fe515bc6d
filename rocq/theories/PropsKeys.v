(** Property theorems C101: the script that extracts keys from kern files; and, for C100, that the lists of names are read back. *)
From Coq Require Import Lia Ascii String Permutation.
From Verif Require Import Base BaseFacts Fp Text PitchClass Py Optimizer Creator MusicSpec TextSpec TextFacts ChromaSpec CreatorSpec CreatorFacts CreatorLoop CreatorStore Main Ensemble Rename Tools ToolsSpec ToolsFacts Keys KeysSpec KeysFacts.
Open Scope list_scope.
Open Scope Z_scope.

(** C101: the keys are printed below the names of their files. *)
Theorem C101_keys_are_printed : forall rows names files,
  (forall f g h, In f names -> In g names -> with_key f h -> h <> g) -> Forall (fun f => (4 <= String.length f)%nat) names -> (forall f text, In f names -> files f = Some text -> Forall (fun r => r <> []) (rows text)) -> (forall f, In f names -> files f <> None) ->
  exists keys, snd (extract_keys rows names files) = None /\ snd (fst (extract_keys rows names files)) = concat (map (fun fk => fst fk :: snd fk) (combine names keys)) /\
    Forall2 (fun f ks => exists text, files f = Some text /\ forall ks', keys_in (rows text) ks' <-> ks' = ks) names keys.
Proof.
  intros rows names files D L R S. destruct (extracted_prints rows names files (names_apart names D L) R S) as (keys & A & B & C).
  exists keys. split; [exact A|]. split; [exact B|]. clear - C. induction C as [|f ks l keys (t & X & Y) _ IH]; constructor; [|exact IH]. exists t. split; [exact X|]. intros ks'. split; [intros K; now apply (keys_unique (rows t))|intros ->; exact Y].
Qed.
Print Assumptions C101_keys_are_printed.
(** A blank line in a file ends the script. *)
Theorem C101_blank_line_fails : forall rows names files f text, (forall f g h, In f names -> In g names -> with_key f h -> h <> g) -> Forall (fun f => (4 <= String.length f)%nat) names -> In f names -> files f = Some text -> In [] (rows text) ->
  snd (extract_keys rows names files) = Some IndexError.
Proof. intros rows names files f text D L. apply extracted_fails. now apply names_apart. Qed.
Print Assumptions C101_blank_line_fails.
(** Nothing is ever written: a file either stays or is emptied, and all annotations are empty. *)
Theorem C101_nothing_is_written : forall rows names files, let '(after, _, e) := extract_keys rows names files in
  (forall n, after n = Some ""%string \/ after n = files n) /\ (e = None -> forall f g, In f names -> with_key f g -> after g = Some ""%string).
Proof.
  intros rows names files. assert (X := extracted rows names files). destruct (extract_keys rows names files) as [[after printed] e]. destruct X as (A & _ & C). split; [exact A|]. intros E f g I W. apply key_name_spec in W as <-. auto.
Qed.
Print Assumptions C101_nothing_is_written.
(** So the key of a piece is not in its annotation, against what the names of the script and of the files say. *)
Theorem C101_key_is_written_refuted : ~ forall rows names files f g text k ks, In f names -> with_key f g -> files f = Some text -> keys_in (rows text) (k :: ks) -> snd (extract_keys rows names files) = None ->
  exists t p q, fst (fst (extract_keys rows names files)) g = Some t /\ t = (p ++ k ++ q)%string.
Proof.
  intros X. destruct (X (fun _ => [["*C:"%string]]) ["a.krn"%string] (fun n => if (n =? "a.krn")%string then Some "*C:"%string else None) "a.krn"%string "a.key"%string "*C:"%string "C"%string []) as (t & p & q & E & F).
  - now left.
  - now exists "a"%string, ".krn"%string.
  - reflexivity.
  - constructor; [|constructor]. exists ""%string. split; [intros []|reflexivity].
  - reflexivity.
  - vm_compute in E. injection E as <-. destruct p; discriminate F.
Qed.
Print Assumptions C101_key_is_written_refuted.
(** A dataset whose annotations are such files gets no labels: computing its features raises IndexError as soon as the features themselves can be computed, and never returns. *)
Theorem C101_dataset_cannot_be_made : forall w dk dt c profiles transitions mixed texts, c_files c <> [] -> c_annotations c = Some texts ->
  (forall n t, assoc String.eqb n texts = Some t -> t = ""%string) -> Forall (fun f => assoc String.eqb (snd f ++ ".key")%string texts <> None) (c_files c) ->
  (forall r, compute_features w dk dt c profiles transitions mixed <> Some (Returns r)) /\
  (let bare := mkCreator (c_folder c) (c_name c) (c_files c) None (c_splits c) (c_features c) (c_labels c) (c_tables c) (c_has_features c) in
   (exists r, compute_features w dk dt bare profiles transitions mixed = Some (Returns r)) -> compute_features w dk dt c profiles transitions mixed = Some (Raises IndexError)).
Proof.
  intros w dk dt c profiles transitions mixed texts N A T F. unfold compute_features. cbn [c_folder c_annotations c_files c_features c_labels]. rewrite A. destruct (c_files c) as [|[f stem] files]; [congruence|]. apply Forall_inv in F. cbn [snd] in F. cbn [compute_loop].
  destruct (ens_evaluate w dk dt (ensembler profiles transitions) (path_join (path_join (c_folder c) "features") f) mixed) as [[dk' e'] r]. destruct r as [[rows|x]|].
  - destruct (assoc String.eqb (stem ++ ".key")%string texts) as [t|] eqn:E; [|congruence]. rewrite (T _ _ E). cbn [readlines]. split; [intros r; discriminate|reflexivity].
  - split; [intros r; discriminate|]. intros (r & X). discriminate X.
  - split; [intros r; discriminate|]. intros (r & X). discriminate X.
Qed.
Print Assumptions C101_dataset_cannot_be_made.

(** ** C100: the two lists as files of the folder splits *)
Definition listed (names : list string) : string := fold_right (fun n s => (n ++ String newline s)%string) ""%string names.
(** Names of music files lose exactly their extensions. *)
Theorem C100_names_are_stems : forall files stems draw, Forall2 music_file files stems -> NoDup files -> NoDup draw -> Forall (fun i => (i < length files)%nat) draw ->
  Permutation (fst (split_files_of files draw) ++ snd (split_files_of files draw)) stems.
Proof.
  intros files stems draw M N D B. assert (E : map trim files = stems).
  { clear - M. induction M as [|f s files stems (ext & -> & _ & I) _ IH]; [reflexivity|]. cbn [map]. rewrite IH. f_equal. unfold trim. apply drop_ending. cbn in I. destruct I as [<-|[<-|[<-|[]]]]; reflexivity. }
  rewrite <- E. unfold split_files_of. cbn [fst snd]. rewrite <- map_app. apply Permutation_map. now apply sample_permutation.
Qed.
Print Assumptions C100_names_are_stems.
(** A list saved as the file of a split is the split of the dataset. *)
Theorem C100_list_is_read : forall file names, Forall (fun n => within_line n /\ unblank_ends n) names -> forall stem, stem_of file stem -> read_splits [(file, listed names)] = [(stem, names)].
Proof.
  intros file names F stem (ext & -> & L). unfold read_splits. cbn [fold_left fst snd]. rewrite (rsplit_dot_some stem ext L). cbn [fst assign]. do 2 f_equal.
  induction F as [|n names (W & U) _ IH]; [reflexivity|]. unfold listed in *. cbn [fold_right]. change newline with LF in *. rewrite readlines_LF by exact W. cbn [map]. rewrite IH. f_equal.
  apply strip_trimmed. exists ""%string, (String LF ""). split; [reflexivity|]. split; [constructor|]. split; [|exact U]. constructor; [cbn; auto 12|constructor].
Qed.
Print Assumptions C100_list_is_read.

Example C101_two_files : let files := fun n => if (n =? "a.krn")%string then Some "A"%string else if (n =? "b.krn")%string then Some "B"%string else None in
  let rows := fun t => if (t =? "A")%string then [["**kern"; "**dynam"]; ["*clefG2"; "*"]; ["*E-:"; "*"]; ["*c:"; "*"]]%string else [["**kern"]; ["*F:"]]%string in
  let '(after, printed, e) := extract_keys rows ["a.krn"; "b.krn"]%string files in
  printed = ["a.krn"; "E-"; "c"; "b.krn"; "F"]%string /\ e = None /\ map after ["a.krn"; "b.krn"; "a.key"; "b.key"; "c.key"]%string = [Some "A"; Some "B"; Some ""; Some ""; None]%string.
Proof. vm_compute. auto. Qed.
Example C100_a_split : read_splits [("train.txt", listed ["a"; "b c"])]%string = [("train", ["a"; "b c"])]%string.
Proof. reflexivity. Qed.
