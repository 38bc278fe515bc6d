(** Model of dataset_creator.py, of class Dataset (dataset.py) and of model_trainer.py up to the call of the classifier. Definitions only.
    Log messages and the warning about a folder without letters (dataset_creator.py:95-97, whose assignment to the name is overwritten in
    the next line) are left out. Texts are strings of code points below 256; errors of the file system and of decoding are not modelled. *)
From Coq Require Import Ascii.
From Verif Require Import Base Fp Text Py Output OptTables Main Dataset Ensemble.
Open Scope Z_scope.

(** ** Python strings and text files *)
(** [s.rsplit('.', 1)]: the text before and the text after the last dot, or the whole text. *)
Definition rsplit_dot (s : string) : string * option string :=
  match last_index "." s 0 with
  | Some i => (substring 0 (Z.to_nat i) s, Some (substring (Z.to_nat (i + 1)) (String.length s) s))
  | None => (s, None)
  end.
(** [s.split(c)] and, without a limit, [s.rsplit(c)]. *)
Fixpoint split_on (c : ascii) (s : string) : list string :=
  match s with
  | EmptyString => [""%string]
  | String d s' =>
      if (d =? c)%char then ""%string :: split_on c s'
      else match split_on c s' with [] => [String d ""] | p :: ps => String d p :: ps end
  end.
(** [s.endswith(c)] and [s[:-1]]. *)
Fixpoint ends_with (c : ascii) (s : string) : bool :=
  match s with EmptyString => false | String d EmptyString => (d =? c)%char | String _ s' => ends_with c s' end.
Definition drop_last (n : nat) (s : string) : string := substring 0 (String.length s - n) s.
(** [os.path.join(a, b)] where [b] does not start with a slash. *)
Definition path_join (a b : string) : string :=
  if (a =? "")%string || ends_with "/" a then (a ++ b)%string else (a ++ "/" ++ b)%string.
(** [sep.join(l)]. *)
Fixpoint join_with (sep : string) (l : list string) : string :=
  match l with [] => ""%string | [s] => s | s :: l' => (s ++ sep ++ join_with sep l')%string end.
(** [fd.readlines()] of a file opened with [newline=''] or without it: a line ends with LF, CR or CR LF, which is kept or becomes LF. *)
Definition LF : ascii := chr 10.
Definition CR : ascii := chr 13.
Fixpoint readlines (translate : bool) (s : string) : list string :=
  match s with
  | EmptyString => []
  | String c s' =>
      if (c =? LF)%char then String LF "" :: readlines translate s'
      else if (c =? CR)%char then
        match s' with
        | String d s'' =>
            if (d =? LF)%char then (if translate then String LF "" else String CR (String LF "")) :: readlines translate s''
            else (if translate then String LF "" else String CR "") :: readlines translate s'
        | EmptyString => [if translate then String LF "" else String CR ""]
        end
      else match readlines translate s' with [] => [String c ""] | l :: ls => String c l :: ls end
  end.

(** ** DatasetCreator *)
(** What a dataset folder holds: the names in features (if that is a folder), and the names and texts in annotations and in splits. *)
Record folder := mkFolder { f_features : option (list string); f_annotations : option (list (string * string)); f_splits : option (list (string * string)) }.
(** The attributes of a DatasetCreator; [c_files] pairs files and files_no_extension. [c_tables]: key_profiles, key_transitions and
    mixed_profiles, which do not exist before compute_features. *)
Record creator := mkCreator {
  c_folder : string; c_name : string; c_files : list (string * string); c_annotations : option (list (string * string)); c_splits : list (string * list string);
  c_features : list (string * list b64); c_labels : list (string * Z); c_tables : option (list string * list string * bool); c_has_features : bool }.
(** dataset_creator.py:107-115: one name in features. *)
Definition feature_file (f : string) : py (string * string) :=
  match rsplit_dot f with
  | (_, None) => Raises IndexError
  | (stem, Some ext) => if elem ext ["mid"; "csv"; "wav"]%string then Returns (f, stem) else Raises SystemExit
  end.
(** dataset_creator.py:134-143. *)
Definition read_splits (files : list (string * string)) : list (string * list string) :=
  fold_left (fun splits f => assign String.eqb (fst (rsplit_dot (fst f))) (map py_strip (readlines false (snd f))) splits) files [].
(** dataset_creator.py:98: the last part of the path, without a slash at its end. *)
Definition dataset_name (dataset_folder : string) : string :=
  last (split_on "/" (if ends_with "/" dataset_folder then drop_last 1 dataset_folder else dataset_folder)) ""%string.
(** dataset_creator.py:83-146. [None]: not a folder. *)
Definition new_creator (dataset_folder : string) (disk : option folder) : py creator :=
  match disk with
  | None => Raises SystemExit
  | Some d =>
      match f_features d with
      | None => Raises SystemExit
      | Some names =>
          py_do files <- pymap feature_file names;
          match files with
          | [] => Raises SystemExit
          | _ => Returns (mkCreator dataset_folder (dataset_name dataset_folder) files (f_annotations d)
                            (match f_splits d with Some l => read_splits l | None => [] end) [] [] None false)
          end
      end
  end.
(** dataset_creator.py:172-189: the loop over the files. The last component tells whether it ran to its end; [None]: undefined behaviour of
    the detector. *)
Fixpoint compute_loop (w : world) (dt : dict) (folder : string) (annotations : option (list (string * string))) (mixed : bool)
    (files : list (string * string)) (dk : dict) (e : ens) (features : list (string * list b64)) (labels : list (string * Z))
    : option (py (dict * list (string * list b64) * list (string * Z) * bool)) :=
  match files with
  | [] => Some (Returns (dk, features, labels, true))
  | (f, stem) :: files' =>
      let '(dk', e', r) := ens_evaluate w dk dt e (path_join (path_join folder "features") f) mixed in
      match r with
      | None => None
      | Some (Raises x) => Some (Raises x)
      | Some (Returns rows) =>
          let features' := assign String.eqb stem (concat rows) features in
          match annotations with
          | None => compute_loop w dt folder annotations mixed files' dk' e' features' labels
          | Some texts =>
              match assoc String.eqb (stem ++ ".key")%string texts with
              | None => Some (Returns (dk', features', labels, false))
              | Some text =>
                  match readlines false text with
                  | [] => Some (Raises IndexError)
                  | line :: _ => compute_loop w dt folder annotations mixed files' dk' e' features' (assign String.eqb stem (parse_label line) labels)
                  end
              end
          end
      end
  end.
(** dataset_creator.py:163-189. *)
Definition compute_features (w : world) (dk dt : dict) (c : creator) (profiles transitions : list string) (mixed : bool) : option (py (dict * creator)) :=
  match compute_loop w dt (c_folder c) (c_annotations c) mixed (c_files c) dk (ensembler profiles transitions) (c_features c) (c_labels c) with
  | None => None
  | Some (Raises x) => Some (Raises x)
  | Some (Returns (dk', features, labels, all)) =>
      Some (Returns (dk', mkCreator (c_folder c) (c_name c) (c_files c) (c_annotations c) (c_splits c) features labels
                            (Some (profiles, transitions, mixed)) (all || c_has_features c)))
  end.

(** ** write *)
(** A file in the folder of datasets: a text, or a dumped array of rows or of labels. *)
Inductive content := Plain (s : string) | Rows (X : list (list b64)) | Labels (y : list Z).
Definition show_bool (b : bool) : string := if b then "True"%string else "False"%string.
(** dataset_creator.py:202-205. *)
Definition ensemble_text (profiles transitions : list string) (mixed : bool) : string :=
  (join_with ", " profiles ++ nl ++ join_with ", " transitions ++ nl ++ "mixed_profiles=" ++ show_bool mixed ++ nl)%string.
(** dataset_creator.py:217-233: the rows and labels of a split, nothing ([None]) if a name is missing. *)
Fixpoint split_rows (features : list (string * list b64)) (labels : list (string * Z)) (names : list string) : option (list (list b64) * list Z) :=
  match names with
  | [] => Some ([], [])
  | f :: names' =>
      match assoc String.eqb f features, labels, split_rows features labels names' with
      | Some x, [], Some (xs, ys) => Some (x :: xs, ys)
      | Some x, _ :: _, Some (xs, ys) => match assoc String.eqb f labels with Some y => Some (x :: xs, y :: ys) | None => None end
      | _, _, _ => None
      end
  end.
(** dataset_creator.py:216-244: the files of one split. *)
Definition split_files (c : creator) (split : string * list string) : list (string * content) :=
  match split_rows (c_features c) (c_labels c) (snd split) with
  | None | Some ([], _) => []
  | Some (xs, ys) =>
      ((c_name c ++ "-" ++ fst split ++ "_features.pkl")%string, Rows xs) ::
      match ys with [] => [] | _ => [((c_name c ++ "-" ++ fst split ++ "_annotations.pkl")%string, Labels ys)] end
  end.
(** dataset_creator.py:191-244: the files written, in order. *)
Definition written (c : creator) : py (list (string * content)) :=
  if negb (c_has_features c) then Returns [] else
  match c_tables c with
  | None => Raises AttributeError
  | Some (profiles, transitions, mixed) =>
      Returns (((c_name c ++ "_ensemble.txt")%string, Plain (ensemble_text profiles transitions mixed)) ::
               ((c_name c ++ "_features.pkl")%string, Rows (map snd (c_features c))) ::
               (match c_labels c with [] => [] | _ => [((c_name c ++ "_annotations.pkl")%string, Labels (map snd (c_labels c)))] end) ++
               concat (map (split_files c) (c_splits c)))
  end.
(** Files replace those of the same name; all others stay. *)
Definition put_files (files dir : list (string * content)) : list (string * content) :=
  fold_left (fun d f => assign String.eqb (fst f) (snd f) d) files dir.
(** dataset_creator.py:246-270, from the folder of datasets before to the one after; [disk]: the folder named in the command. *)
Definition create_dataset (w : world) (dataset : string) (disk : option folder) (dir : list (string * content)) : option (py (list (string * content))) :=
  match new_creator dataset disk with
  | Raises x => Some (Raises x)
  | Returns c =>
      match compute_features w initial_profiles initial_transitions c shipped_profiles shipped_transitions false with
      | None => None
      | Some (Raises x) => Some (Raises x)
      | Some (Returns (_, c')) => Some (py_do files <- written c'; Returns (put_files files dir))
      end
  end.

(** ** class Dataset *)
(** A literal in a regular expression with re.IGNORECASE, or a dot ([None]). *)
Definition literal (s : string) : list (option ascii) := map Some (list_ascii_of_string s).
(** The rest of the text after the pattern. *)
Fixpoint after (p : list (option ascii)) (s : string) : option string :=
  match p, s with
  | [], _ => Some s
  | q :: p', String c s' => if (match q with Some d => (py_lower c =? py_lower d)%char | None => negb (c =? LF)%char end) then after p' s' else None
  | _ :: _, EmptyString => None
  end.
(** [(.* )p], greedy: the longest group before a match of [p]. *)
Fixpoint greedy (p : list (option ascii)) (s : string) : option string :=
  match s with
  | String c s' =>
      match (if (c =? LF)%char then None else greedy p s') with
      | Some g => Some (String c g)
      | None => match after p s with Some _ => Some ""%string | None => None end
      end
  | EmptyString => match after p s with Some _ => Some ""%string | None => None end
  end.
(** [re.search(re.escape(name) + '-?(.* )' + tail, s, re.IGNORECASE).group(1)]. *)
Definition match_here (name : string) (tail : list (option ascii)) (s : string) : option string :=
  match after (literal name) s with
  | Some (String c s' as r) =>
      if (c =? "-")%char then match greedy tail s' with Some g => Some g | None => greedy tail r end else greedy tail r
  | Some EmptyString => greedy tail ""
  | None => None
  end.
Fixpoint search (name : string) (tail : list (option ascii)) (s : string) : option string :=
  match match_here name tail s with
  | Some g => Some g
  | None => match s with String _ s' => search name tail s' | EmptyString => None end
  end.
(** dataset.py:19-20; the dot before pkl is not escaped. *)
Definition features_tail : list (option ascii) := literal "_features" ++ None :: literal "pkl".
Definition annotations_tail : list (option ascii) := literal "_annotations" ++ None :: literal "pkl".
(** The attributes of a Dataset that come from files. *)
Record dataset := mkDataset { ds_ensemble : option (list string * list string * bool); ds_arrays : list (string * content) }.
(** dataset.py:26-41. *)
Definition read_ensemble (text : string) : py (list string * list string * bool) :=
  match readlines true text with
  | [kps; kts; mixed] =>
      match split_on "=" mixed with
      | _ :: m :: _ => Returns (map py_strip (split_on "," kps), map py_strip (split_on "," kts), (m =? "True")%string)
      | _ => Raises IndexError
      end
  | _ => Raises SystemExit
  end.
(** [np.load] of a file that is not an array, or [open] of one that is: an error, here ValueError. *)
Definition load (c : content) : py content := match c with Plain _ => Raises ValueError | _ => Returns c end.
(** dataset.py:45-49, 53-59: X or y for the whole dataset. *)
Definition attribute (split kind : string) : string := if (split =? "")%string then kind else (split ++ "_" ++ kind)%string.
(** dataset.py:22-59: one file of the folder. *)
Definition read_file (name : string) (ds : dataset) (f : string * content) : py dataset :=
  if negb (String.prefix name (fst f)) then Returns ds else
  py_do ens <- (if (fst f =? name ++ "_ensemble.txt")%string
                then match snd f with Plain text => py_do e <- read_ensemble text; Returns (Some e) | _ => Raises ValueError end
                else Returns (ds_ensemble ds));
  match search name features_tail (fst f) with
  | Some split => py_do a <- load (snd f); Returns (mkDataset ens (assign String.eqb (attribute split "X") a (ds_arrays ds)))
  | None =>
      match search name annotations_tail (fst f) with
      | Some split => py_do a <- load (snd f); Returns (mkDataset ens (assign String.eqb (attribute split "y") a (ds_arrays ds)))
      | None => Returns (mkDataset ens (ds_arrays ds))
      end
  end.
(** dataset.py:8-59, over the files in the order of [os.listdir]. *)
Fixpoint read_files (name : string) (ds : dataset) (dir : list (string * content)) : py dataset :=
  match dir with [] => Returns ds | f :: dir' => py_do ds' <- read_file name ds f; read_files name ds' dir' end.
Definition read_dataset (name : string) (dir : list (string * content)) : py dataset := read_files name (mkDataset None []) dir.

(** ** model_trainer.py *)
(** model_trainer.py:13-26. *)
Definition trainer_names : list string :=
  ["a-maps_chroma"; "albrecht_chroma"; "arthur2018-recordings_chroma"; "arthur2018-synth-shortname_chroma"; "billboard_chroma";
   "cross-era-shortname_chroma"; "giantsteps-key_chroma"; "giantsteps-mtg-key_chroma"; "napoles2018_chroma"]%string.
(** [data.ensemble], [data.X], [data.y]. *)
Definition get_ensemble_of (ds : dataset) : py (list string * list string * bool) := match ds_ensemble ds with Some e => Returns e | None => Raises AttributeError end.
Definition get_X (ds : dataset) : py (list (list b64)) := match assoc String.eqb "X"%string (ds_arrays ds) with Some (Rows X) => Returns X | Some _ => Raises ValueError | None => Raises AttributeError end.
Definition get_y (ds : dataset) : py (list Z) := match assoc String.eqb "y"%string (ds_arrays ds) with Some (Labels y) => Returns y | Some _ => Raises ValueError | None => Raises AttributeError end.
Fixpoint strings_eqb (a b : list string) : bool :=
  match a, b with [], [] => true | x :: a', y :: b' => (x =? y)%string && strings_eqb a' b' | _, _ => false end.
Definition ensemble_eqb (a b : list string * list string * bool) : bool :=
  strings_eqb (fst (fst a)) (fst (fst b)) && strings_eqb (snd (fst a)) (snd (fst b)) && Bool.eqb (snd a) (snd b).
(** [np.concatenate] of two arrays of rows. *)
Definition same_width (X : list (list b64)) : bool := match X with [] => true | x :: X' => forallb (fun r => Nat.eqb (length r) (length x)) X' end.
Definition concatenate (X Y : list (list b64)) : py (list (list b64)) := if same_width (X ++ Y) then Returns (X ++ Y) else Raises ValueError.
(** model_trainer.py:28-40. *)
Fixpoint gather (dir : list (string * content)) (names : list string) (acc : option ((list string * list string * bool) * list (list b64) * list Z))
    : py (list (list b64) * list Z) :=
  match names with
  | [] => match acc with Some (_, X, y) => Returns (X, y) | None => Raises AttributeError end
  | d :: names' =>
      py_do data <- read_dataset d dir;
      py_do e <- get_ensemble_of data;
      match acc with
      | None => py_do X <- get_X data; py_do y <- get_y data; gather dir names' (Some (e, X, y))
      | Some (ensemble, fullX, fully) =>
          if negb (ensemble_eqb e ensemble) then Raises SystemExit else
          py_do X <- get_X data; py_do fullX' <- concatenate fullX X;
          py_do y <- get_y data; gather dir names' (Some (ensemble, fullX', fully ++ y))
      end
  end.
(** [reshape(-1, n)]. *)
Fixpoint groups {A} (fuel n : nat) (l : list A) : list (list A) :=
  match fuel with O => [] | S fuel' => firstn n l :: groups fuel' n (skipn n l) end.
Definition reshape {A} (n : nat) (l : list A) : py (list (list A)) :=
  match n with
  | O => Raises ValueError
  | S _ => if Nat.eqb (length l mod n) 0 then Returns (groups (length l / n) n l) else Raises ValueError
  end.
(** dataset.py:130-136 on a whole array. *)
Definition feature_scaling (X : list (list b64)) : py (list (list b64)) :=
  match X with
  | [] => Raises IndexError
  | x :: _ => py_do rows <- reshape 24 (concat X); py_do scaled <- pymap min_max_scale rows; reshape (length x) (concat scaled)
  end.
(** model_trainer.py:28-59: what the classifier is trained with. *)
Definition training_data (dir : list (string * content)) (names : list string) : py (list (list b64) * list Z) :=
  py_do full <- gather dir names None;
  py_do X <- feature_scaling (fst full);
  data_augmentation X (snd full).
