(** Model of the Python scripts that prepare datasets: tools/billboard/bothchroma2chroma.py, tools/cross-era/remove_column.py,
    tools/billboard/filter_confident_files.py (the same text is in tools/giantsteps-mtg-key-dataset), tools/experiment1/find_duplicates.py and
    tools/sample_datapoints.py. Definitions only. Folders are the lists of their names in the order of os.listdir. Temporary files and messages are left out. *)
From Coq Require Import Ascii.
From Verif Require Import Base Fp Text Py Optimizer Creator.
Open Scope Z_scope.

(** ** Columns *)
(** csv.reader without quotation marks: the fields between the commas; an empty line has none. *)
Definition csv_row (line : string) : list string := if (line =? "")%string then [] else split_on "," line.
Definition chomp (line : string) : string := if ends_with LF line then drop_last 1 line else line.
Fixpoint has_char (c : ascii) (s : string) : bool := match s with EmptyString => false | String d s => (d =? c)%char || has_char c s end.
(** The rows of a text file; [None] if it has quotation marks or null characters, which are not modelled. *)
Definition csv_reader (text : string) : option (list (list string)) :=
  if has_char (chr 34) text || has_char (chr 0) text then None else Some (map (fun l => csv_row (chomp l)) (readlines true text)).
(** bothchroma2chroma.py:13-19 and remove_column.py:13-19: the new text, from what is kept of a row. *)
Definition convert (keep : list string -> list string) (text : string) : option string :=
  match csv_reader text with
  | Some rows => Some (fold_right (fun row s => (join_with "," (keep row) ++ String LF s)%string) ""%string rows)
  | None => None
  end.
(** bothchroma2chroma.py:17: row[1:2] + row[14:]. *)
Definition treble_columns (row : list string) : list string := firstn 1 (skipn 1 row) ++ skipn 14 row.
(** remove_column.py:17: row[1:]. *)
Definition other_columns (row : list string) : list string := skipn 1 row.

(** ** Files with an annotation, filter_confident_files.py:6-15 *)
(** f.split('.')[0]. *)
Definition first_part (f : string) : string := hd ""%string (split_on "." f).
Definition allowed (annotations : list string) (f : string) : bool := existsb (String.eqb (first_part f)) (map first_part annotations).
(** The features that are left. *)
Definition filter_features (annotations features : list string) : list string := filter (allowed annotations) features.

(** ** Duplicates, find_duplicates.py:4-21 *)
(** A message: is it a note_on, its note, its velocity. *)
Record message := mkMessage { is_note_on : bool; msg_note : Z; msg_velocity : Z }.
(** What mido makes of the bytes of an event; its order of the messages is an input. *)
Definition decode (event : list Z) : message := mkMessage (Z.land (nth 0 event 0) 240 =? 144) (nth 1 event 0) (nth 2 event 0).
Fixpoint notes_of (mid : list message) : list Z :=
  match mid with [] => [] | m :: mid => if negb (is_note_on m) || (msg_velocity m =? 0) then notes_of mid else (msg_note m mod 12) :: notes_of mid end.
Fixpoint notes_eqb (a b : list Z) : bool := match a, b with [], [] => true | x :: a, y :: b => (x =? y) && notes_eqb a b | _, _ => false end.
(** d[k] = v. *)
Fixpoint set_item {V} (d : list (string * V)) (k : string) (v : V) : list (string * V) :=
  match d with [] => [(k, v)] | (k', v') :: d => if (k' =? k)%string then (k', v) :: d else (k', v') :: set_item d k v end.
(** 14-17. *)
Definition find_dup (notes : list Z) (unique : list (string * list Z)) : string :=
  fold_left (fun dup kv => if notes_eqb notes (snd kv) then fst kv else dup) unique ""%string.
(** 7-21. *)
Fixpoint find_duplicates (mid : string -> list message) (files : list string) (unique : list (string * list Z)) (duplicates : list (string * string)) : list (string * list Z) * list (string * string) :=
  match files with
  | [] => (unique, duplicates)
  | f :: files =>
      let notes := notes_of (mid f) in
      let dup := find_dup notes unique in
      if negb (dup =? "")%string then find_duplicates mid files unique (set_item duplicates f dup)
      else find_duplicates mid files (set_item unique f notes) duplicates
  end.

(** ** A random sample, sample_datapoints.py *)
(** 9: math.floor(len(files) * test_size); the product is not negative. *)
Definition sample_size (n : Z) : Z := py_int (fmul (py_float n) (rat64 1 5)).
(** 10: random.sample, from the places that were drawn. *)
Definition sample_of (files : list string) (draw : list nat) : list string := map (fun i => nth i files ""%string) draw.
Definition trim (x : string) : string := drop_last 4 x.
(** 12-22: the two lists of lines. *)
Definition split_files_of (files : list string) (draw : list nat) : list string * list string :=
  let sample := sample_of files draw in
  (map trim (filter (fun x => negb (existsb (String.eqb x) sample)) files), map trim sample).
