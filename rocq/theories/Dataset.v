(** Model of dataset.py, of the label parser of dataset_creator.py and of tools/annotate_inline.py. Definitions only. *)
From Coq Require Import Ascii.
From Verif Require Import Base Fp PitchClass Text Py.
Open Scope Z_scope.

(** ** dataset.py *)
(** [np.array.reshape(-1, 12)]: rows of twelve; the size must be a multiple of 12. *)
Fixpoint chunks {A} (n : nat) (l : list A) : list (list A) :=
  match n with O => [] | S n' => firstn 12 l :: chunks n' (skipn 12 l) end.
Definition reshape12 {A} (l : list A) : py (list (list A)) :=
  if Nat.eqb (length l mod 12) 0 then Returns (chunks (length l / 12) l) else Raises ValueError.
(** [np.roll(x, t, axis=1)] on one row. *)
Definition roll {A} (t : Z) (row : list A) : list A :=
  let n := Z.of_nat (length row) in
  rotate (Z.to_nat ((- t) mod n)) row.
(** dataset.py:62-74. The features of the twelve transpositions, flattened row by row, and the labels. *)
Definition transpose {A} (Xi : list A) (y : Z) : py (list (list A) * list Z) :=
  let is_minor := y / 12 in
  py_do Xip <- reshape12 Xi;
  Returns (map (fun ti => concat (map (roll ti) Xip)) (zseq 12),
           map (fun ti => (y + ti) mod 12 + 12 * is_minor) (zseq 12)).
(** dataset.py:118-128. *)
Fixpoint data_augmentation {A} (X : list (list A)) (y : list Z) : py (list (list A) * list Z) :=
  match X with
  | [] => Returns ([], [])
  | Xi :: X' =>
      match y with
      | [] => Raises IndexError
      | yi :: y' =>
          py_do p <- transpose Xi yi; let '(Xp, yp) := p in
          py_do q <- data_augmentation X' y'; let '(Xq, yq) := q in
          Returns (Xp ++ Xq, yp ++ yq)
      end
  end.

(** dataset.py:77-99. *)
Inductive relation := Tonic | Fifth | Relative | Parallel | Other.
Definition compare_keys (k1 k2 : Z) : relation :=
  if k2 =? k1 then Tonic
  else
    let '(dominant, subdominant, relative, parallel) :=
      if k1 <? 12 then ((k1 + 7) mod 12, (k1 + 5) mod 12, (k1 + 9) mod 12 + 12, k1 + 12)
      else ((k1 + 7) mod 12 + 12, (k1 + 5) mod 12 + 12, (k1 - 9) mod 12, k1 - 12) in
    if k2 =? dominant then Fifth
    else if k2 =? subdominant then Fifth
    else if k2 =? relative then Relative
    else if k2 =? parallel then Parallel
    else Other.
Definition relation_eqb (a b : relation) : bool :=
  match a, b with Tonic, Tonic | Fifth, Fifth | Relative, Relative | Parallel, Parallel | Other, Other => true | _, _ => false end.
(** [collections.Counter] and [cnt.get(x, 0)]. *)
Definition count (r : relation) (l : list relation) : Z := Z.of_nat (length (filter (relation_eqb r) l)).
(** dataset.py:101-116; [None] is Python's None (the lengths differ). *)
Definition weighted_score (pred y : list Z) : py (option (list b64)) :=
  if negb (Nat.eqb (length pred) (length y)) then Returns None
  else
    let n := Z.of_nat (length pred) in
    let keys := map (fun i => compare_keys (nth i y 0) (nth i pred 0)) (seq 0 (length pred)) in
    let tonics := count Tonic keys in
    let fifths := count Fifth keys in
    let relatives := count Relative keys in
    let parallels := count Parallel keys in
    let others := count Other keys in
    let mirex := fadd (fadd (fadd (py_float tonics) (fmul (rat64 5 10) (py_float fifths))) (fmul (rat64 3 10) (py_float relatives)))
                      (fmul (rat64 2 10) (py_float parallels)) in
    py_do s <- float_div mirex (py_float n);
    py_do l <- pymap (fun x => int_div x n) [tonics; fifths; relatives; parallels; others];
    Returns (Some (s :: l)).

(** ** Labels *)
(** dataset_creator.py:48-60, keys_single_letter. *)
Definition keys_single_letter : list (string * Z) :=
  [("C", 0); ("C#", 1); ("Db", 1); ("D", 2); ("D#", 3); ("Eb", 3); ("E", 4); ("F", 5); ("F#", 6); ("Gb", 6); ("G", 7); ("G#", 8);
   ("Ab", 8); ("A", 9); ("A#", 10); ("Bb", 10); ("B", 11);
   ("c", 12); ("c#", 13); ("db", 13); ("d", 14); ("d#", 15); ("eb", 15); ("e", 16); ("f", 17); ("f#", 18); ("gb", 18); ("g", 19); ("g#", 20);
   ("ab", 20); ("a", 21); ("a#", 22); ("bb", 22); ("b", 23)]%string.
(** dataset_creator.py:61-81, keys_duple. *)
Definition keys_duple : list (string * string * Z) :=
  [("c", "major", 0); ("c#", "major", 1); ("db", "major", 1); ("d", "major", 2); ("d#", "major", 3); ("eb", "major", 3);
   ("e", "major", 4); ("f", "major", 5); ("f#", "major", 6); ("gb", "major", 6); ("g", "major", 7); ("g#", "major", 8);
   ("ab", "major", 8); ("a", "major", 9); ("a#", "major", 10); ("bb", "major", 10); ("b", "major", 11);
   ("c", "minor", 12); ("c#", "minor", 13); ("db", "minor", 13); ("d", "minor", 14); ("d#", "minor", 15); ("eb", "minor", 15);
   ("e", "minor", 16); ("f", "minor", 17); ("f#", "minor", 18); ("gb", "minor", 18); ("g", "minor", 19); ("g#", "minor", 20);
   ("ab", "minor", 20); ("a", "minor", 21); ("a#", "minor", 22); ("bb", "minor", 22); ("b", "minor", 23)]%string.
(** tools/annotate_inline.py:5-17 and 30-50: the same tables with H for B. *)
Definition inline_single : list (string * Z) := (keys_single_letter ++ [("H"%string, 11); ("h"%string, 23)]).
Definition inline_duple : list (string * string * Z) := (keys_duple ++ [("h"%string, "major"%string, 11); ("h"%string, "minor"%string, 23)]).
Definition pair_eqb (a b : string * string) : bool := String.eqb (fst a) (fst b) && String.eqb (snd a) (snd b).
Definition lookup (single : list (string * Z)) (duple : list (string * string * Z)) (annotation : list string) : Z :=
  match annotation with
  | [key] => match assoc String.eqb key single with Some label => label | None => -1 end
  | [a; b] => match assoc pair_eqb (string_map py_lower a, string_map py_lower b) duple with Some label => label | None => -1 end
  | _ => -1
  end.
(** dataset_creator.py:148-161. *)
Definition parse_label (annotation : string) : Z := lookup keys_single_letter keys_duple (py_split (py_strip annotation)).
(** tools/annotate_inline.py:19-28, keys_single_reverse. *)
Definition keys_single_reverse : list (Z * string) :=
  [(-1, "Unknown"); (0, "C"); (1, "Db"); (2, "D"); (3, "Eb"); (4, "E"); (5, "F"); (6, "F#"); (7, "G"); (8, "Ab"); (9, "A"); (10, "Bb"); (11, "B");
   (12, "c"); (13, "c#"); (14, "d"); (15, "eb"); (16, "e"); (17, "f"); (18, "f#"); (19, "g"); (20, "ab"); (21, "a"); (22, "bb"); (23, "b")]%string.
(** tools/annotate_inline.py:53-67. *)
Definition normalize_key_label (key_label : string) : py string :=
  match assoc Z.eqb (lookup inline_single inline_duple (py_split (py_strip key_label))) keys_single_reverse with
  | Some key => Returns key
  | None => Raises KeyError
  end.

(** [os.path.splitext] of a name without a slash: at the last dot, unless only dots stand before it. *)
Definition only_dots (s : string) : bool := forallb (fun c => (c =? ".")%char) (list_ascii_of_string s).
Definition splitext (base : string) : string * string :=
  match last_index "." base 0 with
  | Some i =>
      let noext := substring 0 (Z.to_nat i) base in
      if only_dots noext then (base, ""%string) else (noext, substring (Z.to_nat i) (String.length base) base)
  | None => (base, ""%string)
  end.
(** tools/annotate_inline.py:76-82: the new name of a feature file, from its base name and the contents of its key file. *)
Definition new_filename (base original_key : string) : py string :=
  let '(noext, dotext) := splitext base in
  py_do key <- normalize_key_label (py_strip original_key);
  Returns (noext ++ "_" ++ key ++ dotext)%string.
