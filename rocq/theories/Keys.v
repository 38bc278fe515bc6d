(** Model of tools/albrecht/extract_keys.py. Definitions only. The names are those of os.listdir and belong to files; [rows] is what codecs and csv.reader make
    of the text of a file; the fields have no line ends. *)
From Coq Require Import Ascii String.
From Verif Require Import Base Text Py Creator Rename.
Open Scope string_scope.

(** extract_keys.py:19: the search in first_spine for an asterisk, any text and a colon at the end, as the text of the group. *)
Fixpoint after_star (s : string) : option string := match s with EmptyString => None | String c s => if (c =? "*")%char then Some s else after_star s end.
Definition spine_key (s : string) : option string :=
  match after_star s with Some r => if ends_with ":" r then Some (drop_last 1 r) else None | None => None end.
(** 17-22: the printed lines, and whether row[0] was an error. *)
Fixpoint scan (rows : list (list string)) : list string * bool :=
  match rows with
  | [] => ([], false)
  | [] :: _ => ([], true)
  | (first_spine :: _) :: rows =>
      let '(printed, failed) := scan rows in (match spine_key first_spine with Some k => k :: printed | None => printed end, failed)
  end.
(** 10. *)
Definition key_name (f : string) : string := drop_last 4 f ++ ".key".
(** 8-22: the folder afterwards, the printed lines, and the error that ended the script. *)
Fixpoint extract_keys (rows : string -> list (list string)) (names : list string) (files : dir string) : dir string * list string * option pyexn :=
  match names with
  | [] => (files, [], None)
  | f :: names =>
      let files := put files (key_name f) (Some "") in
      let '(printed, failed) := scan (rows (match files f with Some text => text | None => "" end)) in
      if failed then (files, f :: printed, Some IndexError)
      else let '(files, more, e) := extract_keys rows names files in (files, ((f :: printed) ++ more)%list, e)
  end.
