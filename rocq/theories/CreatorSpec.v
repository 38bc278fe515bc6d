(** Independent vocabulary for datasets: names of files, lines of a text, annotations, and what is stored. No reference to the model. *)
From Coq Require Import ZArith String Ascii List.
From Verif Require Import MusicSpec TextSpec DatasetSpec.
Import ListNotations.
Open Scope Z_scope.

(** ** Files *)
Definition music_extensions : list string := ["mid"; "csv"; "wav"]%string.
(** The part of the name before the last dot. *)
Definition stem_of (f stem : string) : Prop := exists ext, f = (stem ++ "." ++ ext)%string /\ lacks "." ext.
Definition music_file (f stem : string) : Prop := exists ext, f = (stem ++ "." ++ ext)%string /\ lacks "." ext /\ In ext music_extensions.

(** ** Lines *)
Definition newline : ascii := "010"%char.
Definition return_ : ascii := "013"%char.
Definition within_line (l : string) : Prop := lacks newline l /\ lacks return_ l.
(** The end of a line before the rest of the text. *)
Definition line_end (e rest : string) : Prop :=
  e = String newline "" \/ e = String return_ (String newline "") \/ e = String return_ "" /\ ~ (exists r, rest = String newline r).
(** The lines of a text without their ends; the last one need not have an end. *)
Inductive lines : string -> list string -> Prop :=
| lines_none : lines "" []
| lines_last l : within_line l -> l <> ""%string -> lines l [l]
| lines_more l e rest ls : within_line l -> line_end e rest -> lines rest ls -> lines (l ++ e ++ rest) (l :: ls).
(** A text without the blanks around it. *)
Definition unblank_ends (t : string) : Prop := forall c, blank c -> (forall r, t <> String c r) /\ (forall r, t <> (r ++ String c "")%string).
Definition trimmed (l t : string) : Prop := exists a b, l = (a ++ t ++ b)%string /\ all_blank a /\ all_blank b /\ unblank_ends t.

(** ** Annotations *)
(** The label a text stands for: its first line, -1 if that is no label. *)
Definition annotated (text : string) (k : Z) : Prop :=
  exists l ls ws, lines text (l :: ls) /\ worded l ws /\ (labelled ws k \/ k = -1 /\ forall k', ~ labelled ws k').

(** ** Names in the list of tables *)
(** No comma, no line end, and no blanks around. *)
Definition listable (n : string) : Prop := lacks "," n /\ within_line n /\ unblank_ends n.
(** A word does not occur in any letter case. *)
Definition never_says (p s : string) : Prop := forall a b c, s = (a ++ b ++ c)%string -> lower_string b <> p.

(** ** Places *)
(** The path of a file in the features of a dataset folder. *)
Definition located (folder f p : string) : Prop :=
  (exists d, folder = (d ++ "/")%string) /\ p = (folder ++ "features/" ++ f)%string \/
  (forall d, folder <> (d ++ "/")%string) /\ folder <> ""%string /\ p = (folder ++ "/features/" ++ f)%string.
(** The last name of a path, which may have one slash at its end. *)
Definition last_name (path n : string) : Prop := lacks "/" n /\ exists dir, (dir = ""%string \/ exists d, dir = (d ++ "/")%string) /\ (path = (dir ++ n)%string \/ path = (dir ++ n ++ "/")%string).
