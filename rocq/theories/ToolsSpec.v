(** Independent vocabulary for the scripts that prepare datasets. *)
From Coq Require Import ZArith String Ascii List.
From Verif Require Import MusicSpec TextSpec ChromaSpec CreatorSpec.
Import ListNotations.
Open Scope Z_scope.

(** A field of a table: no comma, no end of a line, no quotation mark, no null character. *)
Definition plain_field (s : string) : Prop := lacks "," s /\ within_line s /\ lacks "034" s /\ lacks "000" s.
(** The text of a table, a line for each row. *)
Fixpoint table (rows : list (list string)) : string := match rows with [] => ""%string | r :: rows => (join "," r ++ String newline (table rows))%string end.
(** A frame of the Billboard chroma files: name, time, bass chroma and treble chroma. *)
Record frame := mkFrame { fr_name : string; fr_time : string; fr_bass : list string; fr_treble : list string }.
Definition frame_row (f : frame) : list string := fr_name f :: fr_time f :: fr_bass f ++ fr_treble f.
(** The numbers that a row stands for. *)
Definition row_values (r : list string) (v : list dbl) : Prop := Forall2 token_value r v.
(** The text of a name before its first dot. *)
Definition before_dot (f p : string) : Prop := lacks "." p /\ (f = p \/ exists r, f = (p ++ "." ++ r)%string).
(** The bytes of an event: a note that begins has its number and its velocity. *)
Definition proper_event (e : list Z) : Prop := exists s r, e = s :: r /\ (Z.land s 240 = 144 -> exists n v, r = [n; v] /\ 0 <= n < 128).
