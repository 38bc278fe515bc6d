(** Model of tools/shorten_names.sh. Definitions only. The names are the words of $(ls $1/features), an input; they have no white space, no slash and no
    wildcards. Errors of cp and rm other than a missing file and a copy onto itself, and the messages, are left out. *)
From Coq Require Import Ascii String.
From Verif Require Import Base Text Creator.
Open Scope string_scope.
Open Scope Z_scope.

(** printf %04d, line 9: the decimal digits of a number that is not negative, with zeros in front up to four digits. *)
Fixpoint last_digits (k : nat) (n : Z) (acc : string) : string :=
  match k with O => acc | S k => last_digits k (n / 10) (String (chr (48 + n mod 10)) acc) end.
Fixpoint how_many (fuel : nat) (n : Z) : nat :=
  match fuel with O => 1 | S fuel => if n <? 10 then 1 else S (how_many fuel (n / 10)) end.
Definition id_text (i : Z) : string := last_digits (Nat.max 4 (how_many (Z.to_nat i) i)) i "".
(** Lines 11-12: the text after the last dot and the text before it; both are the whole name if there is no dot. *)
Definition name_ext (f : string) : string := match snd (rsplit_dot f) with Some e => e | None => f end.
Definition name_noext (f : string) : string := fst (rsplit_dot f).

Section Folders.
  Context {T : Type}.
  (** A folder: the files by their names. *)
  Definition dir : Type := string -> option T.
  Definition put (d : dir) (n : string) (v : option T) : dir := fun m => if (m =? n)%string then v else d m.
  (** cp and rm within a folder. *)
  Definition cp (d : dir) (old new : string) : dir :=
    match d old with Some v => if (old =? new)%string then d else put d new (Some v) | None => d end.
  Definition rm (d : dir) (n : string) : dir := put d n None.
  (** Lines 9-22: one turn of the loop, on the folders features and annotations. *)
  Definition shorten_one (i : Z) (f : string) (st : dir * dir) : dir * dir :=
    let '(features, annotations) := st in
    let id := id_text i in
    let ext := name_ext f in
    let noext := name_noext f in
    let oldfile := (noext ++ "." ++ ext)%string in
    let newfile := (id ++ "." ++ ext)%string in
    let oldannotation := (noext ++ ".key")%string in
    let newannotation := (id ++ ".key")%string in
    (rm (cp features oldfile newfile) oldfile, rm (cp annotations oldannotation newannotation) oldannotation).
  (** Lines 5-23. *)
  Fixpoint shorten_from (i : Z) (names : list string) (st : dir * dir) : dir * dir :=
    match names with [] => st | f :: names => shorten_from (i + 1) names (shorten_one i f st) end.
  Definition shorten_names (names : list string) (st : dir * dir) : dir * dir := shorten_from 0 names st.
End Folders.
Arguments dir T : clear implicits.
