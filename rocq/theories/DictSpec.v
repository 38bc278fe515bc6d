(** How a chord dictionary is written, independently of how it is read. *)
From Coq Require Import Ascii String.
From Flocq Require Import Core.Core IEEE754.BinarySingleNaN.
From Verif Require Import Base Fp PitchClass Chromagram Text Dict.

Fixpoint every (P : ascii -> Prop) (s : string) : Prop := match s with EmptyString => True | String c s' => P c /\ every P s' end.
(** What may stand between numbers. *)
Definition separator (c : ascii) : Prop := c = ","%char \/ c = ";"%char \/ c = " "%char.
(** What names and numbers are made of. *)
Definition letter (c : ascii) : Prop := ~ separator c /\ c <> "="%char /\ c <> LF10.
Definition not_lf (c : ascii) : Prop := c <> LF10.
(** A number of a line: what stands before it, its text and its value. *)
Record number := mkNumber { x_before : string; x_text : string; x_value : b32 }.
(** A line of the file: a remark, or a type of chords. *)
Inductive entry := Remark (text : string) | Type_ (name pad : string) (nums : list number) (tail : string).
Definition put_numbers (nums : list number) : string := fold_right (fun x r => x_before x ++ x_text x ++ r)%string ""%string nums.
Definition put_line (e : entry) : string := match e with Remark t => t | Type_ name pad nums tail => name ++ pad ++ "=" ++ put_numbers nums ++ tail end.
Definition put_file (l : list entry) : string := fold_right (fun e r => put_line e ++ String LF10 r)%string ""%string l.
Definition good_number (cast : string -> outcome b32) (x : number) : Prop := every separator (x_before x) /\ every letter (x_text x) /\ x_text x <> ""%string /\ cast (x_text x) = Ret (x_value x).
Definition good (cast : string -> outcome b32) (e : entry) : Prop :=
  match e with
  | Remark t => every not_lf t /\ (t = ""%string \/ exists t', t = String "#" t')
  | Type_ name pad nums tail => every letter name /\ (forall n, name <> String "#" n) /\ every separator pad /\ every separator tail /\ Forall (good_number cast) nums /\ Forall (fun x => x_before x <> ""%string) (tl nums)
  end.
Definition type_of (e : entry) : list (string * list b32) := match e with Remark _ => [] | Type_ name _ nums _ => [(name, map x_value nums)] end.
Definition types_of (l : list entry) : list (string * list b32) := flat_map type_of l.
