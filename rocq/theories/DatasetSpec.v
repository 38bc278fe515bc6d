(** Independent vocabulary for the properties of the Python data tools. *)
From Coq Require Import ZArith String Ascii List Bool Reals.
From Verif Require Import MusicSpec MainSpec Dataset.
Import ListNotations.
Open Scope Z_scope.

(** ** Judging a prediction [K] when the true key is [T]: both fifths count. *)
Inductive judged (T K : Z) : relation -> Prop :=
| judged_tonic : K = T -> judged T K Tonic
| judged_fifth : fifth_above K T \/ fifth_above T K -> judged T K Fifth
| judged_relative : same_notes K T -> judged T K Relative
| judged_parallel : same_tonic K T -> judged T K Parallel
| judged_other : K <> T -> ~ fifth_above K T -> ~ fifth_above T K -> ~ same_notes K T -> ~ same_tonic K T -> judged T K Other.
(** Credit of a judgement, as a number and as the C++ program prints it. *)
Definition credit_value (r : relation) : R :=
  match r with Tonic => 1 | Fifth => 1 / 2 | Relative => 3 / 10 | Parallel => 1 / 5 | Other => 0 end%R.
Definition credit_text (r : relation) : string :=
  match r with Tonic => "1" | Fifth => "0.5" | Relative => "0.3" | Parallel => "0.2" | Other => "0" end%string.
Definition mean (l : list R) : R := (fold_right Rplus 0 l / INR (length l))%R.
Definition relation_eq (a b : relation) : {a = b} + {a <> b}.
Proof. decide equality. Defined.
(** How often a judgement occurs. *)
Definition share (r : relation) (rs : list relation) : R := (INR (count_occ relation_eq rs r) / INR (length rs))%R.

(** ** Words of a text *)
(** White space of Python among the first 256 code points. *)
Definition blank_codes : list N := [9; 10; 11; 12; 13; 28; 29; 30; 31; 32; 133; 160]%N.
Definition blank (c : ascii) : Prop := In (N_of_ascii c) blank_codes.
Definition all_blank (s : string) : Prop := Forall blank (list_ascii_of_string s).
Definition no_blank (s : string) : Prop := Forall (fun c => ~ blank c) (list_ascii_of_string s).
(** A text is these words with blanks before, between and after them. *)
Inductive worded : string -> list string -> Prop :=
| worded_none s : all_blank s -> worded s []
| worded_last b w : all_blank b -> no_blank w -> w <> ""%string -> worded (b ++ w) [w]
| worded_more b w c s l : all_blank b -> no_blank w -> w <> ""%string -> blank c -> worded s l -> worded (b ++ w ++ String c s) (w :: l).

(** ** Key labels *)
(** C flat, F flat, E sharp and B sharp are not used in annotations. *)
Definition ordinary (s : string) : Prop := ~ In (lower_string s) ["cb"; "fb"; "e#"; "b#"]%string.
(** A label is a key name, or a note name in any letter case with major or minor. *)
Inductive labelled : list string -> Z -> Prop :=
| label_name n k : named_key n = Some k -> ordinary n -> labelled [n] k
| label_major n m p : named_pc n = Some p -> ordinary n -> lower_string m = "major"%string -> labelled [n; m] p
| label_minor n m p : named_pc n = Some p -> ordinary n -> lower_string m = "minor"%string -> labelled [n; m] (12 + p).
(** The same with the German name H for B. *)
Inductive labelled_inline : list string -> Z -> Prop :=
| inline_same l k : labelled l k -> labelled_inline l k
| inline_H : labelled_inline ["H"%string] 11
| inline_h : labelled_inline ["h"%string] 23
| inline_H_major n m : lower_string n = "h"%string -> lower_string m = "major"%string -> labelled_inline [n; m] 11
| inline_H_minor n m : lower_string n = "h"%string -> lower_string m = "minor"%string -> labelled_inline [n; m] 23.
