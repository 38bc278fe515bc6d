(** Independent vocabulary for the properties of the command line and the output. *)
From Coq Require Import ZArith String Ascii List Bool.
From Verif Require Import MusicSpec TextSpec Options.
Import ListNotations.
Open Scope Z_scope.

(** What a file extension (without the dot, in any letter case) stands for. *)
Definition kind_of_extension (ext : string) (kind : option input_type) : Prop :=
  match kind with
  | Some INPUT_WAV => lower_string ext = "wav"%string
  | Some INPUT_CSV => lower_string ext = "csv"%string
  | Some INPUT_MIDI => lower_string ext = "mid"%string \/ lower_string ext = "midi"%string
  | None => ~ In (lower_string ext) ["wav"; "csv"; "mid"; "midi"]%string
  end.

(** Musical relations between two keys. *)
Definition fifth_above (K T : Z) : Prop := tonic K = (tonic T + 7) mod 12 /\ majorb K = majorb T.
Definition same_notes (K T : Z) : Prop := (forall p, In p (scale K) <-> In p (scale T)) /\ majorb K <> majorb T.
Definition same_tonic (K T : Z) : Prop := tonic K = tonic T /\ majorb K <> majorb T.
(** The credit a detected key [K] gets when the true key is [T], as printed. *)
Inductive credit (K T : Z) : string -> Prop :=
| credit_same : K = T -> credit K T "1"
| credit_fifth : fifth_above K T -> credit K T "0.5"
| credit_relative : same_notes K T -> credit K T "0.3"
| credit_parallel : same_tonic K T -> credit K T "0.2"
| credit_other : K <> T -> ~ fifth_above K T -> ~ same_notes K T -> ~ same_tonic K T -> credit K T "0".
