(** What a search path means. *)
From Coq Require Import Ascii String.
From Verif Require Import Base Fp Chromagram TextSpec.
Open Scope string_scope.

(** The text has $HOME in it. *)
Definition mentions_home (s : string) : Prop := exists a b, s = a ++ "$HOME" ++ b.
(** Directories as a path. *)
Fixpoint path_of (dirs : list string) : string := match dirs with [] => "" | [d] => d | d :: dirs => d ++ ":" ++ path_of dirs end.
(** [text] is in the first directory of the list that has a file chord.dict. *)
Definition first_dict (files : string -> option string) (dirs : list string) (text : string) : Prop := exists before d after, dirs = (before ++ d :: after)%list /\ files (d ++ "/chord.dict") = Some text /\ Forall (fun d => files (d ++ "/chord.dict") = None) before.
