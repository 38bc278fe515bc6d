(** Independent vocabulary for the properties of the forward and Viterbi algorithm. *)
From Coq Require Import String List Reals.
Import ListNotations.

(** All sequences of a length over a list. *)
Fixpoint sequences {A} (n : nat) (l : list A) : list (list A) :=
  match n with O => [[]] | S n' => flat_map (fun x => map (cons x) (sequences n' l)) l end.
Definition total (l : list R) : R := fold_right Rplus 0%R l.

(** A hidden Markov model that emits before it moves: the weight of a sequence of states, computed from left to right. *)
Section Weight.
  Context {S O D : Type} (mul : D -> D -> D) (start : S -> D) (trans : S -> S -> D) (emit : S -> O -> D).
  Fixpoint weight_from (w : D) (s : S) (obs : list O) (path : list S) : D :=
    match obs, path with
    | o :: obs', s' :: path' => weight_from (mul w (mul (emit s o) (trans s s'))) s' obs' path'
    | _, _ => w
    end.
  Definition weight (zero : D) (obs : list O) (path : list S) : D :=
    match path with [] => zero | s :: path' => weight_from (start s) s obs path' end.
End Weight.
