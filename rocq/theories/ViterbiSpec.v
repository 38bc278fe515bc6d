(** What a path through a hidden Markov model is and how it scores, independently of the algorithm.
    Numbers are of any type [D] with an addition; [start s o] is the score of starting in state [s] seeing [o],
    [step p s o] that of moving from [p] to [s] seeing [o]. *)
From Coq Require Import List ZArith.
Import ListNotations.

Section Spec.
  Context {D : Type} (add : D -> D -> D) (start : Z -> Z -> D) (step : Z -> Z -> Z -> D).

  (** Score accumulated from left to right along the rest of a path. *)
  Fixpoint score_from (acc : D) (prev : Z) (path obs : list Z) : D :=
    match path, obs with
    | s :: path', o :: obs' => score_from (add acc (step prev s o)) s path' obs'
    | _, _ => acc
    end.
  (** Score of a whole path ([d] if it is empty). *)
  Definition path_score (d : D) (path obs : list Z) : D :=
    match path, obs with
    | s :: path', o :: obs' => score_from (start s o) s path' obs'
    | _, _ => d
    end.
End Spec.

(** A state sequence that can explain the observations: one state of the model per observation. *)
Definition is_path (states obs path : list Z) : Prop :=
  length path = length obs /\ Forall (fun s => In s states) path.
(** The state a path ends in. *)
Definition ends_in (path : list Z) (s : Z) : Prop := exists p, path = p ++ [s].

(** [path] is a best path: it is a path and no path has a larger score. *)
Definition best_path {D} (gt : D -> D -> bool) (score : list Z -> D) (states obs path : list Z) : Prop :=
  is_path states obs path /\ forall q, is_path states obs q -> gt (score q) (score path) = false.
