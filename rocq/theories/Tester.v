(** Model of model_tester.py. Definitions only. *)
From Verif Require Import Base Fp Text Py Dataset Ensemble Creator.
Open Scope Z_scope.

(** model_tester.py:14. *)
Definition tester_name : string := "albrecht_chroma".
(** model_tester.py:14-17: the rows and labels that the model is tested with. *)
Definition test_data (dir : list (string * content)) : py (list (list b64) * list Z) :=
  py_do data <- read_dataset tester_name dir;
  py_do X <- get_X data;
  py_do X <- feature_scaling X;
  py_do y <- get_y data;
  Returns (X, y).
(** model_tester.py:21: score of a classifier of scikit-learn, the share of right answers; it refuses arrays of different lengths and an empty one. *)
Definition accuracy (predict : list b64 -> Z) (X : list (list b64)) (y : list Z) : py b64 :=
  if negb (Nat.eqb (length X) (length y)) || Nat.eqb (length X) 0 then Raises ValueError
  else int_div (Z.of_nat (length (filter (fun p => predict (fst p) =? snd p) (combine X y)))) (Z.of_nat (length X)).
(** model_tester.py:9-22: the printed score; [None]: there is no file with a model. *)
Definition model_tester (model : option (list b64 -> Z)) (dir : list (string * content)) : py b64 :=
  match model with
  | None => Raises SystemExit
  | Some predict => py_do p <- test_data dir; accuracy predict (fst p) (snd p)
  end.
