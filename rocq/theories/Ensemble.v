(** Model of the ensemble of detectors (optimizer/ensembler.py), of the classifier script around it (justkeydding_ensemble.py) and of the
    scaling of its features (dataset.py). Definitions only. Log messages are left out, and so is the pool of threads of
    optimizer/ensembler.py:46-47, whose [map] keeps the order. The methods grade_key_profiles and grade_key_transitions
    (optimizer/ensembler.py:15-29), which no one calls, are not modelled. *)
From Coq Require Import Ascii.
From Flocq Require Import IEEE754.BinarySingleNaN.
From Verif Require Import Base Fp Text Py KeyProfile Options Output Main OptTables Dataset.

(** ** [float()] of a byte string *)
(** White space around, a sign, then a decimal numeral, inf, infinity or nan in any letter case, and nothing else; too large a number is
    infinite. Simplified: single underscores between digits, which Python admits, are refused. *)
Definition float_of (s : string) : py b64 :=
  let '(neg, t) := sign (strip_with is_space s) in
  match starts_ci "infinity" t, starts_ci "inf" t, starts_ci "nan" t with
  | Some EmptyString, _, _ | _, Some EmptyString, _ => Returns (B754_infinity neg)
  | _, _, Some EmptyString => Returns B754_nan
  | _, _, _ => match positional 10 "e"%char 1 10 neg t with Some (v, EmptyString) => Returns (nearest prec64 emax64 v) | _ => Raises ValueError end
  end.

(** ** The detector as a process *)
(** What the process writes to its standard output. An exception ends it before anything is written (src/justkeydding.cc writes only right
    before it returns); after undefined behaviour nothing is known ([None]). *)
Definition stdout (r : outcome ended) : option string :=
  match r with Ret e => Some (out e) | Throws _ => Some ""%string | Undef _ => None end.
(** optimizer/ensembler.py:57-65 and optimizer/evaluator.py:47-56: the command lines, with -p and -e. *)
Definition ensembler_options (kp kt file : string) : options := mkOptions [file] None (Some kp) "sapp" "sapp" (Some kt) "exponential10" false true false.
Definition evaluator_options (kp kt file : string) : options := mkOptions [file] None (Some kp) "sapp" "sapp" (Some kt) "exponential10" true false false.
(** optimizer/evaluator.py:57-62: the score read from the output, [None] if [float()] refuses it. The detector of Ga.v, for runs without
    undefined behaviour. *)
Definition evaluator_score (w : world) (kp kt file : string) : option (option b64) :=
  match stdout (main w (inl (evaluator_options kp kt file))) with
  | Some output => Some (match float_of output with Returns x => Some x | Raises _ => None end)
  | None => None
  end.

(** ** Ensemble *)
(** optimizer/ensembler.py:66-73: the words of the output as numbers; 24 times -1000000 if there are not 24 words. *)
Definition features_of (output : string) : py (list b64) :=
  let features := bytes_split output in
  let features := if negb (Nat.eqb (length features) 24) then repeat "-1000000"%string 24 else features in
  pymap float_of features.
(** [key_profiles.get_as_string(name)] where the name may be Python's None. *)
Definition text_of (d : dict) (name : option string) : string :=
  as_argument (match name with Some n => get_as_string d n | None => None end).
(** optimizer/ensembler.py:51-73; [None]: undefined behaviour of the detector. *)
Definition ens_run (w : world) (dk dt : dict) (file : string) (pair : option string * string) : option (py (list b64)) :=
  match stdout (main w (inl (ensembler_options (text_of dk (fst pair)) (text_of dt (Some (snd pair))) file))) with
  | Some output => Some (features_of output)
  | None => None
  end.
(** The attributes of an Ensembler; [e_ensemble] does not exist ([None]) until it is made. *)
Record ens := mkEns { e_profiles : list string; e_transitions : list string; e_ensemble : option (list (option string * string)) }.
(** optimizer/ensembler.py:9-13. *)
Definition ensembler (profiles transitions : list string) : ens := mkEns profiles transitions None.
(** optimizer/ensembler.py:35: all mixtures, each put into the dictionary. *)
Fixpoint mix_all (d : dict) (pairs : list (string * string)) : dict * list (option string) :=
  match pairs with
  | [] => (d, [])
  | (a, b) :: pairs' => let '(d1, name) := mix d a b in let '(d2, names) := mix_all d1 pairs' in (d2, name :: names)
  end.
(** optimizer/ensembler.py:31-39. *)
Definition get_ensemble (dk : dict) (e : ens) (mixed : bool) : dict * ens :=
  let '(dk', profiles) := if mixed then mix_all dk (list_prod (e_profiles e) (e_profiles e)) else (dk, map Some (e_profiles e)) in
  (dk', mkEns (e_profiles e) (e_transitions e) (Some (list_prod profiles (e_transitions e)))).
(** All results, unless one run has undefined behaviour or raises. *)
Fixpoint all_runs {A} (l : list (option (py A))) : option (py (list A)) :=
  match l with
  | [] => Some (Returns [])
  | r :: l' => match r, all_runs l' with Some x, Some xs => Some (py_do y <- x; py_do ys <- xs; Returns (y :: ys)) | _, _ => None end
  end.
(** optimizer/ensembler.py:41-49. *)
Definition ens_evaluate (w : world) (dk dt : dict) (e : ens) (file : string) (mixed : bool) : dict * ens * option (py (list (list b64))) :=
  let '(dk', e') := match e_ensemble e with None => get_ensemble dk e mixed | Some _ => (dk, e) end in
  (dk', e', all_runs (map (ens_run w dk' dt file) (match e_ensemble e' with Some l => l | None => [] end))).

(** ** Scaling (dataset.py:130-136) *)
(** [np.min], [np.max] of a row without NaN. *)
Definition np_min (x : b64) (l : list b64) : b64 := fold_left (fun m y => if flt y m then y else m) l x.
Definition np_max (x : b64) (l : list b64) : b64 := fold_left (fun m y => if fgt y m then y else m) l x.
(** [MinMaxScaler(feature_range=(-1, 1)).fit_transform] of one column (scikit-learn, as of 2019): infinite values are refused, a range of 0
    counts as 1, and each value is first multiplied and then shifted. Simplified: a NaN is refused as well. *)
Definition min_max_scale (row : list b64) : py (list b64) :=
  match row with
  | [] => Raises ValueError
  | x :: l =>
      if negb (forallb is_finite row) then Raises ValueError else
      let data_min := np_min x l in
      let range := fsub (np_max x l) data_min in
      let scale := Bdiv mode_NE (py_float 2) (if feq range fzero then py_float 1 else range) in
      let shift := fsub (py_float (-1)) (fmul data_min scale) in
      Returns (map (fun v => fadd (fmul v scale) shift) row)
  end.
(** [reshape(-1, 24)] of all rows laid end to end. *)
Fixpoint chunks24 {A} (n : nat) (l : list A) : list (list A) :=
  match n with O => [] | S n' => firstn 24 l :: chunks24 n' (skipn 24 l) end.
Definition reshape24 {A} (l : list A) : py (list (list A)) :=
  if Nat.eqb (length l mod 24) 0 then Returns (chunks24 (length l / 24) l) else Raises ValueError.
(** dataset.py:130-136 on one row (as in justkeydding_ensemble.py:46-47). *)
Definition feature_scaling1 (x : list b64) : py (list b64) :=
  py_do rows <- reshape24 x;
  py_do scaled <- pymap min_max_scale rows;
  Returns (concat scaled).

(** ** justkeydding_ensemble.py *)
(** justkeydding_ensemble.py:8-12. *)
Definition tonic_names : list string := ["C"; "C#"; "D"; "Eb"; "E"; "F"; "F#"; "G"; "Ab"; "A"; "Bb"; "B"]%string.
(** justkeydding_ensemble.py:14-17. *)
Definition key_name (key_number : Z) : string :=
  let mode := (if (key_number <? 12)%Z then "major" else "minor")%string in
  let tonic := nth (Z.to_nat (key_number mod 12)) tonic_names ""%string in
  (tonic ++ tab ++ mode)%string.
(** justkeydding_ensemble.py:28-42, dataset_creator.py:236-252. *)
Definition shipped_profiles : list string :=
  ["aarden_essen"; "temperley"; "krumhansl_kessler"; "bellman_budge"; "albrecht_shanahan1"; "albrecht_shanahan2"; "sapp";
   "simple_natural_minor"; "simple_harmonic_minor"; "simple_melodic_minor"]%string.
Definition shipped_transitions : list string := ["ktg_exponential5"; "ktg_exponential10"; "ktg_exponential15"]%string.
(** justkeydding_ensemble.py:43-50, up to the classifier, which is a parameter: the printed line without its end. *)
Definition ensemble_answer (predict : list b64 -> Z) (w : world) (file : string) : option (py string) :=
  match snd (ens_evaluate w initial_profiles initial_transitions (ensembler shipped_profiles shipped_transitions) file false) with
  | None => None
  | Some r => Some (py_do features <- r; py_do x <- feature_scaling1 (concat features); Returns (key_name (predict x)))
  end.
