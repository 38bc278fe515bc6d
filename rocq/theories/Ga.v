(** Model of the evaluator of the optimizer and of the genetic algorithm (optimizer/evaluator.py, ga.py). Definitions only.
    What the detector prints for a file and two tables is a parameter, [None] standing for text that [float()] refuses.
    Log messages are left out, and so is the pool of threads of evaluator.py:40-41, whose [map] keeps the order of the files. *)
From Flocq Require Import IEEE754.BinarySingleNaN.
From Verif Require Import Base Fp Text Py KeyProfile Options OptTables Optimizer.

Section WithDetector.
Variable pow : b64 -> Z -> b64.
(** [bin/justkeydding -e -K kp -T kt file], read by [float()]. *)
Variable detector : string -> string -> string -> option b64.
Variable files : list string.

(** ** Evaluator *)
(** optimizer/evaluator.py:46-68, run_keydetection: 1 - score**2, the score being 0.0 if there is none. *)
Definition run_keydetection (kp kt file : string) : b64 :=
  let score := match detector kp kt file with Some s => s | None => fzero end in
  fsub (py_float 1) (pow score 2).
(** optimizer/evaluator.py:34-44, evaluate: the error, with the two names. *)
Definition graded : Type := b64 * (string * string).
Definition total_error (kp kt : string) : b64 := py_sum (map (run_keydetection kp kt) files).
Definition evaluate (w : world) (kp kt : string) : graded :=
  (total_error (as_argument (get_as_string (w_kp w) kp)) (as_argument (get_as_string (w_kt w) kt)), (kp, kt)).
(** [sorted(l, key=...)] for keys that are no NaN: stable. *)
Fixpoint insert_by {A} (x : b64 * A) (l : list (b64 * A)) : list (b64 * A) :=
  match l with [] => [x] | y :: l' => if flt (fst y) (fst x) then y :: insert_by x l' else x :: l end.
Definition sort_by {A} (l : list (b64 * A)) : list (b64 * A) := fold_right insert_by [] l.
(** optimizer/evaluator.py:18-24 and 26-32. *)
Definition grade_key_profiles (w : world) (kps : list string) (kt : string) : list graded := sort_by (map (fun x => evaluate w x kt) kps).
Definition grade_key_transitions (w : world) (kp : string) (kts : list string) : list graded := sort_by (map (fun x => evaluate w kp x) kts).

(** ** Genetic algorithm *)
(** The local variables of ga.py:45-174; [profiles_mode] is [evolution_mode == 'key_profiles']. *)
Record ga := mkGa {
  key_profiles : list string; key_transitions : list string; best_key_profile : string; best_key_transition : string;
  lowest_error : b64; scores : list b64; bad_generations : Z; profiles_mode : bool }.
(** ga.py:79-91: the best pair of the initial tables. The second result is [kt_grading]. *)
Fixpoint find_best (w : world) (kts : list string) (g : ga) (kt_grading : list (b64 * string)) : py (ga * list (b64 * string)) :=
  match kts with
  | [] => Returns (g, kt_grading)
  | kt :: kts' =>
      let grading := grade_key_profiles w (key_profiles g) kt in
      match grading with
      | [] => Raises IndexError
      | (lower_error, (kp, _)) :: _ =>
          let kt_grading' := kt_grading ++ [(lower_error, kt)] in
          if flt lower_error (lowest_error g) then
            let g' := mkGa (map (fun x => fst (snd x)) grading) (key_transitions g) kp kt lower_error (map fst grading) (bad_generations g) (profiles_mode g) in
            if feq lower_error (py_float 0) then Returns (g', kt_grading') else find_best w kts' g' kt_grading'
          else find_best w kts' g kt_grading'
      end
  end.
(** ga.py:51-106. The population size only matters for a warning. *)
Definition ga_start (w : world) (kps kts : list string) : py ga :=
  py_do r <- find_best w kts (mkGa kps kts "" "" fpinf [] 0 true) [];
  let g := fst r in
  Returns (mkGa (key_profiles g) (map snd (sort_by (snd r))) (best_key_profile g) (best_key_transition g) (lowest_error g) (scores g) 0 true).

(** optimizer/key_profiles.py:152-158, optimizer/key_transitions.py:112-119. *)
Definition with_profiles (d : dict) (w : world) : world := mkWorld d (w_kt w) (w_ratio w) (g_kp_id w) (g_kt_id w) (e_kp_id w) (e_kt_id w).
Definition with_transitions (d : dict) (r : list (string * b64)) (w : world) : world := mkWorld (w_kp w) d r (g_kp_id w) (g_kt_id w) (e_kp_id w) (e_kt_id w).
Definition flush_key_profiles (names : list string) : prog unit := fun w ds =>
  match pop_all (w_kp w) names with Returns d => Done tt (with_profiles d w) ds | Raises e => Fails e end.
Definition keep_key_profiles (names : list string) : prog unit := change (fun w => with_profiles (keep (w_kp w) names) w).
Definition flush_key_transitions (names : list string) : prog unit := fun w ds =>
  match pop_all (w_kt w) names with
  | Returns d =>
      match pop_all (w_ratio w) (filter (fun r => has_key r (w_ratio w)) names) with Returns r => Done tt (with_transitions d r w) ds | Raises e => Fails e end
  | Raises e => Fails e
  end.
Definition keep_key_transitions (names : list string) : prog unit := change (fun w => with_transitions (keep (w_kt w) names) (keep (w_ratio w) names) w).
(** [[k for k in new if k not in old]]. *)
Definition not_in (old new : list string) : list string := filter (fun k => negb (elem k old)) new.
(** [a <= b]. *)
Definition fle (x y : b64) : bool := Bleb x y.
(** ga.py:116-124, 148-156: the new generation replaces the old one. *)
Definition better (g : ga) (new_lowest_error : b64) (new_scores : list b64) : bool :=
  flt new_lowest_error (lowest_error g) || feq new_lowest_error (lowest_error g) && fle (py_sum new_scores) (py_sum (scores g)).
(** ga.py:132-139, 164-171: a bad generation, and after too many of them the other mode. *)
Definition worse (threshold : Z) (g : ga) : ga :=
  let bad := bad_generations g + 1 in
  let '(bad', mode') := if threshold <? bad then (0, negb (profiles_mode g)) else (bad, profiles_mode g) in
  mkGa (key_profiles g) (key_transitions g) (best_key_profile g) (best_key_transition g) (lowest_error g) (scores g) bad' mode'.
(** ga.py:109-140: a generation of profiles. *)
Definition profile_generation (kp_maximum threshold : Z) (g : ga) : prog ga :=
  run_do new_key_profiles <- evolve_key_profiles kp_maximum (key_profiles g);
  run_do new_grading <- look (fun w => grade_key_profiles w new_key_profiles (best_key_transition g));
  match new_grading with
  | [] => lift (Raises IndexError)
  | (new_lowest_error, (new_best_kp, _)) :: _ =>
      let new_scores := map fst new_grading in
      if better g new_lowest_error new_scores then
        let names := map (fun x => fst (snd x)) new_grading in
        run_do _ <- keep_key_profiles names;
        ret (mkGa names (key_transitions g) new_best_kp (best_key_transition g) new_lowest_error new_scores 0 (profiles_mode g))
      else
        run_do _ <- flush_key_profiles (not_in (key_profiles g) new_key_profiles);
        ret (worse threshold g)
  end.
(** ga.py:141-172: a generation of transitions. *)
Definition transition_generation (kt_maximum threshold : Z) (g : ga) : prog ga :=
  run_do new_key_transitions <- evolve_key_transitions pow kt_maximum (key_transitions g);
  run_do new_grading <- look (fun w => grade_key_transitions w (best_key_profile g) new_key_transitions);
  match new_grading with
  | [] => lift (Raises IndexError)
  | (new_lowest_error, (_, new_best_kt)) :: _ =>
      let new_scores := map fst new_grading in
      if better g new_lowest_error new_scores then
        let names := map (fun x => snd (snd x)) new_grading in
        run_do _ <- keep_key_transitions names;
        ret (mkGa (key_profiles g) names (best_key_profile g) new_best_kt new_lowest_error new_scores 0 (profiles_mode g))
      else
        run_do _ <- flush_key_transitions (not_in (key_transitions g) new_key_transitions);
        ret (worse threshold g)
  end.
(** ga.py:107-173, [while lowest_error > 0], for at most n generations. *)
Fixpoint ga_loop (kp_maximum kt_maximum threshold : Z) (n : nat) (g : ga) : prog ga :=
  match n with
  | O => ret g
  | S n' =>
      if fgt (lowest_error g) (py_float 0) then
        run_do g' <- (if profiles_mode g then profile_generation kp_maximum threshold g else transition_generation kt_maximum threshold g);
        ga_loop kp_maximum kt_maximum threshold n' g'
      else ret g
  end.
(** ga.py:45-174, stopped after at most n generations; with [just_evaluate] the program ends after the initial tables (ga.py:100-102). *)
Definition ga_runner (kps kts : list string) (kp_maximum kt_maximum threshold : Z) (just_evaluate : bool) (n : nat) : prog ga :=
  run_do w <- look (fun w => w);
  run_do g <- lift (ga_start w kps kts);
  if just_evaluate then ret g else ga_loop kp_maximum kt_maximum threshold n g.
End WithDetector.
