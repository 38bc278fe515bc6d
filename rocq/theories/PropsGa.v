(** Properties of the evaluator and of the genetic algorithm of the optimizer. *)
From Coq Require Import Lia Reals Permutation Sorted.
From Flocq Require Import Core.Core IEEE754.BinarySingleNaN.
From Verif Require Import Base Fp Py OptTables Optimizer Ga.
From Verif Require Import OptSpec GaSpec GenFacts EvoFacts EvoKtFacts GaFacts EvalFacts GaRunFacts.
Open Scope Z_scope.

(** Every number used in a generated name is below its counter. *)
Notation numbered w :=
  ((numbers_below (profiles_in w) ["kpc"; "kpm"]%string (e_kp_id w) /\ numbers_below (profiles_in w) ["kp"]%string (g_kp_id w)) /\
   (numbers_below (transitions_in w) ["ktgm"; "ktsm"]%string (e_kt_id w) /\ numbers_below (transitions_in w) ["ktg"; "kts"]%string (g_kt_id w)) /\
   (numbers_below (ratios_in w) ["ktgm"; "ktsm"]%string (e_kt_id w) /\ numbers_below (ratios_in w) ["ktg"; "kts"]%string (g_kt_id w))).
(** The error of a pair of names, as graded. *)
Notation error pow detector files w := (fun kp kt : string => fst (evaluate pow detector files w kp kt)).
(** The populations, the best pair and its error. *)
Notation sound_state pow detector files g w :=
  (consistent (profiles_in w) (transitions_in w) (error pow detector files w) (key_profiles g) (key_transitions g) (best_key_profile g) (best_key_transition g) (lowest_error g)).

(** C59: one file. The error is between 0 and 1, 0 exactly for full marks, 1 if the detector prints no number. *)
Theorem C59_error_of_a_file : forall pow detector, fair_squares pow -> fair_scores detector -> forall kp kt file, let e := run_keydetection pow detector kp kt file in
  fraction e /\ (B2R e = 0%R <-> perfect detector kp kt file) /\ (detector kp kt file = None -> B2R e = 1%R).
Proof. exact error_range. Qed.
Print Assumptions C59_error_of_a_file.
(** C59: all files. The error is a number between 0 and the number of files, at least that of each file, and 0 exactly when every file gets full marks. *)
Theorem C59_error_of_all_files : forall pow detector, fair_squares pow -> fair_scores detector -> forall files kp kt, Z.of_nat (length files) <= 2 ^ 53 -> let s := total_error pow detector files kp kt in
  is_finite s = true /\ (0 <= B2R s <= IZR (Z.of_nat (length files)))%R /\ (forall f, In f files -> (B2R (run_keydetection pow detector kp kt f) <= B2R s)%R) /\ (B2R s = 0%R <-> forall f, In f files -> perfect detector kp kt f).
Proof. exact total_range. Qed.
Print Assumptions C59_error_of_all_files.
(** C59: whoever is at least as good on every file is graded at least as good, rounding included. *)
Theorem C59_fair_comparison : forall pow detector, fair_squares pow -> fair_scores detector -> forall files kp kt kp' kt', Z.of_nat (length files) <= 2 ^ 53 ->
  (forall f, In f files -> (B2R (run_keydetection pow detector kp kt f) <= B2R (run_keydetection pow detector kp' kt' f))%R) -> (B2R (total_error pow detector files kp kt) <= B2R (total_error pow detector files kp' kt'))%R.
Proof. exact total_mono. Qed.
Print Assumptions C59_fair_comparison.
(** C59: such squares exist. *)
Theorem C59_squares : fair_squares rounded_power.
Proof. exact rounded_squares. Qed.
Print Assumptions C59_squares.
Example C59_grading_case : fair_scores judge /\
  map B2SF (map fst (grade_key_profiles rounded_power judge ["a.mid"; "b.mid"]%string initial_world ["temperley"; "experiment4"; "sapp"]%string "ktg_linear"%string)) = map B2SF [rat64 3 2; rat64 15 8; rat64 2 1] /\
  map snd (grade_key_profiles rounded_power judge ["a.mid"; "b.mid"]%string initial_world ["temperley"; "experiment4"; "sapp"]%string "ktg_linear"%string) = [("sapp", "ktg_linear"); ("temperley", "ktg_linear"); ("experiment4", "ktg_linear")]%string.
Proof. split; [exact judge_fair|]. vm_compute. repeat split. Qed.

(** C60: gradings are sorted: the same entries, errors ascending, equal ones in their old order. *)
Theorem C60_sorted : forall (A : Type) (l : list (b64 * A)), Forall (fun p => is_finite (fst p) = true) l ->
  Permutation (sort_by l) l /\ StronglySorted (fun a b => (B2R (fst a) <= B2R (fst b))%R) (sort_by l) /\ forall v, filter (fun p => Req_bool (B2R (fst p)) v) (sort_by l) = filter (fun p => Req_bool (B2R (fst p)) v) l.
Proof. exact sorting. Qed.
Print Assumptions C60_sorted.
(** C60: the initial tables. The best of all pairs is found (the search stops early only at error 0), the profiles end up in the order of their errors with the best
    transition, and the transitions that were tried in the order of the least error each of them reached. *)
Theorem C60_initial_tables : forall pow detector files, fair_squares pow -> fair_scores detector -> Z.of_nat (length files) <= 2 ^ 53 -> forall w kps kts, kps <> [] -> kts <> [] ->
  exists g, ga_start pow detector files w kps kts = Returns g /\
    (exists left, Permutation (key_transitions g ++ left) kts /\ (left = [] \/ B2R (lowest_error g) = 0%R)) /\
    Permutation (key_profiles g) kps /\ hd_error (key_profiles g) = Some (best_key_profile g) /\ hd_error (key_transitions g) = Some (best_key_transition g) /\
    scores g = map (fun n => error pow detector files w n (best_key_transition g)) (key_profiles g) /\ ascending (scores g) /\ StronglySorted (at_least_as_good (error pow detector files w) kps) (key_transitions g) /\
    lowest_error g = error pow detector files w (best_key_profile g) (best_key_transition g) /\ (forall kp kt, In kp kps -> In kt kts -> (B2R (lowest_error g) <= B2R (error pow detector files w kp kt))%R) /\
    bad_generations g = 0 /\ profiles_mode g = true.
Proof. exact start_best. Qed.
Print Assumptions C60_initial_tables.
(** C60: without profiles there is nothing to start from. *)
Theorem C60_no_profiles_raise : forall pow detector files w kts, kts <> [] -> ga_start pow detector files w [] kts = Raises IndexError.
Proof. exact nothing_to_start. Qed.
Print Assumptions C60_no_profiles_raise.
(** C60: a generation of profiles. The other population is untouched and no KeyError is raised. The new profiles replace the old ones if the lowest error falls, or if it stays and the
    scores do not add up to more; then exactly they are stored, in order, the best one first. Otherwise everything stays, nothing stored before is lost, and a failure is counted. *)
Theorem C60_profile_generation : forall pow detector files, fair_squares pow -> fair_scores detector -> Z.of_nat (length files) <= 2 ^ 53 -> forall maximum threshold g w ds, numbered w -> sound_state pow detector files g w ->
  match profile_generation pow detector files maximum threshold g w ds with
  | Starved => True
  | Fails e => e <> KeyError
  | Done g' w' _ => numbered w' /\ sound_state pow detector files g' w' /\ key_transitions g' = key_transitions g /\ best_key_transition g' = best_key_transition g /\ (forall n, transitions_in w' n = transitions_in w n /\ ratios_in w' n = ratios_in w n) /\
      ((((B2R (lowest_error g') < B2R (lowest_error g))%R \/ B2R (lowest_error g') = B2R (lowest_error g) /\ Bleb (py_sum (scores g')) (py_sum (scores g)) = true) /\
        accepted (profiles_in w') (fun n => error pow detector files w' n (best_key_transition g)) (key_profiles g') (best_key_profile g') (scores g') /\ bad_generations g' = 0 /\ profiles_mode g' = profiles_mode g) \/
       (key_profiles g' = key_profiles g /\ best_key_profile g' = best_key_profile g /\ lowest_error g' = lowest_error g /\ scores g' = scores g /\ (forall n l, profiles_in w n = Some l -> profiles_in w' n = Some l) /\
        after_failure threshold (bad_generations g) (profiles_mode g) (bad_generations g') (profiles_mode g')))
  end.
Proof. exact profile_generation_step. Qed.
Print Assumptions C60_profile_generation.
(** C60: a generation of transitions, likewise. *)
Theorem C60_transition_generation : forall pow detector files, fair_squares pow -> fair_scores detector -> Z.of_nat (length files) <= 2 ^ 53 -> forall maximum threshold g w ds, numbered w -> sound_state pow detector files g w ->
  match transition_generation pow detector files maximum threshold g w ds with
  | Starved => True
  | Fails e => e <> KeyError
  | Done g' w' _ => numbered w' /\ sound_state pow detector files g' w' /\ key_profiles g' = key_profiles g /\ best_key_profile g' = best_key_profile g /\ (forall n, profiles_in w' n = profiles_in w n) /\
      ((((B2R (lowest_error g') < B2R (lowest_error g))%R \/ B2R (lowest_error g') = B2R (lowest_error g) /\ Bleb (py_sum (scores g')) (py_sum (scores g)) = true) /\
        accepted (transitions_in w') (fun n => error pow detector files w' (best_key_profile g) n) (key_transitions g') (best_key_transition g') (scores g') /\ bad_generations g' = 0 /\ profiles_mode g' = profiles_mode g) \/
       (key_transitions g' = key_transitions g /\ best_key_transition g' = best_key_transition g /\ lowest_error g' = lowest_error g /\ scores g' = scores g /\ (forall n l, transitions_in w n = Some l -> transitions_in w' n = Some l) /\
        after_failure threshold (bad_generations g) (profiles_mode g) (bad_generations g') (profiles_mode g')))
  end.
Proof. exact transition_generation_step. Qed.
Print Assumptions C60_transition_generation.
(** C60: any number of generations from any sound state: the lowest error never rises, the state stays sound, no KeyError. *)
Theorem C60_lowest_error_never_rises : forall pow detector files, fair_squares pow -> fair_scores detector -> Z.of_nat (length files) <= 2 ^ 53 -> forall kp_maximum kt_maximum threshold n g w ds, numbered w -> sound_state pow detector files g w ->
  match ga_loop pow detector files kp_maximum kt_maximum threshold n g w ds with
  | Done g' w' _ => (B2R (lowest_error g') <= B2R (lowest_error g))%R /\ numbered w' /\ sound_state pow detector files g' w'
  | Fails e => e <> KeyError
  | Starved => True
  end.
Proof. exact lowest_falls. Qed.
Print Assumptions C60_lowest_error_never_rises.
(** C60: whole runs. After any number of generations the best pair is stored and its error is at most that of every pair of initial tables; it is 0 exactly when every file gets full marks. *)
Theorem C60_whole_run : forall pow detector files, fair_squares pow -> fair_scores detector -> Z.of_nat (length files) <= 2 ^ 53 -> forall kps kts kp_maximum kt_maximum threshold just_evaluate n w ds, kps <> [] -> kts <> [] -> NoDup kps -> NoDup kts ->
  (forall x, In x kps -> exists l, profiles_in w x = Some l) -> (forall x, In x kts -> exists l, transitions_in w x = Some l) -> numbered w ->
  match ga_runner pow detector files kps kts kp_maximum kt_maximum threshold just_evaluate n w ds with
  | Starved => True
  | Fails e => e <> KeyError
  | Done g w' _ => numbered w' /\ sound_state pow detector files g w' /\ (forall kp kt, In kp kps -> In kt kts -> (B2R (lowest_error g) <= B2R (error pow detector files w kp kt))%R) /\
      (B2R (lowest_error g) = 0%R <-> forall f, In f files -> perfect detector (as_argument (get_as_string (w_kp w') (best_key_profile g))) (as_argument (get_as_string (w_kt w') (best_key_transition g))) f)
  end.
Proof. exact whole_run. Qed.
Print Assumptions C60_whole_run.
(** C60: with the built-in tables, other than four profiles and fewer than five transitions, the only error a run can raise is the division by zero of the random generator;
    the population of profiles keeps its size and every profile in it consists of two halves of non-negative numbers. *)
Theorem C60_only_division_by_zero : forall pow detector files, fair_squares pow -> fair_scores detector -> Z.of_nat (length files) <= 2 ^ 53 -> forall kps kts kp_maximum kt_maximum threshold just_evaluate n ds, accurate_power pow -> 8 <= kp_maximum <= 2 ^ 52 -> 256 <= kt_maximum <= 2 ^ 52 ->
  kps <> [] -> kts <> [] -> NoDup kps -> NoDup kts -> (forall x, In x kps -> exists l, profiles_in initial_world x = Some l) -> (forall x, In x kts -> exists l, transitions_in initial_world x = Some l) ->
  length kps <> 4%nat -> (length kts < 5)%nat -> Z.of_nat (length kps) <= 2 ^ 47 -> Z.of_nat (length kps) * Z.of_nat n <= 2 ^ 49 ->
  match ga_runner pow detector files kps kts kp_maximum kt_maximum threshold just_evaluate n initial_world ds with
  | Starved => True
  | Fails e => e = ZeroDivisionError
  | Done g w _ => length (key_profiles g) = length kps /\ (length (key_transitions g) <= 4)%nat /\ forall x, In x (key_profiles g) -> exists l, profiles_in w x = Some l /\ profile_like 1 l
  end.
Proof. exact only_division. Qed.
Print Assumptions C60_only_division_by_zero.
(** C60: that covers the populations of the shipped configuration, for any number of generations up to 2^45. *)
Theorem C60_shipped_configuration : forall pow detector files threshold n ds, accurate_power pow -> fair_squares pow -> fair_scores detector -> Z.of_nat (length files) <= 2 ^ 53 -> Z.of_nat n <= 2 ^ 45 ->
  match ga_runner pow detector files ["sapp"; "temperley"; "krumhansl_kessler"; "aarden_essen"; "albrecht_shanahan1"; "albrecht_shanahan2"; "bellman_budge"; "simple_natural_minor"; "simple_harmonic_minor"; "simple_melodic_minor"]%string
      ["ktg_exponential5"; "ktg_exponential10"; "ktg_exponential15"]%string 100 256 threshold false n initial_world ds with
  | Starved => True
  | Fails e => e = ZeroDivisionError
  | Done g w _ => length (key_profiles g) = 10%nat /\ (length (key_transitions g) <= 4)%nat /\ forall x, In x (key_profiles g) -> exists l, profiles_in w x = Some l /\ profile_like 1 l
  end.
Proof. exact configured_run. Qed.
Print Assumptions C60_shipped_configuration.
(** C60: the pair called the best need not be the best of the current populations: when a generation of transitions is accepted, the profiles are not graded again. *)
Theorem C60_best_of_the_population_refuted : ~ (forall pow detector files kps kts kp_maximum kt_maximum threshold just_evaluate n w ds g w' ds', fair_squares pow -> fair_scores detector -> Z.of_nat (length files) <= 2 ^ 53 -> kps <> [] -> kts <> [] -> NoDup kps -> NoDup kts ->
  (forall x, In x kps -> exists l, profiles_in w x = Some l) -> (forall x, In x kts -> exists l, transitions_in w x = Some l) -> numbered w ->
  ga_runner pow detector files kps kts kp_maximum kt_maximum threshold just_evaluate n w ds = Done g w' ds' -> forall kp, In kp (key_profiles g) -> (B2R (lowest_error g) <= B2R (fst (evaluate pow detector files w' kp (best_key_transition g))))%R).
Proof. exact order_not_kept. Qed.
Print Assumptions C60_best_of_the_population_refuted.
(** Two profiles and one transition: a generation of profiles is rejected, then one of transitions accepted. *)
Example C60_run_case : fair_scores judge /\ match ga_runner rounded_power judge ["a.mid"%string] ["temperley"; "sapp"]%string ["ktg_linear"]%string 100 256 0 false 2 initial_world (repeat 1 50) with
  | Done g w ds => ds = [] /\ key_profiles g = ["sapp"; "temperley"]%string /\ key_transitions g = ["ktg0"]%string /\ best_key_profile g = "sapp"%string /\ best_key_transition g = "ktg0"%string /\ profiles_mode g = false /\ bad_generations g = 0 /\
      flt (fst (evaluate rounded_power judge ["a.mid"%string] w "temperley" (best_key_transition g))) (fst (evaluate rounded_power judge ["a.mid"%string] w "sapp" (best_key_transition g))) = true
  | _ => False end.
Proof. split; [exact judge_fair|]. vm_compute. repeat split. Qed.
