(** Properties of the evolver of the optimizer: transitions. *)
From Coq Require Import Lia Reals.
From Flocq Require Import Core.Core IEEE754.BinarySingleNaN.
From Verif Require Import Base Fp Py OptTables Optimizer.
From Verif Require Import OptSpec GenFacts EvoFacts EvoKtFacts.
Open Scope Z_scope.

(** C58: the next generation of transition tables. With n different tables whose names start with ktg and have a stored ratio in [lo, hi], or start with kts: as many new ones, all different,
    none of them in use before, each a distribution up to rounding, with ratios in [4/5 lo, 6/5 hi]; successors of the first fifth and of another fifth taken from the rest, then random ones.
    Nothing stored is lost or changed. The only error that can be raised is the division by zero of the random generator. *)
Theorem C58_next_generation : forall pow, accurate_power pow -> forall maximum t lo hi kts w ds, 256 <= maximum <= 2 ^ 52 -> (/ 2 ^ 47 <= t)%R ->
  (numbers_below (transitions_in w) ["ktgm"; "ktsm"]%string (e_kt_id w) /\ numbers_below (transitions_in w) ["ktg"; "kts"]%string (g_kt_id w)) /\
  (numbers_below (ratios_in w) ["ktgm"; "ktsm"]%string (e_kt_id w) /\ numbers_below (ratios_in w) ["ktg"; "kts"]%string (g_kt_id w)) -> NoDup kts ->
  Forall (fun n => exists l, transitions_in w n = Some l /\ transition_like (t + IZR (e_kt_id w) / 2 ^ 51) l /\
    (String.prefix "ktg" n = true /\ (exists x, ratios_in w n = Some x /\ is_finite x = true /\ (lo <= B2R x <= hi)%R) \/ String.prefix "ktg" n = false /\ String.prefix "kts" n = true)) kts ->
  Z.of_nat (length kts) <= 2 ^ 47 -> (/ 2 ^ 19 <= lo)%R -> (lo <= 2)%R -> (50 <= hi)%R -> (hi <= 2 ^ 19)%R -> (t + IZR (e_kt_id w) / 2 ^ 51 + INR (length kts) / 2 ^ 51 <= 1)%R ->
  match evolve_key_transitions pow maximum kts w ds with
  | Starved => True
  | Fails x => x = ZeroDivisionError
  | Done new w' _ =>
      next_transitions maximum (transitions_in w) (ratios_in w) (transitions_in w') (ratios_in w') kts new /\ NoDup new /\ Forall (fun n => ~ exists l, transitions_in w n = Some l) new /\
      Forall (fun n => exists l, transitions_in w' n = Some l /\ transition_like (t + IZR (e_kt_id w') / 2 ^ 51) l /\
        (String.prefix "ktg" n = true /\ (exists x, ratios_in w' n = Some x /\ is_finite x = true /\ (4 / 5 * lo <= B2R x <= 6 / 5 * hi)%R) \/ String.prefix "ktg" n = false /\ String.prefix "kts" n = true)) new /\
      ((numbers_below (transitions_in w') ["ktgm"; "ktsm"]%string (e_kt_id w') /\ numbers_below (transitions_in w') ["ktg"; "kts"]%string (g_kt_id w')) /\
       (numbers_below (ratios_in w') ["ktgm"; "ktsm"]%string (e_kt_id w') /\ numbers_below (ratios_in w') ["ktg"; "kts"]%string (g_kt_id w'))) /\
      kt_grows w w' /\ e_kt_id w' <= e_kt_id w + Z.of_nat (length kts)
  end.
Proof. exact evolved_kt. Qed.
Print Assumptions C58_next_generation.
(** Five generated tables (three geometric, two stochastic), then a generation. *)
Example C58_generation_case : match repeat_run 5 (generate_key_transition rounded_power 256) initial_world ([0; 0; 1; 5; 2; 7] ++ [9] ++ repeat 3 24 ++ [9] ++ repeat 5 24) with
  | Done kts w ds => kts = ["ktg0"; "ktg1"; "ktg2"; "kts3"; "kts4"]%string /\ ds = [] /\
      match evolve_key_transitions rounded_power 256 kts w ([2] ++ [0; 2 ^ 53 - 1] ++ [0; 4; 9] ++ [9] ++ repeat 6 24 ++ [9] ++ repeat 6 24 ++ [4; 11]) with
      | Done new w' ds' => new = ["ktgm0"; "ktsm1"; "kts5"; "kts6"; "ktg7"]%string /\ ds' = [] /\ e_kt_id w' = 2 /\ g_kt_id w' = 8
      | _ => False end
  | _ => False end.
Proof. vm_compute. repeat split. Qed.

(** C58: one step of mutation: it always happens. *)
Theorem C58_mutation : forall pow, accurate_power pow -> forall t lo hi w ds n,
  (numbers_below (transitions_in w) ["ktgm"; "ktsm"]%string (e_kt_id w) /\ numbers_below (transitions_in w) ["ktg"; "kts"]%string (g_kt_id w)) /\
  (numbers_below (ratios_in w) ["ktgm"; "ktsm"]%string (e_kt_id w) /\ numbers_below (ratios_in w) ["ktg"; "kts"]%string (g_kt_id w)) ->
  (exists l, transitions_in w n = Some l /\ transition_like (t + IZR (e_kt_id w) / 2 ^ 51) l /\
    (String.prefix "ktg" n = true /\ (exists x, ratios_in w n = Some x /\ is_finite x = true /\ (lo <= B2R x <= hi)%R) \/ String.prefix "ktg" n = false /\ String.prefix "kts" n = true)) ->
  (t + IZR (e_kt_id w) / 2 ^ 51 <= 1)%R -> (/ 2 ^ 47 <= t)%R -> (/ 2 ^ 19 <= lo)%R -> (hi <= 2 ^ 19)%R ->
  mutate_transition pow n w ds = Starved \/
  exists r w' ds', mutate_transition pow n w ds = Done r w' ds' /\ kt_grows w w' /\
    ((numbers_below (transitions_in w') ["ktgm"; "ktsm"]%string (e_kt_id w') /\ numbers_below (transitions_in w') ["ktg"; "kts"]%string (g_kt_id w')) /\
     (numbers_below (ratios_in w') ["ktgm"; "ktsm"]%string (e_kt_id w') /\ numbers_below (ratios_in w') ["ktg"; "kts"]%string (g_kt_id w'))) /\
    (exists l, transitions_in w' r = Some l /\ transition_like (t + IZR (e_kt_id w') / 2 ^ 51) l /\
      (String.prefix "ktg" r = true /\ (exists x, ratios_in w' r = Some x /\ is_finite x = true /\ (4 / 5 * lo <= B2R x <= 6 / 5 * hi)%R) \/ String.prefix "ktg" r = false /\ String.prefix "kts" r = true)) /\
    successor (transitions_in w) (ratios_in w) (transitions_in w') (ratios_in w') n r /\ ((~ exists l, transitions_in w r = Some l) /\ exists l, transitions_in w' r = Some l) /\ e_kt_id w' = e_kt_id w + 1.
Proof. exact mutated_transition_one. Qed.
Print Assumptions C58_mutation.

(** C58: fewer than five tables are all replaced by random ones, whatever they are. *)
Theorem C58_fewer_than_five : forall pow maximum kts w ds, accurate_power pow -> 256 <= maximum <= 2 ^ 52 ->
  (numbers_below (transitions_in w) ["ktgm"; "ktsm"]%string (e_kt_id w) /\ numbers_below (transitions_in w) ["ktg"; "kts"]%string (g_kt_id w)) /\
  (numbers_below (ratios_in w) ["ktgm"; "ktsm"]%string (e_kt_id w) /\ numbers_below (ratios_in w) ["ktg"; "kts"]%string (g_kt_id w)) -> (length kts < 5)%nat ->
  match evolve_key_transitions pow maximum kts w ds with
  | Starved => True
  | Fails x => x = ZeroDivisionError
  | Done new w' _ => length new = length kts /\ Forall (newly_drawn_transition maximum (transitions_in w') (ratios_in w')) new /\ Forall (fun n => ~ exists l, transitions_in w n = Some l) new /\
      ((numbers_below (transitions_in w') ["ktgm"; "ktsm"]%string (e_kt_id w') /\ numbers_below (transitions_in w') ["ktg"; "kts"]%string (g_kt_id w')) /\
       (numbers_below (ratios_in w') ["ktgm"; "ktsm"]%string (e_kt_id w') /\ numbers_below (ratios_in w') ["ktg"; "kts"]%string (g_kt_id w'))) /\ kt_grows w w'
  end.
Proof. exact few_kept. Qed.
Print Assumptions C58_fewer_than_five.
Theorem C58_no_number_taken :
  (numbers_below (transitions_in initial_world) ["ktgm"; "ktsm"]%string 0 /\ numbers_below (transitions_in initial_world) ["ktg"; "kts"]%string 0) /\
  (numbers_below (ratios_in initial_world) ["ktgm"; "ktsm"]%string 0 /\ numbers_below (ratios_in initial_world) ["ktg"; "kts"]%string 0).
Proof. exact initial_kt_orderly. Qed.
Print Assumptions C58_no_number_taken.
Example C58_three_case : match evolve_key_transitions rounded_power 256 ["ktg_exponential5"; "ktg_exponential10"; "ktg_exponential15"]%string initial_world ([9] ++ repeat 6 24 ++ [4; 11; 2; 12]) with
  Done new w' ds' => new = ["kts0"; "ktg1"; "ktg2"]%string /\ ds' = [] /\ e_kt_id w' = 0 | _ => False end.
Proof. vm_compute. repeat split. Qed.

(** C58: a table called ktg... without a stored ratio cannot be mutated: TypeError. All built-in tables are such, so at least five of them cannot evolve. *)
Theorem C58_without_ratio_raises : forall pow maximum n kts w ds, String.prefix "ktg" n = true -> ratios_in w n = None -> (4 <= length kts)%nat -> Z.of_nat (length kts) < 2 ^ 47 ->
  evolve_key_transitions pow maximum (n :: kts) w ds = Starved \/ evolve_key_transitions pow maximum (n :: kts) w ds = Fails TypeError.
Proof. exact no_ratio_raises. Qed.
Print Assumptions C58_without_ratio_raises.
Theorem C58_built_in_without_ratio : forall n l, transitions_in initial_world n = Some l -> String.prefix "ktg_" n = true /\ ratios_in initial_world n = None.
Proof. exact built_in_names. Qed.
Print Assumptions C58_built_in_without_ratio.
(** C58, refuted: the built-in tables can evolve. *)
Theorem C58_built_in_evolve_refuted : ~ (forall pow maximum kts w ds, accurate_power pow -> 256 <= maximum <= 2 ^ 52 -> w = initial_world -> NoDup kts -> Forall (fun n => exists l, transitions_in w n = Some l) kts ->
  match evolve_key_transitions pow maximum kts w ds with Fails x => x = ZeroDivisionError | _ => True end).
Proof. exact built_in_not_evolve. Qed.
Print Assumptions C58_built_in_evolve_refuted.
Example C58_without_ratio_case : (length (map fst initial_transitions) = 10)%nat /\ evolve_key_transitions rounded_power 256 (map fst initial_transitions) initial_world [0; 1; 0; 0; 0; 0] = Fails TypeError.
Proof. vm_compute. repeat split. Qed.
