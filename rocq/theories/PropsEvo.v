(** Properties of the evolver of the optimizer. *)
From Coq Require Import Lia Reals.
From Flocq Require Import Core.Core IEEE754.BinarySingleNaN.
From Verif Require Import Base Fp Py OptTables Optimizer.
From Verif Require Import OptSpec EvoFacts.
Open Scope Z_scope.

(** C57: the next generation. With n different stored profiles (n not 4) whose halves add up to 1 up to t and the mutations so far: as many new ones, all
    different, stored, with the same guarantee; nothing stored is lost or changed; the first fifth and another fifth taken from the rest, three tenths of children
    joining the major half of one and the minor half of another of those, each as it was or with a tenth of one value moved inside a half, then random ones.
    The only error that can be raised is the division by zero of the random generator. *)
Theorem C57_next_generation : forall maximum t kps w ds, 8 <= maximum <= 2 ^ 52 -> (/ 2 ^ 52 <= t)%R ->
  numbers_below (profiles_in w) ["kpc"; "kpm"]%string (e_kp_id w) /\ numbers_below (profiles_in w) ["kp"]%string (g_kp_id w) -> NoDup kps ->
  Forall (fun n => exists l, profiles_in w n = Some l /\ profile_like (t + IZR (e_kp_id w) / 2 ^ 51) l) kps -> length kps <> 4%nat -> Z.of_nat (length kps) <= 2 ^ 47 ->
  (t + IZR (e_kp_id w) / 2 ^ 51 + 2 * INR (length kps) / 2 ^ 51 <= 1)%R ->
  match evolve_key_profiles maximum kps w ds with
  | Starved => True
  | Fails x => x = ZeroDivisionError
  | Done new w' _ =>
      next_generation maximum (profiles_in w) (profiles_in w') kps new /\ NoDup new /\
      Forall (fun n => exists l, profiles_in w' n = Some l /\ profile_like (t + IZR (e_kp_id w') / 2 ^ 51) l) new /\
      (numbers_below (profiles_in w') ["kpc"; "kpm"]%string (e_kp_id w') /\ numbers_below (profiles_in w') ["kp"]%string (g_kp_id w')) /\
      grows w w' /\ e_kp_id w' <= e_kp_id w + 2 * Z.of_nat (length kps)
  end.
Proof. exact evolved. Qed.
Print Assumptions C57_next_generation.
(** C57: the built-in profiles meet those hypotheses. *)
Theorem C57_built_in_profiles : forall n l, profiles_in initial_world n = Some l -> profile_like (/ 2 ^ 8) l /\ (n <> "albrecht_shanahan1"%string -> profile_like (/ 2 ^ 20) l).
Proof. exact built_in_profiles. Qed.
Print Assumptions C57_built_in_profiles.
Theorem C57_no_number_taken : numbers_below (profiles_in initial_world) ["kpc"; "kpm"]%string 0 /\ numbers_below (profiles_in initial_world) ["kp"]%string 0.
Proof. exact initial_orderly. Qed.
Print Assumptions C57_no_number_taken.
Example C57_generation_case : length five = 5%nat /\ (forall n, In n five -> exists l, profiles_in initial_world n = Some l) /\
  match evolve_key_profiles 256 five initial_world unlucky with Done new w' ds' => new = ["kpm1"; "kpm2"; "kpm3"; "kp0"; "kp1"]%string /\ ds' = [] /\ e_kp_id w' = 4 | _ => False end.
Proof.
  split; [reflexivity|]. split; [|vm_compute; repeat split]. intros n I. assert (C : forallb (fun n => match profiles_in initial_world n with Some _ => true | None => false end) five = true) by (vm_compute; reflexivity).
  rewrite forallb_forall in C. specialize (C n I). destruct (profiles_in initial_world n) as [l|]; [now exists l|discriminate].
Qed.

(** C57: one step of mutation, from the random number to the stored table. *)
Theorem C57_mutation : forall t w ds n, numbers_below (profiles_in w) ["kpc"; "kpm"]%string (e_kp_id w) /\ numbers_below (profiles_in w) ["kp"]%string (g_kp_id w) ->
  (exists l, profiles_in w n = Some l /\ profile_like (t + IZR (e_kp_id w) / 2 ^ 51) l) -> (t + IZR (e_kp_id w) / 2 ^ 51 <= 1)%R ->
  mutate_profile n w ds = Starved \/
  exists r w' ds', mutate_profile n w ds = Done r w' ds' /\ grows w w' /\
    (numbers_below (profiles_in w') ["kpc"; "kpm"]%string (e_kp_id w') /\ numbers_below (profiles_in w') ["kp"]%string (g_kp_id w')) /\
    (exists l, profiles_in w' r = Some l /\ profile_like (t + IZR (e_kp_id w') / 2 ^ 51) l) /\
    variant_of one_half (profiles_in w) (profiles_in w') n r /\ (r = n \/ coined w w' r) /\ e_kp_id w' <= e_kp_id w + 1.
Proof. exact mutated_one. Qed.
Print Assumptions C57_mutation.
(** C57: four profiles cannot evolve: no fifth is kept, and there is nothing to make the one child from. *)
Theorem C57_four_profiles_raise : forall maximum kps w ds, length kps = 4%nat -> evolve_key_profiles maximum kps w ds = Fails IndexError.
Proof. exact four_fail. Qed.
Print Assumptions C57_four_profiles_raise.
(** C57: the best profile need not survive: it can be replaced by its own mutation. *)
Theorem C57_best_survives_refuted : ~ (forall maximum kps w ds best l new w' ds', 8 <= maximum <= 2 ^ 52 ->
  numbers_below (profiles_in w) ["kpc"; "kpm"]%string (e_kp_id w) /\ numbers_below (profiles_in w) ["kp"]%string (g_kp_id w) -> NoDup kps ->
  Forall (fun n => exists l, profiles_in w n = Some l /\ profile_like (/ 2 ^ 8 + IZR (e_kp_id w) / 2 ^ 51) l) kps ->
  hd_error kps = Some best -> profiles_in w best = Some l -> evolve_key_profiles maximum kps w ds = Done new w' ds' -> exists n, In n new /\ profiles_in w' n = Some l).
Proof. exact best_not_always. Qed.
Print Assumptions C57_best_survives_refuted.
Example C57_mutation_case : match mutate_profile "sapp"%string initial_world [0; 1; 3; 4] with
  Done r w' ds' => r = "kpm0"%string /\ ds' = [] /\ match profiles_in initial_world "sapp"%string, profiles_in w' "kpm0"%string with Some l, Some l' => map B2SF (firstn 15 l) = map B2SF (firstn 15 l') /\ map B2SF l <> map B2SF l' | _, _ => False end | _ => False end.
Proof. vm_compute. repeat split. discriminate. Qed.
