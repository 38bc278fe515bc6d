(** Properties of the random generator of the optimizer. *)
From Coq Require Import Lia Lra Reals.
From Flocq Require Import Core.Core IEEE754.BinarySingleNaN.
From Verif Require Import Base Fp Text Py KeyProfile Options OptTables Optimizer.
From Verif Require Import MusicSpec DataSpec OptSpec FloatKit GenFacts.
Open Scope Z_scope.

(** C56: a major profile is twelve whole numbers, each below the maximum for tonic and fifth, below half of it for the rest of the scale, below a quarter
    for the other notes, each divided by the total; if all are 0 the division raises. *)
Theorem C56_major_profile : forall maximum w ds, 4 <= maximum <= 2 ^ 52 -> (12 <= length ds)%nat -> exists ns, length ns = 12%nat /\ drawn_below major_level maximum ns /\
  (total ns = 0 /\ generate_major maximum w ds = Fails ZeroDivisionError \/
   0 < total ns /\ exists l, generate_major maximum w ds = Done l w (skipn 12 ds) /\ Forall2 (share (total ns)) ns l).
Proof. exact major_outcome. Qed.
Print Assumptions C56_major_profile.
Theorem C56_minor_profile : forall maximum w ds, 8 <= maximum <= 2 ^ 52 -> (12 <= length ds)%nat -> exists ns, length ns = 12%nat /\ drawn_below minor_level maximum ns /\
  (total ns = 0 /\ generate_minor maximum w ds = Fails ZeroDivisionError \/
   0 < total ns /\ exists l, generate_minor maximum w ds = Done l w (skipn 12 ds) /\ Forall2 (share (total ns)) ns l).
Proof. exact minor_outcome. Qed.
Print Assumptions C56_minor_profile.
(** C56: a random transition table is drawn in the same way, halved once more for each class of keys farther away. *)
Theorem C56_stochastic_transition : forall maximum w ds, 256 <= maximum <= 2 ^ 52 -> (24 <= length ds)%nat -> exists ns, length ns = 24%nat /\ drawn_below key_level maximum ns /\
  (total ns = 0 /\ generate_stochastic maximum w ds = Fails ZeroDivisionError \/
   0 < total ns /\ exists l, generate_stochastic maximum w ds = Done l w (skipn 24 ds) /\ Forall2 (share (total ns)) ns l).
Proof. exact keys_outcome. Qed.
Print Assumptions C56_stochastic_transition.
Example C56_profile_case : match generate_major 100 initial_world (map Z.of_nat (seq 1 12)) with
  Done l _ rest => length l = 12%nat /\ map B2SF (firstn 2 l) = map (fun n => B2SF (rat64 n 78)) [1; 8] /\ rest = [] | _ => False end.
Proof. vm_compute. repeat split. Qed.

(** C56: every such table can come out. *)
Theorem C56_every_major_possible : forall maximum ns, 4 <= maximum <= 2 ^ 52 -> length ns = 12%nat -> drawn_below major_level maximum ns -> exists ds, length ds = 12%nat /\ forall w rest,
  (total ns = 0 /\ generate_major maximum w (ds ++ rest) = Fails ZeroDivisionError \/
   0 < total ns /\ exists l, generate_major maximum w (ds ++ rest) = Done l w rest /\ Forall2 (share (total ns)) ns l).
Proof. exact major_reached. Qed.
Print Assumptions C56_every_major_possible.
Theorem C56_every_minor_possible : forall maximum ns, 8 <= maximum <= 2 ^ 52 -> length ns = 12%nat -> drawn_below minor_level maximum ns -> exists ds, length ds = 12%nat /\ forall w rest,
  (total ns = 0 /\ generate_minor maximum w (ds ++ rest) = Fails ZeroDivisionError \/
   0 < total ns /\ exists l, generate_minor maximum w (ds ++ rest) = Done l w rest /\ Forall2 (share (total ns)) ns l).
Proof. exact minor_reached. Qed.
Print Assumptions C56_every_minor_possible.
Theorem C56_every_transition_possible : forall maximum ns, 256 <= maximum <= 2 ^ 52 -> length ns = 24%nat -> drawn_below key_level maximum ns -> exists ds, length ds = 24%nat /\ forall w rest,
  (total ns = 0 /\ generate_stochastic maximum w (ds ++ rest) = Fails ZeroDivisionError \/
   0 < total ns /\ exists l, generate_stochastic maximum w (ds ++ rest) = Done l w rest /\ Forall2 (share (total ns)) ns l).
Proof. exact keys_reached. Qed.
Print Assumptions C56_every_transition_possible.
Example C56_possible_case : drawn_below major_level 100 [99; 24; 49; 24; 49; 49; 24; 99; 24; 49; 24; 49].
Proof. intros i n. do 12 (destruct i as [|i]; [intros [= <-]; vm_compute; intuition congruence|]). destruct i; discriminate. Qed.

(** C56: a maximum that is too small for the last group raises. *)
Theorem C56_small_maximum_major : forall maximum w ds, - 2 ^ 52 <= maximum < 4 -> (12 <= length ds)%nat -> generate_major maximum w ds = Fails ValueError.
Proof. exact major_refused. Qed.
Print Assumptions C56_small_maximum_major.
Theorem C56_small_maximum_minor : forall maximum w ds, - 2 ^ 52 <= maximum < 8 -> (12 <= length ds)%nat -> generate_minor maximum w ds = Fails ValueError.
Proof. exact minor_refused. Qed.
Print Assumptions C56_small_maximum_minor.
Theorem C56_small_maximum_transition : forall maximum w ds, - 2 ^ 52 <= maximum < 256 -> (24 <= length ds)%nat -> generate_stochastic maximum w ds = Fails ValueError.
Proof. exact keys_refused. Qed.
Print Assumptions C56_small_maximum_transition.
Example C56_small_case : generate_minor 7 initial_world (repeat 5 12) = Fails ValueError.
Proof. vm_compute. reflexivity. Qed.

(** C56: the values add up to 1 within 2^-52, and entering the table gives no warning. *)
Theorem C56_sum_is_one : forall ns l, Forall (fun n => 0 <= n) ns -> 0 < total ns <= 2 ^ 100 -> (length ns <= 900)%nat -> Forall2 (share (total ns)) ns l ->
  (Rabs (real_total l - 1) <= / 2 ^ 52)%R /\ sum_warning (py_sum l) = false.
Proof. exact shares_sum. Qed.
Print Assumptions C56_sum_is_one.
(** C56: with the maximum of the program (256) the remotest key never gets a weight. *)
Theorem C56_remotest_key : forall maximum w ds l w' r, 256 <= maximum < 512 -> (24 <= length ds)%nat -> generate_stochastic maximum w ds = Done l w' r -> exists y, nth_error l 6 = Some y /\ B2R y = 0%R.
Proof. exact remotest_zero. Qed.
Print Assumptions C56_remotest_key.
Example C56_sum_case : match generate_stochastic 256 initial_world (repeat 7 24) with
  Done l _ _ => sum_warning (py_sum l) = false /\ map B2SF (skipn 5 (firstn 8 l)) = map (fun n => B2SF (rat64 n 141)) [7; 0; 7] | _ => False end.
Proof. vm_compute. repeat split. Qed.

(** C56: a geometric table, with any power function accurate to a unit in the last place: every value is within 2^-48, relatively, of the power for the class of the key over the sum of
    the powers; keys of one class get the same value; a ratio above 1 prefers near keys and a ratio below 1 prefers remote keys. *)
Theorem C56_geometric_accurate : forall pow (ratio : b64), accurate_power pow -> is_finite ratio = true -> (/ 2 ^ 20 <= B2R ratio <= 2 ^ 20)%R ->
  exists l, generate_geometric pow ratio = Returns l /\ length l = 24%nat /\
  forall k y, nth_error l k = Some y -> is_finite y = true /\ (Rabs (B2R y - geometric_share (B2R ratio) k) <= / 2 ^ 48 * geometric_share (B2R ratio) k)%R.
Proof. exact geometric_accurate. Qed.
Print Assumptions C56_geometric_accurate.
Theorem C56_geometric_sum : forall pow (ratio : b64), accurate_power pow -> is_finite ratio = true -> (/ 2 ^ 20 <= B2R ratio <= 2 ^ 20)%R ->
  forall l, generate_geometric pow ratio = Returns l -> (Rabs (real_total l - 1) <= / 2 ^ 48)%R /\ sum_warning (py_sum l) = false.
Proof. exact geometric_sum. Qed.
Print Assumptions C56_geometric_sum.
Theorem C56_geometric_classes : forall pow (ratio : b64), accurate_power pow -> is_finite ratio = true -> (/ 2 ^ 20 <= B2R ratio <= 2 ^ 20)%R ->
  forall l j k y z, generate_geometric pow ratio = Returns l -> nth_error l j = Some y -> nth_error l k = Some z -> key_level j = key_level k -> y = z.
Proof. exact geometric_same. Qed.
Print Assumptions C56_geometric_classes.
Theorem C56_geometric_order : forall pow (ratio : b64), accurate_power pow -> is_finite ratio = true -> (/ 2 ^ 20 <= B2R ratio <= 2 ^ 20)%R ->
  forall l j k y z, generate_geometric pow ratio = Returns l -> nth_error l j = Some y -> nth_error l k = Some z -> key_level j < key_level k ->
  ((1 + / 2 ^ 40 <= B2R ratio)%R -> (B2R z < B2R y)%R) /\ ((B2R ratio <= 1 - / 2 ^ 40)%R -> (B2R y < B2R z)%R).
Proof. exact geometric_order. Qed.
Print Assumptions C56_geometric_order.
Example C56_power_case : accurate_power rounded_power.
Proof. exact rounded_power_accurate. Qed.
Example C56_geometric_case : match generate_geometric rounded_power (py_float 2) with
  Returns l => map B2SF l = map (fun n => B2SF (rat64 n 1245)) [256; 8; 32; 32; 16; 128; 1; 128; 16; 32; 32; 8; 128; 2; 64; 4; 64; 64; 4; 64; 2; 128; 16; 16] | _ => False end.
Proof. vm_compute. reflexivity. Qed.

(** C56: a new profile: its name has the running number, its table stands under that name, nothing else changes. *)
Theorem C56_new_profile : forall maximum w ds, 8 <= maximum <= 2 ^ 52 -> (24 <= length ds)%nat ->
  let name := ("kp" ++ format_int (g_kp_id w))%string in
  generate_key_profile maximum w ds = Fails ZeroDivisionError \/
  exists ns ms lmaj lmin w', generate_key_profile maximum w ds = Done name w' (skipn 24 ds) /\
    length ns = 12%nat /\ drawn_below major_level maximum ns /\ 0 < total ns /\ Forall2 (share (total ns)) ns lmaj /\
    length ms = 12%nat /\ drawn_below minor_level maximum ms /\ 0 < total ms /\ Forall2 (share (total ms)) ms lmin /\
    (assoc String.eqb name (w_kp w') = Some (lmaj ++ lmin) /\ forall n, n <> name -> assoc String.eqb n (w_kp w') = assoc String.eqb n (w_kp w)) /\
    w_kt w' = w_kt w /\ w_ratio w' = w_ratio w /\ g_kp_id w' = g_kp_id w + 1 /\ g_kt_id w' = g_kt_id w /\ e_kp_id w' = e_kp_id w /\ e_kt_id w' = e_kt_id w.
Proof. exact profile_generated. Qed.
Print Assumptions C56_new_profile.
(** C56: a new transition table: one draw in ten gives a random table, the others a geometric one with a ratio from 2 to 50, which is stored under the same name. *)
Theorem C56_new_stochastic : forall pow maximum w d0 ds, 256 <= maximum <= 2 ^ 52 -> (24 <= length ds)%nat -> d0 mod 10 = 9 ->
  let name := ("kts" ++ format_int (g_kt_id w))%string in
  generate_key_transition pow maximum w (d0 :: ds) = Fails ZeroDivisionError \/
  exists ns l w', generate_key_transition pow maximum w (d0 :: ds) = Done name w' (skipn 24 ds) /\
    length ns = 24%nat /\ drawn_below key_level maximum ns /\ 0 < total ns /\ Forall2 (share (total ns)) ns l /\
    (assoc String.eqb name (w_kt w') = Some l /\ forall n, n <> name -> assoc String.eqb n (w_kt w') = assoc String.eqb n (w_kt w)) /\
    w_kp w' = w_kp w /\ w_ratio w' = w_ratio w /\ g_kp_id w' = g_kp_id w /\ g_kt_id w' = g_kt_id w + 1 /\ e_kp_id w' = e_kp_id w /\ e_kt_id w' = e_kt_id w.
Proof. exact stochastic_generated. Qed.
Print Assumptions C56_new_stochastic.
Theorem C56_new_geometric : forall pow maximum w d0 d1 ds, accurate_power pow -> d0 mod 10 <> 9 ->
  let name := ("ktg" ++ format_int (g_kt_id w))%string in
  exists ratio l w', generate_key_transition pow maximum w (d0 :: d1 :: ds) = Done name w' ds /\
    is_finite ratio = true /\ (2 <= B2R ratio <= 50)%R /\ generate_geometric pow ratio = Returns l /\ length l = 24%nat /\
    (forall k y, nth_error l k = Some y -> is_finite y = true /\ (Rabs (B2R y - geometric_share (B2R ratio) k) <= / 2 ^ 48 * geometric_share (B2R ratio) k)%R) /\
    (assoc String.eqb name (w_kt w') = Some l /\ forall n, n <> name -> assoc String.eqb n (w_kt w') = assoc String.eqb n (w_kt w)) /\
    assoc String.eqb name (w_ratio w') = Some ratio /\ (forall n, n <> name -> assoc String.eqb n (w_ratio w') = assoc String.eqb n (w_ratio w)) /\
    w_kp w' = w_kp w /\ g_kp_id w' = g_kp_id w /\ g_kt_id w' = g_kt_id w + 1 /\ e_kp_id w' = e_kp_id w /\ e_kt_id w' = e_kt_id w.
Proof. exact geometric_generated. Qed.
Print Assumptions C56_new_geometric.
Example C56_new_case : match generate_key_profile 100 initial_world (map Z.of_nat (seq 1 24)) with Done n w _ => n = "kp0"%string /\ g_kp_id w = 1 | _ => False end.
Proof. vm_compute. repeat split. Qed.
(** C56, refuted: generating a profile always succeeds. If every draw is 0 the total is 0. *)
Theorem C56_always_succeeds_refuted : forall maximum w, 8 <= maximum <= 2 ^ 52 -> exists ds, length ds = 24%nat /\ generate_key_profile maximum w ds = Fails ZeroDivisionError.
Proof. exact (fun maximum w M => ex_intro _ (repeat 0 24) (conj eq_refl (nothing_drawn maximum w M))). Qed.
Print Assumptions C56_always_succeeds_refuted.
