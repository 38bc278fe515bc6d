(** Property theorems C06-C13: key profiles (emissions) and key transitions. *)
From Coq Require Import Reals Permutation Lia Lra.
From Flocq Require Import Core.Core IEEE754.BinarySingleNaN.
From Verif Require Import Base BaseFacts Fp FpFacts Key PitchClass KeyProfile KeyTransition Hmm MusicSpec ProfileFacts TransitionFacts NumFacts.
Open Scope Z_scope.

Ltac doubles := repeat split; try (apply B2SF_inj; vm_compute; reflexivity); try (vm_compute; reflexivity).

(** C06: the emission table is the selected profile transposed to each tonic. *)
Theorem C06_emission : forall maj mino mc nc A B k p, length mc = 12%nat -> length nc = 12%nat ->
  chosen builtin_major maj mc = Some A -> chosen builtin_minor mino nc = Some B -> is_key k -> 0 <= p < 12 ->
  emission (keyprofile_new4 maj mino mc nc) k p = znth fzero (if majorb k then A else B) ((p - tonic k) mod 12).
Proof. exact C06_emission_proof. Qed.
Print Assumptions C06_emission.
Theorem C06_shape : forall kp, map fst (fst (get_profile_map kp)) = zseq 24 /\
  (forall k row, In (k, row) (fst (get_profile_map kp)) -> map fst row = zseq 12).
Proof. exact C06_shape_proof. Qed.
Print Assumptions C06_shape.
Theorem C06_row_permutation : forall maj mino mc nc A B k, length mc = 12%nat -> length nc = 12%nat ->
  chosen builtin_major maj mc = Some A -> chosen builtin_minor mino nc = Some B -> is_key k ->
  exists row, In (k, row) (fst (get_profile_map (keyprofile_new4 maj mino mc nc))) /\
              Permutation (map snd row) (if majorb k then A else B).
Proof. exact C06_row_proof. Qed.
Print Assumptions C06_row_permutation.
Theorem C06_transposition : forall maj mino mc nc k p t, length mc = 12%nat -> length nc = 12%nat ->
  is_key k -> 0 <= p < 12 ->
  emission (keyprofile_new4 maj mino mc nc) (transpose_key t k) (transpose_pc t p) =
  emission (keyprofile_new4 maj mino mc nc) k p.
Proof. exact C06_transposition_proof. Qed.
Print Assumptions C06_transposition.
(** G major emits d (its fifth) as often as C major emits g: 0.2222222222222222 in the Sapp profile; e minor (16) emits
    b-flat with the custom value at position 6. *)
Definition ramp : list b64 := map (fun i => rat64 i 1) (zseq 12).
Example C06_case : emission (keyprofile_new2 "sapp" "sapp") 7 2 = dec 2222222222222222 16 /\
  emission (keyprofile_new4 "sapp" "custom" zero_profile ramp) 16 10 = rat64 6 1 /\
  transpose_key 5 16 = 21 /\ transpose_pc 5 10 = 3 /\
  emission (keyprofile_new4 "sapp" "custom" zero_profile ramp) 21 3 = rat64 6 1.
Proof. doubles. Qed.

(** C07: unknown names. *)
Theorem C07_unknown_name : forall maj mino mc nc,
  chosen builtin_major maj mc = None \/ chosen builtin_minor mino nc = None ->
  which_major (keyprofile_new4 maj mino mc nc) = ""%string /\ which_minor (keyprofile_new4 maj mino mc nc) = ""%string /\
  forall k p, emission (keyprofile_new4 maj mino mc nc) k p = fzero.
Proof. exact C07_unknown_proof. Qed.
Print Assumptions C07_unknown_name.
Theorem C07_known_names : forall maj mino mc nc A B,
  chosen builtin_major maj mc = Some A -> chosen builtin_minor mino nc = Some B ->
  which_major (keyprofile_new4 maj mino mc nc) = maj /\ which_minor (keyprofile_new4 maj mino mc nc) = mino /\
  fst (get_major_profile (keyprofile_new4 maj mino mc nc)) = A /\ fst (get_minor_profile (keyprofile_new4 maj mino mc nc)) = B.
Proof. exact C07_known_proof. Qed.
Print Assumptions C07_known_names.
Example C07_case : chosen builtin_minor "simple_natural_minor" [] <> None /\ chosen builtin_major "simple_natural_minor" [] = None /\
  which_minor (keyprofile_new2 "simple_natural_minor" "sapp") = ""%string /\ which_minor (keyprofile_new2 "sapp" "simple_natural_minor") = "simple_natural_minor"%string.
Proof. split; [discriminate|]. vm_compute. repeat split. Qed.

(** C08: reading the tables changes what counts as a valid name, but only for objects built with unknown names. *)
Theorem C08_stable : forall maj mino mc nc A B cs,
  chosen builtin_major maj mc = Some A -> chosen builtin_minor mino nc = Some B ->
  after_reads cs (keyprofile_new4 maj mino mc nc) = keyprofile_new4 maj mino mc nc.
Proof. exact C08_stable_proof. Qed.
Print Assumptions C08_stable.
Theorem C08_unknown_becomes_valid : forall maj mino mc nc cs n,
  chosen builtin_major maj mc = None \/ chosen builtin_minor mino nc = None ->
  let kp := keyprofile_new4 maj mino mc nc in
  is_valid_major kp "" = false /\ is_valid_minor kp "" = false /\
  is_valid_major (after_reads cs kp) n = is_valid_major kp n || (existsb reads_major cs && String.eqb n "") /\
  is_valid_minor (after_reads cs kp) n = is_valid_minor kp n || (existsb reads_minor cs && String.eqb n "").
Proof. exact C08_unknown_proof. Qed.
Print Assumptions C08_unknown_becomes_valid.
(** The expectation "a query never changes its answer" is false. *)
Theorem C08_validity_stable_refuted : exists maj mino cs n,
  is_valid_major (after_reads cs (keyprofile_new2 maj mino)) n <> is_valid_major (keyprofile_new2 maj mino) n.
Proof. exact C08_refuted_proof. Qed.
Print Assumptions C08_validity_stable_refuted.
Example C08_case : is_valid_minor (after_reads [ReadMajor; ReadMap] (keyprofile_new2 "x" "sapp")) "" = true /\
  is_valid_minor (after_reads [ReadMajor; ReadMap] (keyprofile_new2 "sapp" "sapp")) "" = false.
Proof. vm_compute. repeat split. Qed.

(** C09: the stored profiles are distributions, and no pitch class is impossible in every key of a mode. *)
Theorem C09_profiles_are_distributions : forall name arr, In (name, arr) builtin_major \/ In (name, arr) builtin_minor ->
  length arr = 12%nat /\ (forall x, In x arr -> is_finite x = true /\ (0 <= B2R x)%R) /\
  (Rabs (exact_sum arr - 1) <= 1 / 50)%R /\ (In name offered_profiles -> (Rabs (exact_sum arr - 1) <= / 10 ^ 15)%R).
Proof. exact C09_distribution_proof. Qed.
Print Assumptions C09_profiles_are_distributions.
Theorem C09_no_dead_pitch_class : forall maj mino A B p,
  In (maj, A) builtin_major -> In (mino, B) builtin_minor -> 0 <= p < 12 ->
  exists k K, is_key k /\ majorb k = true /\ (0 < B2R (emission (keyprofile_new2 maj mino) k p))%R /\
              is_key K /\ majorb K = false /\ (0 < B2R (emission (keyprofile_new2 maj mino) K p))%R.
Proof. exact C09_live_proof. Qed.
Print Assumptions C09_no_dead_pitch_class.
Example C09_case : map fst builtin_major = ["krumhansl_kessler"; "aarden_essen"; "sapp"; "bellman_budge"; "temperley"; "albrecht_shanahan1"; "albrecht_shanahan2"]%string /\
  incl offered_profiles (map fst builtin_major) /\ incl offered_profiles (map fst builtin_minor).
Proof. split; [reflexivity|]. split; intros x H; cbn in *; intuition. Qed.

(** C10: transition probabilities depend on interval and modes only. *)
Theorem C10_entry : forall arr from to, length arr = 24%nat -> is_key from -> is_key to ->
  transition arr from to = znth fzero arr (interval_index from to).
Proof. exact C10_entry_proof. Qed.
Print Assumptions C10_entry.
Theorem C10_transpose : forall arr from to t, length arr = 24%nat -> is_key from -> is_key to ->
  transition arr (transpose_key t from) (transpose_key t to) = transition arr from to.
Proof. exact C10_transpose_proof. Qed.
Print Assumptions C10_transpose.
Theorem C10_shape : forall arr, map fst (transition_map_of arr) = zseq 24 /\
  forall k row, In (k, row) (transition_map_of arr) -> map fst row = zseq 24.
Proof. exact C10_shape_proof. Qed.
Print Assumptions C10_shape.
(** From a minor (21) to C major (0) and to b-flat minor (22) under a custom array 0,1,...,23. *)
Definition ramp24 : list b64 := map (fun i => rat64 i 1) (zseq 24).
Example C10_case : transition ramp24 21 0 = rat64 12 1 /\ transition ramp24 21 22 = rat64 1 1 /\ transition ramp24 0 21 = rat64 21 1 /\
  transition ramp24 (transpose_key 1 21) (transpose_key 1 0) = rat64 12 1.
Proof. doubles. Qed.

(** C11: rows and columns. *)
Theorem C11_rows : forall arr k, length arr = 24%nat -> is_key k -> Permutation (map (transition arr k) (zseq 24)) arr.
Proof. exact C11_rows_proof. Qed.
Print Assumptions C11_rows.
Theorem C11_columns : forall arr k, length arr = 24%nat -> is_key k ->
  Permutation (map (fun from => transition arr from k) (zseq 24)) arr.
Proof. exact C11_columns_proof. Qed.
Print Assumptions C11_columns.
Example C11_case : length ramp24 = 24%nat /\ map (fun k => B2SF (transition ramp24 k 13)) [0; 1; 12; 13; 23] = map (fun i => B2SF (rat64 i 1)) [13; 12; 1; 0; 2].
Proof. vm_compute. repeat split. Qed.

(** C12: reversibility. *)
Theorem C12_builtin_reversible : forall name arr a b, In (name, arr) builtin_transitions -> is_key a -> is_key b ->
  transition arr a b = transition arr b a.
Proof. exact C12_builtin_proof. Qed.
Print Assumptions C12_builtin_reversible.
Theorem C12_characterisation : forall arr, length arr = 24%nat ->
  ((forall a b, is_key a -> is_key b -> transition arr a b = transition arr b a) <-> symmetric_array arr).
Proof. exact C12_characterisation_proof. Qed.
Print Assumptions C12_characterisation.
Theorem C12_relative_parallel_swapped : forall arr K k, length arr = 24%nat ->
  is_key K -> majorb K = true -> is_key k -> majorb k = false ->
  transition arr k (tonic k) = transition arr K ((tonic K + 9) mod 12 + 12) /\
  transition arr k ((tonic k + 3) mod 12) = transition arr K (tonic K + 12).
Proof. exact C12_swap_proof. Qed.
Print Assumptions C12_relative_parallel_swapped.
(** With the array 0,1,...,23: C major gives its parallel minor 12 and its relative minor 21; a minor gives its parallel
    major 21 and its relative major 12. *)
Example C12_case : transition ramp24 0 12 = rat64 12 1 /\ transition ramp24 0 21 = rat64 21 1 /\
  transition ramp24 21 9 = rat64 21 1 /\ transition ramp24 21 0 = rat64 12 1 /\ ~ symmetric_array ramp24.
Proof. do 4 (split; [apply B2SF_inj; vm_compute; reflexivity|]). intros [H _]. specialize (H 1 ltac:(lia)). apply (f_equal B2SF) in H. vm_compute in H. discriminate. Qed.

(** C13: the stored transition arrays, unknown names, custom. *)
Theorem C13_builtin_distributions : forall name arr, In (name, arr) builtin_transitions ->
  (In name unit_arrays ->
   exists (ns : list Z) (d : positive), length ns = 24%nat /\ (forall n, In n ns -> 0 <= n) /\
     fold_right Z.add 0 ns = Zpos d /\ map B2R arr = map (fun n => rnd (IZR n / IZR (Zpos d))) ns) /\
  (forall x, In x arr -> is_finite x = true /\ (0 <= B2R x)%R) /\ length arr = 24%nat.
Proof. exact C13_distribution_proof. Qed.
Print Assumptions C13_builtin_distributions.
Theorem C13_heatmap_no_distribution : exists arr, In ("heatmap"%string, arr) builtin_transitions /\ exact_sum arr = 108%R.
Proof. exact C13_heatmap_proof. Qed.
Print Assumptions C13_heatmap_no_distribution.
Theorem C13_names : forall name custom,
  match chosen_transition name custom with
  | Some arr => which_transition (keytransition_new2 name custom) = name /\
                fst (get_transition_array (keytransition_new2 name custom)) = arr /\
                fst (get_transition_map (keytransition_new2 name custom)) = transition_map_of arr
  | None => which_transition (keytransition_new2 name custom) = ""%string /\
            fst (get_transition_array (keytransition_new2 name custom)) = zero_transition /\
            (forall a b, is_key a -> is_key b ->
               at2 b64 fzero (fst (get_transition_map (keytransition_new2 name custom))) a b = fzero)
  end.
Proof. exact C13_names_proof. Qed.
Print Assumptions C13_names.
Example C13_case : map fst builtin_transitions = ["linear"; "exponential2"; "exponential10"; "zero"; "symmetrical"; "heatmap"]%string /\
  which_transition (keytransition_new1 "key_transitions_exponential10") = ""%string /\
  transition (fst (get_transition_array (keytransition_new1 "exponential10"))) 0 21 = rat64 10000000 144442221.
Proof. doubles. Qed.
