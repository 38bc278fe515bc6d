(** Property theorems C45, C46, C47: the stored profiles, the key names and the stored transition tables. *)
From Coq Require Import Reals Lia Lra Ascii.
From Flocq Require Import Core.Core IEEE754.BinarySingleNaN.
From Verif Require Import Base BaseFacts Fp FpFacts Key PitchClass KeyProfile KeyTransition Hmm MusicSpec ProfileFacts TransitionFacts NumFacts DataSpec DataFacts.
Open Scope Z_scope.

(** C45: the stored profiles are the published ratings. *)
Theorem C45_profiles_are_the_published_ratings : forall maj tmaj rmaj mino tmin rmin k p,
  In (maj, tmaj, rmaj) published_major -> In (mino, tmin, rmin) published_minor -> is_key k -> 0 <= p < 12 ->
  let degree := (p - tonic k) mod 12 in
  (Rabs (B2R (emission (keyprofile_new2 maj mino) k p) - (if majorb k then IZR (nth (Z.to_nat degree) rmaj 0%Z) / IZR tmaj else IZR (nth (Z.to_nat degree) rmin 0%Z) / IZR tmin)) <= / 10 ^ 16)%R.
Proof. exact C45_published_proof. Qed.
Print Assumptions C45_profiles_are_the_published_ratings.
Theorem C45_no_other_profile_is_stored : forall name,
  (In name (map fst builtin_major) <-> In name (map (fun e => fst (fst e)) published_major)) /\ (In name (map fst builtin_minor) <-> In name (map (fun e => fst (fst e)) published_minor)).
Proof. exact C45_all_stored_proof. Qed.
Print Assumptions C45_no_other_profile_is_stored.
(** E in A minor by Krumhansl and Kessler: 4.75 of 44.51. *)
Example C45_case : (Rabs (B2R (emission (keyprofile_new2 "krumhansl_kessler" "krumhansl_kessler") 21 4) - 475 / 4451) <= / 10 ^ 16)%R.
Proof.
  assert (H1 : In ("krumhansl_kessler"%string, snd (fst (nth 0 published_major (""%string, 0, []))), snd (nth 0 published_major (""%string, 0, []))) published_major) by (left; reflexivity).
  assert (H2 : In ("krumhansl_kessler"%string, 4451, [633; 268; 352; 538; 260; 353; 254; 475; 398; 269; 334; 317]) published_minor) by (left; reflexivity).
  exact (C45_published_proof _ _ _ _ _ _ 21 4 H1 H2 ltac:(unfold is_key; lia) ltac:(lia)).
Qed.

(** C46: the printed name of a key. *)
Theorem C46_name_has_fewest_accidentals : forall k s, is_key k -> named_key s = Some k -> s <> get_string (key_of_int k) ->
  exists q q', signature (get_string (key_of_int k)) = Some q /\ signature s = Some q' /\
    (k = 20 \/ Z.abs q < Z.abs q' \/ (k = 6 /\ s = "Gb"%string /\ Z.abs q = Z.abs q') \/ (k = 15 /\ s = "d#"%string /\ Z.abs q = Z.abs q')).
Proof. exact C46_proof. Qed.
Print Assumptions C46_name_has_fewest_accidentals.
Theorem C46_signature_of_the_name : forall k, is_key k ->
  exists q, signature (get_string (key_of_int k)) = Some q /\ (k <> 20 -> -6 <= q <= 6) /\ (7 * q + (if majorb k then 0 else 9)) mod 12 = tonic k.
Proof. exact C46_range_proof. Qed.
Print Assumptions C46_signature_of_the_name.
Theorem C46_every_name_has_fewest_accidentals_refuted :
  ~ (forall k s q q', is_key k -> named_key s = Some k -> signature (get_string (key_of_int k)) = Some q -> signature s = Some q' -> Z.abs q <= Z.abs q').
Proof. exact C46_ab_proof. Qed.
Print Assumptions C46_every_name_has_fewest_accidentals_refuted.
(** Key 8 is printed with four flats rather than eight sharps; key 20 with seven flats rather than five sharps. *)
Example C46_case : map (fun s => (named_key s, signature s)) ["Ab"; "G#"; "ab"; "g#"]%string = [(Some 8, Some (-4)); (Some 8, Some 8); (Some 20, Some (-7)); (Some 20, Some 5)] /\
  map (fun k => get_string (key_of_int k)) [8; 20] = ["Ab"; "ab"]%string.
Proof. split; reflexivity. Qed.

(** C47: the stored transition tables. *)
Theorem C47_every_pair_is_in_one_class : forall a b, is_key a -> is_key b -> exists r, (r < 9)%nat /\ in_class r a b /\ forall r', in_class r' a b -> r' = r.
Proof. exact C47_classes_proof. Qed.
Print Assumptions C47_every_pair_is_in_one_class.
Theorem C47_weight_of_each_class : forall name arr a b r, In (name, arr) builtin_transitions -> is_key a -> is_key b -> in_class r a b ->
  exists n d, class_weight name r = Some (n, d) /\ is_finite (transition arr a b) = true /\ B2R (transition arr a b) = rnd (IZR n / IZR (Zpos d)).
Proof. exact C47_weights_proof. Qed.
Print Assumptions C47_weight_of_each_class.
Theorem C47_nearer_keys_are_likelier : forall name arr n a b c, In name ["linear"; "exponential2"; "exponential10"]%string -> In (name, arr) builtin_transitions -> (n <= 2)%nat ->
  is_key a -> is_key b -> is_key c -> within n a b -> ~ within n a c -> (B2R (transition arr a c) < B2R (transition arr a b))%R.
Proof. exact C47_nearer_proof. Qed.
Print Assumptions C47_nearer_keys_are_likelier.
Theorem C47_nearer_within_three_steps_refuted : ~ (forall name arr a b c, In name ["linear"; "exponential2"; "exponential10"]%string -> In (name, arr) builtin_transitions ->
  is_key a -> is_key b -> is_key c -> within 3 a b -> ~ within 3 a c -> (B2R (transition arr a c) < B2R (transition arr a b))%R).
Proof. exact C47_three_steps_proof. Qed.
Print Assumptions C47_nearer_within_three_steps_refuted.
(** From G major: E minor is one step away, F sharp major far off. *)
Example C47_case : in_class 1 7 16 /\ within 1 7 16 /\ ~ within 2 7 6 /\ map (fun e => fst e) builtin_transitions = ["linear"; "exponential2"; "exponential10"; "zero"; "symmetrical"; "heatmap"]%string.
Proof.
  split; [|split; [|split; [|reflexivity]]].
  - apply in_class_iff; [unfold is_key; lia..|]. vm_compute. reflexivity.
  - apply within_class; [lia|unfold is_key; lia..|]. vm_compute. lia.
  - rewrite within_class; [|lia|unfold is_key; lia..]. vm_compute. lia.
Qed.
