(** Properties of the tables of the optimizer and of what it hands to the detector. *)
From Coq Require Import Lia Lra Reals.
From Flocq Require Import Core.Core IEEE754.BinarySingleNaN.
From Verif Require Import Base Fp Text Py KeyProfile KeyTransition Options OptTables Pipeline.
From Verif Require Import TextSpec PrintSpec ChromaSpec OptSpec FloatKit OptFacts.
Open Scope Z_scope.

(** C54: a stored number in the text of a table: sign, whole part, point, exactly 15 digits, the value rounded to 15 places. *)
Theorem C54_text_of_a_number : forall x : b64, is_finite x = true -> exists d, fixed15 x = show_decimal d /\ fixed_numeral x d.
Proof. exact fixed_numeral_text. Qed.
Print Assumptions C54_text_of_a_number.
Example C54_text_case : fixed15 (dec 15724030710075827 28) = "0.000000000001572"%string /\ fixed15 (dec 2222222222222222 16) = "0.222222222222222"%string.
Proof. split; vm_compute; reflexivity. Qed.

(** C54: two tables of 24 finite numbers, handed over as -K and -T, reach the detector value by value. *)
Theorem C54_tables_reach_the_detector : forall (dk dt : dict) kp kt (lp lt : table) (o : options) g1 g2 g3,
  assoc String.eqb kp dk = Some lp -> assoc String.eqb kt dt = Some lt -> length lp = 24%nat -> length lt = 24%nat ->
  Forall (fun x => is_finite x = true) lp -> Forall (fun x => is_finite x = true) lt ->
  o_profiles o = Some (as_argument (get_as_string dk kp)) -> o_transitions o = Some (as_argument (get_as_string dt kt)) ->
  length g1 = 12%nat -> length g2 = 12%nat -> length g3 = 24%nat ->
  exists major minor trans, choose_tables g1 g2 g3 o = Ret (Go (mkTables "custom" "custom" major minor "custom" trans)) /\
    Forall2 transmitted (firstn 12 lp) major /\ Forall2 transmitted (skipn 12 lp) minor /\ Forall2 transmitted lt trans.
Proof. exact reach_detector. Qed.
Print Assumptions C54_tables_reach_the_detector.
Example C54_reach_case : exists l, assoc String.eqb "ktg_exponential5"%string initial_transitions = Some l /\ length l = 24%nat /\ Forall (fun x => is_finite x = true) l.
Proof.
  assert (E : exists l, assoc String.eqb "ktg_exponential5"%string initial_transitions = Some l /\ In ("ktg_exponential5"%string, l) (initial_profiles ++ initial_transitions)).
  { eexists. split; [reflexivity|]. apply in_or_app. right. do 3 right. left. reflexivity. }
  destruct E as (l & A & I). exists l. destruct (stored_tables _ _ I) as (L & F). split; [exact A|]. split; [exact L|]. eapply Forall_impl; [|exact F]. intros x H. apply H.
Qed.

(** C54: what happens to a value: between 0 and 1 it moves by less than 10^-15 and keeps its place in the order, and it vanishes exactly if it is at most half of the last place. *)
Theorem C54_small_loss : forall x y : b64, transmitted x y -> (0 <= B2R x <= 1)%R -> (0 <= B2R y <= 1)%R /\ (Rabs (B2R y - B2R x) <= 62 / 10 ^ 17)%R.
Proof. exact transmitted_unit. Qed.
Print Assumptions C54_small_loss.
Theorem C54_order_kept : forall x x' y y' : b64, transmitted x y -> transmitted x' y' -> (B2R x <= B2R x')%R -> (B2R y <= B2R y')%R.
Proof. exact transmitted_le. Qed.
Print Assumptions C54_order_kept.
Theorem C54_small_values_vanish : forall x y : b64, transmitted x y -> (B2R y = 0%R <-> (Rabs (B2R x) <= 1 / 2 * / 10 ^ 15)%R).
Proof. exact transmitted_zero. Qed.
Print Assumptions C54_small_values_vanish.
Example C54_loss_case : exists y, transmitted (py_float 1) y /\ (0 <= B2R (py_float 1) <= 1)%R.
Proof.
  destruct (py_float_R 1 ltac:(lia)) as (F & E). destruct (fixed_numeral_text (py_float 1) F) as (d & _ & K).
  exists (nearest prec64 emax64 (NumberFacts.numeral_of d)). split; [now apply fixed_transmitted|]. rewrite E. change (IZR 1) with 1%R. lra.
Qed.

(** C54, refuted: the detector gets exactly the stored numbers. The weight of the remotest key in ktg_experiment6 does not survive. *)
Theorem C54_exact_values_refuted : exists l x, assoc String.eqb "ktg_experiment6"%string initial_transitions = Some l /\ nth_error l 6 = Some x /\ forall y, transmitted x y -> B2R y <> B2R x.
Proof. exact lost_digits. Qed.
Print Assumptions C54_exact_values_refuted.

(** C54: an unknown name is handed over as the word None, and the detector answers with its help text about 0 values. *)
Theorem C54_unknown_profile : forall (dk : dict) kp (o : options) g1 g2 g3, assoc String.eqb kp dk = None -> o_profiles o = Some (as_argument (get_as_string dk kp)) ->
  choose_tables g1 g2 g3 o = Ret (Help (count_message "profiles" 0)).
Proof. exact unknown_profile. Qed.
Print Assumptions C54_unknown_profile.
Theorem C54_unknown_transition : forall (dt : dict) kt (o : options) g1 g2 g3, assoc String.eqb kt dt = None -> o_transitions o = Some (as_argument (get_as_string dt kt)) -> o_profiles o = None ->
  choose_tables g1 g2 g3 o = Ret (Help (count_message "transitions" 0)).
Proof. exact unknown_transition. Qed.
Print Assumptions C54_unknown_transition.
Example C54_unknown_case : assoc String.eqb "exponential5"%string initial_transitions = None.
Proof. vm_compute. reflexivity. Qed.

(** C55: the two programs store the same numbers under the same names. *)
Theorem C55_same_major_profiles : forall name a, In (name, a) builtin_major -> exists l, assoc String.eqb name initial_profiles = Some l /\ firstn 12 l = a.
Proof. exact same_majors. Qed.
Print Assumptions C55_same_major_profiles.
Theorem C55_same_minor_profiles : forall name a, In (name, a) builtin_minor -> exists l, assoc String.eqb name initial_profiles = Some l /\ skipn 12 l = a.
Proof. exact same_minors. Qed.
Print Assumptions C55_same_minor_profiles.
Theorem C55_same_transitions : forall name a, In name ["linear"; "exponential2"; "exponential10"]%string -> In (name, a) builtin_transitions ->
  assoc String.eqb ("ktg_" ++ name)%string initial_transitions = Some a.
Proof. exact same_transitions. Qed.
Print Assumptions C55_same_transitions.
Theorem C55_stored_tables : forall name l, In (name, l) (initial_profiles ++ initial_transitions) -> length l = 24%nat /\ Forall (fun x => is_finite x = true /\ (0 <= B2R x <= 1)%R) l.
Proof. exact stored_tables. Qed.
Print Assumptions C55_stored_tables.

(** C55: a mixture is the major half of one entry and the minor half of the other, under the two names joined; nothing else changes. *)
Theorem C55_mixture : forall (d : dict) a b (la lb : table), assoc String.eqb a d = Some la -> assoc String.eqb b d = Some lb ->
  exists d', mix d a b = (d', Some (a ++ "_" ++ b)%string) /\ assoc String.eqb (a ++ "_" ++ b)%string d' = Some (firstn 12 la ++ skipn 12 lb) /\
  forall n, n <> (a ++ "_" ++ b)%string -> assoc String.eqb n d' = assoc String.eqb n d.
Proof. exact mix_known. Qed.
Print Assumptions C55_mixture.
Theorem C55_no_mixture : forall (d : dict) a b, assoc String.eqb a d = None \/ assoc String.eqb b d = None -> mix d a b = (d, None).
Proof. exact mix_unknown. Qed.
Print Assumptions C55_no_mixture.
Example C55_mixture_case : snd (mix initial_profiles "sapp" "temperley") = Some "sapp_temperley"%string /\ snd (mix initial_profiles "sapp" "nobody") = None.
Proof. split; reflexivity. Qed.

(** C55: the warning about a sum fires for sums that are clearly too small, and for no sum from 0.99 to 2. *)
Theorem C55_warning_when_too_small : forall s : b64, is_finite s = true -> (Rabs (B2R s) <= 989 / 1000)%R -> sum_warning s = true.
Proof. exact warning_below. Qed.
Print Assumptions C55_warning_when_too_small.
Theorem C55_no_warning_from_99_percent : forall s : b64, is_finite s = true -> (B2R (py_float 1) - B2R (dec 1 2) <= Rabs (B2R s) <= 2)%R -> sum_warning s = false.
Proof. exact no_warning_from_99. Qed.
Print Assumptions C55_no_warning_from_99_percent.
(** C55, refuted: a sum that is off by more than 0.01 is reported. *)
Theorem C55_every_bad_sum_reported_refuted : exists s : b64, is_finite s = true /\ B2R s = 2%R /\ sum_warning s = false.
Proof. exact too_large_unreported. Qed.
Print Assumptions C55_every_bad_sum_reported_refuted.
