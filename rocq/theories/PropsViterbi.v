(** Property theorems C14-C21: the Viterbi procedure on any model object. *)
From Coq Require Import Reals Lia Permutation.
From Flocq Require Import Core.Core IEEE754.BinarySingleNaN.
From Verif Require Import Base BaseFacts Fp FpFacts Key Hmm MusicSpec ViterbiSpec HmmSpec HmmFacts HmmOrder LogFacts HmmAccuracy HmmCheck.
Open Scope Z_scope.

(** ** A concrete model: three states (C, G, a), three pitch classes *)
Definition quarter : b64 := rat64 1 4. Definition half : b64 := rat64 1 2.
Definition sample (obs : list Z) : hmm :=
  mkHmm HIDDENMARKOVMODEL_UNINITIALIZED obs [0; 7; 21] [(0, half); (7, quarter); (21, quarter)]
    [(0, [(0, half); (7, quarter); (21, quarter)]); (7, [(0, quarter); (7, half); (21, rat64 1 8)]); (21, [(0, quarter); (21, half)])]
    [(0, [(0, half); (2, rat64 1 16); (4, quarter)]); (7, [(0, rat64 1 8); (2, half)]); (21, [(4, quarter); (9, half)])]
    None [] [].
Definition in_order (l : layer b64) : list (Z * node b64) := l.
Lemma in_order_ok : iteration_order in_order. Proof. intros l. apply Permutation_refl. Qed.
Lemma sample_proper obs : incl obs [0; 2; 4; 9; 11] -> proper (sample obs) /\ no_underflow (sample obs).
Proof. intros H. apply (proper_b_correct [0; 7; 21] [0; 2; 4; 9; 11]); [vm_compute; reflexivity|reflexivity|exact H]. Qed.
(** What a run shows: keys, maximum and vector entries (as mantissa/exponent triples). *)
Definition shown (r : outcome hmm) : option (list (option Z) * option SpecFloat.spec_float * list SpecFloat.spec_float) :=
  match r with
  | Ret h => Some (map kint (h_keys h), option_map B2SF (h_maxprob h), map (fun s => B2SF (prob_entry h s)) [0; 1; 7; 21])
  | _ => None
  end.
Definition quarters (n : Z) : SpecFloat.spec_float := B2SF (rat64 n 4).

(** C14: one key of the model per observation, whatever the numbers and whatever [log10] does. *)
Theorem C14_one_key_per_observation : forall log10 iter, iteration_order iter -> forall h h',
  h_keys h = [] -> h_obs h <> [] -> run_viterbi log10 iter h = Ret h' ->
  exists path, h_keys h' = map key_of_int path /\ is_path (h_states h) (h_obs h) path /\ Forall is_key path /\
               h_status h' = HIDDENMARKOVMODEL_VITERBI_READY.
Proof. exact C14_proof. Qed.
Print Assumptions C14_one_key_per_observation.
(** C, D, D, A: stay in C, move to G, stay, move to a. *)
Example C14_case : shown (run_viterbi toy_log10 in_order (sample [0; 2; 2; 9])) =
  Some ([Some 0; Some 7; Some 7; Some 21], Some (quarters (-11)), [SpecFloat.S754_infinity true; B2SF fzero; SpecFloat.S754_infinity true; quarters (-11)]).
Proof. vm_compute. reflexivity. Qed.

(** C15: no path scores higher than the returned one, in double-precision arithmetic. *)
Theorem C15_optimal : forall log10 iter, iteration_order iter -> log10_ok log10 -> forall h h',
  h_keys h = [] -> h_obs h <> [] -> proper h -> run_viterbi log10 iter h = Ret h' ->
  exists path, h_keys h' = map key_of_int path /\ best_path fgt (hscore log10 h) (h_states h) (h_obs h) path.
Proof. exact C15_proof. Qed.
Print Assumptions C15_optimal.
Example C15_case : proper (sample [0; 2; 2; 9]) /\ log10_ok toy_log10 /\ iteration_order in_order /\
  fgt (hscore toy_log10 (sample [0; 2; 2; 9]) [0; 7; 7; 21]) (hscore toy_log10 (sample [0; 2; 2; 9]) [0; 0; 0; 21]) = true.
Proof. split; [apply sample_proper; intros x; cbn; intuition|]. split; [exact toy_log10_ok|]. split; [exact in_order_ok|]. vm_compute. reflexivity. Qed.

(** C16: the reported numbers. *)
Theorem C16_maximum_is_path_score : forall log10 iter, iteration_order iter -> forall h h',
  h_keys h = [] -> h_obs h <> [] -> run_viterbi log10 iter h = Ret h' ->
  exists path last, h_keys h' = map key_of_int path /\ is_path (h_states h) (h_obs h) path /\ ends_in path last /\
    h_maxprob h' = Some (hscore log10 h path) /\ prob_entry h' last = hscore log10 h path /\
    fgt (hscore log10 h path) fninf = true /\ length (h_probs h') = 24%nat /\
    forall s, is_key s -> ~ In s (h_states h) -> prob_entry h' s = fzero.
Proof. exact C16_score_proof. Qed.
Print Assumptions C16_maximum_is_path_score.
Theorem C16_vector : forall log10 iter, iteration_order iter -> log10_ok log10 -> forall h h',
  h_obs h <> [] -> proper h -> run_viterbi log10 iter h = Ret h' ->
  forall s, In s (h_states h) ->
    (exists path, is_path (h_states h) (h_obs h) path /\ ends_in path s /\ hscore log10 h path = prob_entry h' s) /\
    (forall path, is_path (h_states h) (h_obs h) path -> ends_in path s -> fgt (hscore log10 h path) (prob_entry h' s) = false) /\
    (forall mp, h_maxprob h' = Some mp -> fgt (prob_entry h' s) mp = false).
Proof. exact C16_vector_proof. Qed.
Print Assumptions C16_vector.
Example C16_case : shown (run_viterbi toy_log10 in_order (sample [0; 4; 2])) =
  Some ([Some 0; Some 0; Some 7], Some (quarters (-8)), [quarters (-10); B2SF fzero; quarters (-8); SpecFloat.S754_infinity true]).
Proof. vm_compute. reflexivity. Qed.

(** C17: iteration order of the hash table. *)
Theorem C17_order_independent : forall log10, log10_ok log10 -> forall iter1 iter2 h h1,
  iteration_order iter1 -> iteration_order iter2 -> h_obs h <> [] -> proper h -> run_viterbi log10 iter1 h = Ret h1 ->
  exists h2, run_viterbi log10 iter2 h = Ret h2 /\ h_maxprob h2 = h_maxprob h1 /\ h_probs h2 = h_probs h1 /\
    ((forall s t, In s (h_states h) -> In t (h_states h) -> Some (prob_entry h1 s) = h_maxprob h1 ->
                  Some (prob_entry h1 t) = h_maxprob h1 -> s = t) -> h_keys h2 = h_keys h1).
Proof. exact C17_same_proof. Qed.
Print Assumptions C17_order_independent.
Theorem C17_every_tied_state_possible : forall log10, log10_ok log10 -> forall iter h h1,
  iteration_order iter -> h_keys h = [] -> h_obs h <> [] -> proper h -> run_viterbi log10 iter h = Ret h1 ->
  forall s, In s (h_states h) -> Some (prob_entry h1 s) = h_maxprob h1 ->
  exists iter' h' path, iteration_order iter' /\ run_viterbi log10 iter' h = Ret h' /\
    h_keys h' = map key_of_int path /\ ends_in path s.
Proof. exact C17_tie_proof. Qed.
Print Assumptions C17_every_tied_state_possible.
(** With a uniform start, one observed E ties C and a, and the order decides; without a tie it does not matter. *)
Definition reversed (l : layer b64) : list (Z * node b64) := rev l.
Lemma reversed_ok : iteration_order reversed. Proof. intros l. apply Permutation_sym, Permutation_rev. Qed.
Definition uniform (obs : list Z) : hmm :=
  let h := sample obs in mkHmm (h_status h) obs (h_states h) [(0, quarter); (7, quarter); (21, quarter)] (h_transitions h) (h_emissions h) None [] [].
Example C17_case : shown (run_viterbi toy_log10 reversed (sample [0; 4; 2])) = shown (run_viterbi toy_log10 in_order (sample [0; 4; 2])) /\
  shown (run_viterbi toy_log10 in_order (uniform [4])) = Some ([Some 0], Some (quarters (-4)), [quarters (-4); B2SF fzero; SpecFloat.S754_infinity true; quarters (-4)]) /\
  shown (run_viterbi toy_log10 reversed (uniform [4])) = Some ([Some 21], Some (quarters (-4)), [quarters (-4); B2SF fzero; SpecFloat.S754_infinity true; quarters (-4)]).
Proof. vm_compute. repeat split. Qed.

(** C18: the returned path is nearly the most probable one in exact arithmetic. [drift n = n 2^-42 + n^2 2^-44]. *)
Theorem C18_nearly_most_probable : forall log10, log10_ok log10 -> log10_accurate log10 -> forall iter h h',
  iteration_order iter -> h_keys h = [] -> h_obs h <> [] -> proper h -> no_underflow h ->
  Z.of_nat (length (h_obs h)) < 2 ^ 53 -> run_viterbi log10 iter h = Ret h' ->
  exists path, h_keys h' = map key_of_int path /\ is_path (h_states h) (h_obs h) path /\ (0 < exact_prob h path)%R /\
    forall q, is_path (h_states h) (h_obs h) q ->
      (exact_prob h q <= exact_prob h path * Rpower 10 (2 * drift (INR (length (h_obs h)))))%R.
Proof. exact C18_proof. Qed.
Print Assumptions C18_nearly_most_probable.
(** The assumptions on [log10] are met by the correctly rounded logarithm, those on the model by the sample. *)
Example C18_case : log10_ok cr_log10 /\ log10_accurate cr_log10 /\ proper (sample [0; 2; 2; 9]) /\ no_underflow (sample [0; 2; 2; 9]) /\
  exists h', run_viterbi cr_log10 in_order (sample [0; 2; 2; 9]) = Ret h'.
Proof.
  assert (P : proper (sample [0; 2; 2; 9]) /\ no_underflow (sample [0; 2; 2; 9])) by (apply sample_proper; intros x; cbn; intuition).
  split; [exact cr_log10_ok|]. split; [exact cr_log10_accurate|]. split; [apply P|]. split; [apply P|].
  apply (C21_proof cr_log10 in_order in_order_ok cr_log10_ok); [discriminate|apply P|].
  apply (C21_proof toy_log10 in_order in_order_ok toy_log10_ok); [discriminate|apply P|].
  destruct (run_viterbi toy_log10 in_order (sample [0; 2; 2; 9])) as [h'| |] eqn:E; [now exists h'| |]; exfalso;
  apply (f_equal shown) in E; rewrite C14_case in E; discriminate.
Qed.

(** C19: no observations. *)
Theorem C19_no_observations : forall log10 iter h, h_obs h = [] -> run_viterbi log10 iter h = Undef OutOfBounds.
Proof. exact C19_proof. Qed.
Print Assumptions C19_no_observations.
Example C19_case : run_viterbi toy_log10 in_order (sample []) = Undef OutOfBounds.
Proof. reflexivity. Qed.

(** C20: repeated runs on one object. *)
Theorem C20_runs_accumulate : forall log10 iter, iteration_order iter -> forall h h1,
  h_keys h = [] -> h_obs h <> [] -> run_viterbi log10 iter h = Ret h1 ->
  forall m, exists hm, runs log10 iter (S m) h = Ret hm /\
    h_maxprob hm = h_maxprob h1 /\ h_probs hm = h_probs h1 /\
    h_keys hm = repeated_keys (h_keys h1) (S m) /\
    length (h_keys hm) = (S m * length (h_obs h))%nat /\ h_obs hm = h_obs h.
Proof. exact C20_proof. Qed.
Print Assumptions C20_runs_accumulate.
(** The expectation "running again gives the same key sequence" is false on every model. *)
Theorem C20_rerun_same_keys_refuted : forall log10 iter, iteration_order iter -> forall h h1 h2,
  h_keys h = [] -> h_obs h <> [] -> run_viterbi log10 iter h = Ret h1 -> run_viterbi log10 iter h1 = Ret h2 ->
  h_keys h2 = h_keys h1 ++ rev (h_keys h1) /\ h_keys h2 <> h_keys h1.
Proof. exact C20_differs_proof. Qed.
Print Assumptions C20_rerun_same_keys_refuted.
Example C20_case : option_map (fun r => fst (fst r)) (shown (runs toy_log10 in_order 3 (sample [0; 4; 2]))) =
  Some (map Some [0; 0; 7; 0; 0; 7; 7; 0; 0]).
Proof. vm_compute. reflexivity. Qed.

(** C21: when the procedure completes. *)
Theorem C21_outcomes : forall log10 iter, iteration_order iter -> forall h,
  h_obs h <> [] -> Forall is_key (h_states h) ->
  (exists h', run_viterbi log10 iter h = Ret h') \/ run_viterbi log10 iter h = Throws StdOutOfRange.
Proof. exact C21_cases_proof. Qed.
Print Assumptions C21_outcomes.
Theorem C21_completes_iff : forall log10 iter, iteration_order iter -> log10_ok log10 -> forall h, h_obs h <> [] -> proper h ->
  ((exists h', run_viterbi log10 iter h = Ret h') <-> exists path, is_path (h_states h) (h_obs h) path /\ positive_path h path) /\
  (run_viterbi log10 iter h = Throws StdOutOfRange <-> forall path, is_path (h_states h) (h_obs h) path -> ~ positive_path h path).
Proof. exact C21_proof. Qed.
Print Assumptions C21_completes_iff.
(** Pitch class 11 cannot be emitted by any of the three states. *)
Example C21_case : run_viterbi toy_log10 in_order (sample [0; 11; 2]) = Throws StdOutOfRange /\
  proper (sample [0; 11; 2]).
Proof. split; [vm_compute; reflexivity|]. apply sample_proper. intros x; cbn; intuition. Qed.
