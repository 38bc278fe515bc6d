(** Model of the detection part of [main] (src/justkeydding.cc:189-242): two models in a row. Definitions only. *)
From Verif Require Import Base Fp Key PitchClass KeyProfile KeyTransition Hmm.

(** src/justkeydding.cc:48-59, 92-141, the six variables that select the tables (set from the command line). *)
Record tables := mkTables {
  tb_major : string; tb_minor : string; tb_major_custom : profile_array; tb_minor_custom : profile_array;
  tb_transition : string; tb_transition_custom : transition_array }.

(** src/justkeydding.cc:193-199, initialProbabilities. *)
Definition main_initial : table1 b64 :=
  let symmetrical := fst (get_transition_array (keytransition_new1 "symmetrical")) in
  map (fun k => (k, znth fzero symmetrical k)) (zseq 24).
(** src/justkeydding.cc:201-204, transitionProbabilities. *)
Definition main_transitions (tb : tables) : table2 b64 :=
  fst (get_transition_map (keytransition_new2 (tb_transition tb) (tb_transition_custom tb))).
(** src/justkeydding.cc:206-211, emissionProbabilities. *)
Definition main_emissions (tb : tables) : table2 b64 :=
  fst (get_profile_map (keyprofile_new4 (tb_major tb) (tb_minor tb) (tb_major_custom tb) (tb_minor_custom tb))).

(** src/justkeydding.cc:214-219, the first model. *)
Definition first_model (tb : tables) (pcs : list pitchclass) : outcome hmm :=
  hmm_of_pcs pcs all_keys main_initial (main_transitions tb) (main_emissions tb).
(** src/justkeydding.cc:231-238, the second model: the same states and start, transitions from "zero", emissions from
    the transition map of the first model. *)
Definition second_model (tb : tables) (keys : list key) : outcome hmm :=
  hmm_of_keys keys all_keys main_initial (fst (get_transition_map (keytransition_new1 "zero"))) (main_transitions tb).

(** src/justkeydding.cc:189-242: both models after their runs, and mainKey. The status test of lines 221-226 never fires
    because runViterbi sets VITERBI_READY whenever it returns. [front()] of an empty sequence is undefined. *)
Definition detect (log10 : b64 -> b64) (iter1 iter2 : layer b64 -> list (Z * node b64)) (tb : tables)
    (pcs : list pitchclass) : outcome (hmm * hmm * key) :=
  do m1 <- first_model tb pcs;
  do h1 <- run_viterbi log10 iter1 m1;
  do m2 <- second_model tb (h_keys h1);
  do h2 <- run_viterbi log10 iter2 m2;
  match h_keys h2 with
  | [] => Undef OutOfBounds
  | k :: _ => Ret (h1, h2, k)
  end.
