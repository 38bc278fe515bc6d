(** Vocabulary for properties of a hidden Markov model object: its probabilities and the score of a key path. *)
From Coq Require Import Reals Permutation.
From Flocq Require Import IEEE754.BinarySingleNaN.
From Verif Require Import Base Fp Hmm ViterbiSpec MusicSpec.
Open Scope Z_scope.

(** The probabilities an object was given; what was not given counts as 0. *)
Definition prob_initial (h : hmm) (s : Z) : b64 := at1 b64 fzero (h_initial h) s.
Definition prob_transition (h : hmm) (a b : Z) : b64 := at2 b64 fzero (h_transitions h) a b.
Definition prob_emission (h : hmm) (s o : Z) : b64 := at2 b64 fzero (h_emissions h) s o.

(** Score of a path: double-precision logarithms of double-precision products, summed from left to right. *)
Definition hscore (log10 : b64 -> b64) (h : hmm) (path : list Z) : b64 :=
  path_score fadd (fun s o => log10 (fmul (prob_initial h s) (prob_emission h s o)))
                  (fun p s o => log10 (fmul (prob_transition h p s) (prob_emission h s o))) fninf path (h_obs h).

(** A proper model: the states are keys, the probabilities are finite and not negative, and no product of two of
    them overflows. They need not sum to one. *)
Definition probability (x : b64) : Prop := is_finite x = true /\ (0 <= B2R x)%R.
Definition proper (h : hmm) : Prop :=
  Forall is_key (h_states h) /\
  forall s o, In s (h_states h) -> In o (h_obs h) ->
    probability (prob_emission h s o) /\ probability (prob_initial h s) /\
    is_finite (fmul (prob_initial h s) (prob_emission h s o)) = true /\
    forall p, In p (h_states h) -> probability (prob_transition h p s) /\
                                   is_finite (fmul (prob_transition h p s) (prob_emission h s o)) = true.

(** Every step of the path has positive probability (as computed in double precision). *)
Fixpoint steps_positive (h : hmm) (prev : Z) (path obs : list Z) : Prop :=
  match path, obs with
  | s :: path', o :: obs' =>
      (0 < B2R (fmul (prob_transition h prev s) (prob_emission h s o)))%R /\ steps_positive h s path' obs'
  | _, _ => True
  end.
Definition positive_path (h : hmm) (path : list Z) : Prop :=
  match path, h_obs h with
  | s :: path', o :: obs' =>
      (0 < B2R (fmul (prob_initial h s) (prob_emission h s o)))%R /\ steps_positive h s path' obs'
  | _, _ => True
  end.

(** An iteration order of the hash table: any rearrangement of the entries. *)
Definition iteration_order (iter : layer b64 -> list (Z * node b64)) : Prop := forall l, Permutation (iter l) l.

(** Entry [s] of the vector returned by getProbabilityVector. *)
Definition prob_entry (h : hmm) (s : Z) : b64 := znth fzero (h_probs h) s.

(** [m] runs on the same object. *)
Fixpoint runs (log10 : b64 -> b64) (iter : layer b64 -> list (Z * node b64)) (m : nat) (h : hmm) : outcome hmm :=
  match m with O => Ret h | S m' => do h' <- runs log10 iter m' h; run_viterbi log10 iter h' end.

(** Exact probability of a path: the product, in real numbers, of the probabilities in the tables. *)
Fixpoint exact_steps (h : hmm) (prev : Z) (path obs : list Z) : R :=
  match path, obs with
  | s :: path', o :: obs' =>
      (B2R (prob_transition h prev s) * B2R (prob_emission h s o) * exact_steps h s path' obs')%R
  | _, _ => 1%R
  end.
Definition exact_prob (h : hmm) (path : list Z) : R :=
  match path, h_obs h with
  | s :: path', o :: obs' => (B2R (prob_initial h s) * B2R (prob_emission h s o) * exact_steps h s path' obs')%R
  | _, _ => 1%R
  end.
(** No product of two table entries is so small that it loses precision: it is 0 or at least 2^-1022. *)
Definition no_underflow (h : hmm) : Prop :=
  let fine x := x = 0%R \/ (/ 2 ^ 1022 <= x)%R in
  forall s o, In s (h_states h) -> In o (h_obs h) ->
    fine (B2R (prob_initial h s) * B2R (prob_emission h s o))%R /\
    forall p, In p (h_states h) -> fine (B2R (prob_transition h p s) * B2R (prob_emission h s o))%R.
