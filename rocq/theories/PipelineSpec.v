(** Vocabulary for properties of the whole detection. *)
From Coq Require Import Reals.
From Flocq Require Import Core.Core IEEE754.BinarySingleNaN.
From Verif Require Import Base Fp Hmm KeyProfile KeyTransition Pipeline MusicSpec ProfileFacts TransitionFacts.
Open Scope Z_scope.

(** Notes: pitch classes 0..11. *)
Definition is_note (p : Z) : Prop := 0 <= p < 12.

(** Usable probabilities: finite, not negative, at most 2^500; clear of underflow: zero or at least 2^-500. *)
Definition usable (l : list b64) : Prop :=
  Forall (fun x => is_finite x = true /\ (0 <= B2R x <= bpow radix2 500)%R) l.
Definition clear (l : list b64) : Prop := Forall (fun x => B2R x = 0%R \/ (bpow radix2 (-500) <= B2R x)%R) l.
Definition positive (x : b64) : Prop := (0 < B2R x)%R.

(** The arrays a selection of tables stands for: major and minor profile and transition array. *)
Record selects (tb : tables) (A B T : list b64) : Prop := {
  sel_A : chosen builtin_major (tb_major tb) (tb_major_custom tb) = Some A;
  sel_B : chosen builtin_minor (tb_minor tb) (tb_minor_custom tb) = Some B;
  sel_T : chosen_transition (tb_transition tb) (tb_transition_custom tb) = Some T;
  sel_lengths : length (tb_major_custom tb) = 12%nat /\ length (tb_minor_custom tb) = 12%nat /\
                length (tb_transition_custom tb) = 24%nat }.

(** Score of a key given the local keys: the logarithms of how likely the key leads to each of them, the first divided
    by the number of keys, added from left to right. *)
Definition global_score (log10 : b64 -> b64) (T : list b64) (locals : list Z) (J : Z) : b64 :=
  match locals with
  | [] => fninf
  | k0 :: ks => fold_left (fun acc k => fadd acc (log10 (transition T J k))) ks
                  (log10 (fmul (rat64 1 24) (transition T J k0)))
  end.

(** A hash table whose iteration order depends on the stored keys only, not on the stored values. *)
Definition key_order (iter : layer b64 -> list (Z * node b64)) : Prop :=
  exists order : list Z -> list Z, forall l,
    map fst (iter l) = order (map fst l).
