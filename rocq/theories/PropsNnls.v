(** Property theorems C53: ViterbiPath of the chroma plug-in and its use for chords. *)
From Coq Require Import Reals Lra Lia.
From Flocq Require Import Core.Core IEEE754.BinarySingleNaN.
From Verif Require Import Base BaseFacts Fp FpFacts NumFacts FloatKit StlFacts NnlsViterbi NnlsViterbiSpec NnlsViterbiFacts.
Open Scope R_scope.

(** For any doubles, not-a-number included: one state per frame, all of them states, and complete rows. *)
Theorem C53_one_state_per_frame : forall init trans obs, (1 <= length init)%nat -> length trans = length init -> rows_of (length init) trans -> obs <> [] -> rows_of (length init) obs ->
  exists r, viterbi_path64 init trans obs = Ret r /\ state_sequence (length init) (length obs) (v_states r) /\ length (v_delta r) = length obs /\ rows_of (length init) (v_delta r) /\ length (v_scale r) = length obs.
Proof. exact (C53_states_proof _ _ _ _ _ _ _). Qed.
Print Assumptions C53_one_state_per_frame.
(** In exact arithmetic the path is a heaviest one, restarts included. *)
Theorem C53_path_is_heaviest : forall init trans obs, (1 <= length init)%nat -> length trans = length init -> rows_of (length init) trans -> obs <> [] -> rows_of (length init) obs ->
  nonneg_row init -> Forall nonneg_row trans -> Forall nonneg_row obs ->
  exists r, viterbi_pathR init trans obs = Ret r /\ state_sequence (length init) (length obs) (v_states r) /\ forall q, state_sequence (length init) (length obs) q -> exact_weight init trans obs q <= exact_weight init trans obs (v_states r).
Proof. exact C53_best_real_proof. Qed.
Print Assumptions C53_path_is_heaviest.
(** In doubles: as long as no frame had to be restarted, the path is heaviest for the weights as computed. *)
Theorem C53_path_is_heaviest_in_doubles : forall init trans obs, (1 <= length init)%nat -> (Z.of_nat (length init) <= 2 ^ 50)%Z -> length trans = length init -> rows_of (length init) trans -> obs <> [] -> rows_of (length init) obs ->
  unit_row init -> Forall unit_row trans -> Forall unit_row obs ->
  exists r, viterbi_path64 init trans obs = Ret r /\ state_sequence (length init) (length obs) (v_states r) /\ (Forall (fun s => 0 < B2R s) (v_sums r) -> forall q, state_sequence (length init) (length obs) q ->
    B2R (scaled_weight fzero fmul (Bdiv mode_NE) init trans obs (v_sums r) q) <= B2R (scaled_weight fzero fmul (Bdiv mode_NE) init trans obs (v_sums r) (v_states r))).
Proof. exact C53_best_proof. Qed.
Print Assumptions C53_path_is_heaviest_in_doubles.
(** No transition rows, no frames, or a short frame are not rejected: memory outside them is read. These reads happen on every such input;
    a short transition row is read past its end only when a later frame has a positive observation, so it is left out here. *)
Theorem C53_short_input_is_undefined : forall init trans obs, (1 <= length init)%nat -> trans = [] \/ obs = [] \/ Exists (fun r => (length r < length init)%nat) obs ->
  viterbi_path64 init trans obs = Undef OutOfBounds.
Proof. exact (C53_short_proof _ _ _ _ _ _ _). Qed.
Print Assumptions C53_short_input_is_undefined.
(** Whatever was heard, the first chord is "no chord". *)
Theorem C53_first_chord_is_no_chord : forall n obs, (1 <= n)%nat -> obs <> [] -> rows_of n obs ->
  exists r, chord_path n obs = Ret r /\ state_sequence n (length obs) (v_states r) /\ hd O (v_states r) = (n - 1)%nat.
Proof. exact C53_first_proof. Qed.
Print Assumptions C53_first_chord_is_no_chord.

(** Three chords: the first is strong in every frame, yet the path begins with the last and then changes to it. *)
Definition loud : list b64 := [rat64 98 100; rat64 1 100; rat64 1 100].
Example C53_chords : exists r, chord_path 3 [loud; loud; loud; loud] = Ret r /\ v_states r = [2; 0; 0; 0]%nat.
Proof. eexists. split; [reflexivity|]. vm_compute. reflexivity. Qed.
Example C53_positive_sums : exists r, chord_path 3 [loud; loud; loud; loud] = Ret r /\ forallb (fun s => fgt s fzero) (v_sums r) = true.
Proof. eexists. split; [reflexivity|]. vm_compute. reflexivity. Qed.
(** A restart: nothing has weight in the second frame. *)
Example C53_restart : exists r, viterbi_path64 [rat64 1 1; fzero] [[rat64 1 1; fzero]; [fzero; rat64 1 1]] [[rat64 1 1; rat64 1 1]; [fzero; rat64 1 1]; [rat64 1 2; rat64 1 1]] = Ret r /\ v_states r = [1; 1; 1]%nat.
Proof. eexists. split; [reflexivity|]. vm_compute. reflexivity. Qed.
Example C53_short_case : viterbi_path64 [rat64 1 1] [[rat64 1 1]] [[rat64 1 1]; []] = Undef OutOfBounds.
Proof. reflexivity. Qed.
Example C53_real_case : nonneg_row [1; 0] /\ Forall nonneg_row [[1; 0]; [/ 2; / 2]] /\ exact_weight [1; 0] [[1; 0]; [/ 2; / 2]] [[1; 1]; [1; 1]] [0; 0]%nat = 1.
Proof. split; [|split]; [repeat (apply Forall_cons || apply Forall_nil); lra|repeat (apply Forall_cons || apply Forall_nil); lra|cbn; lra]. Qed.
