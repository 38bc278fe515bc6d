(** Property theorems C69-C71: nnls(), non-negative least squares. *)
From Coq Require Import Reals Lra Lia.
From Flocq Require Import Core.Core IEEE754.BinarySingleNaN.
From Verif Require Import Base BaseFacts Fp Nnls NnlsArith NnlsSpec NnlsVisited NnlsSums NnlsMain NnlsSingle NnlsEnds NnlsCases.
Open Scope Z_scope.

(** For any floats, infinities and not-a-number included, and any earlier contents of the working arrays: the call ends after at most (3n+2)(n+10) jumps, touches nothing outside its
    arrays, reads nothing indeterminate, sets all of x, and sets mode to 1 or 3. *)
Theorem C69_always_ends : forall (mda m n : nat) (a b : list b32) (x w zz : array b32) (index : array Z) (fuel : nat),
  (0 < m <= mda)%nat -> (0 < n)%nat -> (mda * n <= length a)%nat -> (m <= length b)%nat ->
  Z.of_nat n <= size x -> Z.of_nat n <= size w -> Z.of_nat m <= size zz -> Z.of_nat n <= size index -> ((3 * n + 2) * (n + 10) <= fuel)%nat ->
  exists r y, nnls (A := single) (of_list a) (Z.of_nat mda) (Z.of_nat m) (Z.of_nat n) (of_list b) x w zz index fuel = Some (Ret r) /\
    (forall j, (j < n)%nat -> cell (r_x r) (Z.of_nat j) = Some (y j)) /\ (r_mode r = 1 \/ r_mode r = 3).
Proof. exact (nnls_ends single_lawful). Qed.
Print Assumptions C69_always_ends.
(** No rows or no columns: mode is 2, and nothing else is set, the norm included. *)
Theorem C69_empty_problem : forall (a b x w zz : array b32) index mda m n fuel, m <= 0 \/ n <= 0 -> nnls (A := single) a mda m n b x w zz index fuel = Some (Ret (mkRes (A := single) 2 x None w a b)).
Proof. exact (@nnls_empty single). Qed.
Print Assumptions C69_empty_problem.
(** Working arrays that are too short are written past their ends. *)
Theorem C69_short_arrays_undefined : forall (a b x w zz : array b32) index mda m n fuel, 0 < m -> 0 < n -> size x < n \/ size index < n -> nnls (A := single) a mda m n b x w zz index fuel = Some (Undef OutOfBounds).
Proof. exact (@nnls_short single). Qed.
Print Assumptions C69_short_arrays_undefined.
(** Columns (1, 0) and (1, 1), b = (2, 3): 3 of the second column would need -1 of the first; the answer is 0 and 5/2, the norm is the float next to the root of 1/2. *)
Example C69_square_case : shown (square [rat32 1 1; rat32 0 1; rat32 1 1; rat32 1 1] [rat32 2 1; rat32 3 1]) =
  Some (1, [Some (B2SF (rat32 0 1)); Some (B2SF (rat32 5 2))], Some (B2SF (rat32 11863284 (2 ^ 24)))).
Proof. vm_compute. reflexivity. Qed.
Print Assumptions C69_square_case.

(** In exact arithmetic the answer is at least 0; if mode is 1, then no other vector that is at least 0 has a smaller residual, and the norm is that of the residual. *)
Theorem C70_solves_the_problem : forall (mda m n : nat) (a b : list R) (x w zz : array R) (index : array Z) (fuel : nat),
  (0 < m <= mda)%nat -> (0 < n)%nat -> (mda * n <= length a)%nat -> (m <= length b)%nat ->
  Z.of_nat n <= size x -> Z.of_nat n <= size w -> Z.of_nat m <= size zz -> Z.of_nat n <= size index -> ((3 * n + 2) * (n + 10) <= fuel)%nat ->
  exists r y, nnls (A := exact) (of_list a) (Z.of_nat mda) (Z.of_nat m) (Z.of_nat n) (of_list b) x w zz index fuel = Some (Ret r) /\
    (forall j, (j < n)%nat -> cell (r_x r) (Z.of_nat j) = Some (y j)) /\ nonnegative n y /\ (r_mode r = 1 \/ r_mode r = 3) /\
    (r_mode r = 1 -> best m n (stored mda a) (fun l => nth l b 0%R) y /\ r_norm r = Some (sqrt (squared_length m (residual n (stored mda a) (fun l => nth l b 0%R) y)))).
Proof. exact nnls_best. Qed.
Print Assumptions C70_solves_the_problem.
(** The column (2) and b = (4): mode is 1, and x is 4/2. *)
Example C70_small_case : exists r, nnls (A := exact) (of_list [2%R]) 1 1 1 (of_list [4%R]) (fresh 1) (fresh 1) (fresh 1) (fresh 1) 55 = Some (Ret r) /\ r_mode r = 1 /\ cell (r_x r) 0 = Some (4 / 2)%R.
Proof. exact small_run. Qed.
Print Assumptions C70_small_case.

(** In single precision the answer is not negative, as long as no intermediate x is infinite or not a number. *)
Theorem C71_not_negative_without_overflow : forall (mda m n : nat) (a b : list b32) (x w zz : array b32) (index : array Z) (fuel : nat),
  (0 < m <= mda)%nat -> (0 < n)%nat -> (mda * n <= length a)%nat -> (m <= length b)%nat ->
  Z.of_nat n <= size x -> Z.of_nat n <= size w -> Z.of_nat m <= size zz -> Z.of_nat n <= size index -> ((3 * n + 2) * (n + 10) <= fuel)%nat ->
  (forall s j, visited (A := single) (Z.of_nat mda) (Z.of_nat m) (Z.of_nat n) (of_list a) (of_list b) x w zz index L210 s -> (j < n)%nat -> exists v, cell (vx s) (Z.of_nat j) = Some v /\ is_finite v = true) ->
  exists r y, nnls (A := single) (of_list a) (Z.of_nat mda) (Z.of_nat m) (Z.of_nat n) (of_list b) x w zz index fuel = Some (Ret r) /\
    forall j, (j < n)%nat -> cell (r_x r) (Z.of_nat j) = Some (y j) /\ Bltb (y j) (B754_zero false) = false.
Proof. exact nnls_not_negative. Qed.
Print Assumptions C71_not_negative_without_overflow.
(** Columns (1, 1) and (1, 2), b = (1, 3), where the unconstrained solution has -1: no intermediate x is infinite. *)
Example C71_modest_case : exists r y, square [rat32 1 1; rat32 1 1; rat32 1 1; rat32 2 1] [rat32 1 1; rat32 3 1] = Some (Ret r) /\ forall j, (j < 2)%nat -> cell (r_x r) (Z.of_nat j) = Some (y j) /\ Bltb (y j) (B754_zero false) = false.
Proof. apply (C71_not_negative_without_overflow 2 2 2); cbn [length fresh size]; try lia. exact (start_fine _ _ modest_fine). Qed.
Print Assumptions C71_modest_case.
(** Refuted: that it is never negative. With an infinite x the ratio that would stop a coefficient at 0 is not a number, and the coefficient is -infinity in the end:
    columns (-2e-10, 2e-10) and (0, 1e-10), b = (2e29, 6e29), where all numbers are finite. *)
Theorem C71_never_negative_refuted : exists (a b : list b32) r, length a = 4%nat /\ length b = 2%nat /\ Forall (fun v => is_finite v = true) (a ++ b) /\
  nnls (A := single) (of_list a) 2 2 2 (of_list b) (fresh 2) (fresh 2) (fresh 2) (fresh 2) 96 = Some (Ret r) /\ r_mode r = 1 /\ cell (r_x r) 0 = Some (B754_infinity true).
Proof. exact C71_refuted_proof. Qed.
Print Assumptions C71_never_negative_refuted.
