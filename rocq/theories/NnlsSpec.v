(** What a non-negative least squares problem is, and what its solution is. *)
From Coq Require Import Reals List.
Open Scope R_scope.

(** f 0 + ... + f (k - 1). *)
Fixpoint total (k : nat) (f : nat -> R) : R := match k with O => 0 | S k' => total k' f + f k' end.
(** A y - b, row by row. *)
Definition residual (n : nat) (A : nat -> nat -> R) (b y : nat -> R) (row : nat) : R := total n (fun j => A row j * y j) - b row.
Definition squared_length (m : nat) (r : nat -> R) : R := total m (fun l => r l * r l).
Definition nonnegative (n : nat) (y : nat -> R) : Prop := forall j, (j < n)%nat -> 0 <= y j.
(** x is at least 0, and no y that is at least 0 has a smaller residual. *)
Definition best (m n : nat) (A : nat -> nat -> R) (b x : nat -> R) : Prop :=
  nonnegative n x /\ forall y, nonnegative n y -> squared_length m (residual n A b x) <= squared_length m (residual n A b y).
(** Matrices are stored column by column, [mda] numbers apart. *)
Definition stored (mda : nat) (a : list R) (row j : nat) : R := nth (j * mda + row) a 0.
