(** Common vocabulary of the model: outcomes of C++ calls and small list helpers. Definitions only. *)
From Coq Require Export String Ascii ZArith Bool List.
Export ListNotations.
Open Scope Z_scope.

(** Why a C++ execution has no defined meaning. *)
Inductive ub :=
| UninitRead          (* an indeterminate value is used *)
| OutOfBounds         (* element access or iterator outside a container *)
| EndDeref            (* the end iterator is dereferenced *)
| SignedOverflow      (* signed integer overflow *)
| FloatCast           (* float-to-int conversion of an unrepresentable value *)
| MissingReturn       (* control reaches the end of a non-void function *)
| BadOrder.           (* an ordered container is keyed by a value the order does not order (NaN) *)

(** Which standard exception leaves a call. *)
Inductive exn := StdOutOfRange | StdInvalidArgument.

(** Result of a C++ call: a value, an exception, or no defined meaning. *)
Inductive outcome (A : Type) :=
| Ret (a : A)
| Throws (e : exn)
| Undef (u : ub).
Arguments Ret {A} _. Arguments Throws {A} _. Arguments Undef {A} _.

(** Sequencing: the second call happens only if the first one returned. *)
Definition bind {A B} (x : outcome A) (f : A -> outcome B) : outcome B :=
  match x with Ret a => f a | Throws e => Throws e | Undef u => Undef u end.
Notation "'do' x <- c ; k" := (bind c (fun x => k)) (at level 200, x pattern, c at level 100, k at level 200, right associativity).

(** Use of an [int] variable that may never have been assigned. *)
Definition read_int (v : option Z) : outcome Z :=
  match v with Some z => Ret z | None => Undef UninitRead end.

(** [zseq n] = 0, 1, ..., n-1 as integers (index loops [for (int i = 0; i < n; i++)]). *)
Definition zseq (n : nat) : list Z := map Z.of_nat (seq 0 n).

(** [l[i]] with a default; every use in the model is guarded or in range (see the facts about it). *)
Definition znth {A} (d : A) (l : list A) (i : Z) : A := nth (Z.to_nat i) l d.

(** Association lists as [std::map]/[std::unordered_map]: lookup and [m[k] = v]. *)
Fixpoint assoc {K V} (eqb : K -> K -> bool) (k : K) (m : list (K * V)) : option V :=
  match m with
  | [] => None
  | (k', v) :: m' => if eqb k k' then Some v else assoc eqb k m'
  end.
Fixpoint assign {K V} (eqb : K -> K -> bool) (k : K) (v : V) (m : list (K * V)) : list (K * V) :=
  match m with
  | [] => [(k, v)]
  | (k', v') :: m' => if eqb k k' then (k', v) :: m' else (k', v') :: assign eqb k v m'
  end.

(** [std::rotate(first, first + k, last)] on a whole array: left rotation by k (also [std::rotate_copy]). *)
Definition rotate {A} (k : nat) (l : list A) : list A := skipn k l ++ firstn k l.
