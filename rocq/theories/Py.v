(** The parts of Python that the tools use. Definitions only.
    A [str] is a string of code points below 256 (one [ascii] each); integers are unbounded; a [float] is a double.
    These are library functions: the model follows the CPython 3 documentation. *)
From Coq Require Import Ascii.
From Flocq Require Import Core.Core IEEE754.BinarySingleNaN.
From Verif Require Import Base Fp Text.
Open Scope Z_scope.

(** Which exception leaves a call. [SystemExit]: exit() is called. *)
Inductive pyexn := ValueError | ZeroDivisionError | IndexError | KeyError | TypeError | OverflowError | AttributeError | SystemExit.
Inductive py (A : Type) := Returns (a : A) | Raises (e : pyexn).
Arguments Returns {A} _. Arguments Raises {A} _.
Definition pybind {A B} (x : py A) (f : A -> py B) : py B := match x with Returns a => f a | Raises e => Raises e end.
Notation "'py_do' x <- c ; k" := (pybind c (fun x => k)) (at level 200, x pattern, c at level 100, k at level 200, right associativity).
(** A list comprehension whose element expression may raise. *)
Fixpoint pymap {A B} (f : A -> py B) (l : list A) : py (list B) :=
  match l with [] => Returns [] | x :: l' => py_do y <- f x; py_do ys <- pymap f l'; Returns (y :: ys) end.

(** ** Strings *)
(** [str.isspace] on one code point below 256. *)
Definition py_space (c : ascii) : bool :=
  let n := code c in ((9 <=? n) && (n <=? 13)) || ((28 <=? n) && (n <=? 32)) || (n =? 133) || (n =? 160).
(** [str.lower] on one code point below 256. *)
Definition py_lower (c : ascii) : ascii :=
  let n := code c in
  if ((65 <=? n) && (n <=? 90)) || ((192 <=? n) && (n <=? 222) && negb (n =? 215)) then chr (n + 32) else c.
(** [str.split()]: the maximal runs without white space. [cur] is the run being read, in reverse order. *)
Definition flush (space_free : list ascii) (l : list string) : list string :=
  match space_free with [] => l | _ => string_of_list_ascii (rev space_free) :: l end.
Fixpoint split_loop (space : ascii -> bool) (cur : list ascii) (s : string) : list string :=
  match s with
  | EmptyString => flush cur []
  | String c s' => if space c then flush cur (split_loop space [] s') else split_loop space (c :: cur) s'
  end.
Definition split_with (space : ascii -> bool) (s : string) : list string := split_loop space [] s.
Definition py_split (s : string) : list string := split_with py_space s.
(** [bytes.split()]: only the ASCII white space of C's isspace. *)
Definition bytes_split (s : string) : list string := split_with is_space s.
(** [str.strip()]. *)
Fixpoint lstrip (space : ascii -> bool) (s : string) : string :=
  match s with EmptyString => EmptyString | String c s' => if space c then lstrip space s' else s end.
Definition string_rev (s : string) : string := string_of_list_ascii (rev (list_ascii_of_string s)).
Definition strip_with (space : ascii -> bool) (s : string) : string := string_rev (lstrip space (string_rev (lstrip space s))).
Definition py_strip (s : string) : string := strip_with py_space s.

(** ** Numbers *)
(** [float(n)] of an integer, [m / n] of two integers (correctly rounded), [x / y] of floats. *)
Definition py_float (n : Z) : b64 := rat64 n 1.
Definition int_div (m n : Z) : py b64 :=
  match n with Z0 => Raises ZeroDivisionError | Zpos p => Returns (rat64 m p) | Zneg p => Returns (rat64 (- m) p) end.
Definition float_div (x y : b64) : py b64 := if feq y fzero then Raises ZeroDivisionError else Returns (Bdiv mode_NE x y).
Definition fsub (x y : b64) : b64 := Bminus mode_NE x y.
(** [sum] of a list of floats: the integer 0 first, then from left to right. *)
Definition py_sum (l : list b64) : b64 := fold_left fadd l (py_float 0).
