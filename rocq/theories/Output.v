(** Model of the output part of [main] (src/justkeydding.cc:243-283). Definitions only. *)
From Verif Require Import Base Fp Key PitchClass Hmm Text.

(** [std::endl] and the tab. *)
Definition nl : string := String (chr 10) EmptyString.
Definition tab : string := String (chr 9) EmptyString.

(** src/justkeydding.cc:243-250: each probability followed by a space. *)
Definition print_probabilities (probs : list b64) : string :=
  (fold_right (fun p s => format_g p ++ " " ++ s) nl probs)%string.

(** src/justkeydding.cc:252-258: the part of the file name taken as ground truth; [None] when nothing is printed.
    [std::size_t] arithmetic wraps. *)
Definition ground_truth (filename : string) : outcome (option string) :=
  let underscore := find_last_of "_" filename in
  let dot := find_last_of "." filename in
  if negb (underscore =? npos) && negb (dot =? npos) then
    let underscore := size_t (underscore + 1) in
    do s <- substr filename underscore (size_t (dot - underscore)); Ret (Some s)
  else Ret None.
(** src/justkeydding.cc:259-268. *)
Definition score (mainKey groundTruth : key) : outcome b64 :=
  do same <- key_eq mainKey groundTruth;
  if same : bool then Ret (rat64 1 1) else
  do dominant <- get_dominant groundTruth; do isDominant <- key_eq mainKey dominant;
  if isDominant : bool then Ret (rat64 5 10) else
  do relative <- get_relative groundTruth; do isRelative <- key_eq mainKey relative;
  if isRelative : bool then Ret (rat64 3 10) else
  do parallel <- get_parallel groundTruth; do isParallel <- key_eq mainKey parallel;
  if isParallel : bool then Ret (rat64 2 10) else Ret fzero.
(** src/justkeydding.cc:251-271. *)
Definition print_evaluation (filename : string) (mainKey : key) : outcome string :=
  do truth <- ground_truth filename;
  match truth with
  | None => Ret ""%string
  | Some s => do v <- score mainKey (key_of_string s); Ret (format_g v ++ nl)%string
  end.

(** src/justkeydding.cc:273-282. [std::next(begin())] of an empty string is past the end. *)
Definition print_label (mainKey : key) : outcome string :=
  match get_string mainKey with
  | EmptyString => Undef OutOfBounds
  | String c s =>
      do maj <- is_major mainKey;
      Ret (String (toupper c) s ++ tab ++ (if maj : bool then "major" else "minor") ++ nl)%string
  end.
