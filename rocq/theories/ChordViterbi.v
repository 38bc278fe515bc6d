(** Model of nnls-chroma-1.1/viterbi.cpp, the decoder of Chordino. Definitions only. *)
From Coq Require Import Reals.
From Flocq Require Import Core.Core IEEE754.BinarySingleNaN.
From Verif Require Import Base Fp Options Nnls Plug.
Open Scope Z_scope.

(** The arithmetic is a parameter: double precision for the program, real numbers for what it approximates. [v_count n] is the int n as a double. *)
Record weights := mkWeights { v_num : Type; v0 : v_num; v1 : v_num; v_count : Z -> v_num; v_add : v_num -> v_num -> v_num; v_mul : v_num -> v_num -> v_num; v_div : v_num -> v_num -> v_num; v_gt : v_num -> v_num -> bool }.
Arguments v0 {_}. Arguments v1 {_}. Arguments v_count {_} _. Arguments v_add {_} _ _. Arguments v_mul {_} _ _. Arguments v_div {_} _ _. Arguments v_gt {_} _ _.
Definition doubles : weights := mkWeights b64 fzero (rat64 1 1) (fun n => rat64 n 1) fadd fmul (fun x y => Bdiv mode_NE x y) fgt.
Definition reals : weights := mkWeights R 0%R 1%R IZR Rplus Rmult Rdiv (fun a b => if Rlt_dec b a then true else false).

Section Decoder.
  Context {W : weights}.
  Notation num := (v_num W).
  (** What comes back: the path, the memory behind delta, *scale, and the number of error messages. *)
  Record decoded := mkDecoded { d_path : list Z; d_delta : array num; d_scale : list num; d_errors : Z }.
  (** viterbi.cpp:10-13; the operator || evaluates obs[0] only if the first two sizes are right. *)
  Definition consistent (nState : Z) (trans obs : list (list num)) : outcome bool :=
    do t0 <- elt trans 0;
    if (Z.of_nat (length t0) =? nState) && (Z.of_nat (length trans) =? nState) then
      do o0 <- elt obs 0;
      Ret (Z.of_nat (length o0) =? nState)
    else Ret false.
  (** viterbi.cpp:18-26: delta and deltasum of the first frame. *)
  Definition first_frame (nState : Z) (init : list num) (obs : list (list num)) (delta : array num) : outcome (array num * num) :=
    do (delta, sum) <- loop 0 (nState - 1) (fun '(delta, sum) iState =>
      do a <- elt init iState;
      do o <- elt obs 0;
      do b <- elt o iState;
      do delta <- wr delta iState (v_mul a b);
      do d <- rd delta iState;
      Ret (delta, v_add sum d)) (delta, v0);
    do delta <- loop 0 (nState - 1) (fun delta iState => do d <- rd delta iState; wr delta iState (v_div d sum)) delta;
    Ret (delta, sum).
  (** viterbi.cpp:38-48: bestState and bestValue for state j. *)
  Definition best_before (nState iFrame jState : Z) (trans obs : list (list num)) (delta : array num) : outcome (Z * num) :=
    do o <- elt obs iFrame;
    do v <- elt o jState;
    if v_gt v v0 then
      loop 0 (nState - 1) (fun '(bestState, bestValue) iState =>
        do d <- rd delta ((iFrame - 1) * nState + iState);
        do row <- elt trans iState;
        do t <- elt row jState;
        let currentValue := v_mul d t in
        Ret (if v_gt currentValue bestValue then (iState, currentValue) else (bestState, bestValue))) (nState - 1, v0)
    else Ret (nState - 1, v0).
  (** viterbi.cpp:33-66: a later frame. *)
  Definition later_frame (nState : Z) (trans obs : list (list num)) (s : array num * list num * list (list Z)) (iFrame : Z) : outcome (array num * list num * list (list Z)) :=
    let '(delta, scale, psi) := s in
    let psi := psi ++ [repeat 0 (Z.to_nat nState)] in
    do (delta, sum, psi) <- loop 0 (nState - 1) (fun '(delta, sum, psi) jState =>
      do (bestState, bestValue) <- best_before nState iFrame jState trans obs delta;
      do o <- elt obs iFrame;
      do v <- elt o jState;
      do delta <- wr delta (iFrame * nState + jState) (v_mul bestValue v);
      do d <- rd delta (iFrame * nState + jState);
      do row <- elt psi iFrame;
      do row <- upd row jState bestState;
      do psi <- upd psi iFrame row;
      Ret (delta, v_add sum d, psi)) (delta, v0, psi);
    if v_gt sum v0 then
      do delta <- loop 0 (nState - 1) (fun delta iState => do d <- rd delta (iFrame * nState + iState); wr delta (iFrame * nState + iState) (v_div d sum)) delta;
      Ret (delta, scale ++ [v_div v1 sum], psi)
    else
      do delta <- loop 0 (nState - 1) (fun delta iState => wr delta (iFrame * nState + iState) (v_div v1 (v_count nState))) delta;
      Ret (delta, scale ++ [v1], psi).
  (** viterbi.cpp:68-81: from the last frame back. *)
  Definition backwards (nState nFrame : Z) (delta : array num) (psi : list (list Z)) : outcome (list Z) :=
    do (path, _) <- loop 0 (nState - 1) (fun '(path, bestValue) iState =>
      do currentValue <- rd delta ((nFrame - 1) * nState + iState);
      if v_gt currentValue bestValue then do path <- upd path (nFrame - 1) iState; Ret (path, currentValue) else Ret (path, bestValue)) (repeat (nState - 1) (Z.to_nat nFrame), v0);
    each (fun path iFrame => do next <- elt path (iFrame + 1); do row <- elt psi (iFrame + 1); do s <- elt row next; upd path iFrame s) (rev (zrange 0 (nFrame - 2))) path.
  (** viterbi.cpp:5-84. The products in the indices are taken not to overflow an int. *)
  Definition viterbi_path (init : list num) (trans obs : list (list num)) (delta : array num) (scale : list num) : outcome decoded :=
    let nState := Z.of_nat (length init) in
    let nFrame := Z.of_nat (length obs) in
    do good <- consistent nState trans obs;
    do (delta, sum) <- first_frame nState init obs delta;
    let scale := scale ++ [v_div v1 sum] in
    do (delta, scale, psi) <- loop 1 (nFrame - 1) (later_frame nState trans obs) (delta, scale, [repeat 0 (Z.to_nat nState)]);
    do path <- backwards nState nFrame delta psi;
    Ret (mkDecoded path delta scale (if good then 0 else 1)).
End Decoder.
