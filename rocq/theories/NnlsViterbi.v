(** Model of nnls-chroma-1.1/viterbi.cpp. Definitions only. *)
From Verif Require Import Base Fp.
Open Scope Z_scope.

(** As for ViterbiSTL the arithmetic is a parameter: doubles for the program, real numbers for what it approximates.
    [inv_count n] is 1.0/nState. Sizes are assumed to fit an int. The buffer [delta] of nFrame * nState doubles, which the caller
    provides, is modelled as one list per frame. *)
Section Path.
  Context {D : Type} (zero one : D) (add mul div : D -> D -> D) (gtb : D -> D -> bool) (inv_count : nat -> D).
  Definition at_ (l : list D) (i : nat) : D := nth i l zero.
  (** viterbi.cpp:24, 51, the running sum of a frame. *)
  Definition row_sum (l : list D) : D := fold_left add l zero.
  (** viterbi.cpp:20-26, first frame: the normalised row and its sum. *)
  Definition first_frame (nState : nat) (init ob : list D) : list D * D :=
    let d := map (fun i => mul (at_ init i) (at_ ob i)) (seq 0 nState) in
    let s := row_sum d in (map (fun x => div x s) d, s).
  (** viterbi.cpp:38-48: best previous state and its value. *)
  Definition best_previous (nState : nat) (trans : list (list D)) (d : list D) (obj : D) (j : nat) : nat * D :=
    if gtb obj zero then
      fold_left (fun b i => let v := mul (at_ d i) (at_ (nth i trans []) j) in if gtb v (snd b) then (i, v) else b) (seq 0 nState) ((nState - 1)%nat, zero)
    else ((nState - 1)%nat, zero).
  (** viterbi.cpp:33-66, one further frame: the remembered indices, the row, and the sum. *)
  Definition frame (nState : nat) (trans : list (list D)) (d ob : list D) : list nat * list D * D :=
    let bests := map (fun j => best_previous nState trans d (at_ ob j) j) (seq 0 nState) in
    let psi := map fst bests in
    let d' := map (fun j => mul (snd (nth j bests (O, zero))) (at_ ob j)) (seq 0 nState) in
    let s := row_sum d' in
    (psi, if gtb s zero then map (fun x => div x s) d' else map (fun _ => inv_count nState) d', s).
  Fixpoint frames (nState : nat) (trans : list (list D)) (d : list D) (obs : list (list D)) : list (list nat * list D * D) :=
    match obs with [] => [] | ob :: obs' => let f := frame nState trans d ob in f :: frames nState trans (snd (fst f)) obs' end.
  (** viterbi.cpp:68-76: the last state. *)
  Definition last_state (nState : nat) (d : list D) : nat :=
    fst (fold_left (fun b i => if gtb (at_ d i) (snd b) then (i, at_ d i) else b) (seq 0 nState) ((nState - 1)%nat, zero)).
  (** viterbi.cpp:78-81. *)
  Fixpoint back (psis : list (list nat)) (e : nat) : list nat :=
    match psis with [] => [e] | psi :: psis' => let p := back psis' e in nth (hd O p) psi O :: p end.
  Record viterbi_result := mkResult { v_states : list nat; v_delta : list (list D); v_sums : list D; v_scale : list D }.
  Definition run_viterbi (init : list D) (trans : list (list D)) (ob : list D) (obs : list (list D)) : viterbi_result :=
    let nState := length init in
    let '(d, s) := first_frame nState init ob in
    let fs := frames nState trans d obs in
    let rows := d :: map (fun f => snd (fst f)) fs in
    mkResult (back (map (fun f => fst (fst f)) fs) (last_state nState (last rows d))) rows (s :: map snd fs)
      (div one s :: map (fun f => if gtb (snd f) zero then div one (snd f) else one) fs).
  (** viterbi.cpp:5-84. [trans[0]] is read first (11). [obs[0]] is read there when the other two sizes agree, and otherwise at 22 as soon as
      there is a state. Rows of other sizes are only reported on the error stream;
      a row that is too short is then read past its end. Simplified: it is taken to be read. With no state the index nState-1 = -1 is used
      as soon as there are two frames; the single entry -1 of the path for one frame is not modelled and counted as undefined. *)
  Definition viterbi_path (init : list D) (trans : list (list D)) (obs : list (list D)) : outcome viterbi_result :=
    let nState := length init in
    match trans, obs with
    | [], _ | _, [] => Undef OutOfBounds
    | _ :: _, ob :: obs' =>
        if Nat.leb 1 nState && forallb (fun r => Nat.leb nState (length r)) obs && Nat.leb nState (length trans) && forallb (fun r => Nat.leb nState (length r)) (firstn nState trans)
        then Ret (run_viterbi init trans ob obs') else Undef OutOfBounds
    end.
End Path.
Arguments viterbi_result D : clear implicits.
Arguments v_states {D} _. Arguments v_delta {D} _. Arguments v_sums {D} _. Arguments v_scale {D} _.
(** The program. *)
Definition viterbi_path64 (init : list b64) (trans obs : list (list b64)) : outcome (viterbi_result b64) :=
  viterbi_path fzero (rat64 1 1) fadd fmul (fun x y => BinarySingleNaN.Bdiv BinarySingleNaN.mode_NE x y) fgt (fun n => rat64 1 (Pos.of_nat n)) init trans obs.

(** nnls-chroma-1.1/Chordino.cpp:535: all weight on the last state, "no chord". *)
Definition chord_init (nChord : nat) : list b64 := repeat fzero (nChord - 1) ++ [rat64 1 1].
(** nnls-chroma-1.1/Chordino.cpp:532, 540-545. *)
Definition self_transition : b64 := rat64 99 100.
Definition chord_trans (nChord : nat) : list (list b64) :=
  let other := BinarySingleNaN.Bdiv BinarySingleNaN.mode_NE (BinarySingleNaN.Bminus BinarySingleNaN.mode_NE (rat64 1 1) self_transition) (if Nat.eqb nChord 1 then fzero else rat64 (Z.of_nat nChord - 1) 1) in
  map (fun i => repeat other i ++ [self_transition] ++ repeat other (nChord - 1 - i)) (seq 0 nChord).
(** nnls-chroma-1.1/Chordino.cpp:547, for the salience of the chords in every frame. *)
Definition chord_path (nChord : nat) (chordogram : list (list b64)) : outcome (viterbi_result b64) :=
  viterbi_path64 (chord_init nChord) (chord_trans nChord) chordogram.
