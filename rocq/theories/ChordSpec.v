(** What the chord decoder is to compute: Viterbi's algorithm on lists, and the probability of a path. *)
From Coq Require Import Reals.
From Verif Require Import Base Nnls ChordViterbi.
Open Scope Z_scope.

Section Lists.
  Context {W : weights}.
  Notation num := (v_num W).
  Definition entry (l : list num) (i : Z) : num := znth v0 l i.
  Definition states (n : Z) : list Z := zrange 0 (n - 1).
  Definition sum_of (l : list num) : num := fold_left v_add l v0.
  Definition share (l : list num) : list num := map (fun d => v_div d (sum_of l)) l.
  (** The first of the largest positive values, with its place; the last place and 0 if none is positive. *)
  Definition choose (n : Z) (f : Z -> num) : Z * num := fold_left (fun b i => if v_gt (f i) (snd b) then (i, f i) else b) (states n) (n - 1, v0).
  Definition start_row (n : Z) (init o : list num) : list num := map (fun i => v_mul (entry init i) (entry o i)) (states n).
  (** From the row of a frame to that of the next. *)
  Definition reached (n : Z) (trans : list (list num)) (row o : list num) (j : Z) : Z * num :=
    if v_gt (entry o j) v0 then choose n (fun i => v_mul (entry row i) (entry (znth [] trans i) j)) else (n - 1, v0).
  Definition raw_row (n : Z) (trans : list (list num)) (row o : list num) : list num := map (fun j => v_mul (snd (reached n trans row o j)) (entry o j)) (states n).
  Definition next_row (n : Z) (trans : list (list num)) (row o : list num) : list num :=
    let raw := raw_row n trans row o in if v_gt (sum_of raw) v0 then share raw else repeat (v_div v1 (v_count n)) (Z.to_nat n).
  Definition next_scale (n : Z) (trans : list (list num)) (row o : list num) : num :=
    let raw := raw_row n trans row o in if v_gt (sum_of raw) v0 then v_div v1 (sum_of raw) else v1.
  Definition origins (n : Z) (trans : list (list num)) (row o : list num) : list Z := map (fun j => fst (reached n trans row o j)) (states n).
  (** All rows, scales and origins. *)
  Fixpoint rows_from (n : Z) (trans : list (list num)) (row : list num) (os : list (list num)) : list (list num) :=
    row :: match os with [] => [] | o :: os' => rows_from n trans (next_row n trans row o) os' end.
  Fixpoint scales_from (n : Z) (trans : list (list num)) (row : list num) (os : list (list num)) : list num :=
    match os with [] => [] | o :: os' => next_scale n trans row o :: scales_from n trans (next_row n trans row o) os' end.
  Fixpoint origins_from (n : Z) (trans : list (list num)) (row : list num) (os : list (list num)) : list (list Z) :=
    match os with [] => [] | o :: os' => origins n trans row o :: origins_from n trans (next_row n trans row o) os' end.
  (** The way back from the last state. *)
  Fixpoint way (psis : list (list Z)) (s : Z) : list Z := match psis with [] => [s] | psi :: psis' => let w := way psis' s in znth 0 psi (hd 0 w) :: w end.
  Definition final_state (n : Z) (rows : list (list num)) : Z := fst (choose n (entry (last rows []))).
  Definition first_row (n : Z) (init : list num) (obs : list (list num)) : list num := share (start_row n init (hd [] obs)).
  Definition rows_of (n : Z) (init : list num) (trans obs : list (list num)) : list (list num) := rows_from n trans (first_row n init obs) (tl obs).
  Definition scales_of (n : Z) (init : list num) (trans obs : list (list num)) : list num := v_div v1 (sum_of (start_row n init (hd [] obs))) :: scales_from n trans (first_row n init obs) (tl obs).
  Definition path_of (n : Z) (init : list num) (trans obs : list (list num)) : list Z := way (origins_from n trans (first_row n init obs) (tl obs)) (final_state n (rows_of n init trans obs)).
  (** Matrices that fit. *)
  Definition fitting (n : Z) (init : list num) (trans obs : list (list num)) : Prop :=
    0 < n /\ Z.of_nat (length init) = n /\ Z.of_nat (length trans) = n /\ Forall (fun r => Z.of_nat (length r) = n) trans /\ obs <> [] /\ Forall (fun o => Z.of_nat (length o) = n) obs.
End Lists.

(** The probability of a path from frame to frame, in real numbers. *)
Fixpoint going (trans : list (list R)) (s : Z) (os : list (list R)) (p : list Z) : R :=
  match os, p with o :: os', j :: p' => (znth 0 (znth [] trans s) j * znth 0 o j * going trans j os' p')%R | _, _ => 1%R end.
Definition probability (init : list R) (trans obs : list (list R)) (p : list Z) : R :=
  match obs, p with o :: os, s :: p' => (znth 0 init s * znth 0 o s * going trans s os p')%R | _, _ => 1%R end.
(** One state per frame. *)
Definition a_path (n : Z) (obs : list (list R)) (p : list Z) : Prop := length p = length obs /\ Forall (fun s => 0 <= s < n) p.
