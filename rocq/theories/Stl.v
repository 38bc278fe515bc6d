(** Model of src/ViterbiSTL.cc. Definitions only. *)
From Coq Require Import Ascii.
From Verif Require Import Base Fp Text Output.
Open Scope Z_scope.

(** src/ViterbiSTL.cc:42-58, class Tracking. *)
Record tracking (D : Type) := mkTracking { t_prob : D; t_path : list string; t_vprob : D }.
Arguments mkTracking {D} _ _ _. Arguments t_prob {D} _. Arguments t_path {D} _. Arguments t_vprob {D} _.

(** The algorithm is written over any number type, so that it can be run on doubles (the program) and on real numbers (the specification
    of what it approximates). [zero] is the literal 0.0 and the value a map gives for a missing key. *)
Section Forward.
  Context {D : Type} (zero : D) (add mul : D -> D -> D) (gtb : D -> D -> bool).
  Definition vector_map := list (string * D).
  Definition matrix_map := list (string * list (string * D)).
  (** [start_p[s]], [trans_p[a][b]], [emit_p[a][o]]: operator[] inserts 0.0 for a missing key. *)
  Definition get1 (m : vector_map) (s : string) : D := match assoc String.eqb s m with Some v => v | None => zero end.
  Definition get2 (m : matrix_map) (a b : string) : D := match assoc String.eqb a m with Some r => get1 r b | None => zero end.
  (** src/ViterbiSTL.cc:48-51, the default constructor; also the value of [T[s]] for a missing key. *)
  Definition no_tracking : tracking D := mkTracking zero [] zero.
  Definition get_tracking (T : list (string * tracking D)) (s : string) : tracking D :=
    match assoc String.eqb s T with Some t => t | None => no_tracking end.
  (** src/ViterbiSTL.cc:133-138. *)
  Definition start_trackers (states : list string) (start_p : vector_map) : list (string * tracking D) :=
    fold_left (fun T s => assign String.eqb s (mkTracking (get1 start_p s) [s] (get1 start_p s)) T) states [].
  (** src/ViterbiSTL.cc:150-163, one source state. *)
  Definition from_source (trans_p emit_p : matrix_map) (T : list (string * tracking D)) (output next : string) (nt : tracking D) (source : string) : tracking D :=
    let st := get_tracking T source in
    let p := mul (get2 emit_p source output) (get2 trans_p source next) in
    let prob := mul (t_prob st) p in
    let v_prob := mul (t_vprob st) p in
    let nt := mkTracking (add (t_prob nt) prob) (t_path nt) (t_vprob nt) in
    if gtb v_prob (t_vprob nt) then mkTracking (t_prob nt) (t_path st ++ [next]) v_prob else nt.
  (** src/ViterbiSTL.cc:146-164. *)
  Definition next_tracker (trans_p emit_p : matrix_map) (states : list string) (T : list (string * tracking D)) (output next : string) : tracking D :=
    fold_left (from_source trans_p emit_p T output next) states no_tracking.
  (** src/ViterbiSTL.cc:142-168, one observation. *)
  Definition next_trackers (trans_p emit_p : matrix_map) (states : list string) (T : list (string * tracking D)) (output : string) : list (string * tracking D) :=
    fold_left (fun U s => assign String.eqb s (next_tracker trans_p emit_p states T output s) U) states [].
  (** src/ViterbiSTL.cc:171-181. *)
  Definition final_step (T : list (string * tracking D)) (ft : tracking D) (s : string) : tracking D :=
    let t := get_tracking T s in
    let ft := mkTracking (add (t_prob ft) (t_prob t)) (t_path ft) (t_vprob ft) in
    if gtb (t_vprob t) (t_vprob ft) then mkTracking (t_prob ft) (t_path t) (t_vprob t) else ft.
  (** src/ViterbiSTL.cc:126-181. *)
  Definition forward_viterbi (obs states : list string) (start_p : vector_map) (trans_p emit_p : matrix_map) : tracking D :=
    let T := fold_left (next_trackers trans_p emit_p states) obs (start_trackers states start_p) in
    fold_left (final_step T) states no_tracking.
End Forward.
Arguments vector_map D : clear implicits. Arguments matrix_map D : clear implicits.

(** The program: doubles. *)
Definition forward_viterbi64 := forward_viterbi fzero fadd fmul fgt.
(** src/ViterbiSTL.cc:183-191, what is printed. *)
Definition show_result (t : tracking b64) : string :=
  ("Total probability of the observation sequence: " ++ format_g (t_prob t) ++ nl ++
   "Probability of the Viterbi path: " ++ format_g (t_vprob t) ++ nl ++
   "The Viterbi path: " ++ nl ++ fold_right (fun s r => "VState: " ++ s ++ nl ++ r) "" (t_path t))%string.

(** ** The example *)
(** [std::map] keeps its keys in increasing order: the place of a new key. *)
Fixpoint set_key {V} (k : string) (v : V) (m : list (string * V)) : list (string * V) :=
  match m with
  | [] => [(k, v)]
  | (k', v') :: m' => match String.compare k k' with Eq => (k, v) :: m' | Lt => (k, v) :: m | Gt => (k', v') :: set_key k v m' end
  end.
Definition set2 {V} (a b : string) (v : V) (m : list (string * list (string * V))) : list (string * list (string * V)) :=
  set_key a (set_key b v (match assoc String.eqb a m with Some r => r | None => [] end)) m.
(** src/ViterbiSTL.cc:60-82, init_variables. *)
Definition ex_states : list string := ["Healthy"; "Fever"]%string.
Definition ex_observations : list string := ["normal"; "cold"; "dizzy"]%string.
Definition ex_start : vector_map b64 := set_key "Fever" (rat64 4 10) (set_key "Healthy" (rat64 6 10) []).
Definition ex_trans : matrix_map b64 :=
  set2 "Fever" "Fever" (rat64 6 10) (set2 "Fever" "Healthy" (rat64 4 10) (set2 "Healthy" "Fever" (rat64 3 10) (set2 "Healthy" "Healthy" (rat64 7 10) []))).
Definition ex_emit : matrix_map b64 :=
  set2 "Fever" "dizzy" (rat64 6 10) (set2 "Fever" "cold" (rat64 3 10) (set2 "Fever" "normal" (rat64 1 10)
  (set2 "Healthy" "dizzy" (rat64 1 10) (set2 "Healthy" "cold" (rat64 4 10) (set2 "Healthy" "normal" (rat64 5 10) []))))).
(** src/ViterbiSTL.cc:84-124, print_variables. *)
Definition lines {A} (f : A -> string) (l : list A) : string := fold_right (fun a r => f a ++ r)%string ""%string l.
Definition show_variables : string :=
  ("States:" ++ nl ++ lines (fun s => "S: " ++ s ++ nl) ex_states ++
   "Observations:" ++ nl ++ lines (fun o => "O: " ++ o ++ nl) ex_observations ++
   "Start probabilities:" ++ nl ++ lines (fun e => "S: " ++ fst e ++ " P: " ++ format_g (snd e) ++ nl) ex_start ++
   "Transition probabilities:" ++ nl ++ lines (fun r => lines (fun e => "FS: " ++ fst r ++ " TS: " ++ fst e ++ " P: " ++ format_g (snd e) ++ nl) (snd r)) ex_trans ++
   "Emission probabilities:" ++ nl ++ lines (fun s => lines (fun o => "FS: " ++ s ++ " TO: " ++ o ++ " P: " ++ format_g (get2 fzero ex_emit s o) ++ nl) ex_observations) ex_states)%string.
(** src/ViterbiSTL.cc:196-215, main: what it prints. *)
Definition stl_output : string :=
  ("Viterbi STL example" ++ nl ++ show_variables ++ show_result (forward_viterbi64 ex_observations ex_states ex_start ex_trans ex_emit) ++ "End" ++ nl)%string.
