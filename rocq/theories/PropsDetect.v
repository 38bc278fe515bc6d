(** Property theorems C22-C24: the whole detection, from notes to main key. *)
From Coq Require Import Reals Lia Permutation.
From Flocq Require Import Core.Core IEEE754.BinarySingleNaN.
From Verif Require Import Base BaseFacts Fp FpFacts Key PitchClass KeyProfile KeyTransition Hmm Pipeline MusicSpec ViterbiSpec ProfileFacts TransitionFacts HmmSpec HmmFacts LogFacts NumFacts PipelineSpec PipelineFacts TransposeFacts TransposeMain TableCheck.
Open Scope Z_scope.

(** C22: with every stored profile pair and every stored transition table except "zero" (which the command line does not
    offer), any non-empty note sequence of any length gives a key. *)
Theorem C22_always_a_key : forall log10, log10_ok log10 -> forall iter1 iter2, iteration_order iter1 -> iteration_order iter2 ->
  forall maj mino name A B T notes, In (maj, A) builtin_major -> In (mino, B) builtin_minor -> In (name, T) builtin_transitions -> name <> "zero"%string ->
  Forall is_note notes -> notes <> [] ->
  exists h1 h2 K, detect log10 iter1 iter2 (stored_tables maj mino name) (map pc_of_int notes) = Ret (h1, h2, key_of_int K) /\ is_key K /\
    length (h_keys h1) = length notes.
Proof. exact C22_stored_proof. Qed.
Print Assumptions C22_always_a_key.
(** The same for custom tables: entries up to 2^500, zero or at least 2^-500, transitions positive, one profile entry positive. *)
Theorem C22_custom_tables : forall log10, log10_ok log10 -> forall iter1 iter2, iteration_order iter1 -> iteration_order iter2 ->
  forall tb A B T notes, selects tb A B T -> usable A -> usable B -> usable T -> clear A -> clear B -> clear T ->
  (Exists positive A \/ Exists positive B) -> Forall positive T -> Forall is_note notes -> notes <> [] ->
  exists h1 h2 K, detect log10 iter1 iter2 tb (map pc_of_int notes) = Ret (h1, h2, key_of_int K) /\ is_key K /\
    length (h_keys h1) = length notes.
Proof. exact C22_proof. Qed.
Print Assumptions C22_custom_tables.
Definition in_order (l : layer b64) : list (Z * node b64) := l.
(** Keys of both models and the main key. *)
Definition told (r : outcome (hmm * hmm * key)) : option (list (option Z) * list (option Z) * option Z) :=
  match r with Ret (h1, h2, k) => Some (map kint (h_keys h1), map kint (h_keys h2), kint k) | _ => None end.
(** C E G with the default tables; and notes no single key explains with the "zero" table. *)
Example C22_case : told (detect toy_log10 in_order in_order default_tables (map pc_of_int [0; 4; 7])) =
    Some ([Some 0; Some 0; Some 0], [Some 0; Some 0; Some 0], Some 0) /\
  default_tables = stored_tables "sapp" "sapp" "exponential10" /\
  detect toy_log10 in_order in_order (stored_tables "sapp" "sapp" "zero") (map pc_of_int [0; 1; 2; 3; 4; 5]) = Throws StdOutOfRange.
Proof. split; [vm_compute; reflexivity|]. split; [reflexivity|]. vm_compute. reflexivity. Qed.

(** C23: transposition. *)
Theorem C23_scores_transpose : forall log10 iter iter' tb A B T notes t m h, log10_ok log10 -> iteration_order iter -> iteration_order iter' ->
  selects tb A B T -> usable A -> usable B -> usable T -> Forall is_note notes -> notes <> [] ->
  first_model tb (map pc_of_int notes) = Ret m -> run_viterbi log10 iter m = Ret h ->
  exists m' h', first_model tb (map pc_of_int (map (transpose_pc t) notes)) = Ret m' /\ run_viterbi log10 iter' m' = Ret h' /\
    (forall s, is_key s -> prob_entry h' (transpose_key t s) = prob_entry h s) /\ h_maxprob h' = h_maxprob h /\
    exists path, h_keys h' = map key_of_int (map (transpose_key t) path) /\ best_path fgt (hscore log10 m) (zseq 24) notes path.
Proof. exact C23_scores_proof. Qed.
Print Assumptions C23_scores_transpose.
(** Without ties the detected key follows the transposition. *)
Theorem C23_key_follows_without_ties : forall log10 iter1 iter2 tb A B T notes t h1 h2 K, log10_ok log10 -> iteration_order iter1 -> iteration_order iter2 ->
  selects tb A B T -> usable A -> usable B -> usable T -> Forall is_note notes -> notes <> [] -> is_key K ->
  detect log10 iter1 iter2 tb (map pc_of_int notes) = Ret (h1, h2, key_of_int K) ->
  (forall m q, first_model tb (map pc_of_int notes) = Ret m -> best_path fgt (hscore log10 m) (zseq 24) notes q -> map key_of_int q = h_keys h1) ->
  (forall J, is_key J -> J <> K -> fgt (prob_entry h2 K) (prob_entry h2 J) = true) ->
  exists h1' h2', detect log10 iter1 iter2 tb (map pc_of_int (map (transpose_pc t) notes)) = Ret (h1', h2', key_of_int (transpose_key t K)).
Proof. exact C23_follows_proof. Qed.
Print Assumptions C23_key_follows_without_ties.
(** With the default tables a single note ties four keys, the one iterated first wins. *)
Theorem C23_single_note_tie : forall log10 iter1 iter2, log10_ok log10 -> log10_accurate log10 -> iteration_order iter1 -> iteration_order iter2 ->
  forall p, is_note p -> exists h1 h2 K l, detect log10 iter1 iter2 default_tables [pc_of_int p] = Ret (h1, h2, key_of_int K) /\
    is_key K /\ map fst l = zseq 24 /\ find (tied p) (map fst (iter1 l)) = Some K.
Proof. exact C23_tie_proof. Qed.
Print Assumptions C23_single_note_tie.
(** Hence "the detected key follows the transposition" is false for every hash-table order. *)
Theorem C23_key_follows_refuted : forall log10 iter1 iter2, log10_ok log10 -> log10_accurate log10 -> iteration_order iter1 -> iteration_order iter2 -> key_order iter1 ->
  exists t h1 h2 K h1' h2' K', is_note t /\ is_key K /\ is_key K' /\
    detect log10 iter1 iter2 default_tables [pc_of_int 0] = Ret (h1, h2, key_of_int K) /\
    detect log10 iter1 iter2 default_tables [pc_of_int (transpose_pc t 0)] = Ret (h1', h2', key_of_int K') /\
    K' <> transpose_key t K.
Proof. exact C23_refuted_proof. Qed.
Print Assumptions C23_key_follows_refuted.
(** C E G detected as C major, E-flat G B-flat as E-flat major; the single notes c and g give C and then C again. *)
Example C23_case : told (detect toy_log10 in_order in_order default_tables (map pc_of_int (map (transpose_pc 3) [0; 4; 7]))) =
    Some ([Some 3; Some 3; Some 3], [Some 3; Some 3; Some 3], Some 3) /\
  told (detect toy_log10 in_order in_order default_tables [pc_of_int 0]) = Some ([Some 0], [Some 0], Some 0) /\
  told (detect toy_log10 in_order in_order default_tables [pc_of_int (transpose_pc 7 0)]) = Some ([Some 0], [Some 0], Some 0) /\
  transpose_key 7 0 = 7 /\ key_order in_order.
Proof. split; [vm_compute; reflexivity|]. split; [vm_compute; reflexivity|]. split; [vm_compute; reflexivity|]. split; [reflexivity|]. exists (fun l => l). reflexivity. Qed.

(** C24: the second model gives one key for the whole piece. *)
Theorem C24_one_global_key : forall log10, log10_ok log10 -> forall iter1 iter2, iteration_order iter1 -> iteration_order iter2 ->
  forall tb A B T notes h1 h2 k, selects tb A B T -> usable T -> Forall is_note notes -> notes <> [] ->
  detect log10 iter1 iter2 tb (map pc_of_int notes) = Ret (h1, h2, k) ->
  exists locals K, h_keys h1 = map key_of_int locals /\ length locals = length notes /\ Forall is_key locals /\
    is_key K /\ k = key_of_int K /\ h_keys h2 = map key_of_int (repeat K (length notes)) /\
    (forall J, is_key J -> prob_entry h2 J = global_score log10 T locals J) /\
    (forall J, is_key J -> fgt (global_score log10 T locals J) (global_score log10 T locals K) = false).
Proof. exact C24_proof. Qed.
Print Assumptions C24_one_global_key.
(** A modulation: the local keys change, the global key is one key. *)
Example C24_case : told (detect toy_log10 in_order in_order (stored_tables "krumhansl_kessler" "krumhansl_kessler" "exponential2")
    (map pc_of_int [0; 4; 7; 0; 4; 7; 11; 6; 2; 6; 11; 6; 2; 6])) =
  Some (map Some [7; 7; 7; 7; 2; 2; 2; 2; 2; 2; 2; 2; 2; 2], map Some (repeat 2 14), Some 2).
Proof. vm_compute. reflexivity. Qed.
