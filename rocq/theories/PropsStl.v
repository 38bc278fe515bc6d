(** Property theorems C52: the forward and Viterbi algorithm of ViterbiSTL.cc. *)
From Coq Require Import Reals Lra Lia Ascii.
From Flocq Require Import Core.Core IEEE754.BinarySingleNaN.
From Verif Require Import Base BaseFacts Fp FpFacts NumFacts FloatKit Output Stl StlSpec StlFacts.
Open Scope R_scope.

(** In exact arithmetic the total is the sum of the weights of all sequences of states. *)
Theorem C52_total_is_the_sum_over_all_paths : forall states start_p trans_p emit_p obs,
  t_prob (forward_viterbi 0 Rplus Rmult Rgtb obs states start_p trans_p emit_p) =
  total (map (weight Rmult (get1 0 start_p) (get2 0 trans_p) (get2 0 emit_p) 0 obs) (sequences (S (length obs)) states)).
Proof. exact C52_total_proof. Qed.
Print Assumptions C52_total_is_the_sum_over_all_paths.
(** In exact arithmetic the Viterbi path is a heaviest sequence, or empty when every weight is 0. *)
Theorem C52_path_is_heaviest : forall states start_p trans_p emit_p,
  (forall s, 0 <= get1 0 start_p s) -> (forall a b, 0 <= get2 0 trans_p a b) -> (forall a o, 0 <= get2 0 emit_p a o) -> forall obs,
  let t := forward_viterbi 0 Rplus Rmult Rgtb obs states start_p trans_p emit_p in
  let W := weight Rmult (get1 0 start_p) (get2 0 trans_p) (get2 0 emit_p) 0 in
  (forall p, length p = S (length obs) -> Forall (fun s => In s states) p -> W obs p <= t_vprob t) /\
  ((0 < t_vprob t /\ length (t_path t) = S (length obs) /\ Forall (fun s => In s states) (t_path t) /\ W obs (t_path t) = t_vprob t) \/ (t_vprob t = 0 /\ t_path t = [])).
Proof. exact C52_best_real_proof. Qed.
Print Assumptions C52_path_is_heaviest.
(** The program, on doubles: the path is heaviest for weights computed in double arithmetic. *)
Theorem C52_path_is_heaviest_in_doubles : forall states start_p trans_p emit_p,
  Forall (fun e => unit_double (snd e)) start_p -> Forall (fun r => Forall (fun e => unit_double (snd e)) (snd r)) trans_p -> Forall (fun r => Forall (fun e => unit_double (snd e)) (snd r)) emit_p -> forall obs,
  let t := forward_viterbi64 obs states start_p trans_p emit_p in
  let W := weight fmul (get1 fzero start_p) (get2 fzero trans_p) (get2 fzero emit_p) fzero in
  unit_double (t_vprob t) /\ (forall p, length p = S (length obs) -> Forall (fun s => In s states) p -> B2R (W obs p) <= B2R (t_vprob t)) /\
  ((0 < B2R (t_vprob t) /\ length (t_path t) = S (length obs) /\ Forall (fun s => In s states) (t_path t) /\ W obs (t_path t) = t_vprob t) \/ (B2R (t_vprob t) = 0 /\ t_path t = [])).
Proof. exact C52_best_proof. Qed.
Print Assumptions C52_path_is_heaviest_in_doubles.
(** The tables of the example meet the conditions. *)
Lemma rat_unit n d : (0 <= n <= Zpos d)%Z -> unit_double (rat64 n d).
Proof.
  intros H. destruct (rat64_unit n d H) as (F & E). assert (P : 0 < IZR (Zpos d)) by (apply IZR_lt; lia). pose proof (IZR_le _ _ (proj1 H)). pose proof (IZR_le _ _ (proj2 H)).
  split; [exact F|]. rewrite E. split; [apply rnd_ge0, Rle_mult_inv_pos; assumption|]. apply rnd_ub; [apply (int_format 1); lia|]. apply (Rmult_le_reg_r (IZR (Zpos d))); [exact P|]. unfold Rdiv. rewrite Rmult_assoc, Rinv_l by lra. lra.
Qed.
Example C52_case : Forall (fun e => unit_double (snd e)) ex_start /\ Forall (fun r => Forall (fun e => unit_double (snd e)) (snd r)) ex_trans /\ Forall (fun r => Forall (fun e => unit_double (snd e)) (snd r)) ex_emit.
Proof.
  change ex_start with [("Fever", rat64 4 10); ("Healthy", rat64 6 10)]%string.
  change ex_trans with [("Fever", [("Fever", rat64 6 10); ("Healthy", rat64 4 10)]); ("Healthy", [("Fever", rat64 3 10); ("Healthy", rat64 7 10)])]%string.
  change ex_emit with [("Fever", [("cold", rat64 3 10); ("dizzy", rat64 6 10); ("normal", rat64 1 10)]); ("Healthy", [("cold", rat64 4 10); ("dizzy", rat64 1 10); ("normal", rat64 5 10)])]%string.
  split; [|split]; repeat (apply Forall_cons || apply Forall_nil); cbn [snd]; repeat (apply Forall_cons || apply Forall_nil); cbn [snd]; apply rat_unit; lia.
Qed.
(** What the program prints. *)
Theorem C52_printed_output : stl_output = "Viterbi STL example
States:
S: Healthy
S: Fever
Observations:
O: normal
O: cold
O: dizzy
Start probabilities:
S: Fever P: 0.4
S: Healthy P: 0.6
Transition probabilities:
FS: Fever TS: Fever P: 0.6
FS: Fever TS: Healthy P: 0.4
FS: Healthy TS: Fever P: 0.3
FS: Healthy TS: Healthy P: 0.7
Emission probabilities:
FS: Healthy TO: normal P: 0.5
FS: Healthy TO: cold P: 0.4
FS: Healthy TO: dizzy P: 0.1
FS: Fever TO: normal P: 0.1
FS: Fever TO: cold P: 0.3
FS: Fever TO: dizzy P: 0.6
Total probability of the observation sequence: 0.03628
Probability of the Viterbi path: 0.009072
The Viterbi path: 
VState: Healthy
VState: Healthy
VState: Fever
VState: Fever
End
"%string.
Proof. vm_compute. reflexivity. Qed.
Print Assumptions C52_printed_output.
