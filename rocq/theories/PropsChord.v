(** Property theorems C83 and C84: the chord decoder. *)
From Coq Require Import Reals Lra Lia.
From Flocq Require Import Core.Core IEEE754.BinarySingleNaN.
From Verif Require Import Base BaseFacts Fp Options Text Chromagram Nnls NnlsFacts Plug ChordViterbi ChordSpec ChordFacts ChordExact.
Open Scope Z_scope.

(** ** C83: the program runs Viterbi's algorithm and stays in its arrays, in whatever arithmetic *)
Theorem C83_decoder_runs_viterbi : forall (W : weights) n (init : list (v_num W)) (trans obs : list (list (v_num W))) delta scale, fitting n init trans obs -> Z.of_nat (length obs) * n <= size delta ->
  exists r, viterbi_path init trans obs delta scale = Ret r /\ d_errors r = 0 /\ d_path r = path_of n init trans obs /\ length (d_path r) = length obs /\ Forall (fun s => 0 <= s < n) (d_path r) /\
    d_scale r = scale ++ scales_of n init trans obs /\ size (d_delta r) = size delta /\
    (forall t i, 0 <= t < Z.of_nat (length obs) -> 0 <= i < n -> cell (d_delta r) (t * n + i) = Some (entry (znth [] (rows_of n init trans obs) t) i)) /\
    forall i, ~ (0 <= i < Z.of_nat (length obs) * n) -> cell (d_delta r) i = cell delta i.
Proof. exact decoder_runs. Qed.
Print Assumptions C83_decoder_runs_viterbi.
(** Without frames, or without transitions, the first look at the sizes is already out of bounds. *)
Theorem C83_nothing_to_decode : forall (W : weights) (init : list (v_num W)) (trans obs : list (list (v_num W))) delta scale, trans = [] \/ obs = [] /\ fitting (Z.of_nat (length init)) init trans [init] -> viterbi_path init trans obs delta scale = Undef OutOfBounds.
Proof. exact decoder_empty. Qed.
Print Assumptions C83_nothing_to_decode.
(** The check of the sizes prints a message and goes on: it does not keep the program from reading past the end. *)
Theorem C83_the_check_protects_refuted : ~ forall (init : list (v_num doubles)) (trans obs : list (list (v_num doubles))) delta scale, trans <> [] -> obs <> [] -> Z.of_nat (length obs) * Z.of_nat (length init) <= size delta -> viterbi_path init trans obs delta scale <> Undef OutOfBounds.
Proof. exact check_does_not_protect. Qed.
Print Assumptions C83_the_check_protects_refuted.
(** Two states and three frames in double precision. The second frame speaks for state 0, but state 1 is hard to leave. *)
Definition two_init : list b64 := [rat64 1 2; rat64 1 2].
Definition two_trans : list (list b64) := [[rat64 9 10; rat64 1 10]; [rat64 1 10; rat64 9 10]].
Definition three_obs : list (list b64) := [[rat64 1 10; rat64 9 10]; [rat64 3 5; rat64 2 5]; [rat64 1 10; rat64 9 10]].
Example C83_case : fitting (W := doubles) 2 two_init two_trans three_obs /\
  match viterbi_path (W := doubles) two_init two_trans three_obs (fresh 6) [] with
  | Ret r => (d_path r, map (fun s => trunc (fmul s (rat64 1000 1))) (d_scale r), map (fun i => match cell (d_delta r) i with Some d => trunc (fmul d (rat64 1000 1)) | None => -1 end) [0; 1; 2; 3; 4; 5])
  | _ => ([], [], []) end = ([1; 1; 1], [2000; 2645; 1414], [100; 900; 142; 857; 18; 981]).
Proof. split; [repeat split; try lia; try discriminate; repeat constructor|]. vm_compute. reflexivity. Qed.

(** ** C84: in exact arithmetic the path is a most probable one *)
(** If any path is possible at all, the one returned is among the most probable; every row of delta sums to 1; and the scale factors are what is missing from the last row to the probability of the path. *)
Theorem C84_most_probable_path : forall n init trans obs q, fitting (W := reals) n init trans obs -> nonneg init -> Forall nonneg trans -> Forall nonneg obs -> a_path n obs q -> (0 < probability init trans obs q)%R ->
  let p := path_of (W := reals) n init trans obs in let k := product (scales_of (W := reals) n init trans obs) in
  a_path n obs p /\ (forall p', a_path n obs p' -> probability init trans obs p' <= probability init trans obs p)%R /\
  Forall (fun s => 0 < s)%R (scales_of (W := reals) n init trans obs) /\ Forall (fun r => fold_left Rplus r 0 = 1)%R (rows_of (W := reals) n init trans obs) /\
  (k * probability init trans obs p = znth 0 (last (rows_of (W := reals) n init trans obs) []) (last p 0%Z))%R.
Proof. exact most_probable. Qed.
Print Assumptions C84_most_probable_path.
(** A frame that no path survives: the frame before gets the last state, whatever its observations, by the best path that ends there; the factor is 1, and from this frame on the decoder starts afresh with all states alike, without looking at the frame. *)
Theorem C84_a_frame_without_paths : forall n init trans pre o post q, fitting (W := reals) n init trans (pre ++ o :: post) -> nonneg init -> Forall nonneg trans -> Forall nonneg (pre ++ o :: post) ->
  a_path n pre q -> (0 < probability init trans pre q)%R -> pre <> [] -> (forall q', a_path n (pre ++ [o]) q' -> probability init trans (pre ++ [o]) q' = 0%R) ->
  let ones := repeat 1%R (Z.to_nat n) in
  exists p1 p2, path_of (W := reals) n init trans (pre ++ o :: post) = p1 ++ p2 /\ a_path n pre p1 /\ last p1 0 = n - 1 /\
    (forall p', a_path n pre p' -> last p' 0 = n - 1 -> (probability init trans pre p' <= probability init trans pre p1)%R) /\
    p2 = path_of (W := reals) n ones trans (ones :: post) /\ znth 0%R (scales_of (W := reals) n init trans (pre ++ o :: post)) (Z.of_nat (length pre)) = 1%R.
Proof. exact frame_without_paths. Qed.
Print Assumptions C84_a_frame_without_paths.
(** The same of the program itself, for any buffer that is large enough. *)
Definition value_at (delta : array R) (i : Z) : R := match cell delta i with Some x => x | None => 0%R end.
Theorem C84_decoder_finds_the_path : forall n (init : list R) (trans obs : list (list R)) (delta : array R) q, fitting (W := reals) n init trans obs -> nonneg init -> Forall nonneg trans -> Forall nonneg obs -> a_path n obs q -> (0 < probability init trans obs q)%R -> Z.of_nat (length obs) * n <= size delta ->
  exists r, viterbi_path (W := reals) init trans obs delta [] = Ret r /\ a_path n obs (d_path r) /\ (forall p', a_path n obs p' -> probability init trans obs p' <= probability init trans obs (d_path r))%R /\
    length (d_scale r) = length obs /\ Forall (fun s => 0 < s)%R (d_scale r) /\ (forall t, 0 <= t < Z.of_nat (length obs) -> fold_left Rplus (map (fun i => value_at (d_delta r) (t * n + i)) (zrange 0 (n - 1))) 0%R = 1%R) /\
    (product (d_scale r) * probability init trans obs (d_path r) = value_at (d_delta r) ((Z.of_nat (length obs) - 1) * n + last (d_path r) 0)%Z)%R.
Proof.
  intros n init trans obs delta q F NI NT NO Q P S. destruct (decoder_runs reals n init trans obs delta [] F S) as (r & E & _ & EP & LP & RP & ES & _ & EC & _). destruct (most_probable n init trans obs q F NI NT NO Q P) as (A & B & C & D & G).
  assert (LR : length (rows_of (W := reals) n init trans obs) = length obs) by (unfold rows_of; rewrite rows_length; destruct F as (_ & _ & _ & _ & N & _); destruct obs; [now elim N|reflexivity]).
  assert (LN : 0 < n) by apply F.
  assert (LO : 0 < Z.of_nat (length obs)) by (destruct F as (_ & _ & _ & _ & N & _); destruct obs; [now elim N|cbn [length]; lia]).
  exists r. rewrite ES, EP. cbn [app]. split; [exact E|]. split; [exact A|]. split; [exact B|]. split.
  { unfold scales_of. cbn [length]. rewrite scales_length. destruct obs; [cbn in LO; lia|reflexivity]. }
  split; [exact C|]. split.
  - intros t T. rewrite Forall_forall in D. assert (I : In (znth [] (rows_of (W := reals) n init trans obs) t) (rows_of (W := reals) n init trans obs)) by (apply nth_In; rewrite LR; lia).
    rewrite <- (D _ I). f_equal. assert (L : Z.of_nat (length (znth [] (rows_of (W := reals) n init trans obs) t)) = n).
    { assert (W : Forall (fun row => Z.of_nat (length row) = n) (rows_of (W := reals) n init trans obs)).
      { assert (X : forall os row, Z.of_nat (length row) = n -> Forall (fun row => Z.of_nat (length row) = n) (rows_from (W := reals) n trans row os)).
        { induction os as [|o os IH]; intros row X; cbn [rows_from]; constructor; try exact X; [constructor|]. apply IH. unfold next_row. destruct (v_gt _ _).
          - unfold share, raw_row, states. rewrite !map_length, zrange_length. lia.
          - rewrite repeat_length. lia. }
        apply X. unfold first_row, share, start_row, states. rewrite !map_length, zrange_length. lia. }
      rewrite Forall_forall in W. now apply W. }
    apply (nth_ext _ _ 0%R 0%R); [rewrite map_length, zrange_length; transitivity (Z.to_nat n); [lia|]; rewrite <- L at 1; apply Nat2Z.id|]. rewrite map_length, zrange_length. intros k K. unfold zrange at 1. rewrite map_map.
    rewrite (nth_indep _ 0%R (value_at (d_delta r) (t * n + (0 + Z.of_nat 0)))) by (rewrite map_length, seq_length; lia). rewrite (map_nth (fun k => value_at (d_delta r) (t * n + (0 + Z.of_nat k))) (seq 0 _) 0%nat), seq_nth by lia.
    cbn [plus]. unfold value_at. rewrite EC; [|exact T|lia]. unfold entry. change (Z.of_nat (0 + k)) with (Z.of_nat k). replace (0 + Z.of_nat k) with (Z.of_nat k) by lia. unfold znth at 1. now rewrite Nat2Z.id.
  - rewrite G. unfold value_at. rewrite EP in RP, LP. rewrite EC; [|clear - LO; split; [|apply Z.lt_sub_pos; reflexivity]; apply Z.lt_le_pred in LO; exact LO|].
    + unfold entry. f_equal. rewrite last_znth by (intros X; rewrite X in LR; cbn in LR; lia). now rewrite LR.
    + destruct (path_of (W := reals) n init trans obs) as [|x l] using rev_ind; [cbn in LP; lia|]. rewrite last_last. apply Forall_app in RP as (_ & RP). now apply Forall_inv in RP.
Qed.
Print Assumptions C84_decoder_finds_the_path.
Theorem C84_decoder_restarts : forall n (init : list R) (trans pre : list (list R)) (o : list R) (post : list (list R)) (delta delta' : array R) q, fitting (W := reals) n init trans (pre ++ o :: post) -> nonneg init -> Forall nonneg trans -> Forall nonneg (pre ++ o :: post) ->
  a_path n pre q -> (0 < probability init trans pre q)%R -> pre <> [] -> (forall q', a_path n (pre ++ [o]) q' -> probability init trans (pre ++ [o]) q' = 0%R) ->
  Z.of_nat (length (pre ++ o :: post)) * n <= size delta -> Z.of_nat (length (o :: post)) * n <= size delta' -> let ones := repeat 1%R (Z.to_nat n) in
  exists r r' p1, viterbi_path (W := reals) init trans (pre ++ o :: post) delta [] = Ret r /\ viterbi_path (W := reals) ones trans (ones :: post) delta' [] = Ret r' /\ d_path r = p1 ++ d_path r' /\ a_path n pre p1 /\ last p1 0 = n - 1 /\
    (forall p', a_path n pre p' -> last p' 0 = n - 1 -> (probability init trans pre p' <= probability init trans pre p1)%R) /\ znth 0%R (d_scale r) (Z.of_nat (length pre)) = 1%R.
Proof.
  intros n init trans pre o post delta delta' q F NI NT NO Q P N D S S' ones. destruct (frame_without_paths n init trans pre o post q F NI NT NO Q P N D) as (p1 & p2 & E & A & L & B & E2 & K).
  assert (F' : fitting (W := reals) n ones trans (ones :: post)).
  { destruct F as (F1 & F2 & F3 & F4 & _ & F5). apply Forall_app in F5 as (_ & F5). apply Forall_inv_tail in F5. assert (LO : Z.of_nat (length ones) = n) by (unfold ones; rewrite repeat_length; lia). repeat split; try assumption; [discriminate|]. now constructor. }
  destruct (decoder_runs reals n init trans _ delta [] F S) as (r & R & _ & EP & _ & _ & ES & _). destruct (decoder_runs reals n ones trans _ delta' [] F' S') as (r' & R' & _ & EP' & _).
  exists r, r', p1. split; [exact R|]. split; [exact R'|]. split; [rewrite EP, EP'; etransitivity; [exact E|]; f_equal; exact E2|]. split; [exact A|]. split; [exact L|]. split; [exact B|]. rewrite ES. exact K.
Qed.
Print Assumptions C84_decoder_restarts.
(** Of the eight paths the best is 1 1 1; and a frame of zeros ends all paths. *)
Definition exact_init : list R := [1 / 2; 1 / 2]%R.
Definition exact_trans : list (list R) := [[9 / 10; 1 / 10]; [1 / 10; 9 / 10]]%R.
Definition exact_obs : list (list R) := [[1 / 10; 9 / 10]; [3 / 5; 2 / 5]; [1 / 10; 9 / 10]]%R.
Example C84_case : fitting (W := reals) 2 exact_init exact_trans exact_obs /\ nonneg exact_init /\ Forall nonneg exact_trans /\ Forall nonneg exact_obs /\ a_path 2 exact_obs [1; 1; 1] /\
  probability exact_init exact_trans exact_obs [1; 1; 1] = (6561 / 50000)%R /\ probability exact_init exact_trans exact_obs [1; 0; 1] = (243 / 100000)%R.
Proof.
  split; [repeat split; try lia; try discriminate; repeat constructor|]. split; [repeat constructor; lra|]. split; [repeat constructor; lra|]. split; [repeat constructor; lra|]. split; [split; [reflexivity|repeat constructor; lia]|].
  split; unfold exact_init, exact_trans, exact_obs, probability, going, znth; simpl; lra.
Qed.
Example C84_dead_case : fitting (W := reals) 2 exact_init exact_trans (exact_obs ++ [[0; 0]%R; [1; 1]%R]) /\ forall q', a_path 2 (exact_obs ++ [[0; 0]%R]) q' -> probability exact_init exact_trans (exact_obs ++ [[0; 0]%R]) q' = 0%R.
Proof.
  split; [repeat split; try lia; try discriminate; repeat constructor|]. intros [|a [|b [|c [|d [|e q]]]]] (L & F); try discriminate L. repeat match goal with H : Forall _ (_ :: _) |- _ => apply Forall_cons_iff in H; destruct H end. assert (D : d = 0 \/ d = 1) by lia.
  cbn [app exact_obs probability going]. assert (Z0 : znth 0%R [0; 0]%R d = 0%R) by (destruct D; subst d; reflexivity). rewrite Z0. ring.
Qed.
