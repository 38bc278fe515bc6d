(** Facts about the Python data tools. *)
From Coq Require Import Reals Lra Lia ZifyBool Ascii Permutation.
From Flocq Require Import Core.Core IEEE754.BinarySingleNaN.
From Verif Require Import Base BaseFacts Fp FpFacts Key KeyFacts PitchClass Text Py Dataset Output MusicSpec TextSpec TextFacts MainSpec OutputFacts ReadFacts NumFacts FloatKit DatasetSpec.
Open Scope Z_scope.

(** ** Comparison of keys *)
Definition judgedb (T K : Z) (r : relation) : bool :=
  match r with
  | Tonic => K =? T
  | Fifth => fifthb K T || fifthb T K
  | Relative => same_notesb K T
  | Parallel => paralb K T
  | Other => negb (K =? T) && negb (fifthb K T) && negb (fifthb T K) && negb (same_notesb K T) && negb (paralb K T)
  end.
Lemma judgedb_spec T K r : judgedb T K r = true <-> judged T K r.
Proof.
  split.
  - destruct r; cbn; intros H.
    + apply judged_tonic. lia.
    + apply judged_fifth. apply orb_prop in H. rewrite !fifthb_spec in H. exact H.
    + apply judged_relative. now apply same_notesb_spec.
    + apply judged_parallel. now apply paralb_spec.
    + rewrite !andb_true_iff, !negb_true_iff in H. destruct H as ((((A & B) & C) & D) & E).
      apply judged_other; [lia|rewrite <- fifthb_spec; congruence|rewrite <- fifthb_spec; congruence|rewrite <- same_notesb_spec; congruence|rewrite <- paralb_spec; congruence].
  - intros H. destruct H as [H|H|H|H|A B C D E]; cbn.
    + lia.
    + rewrite orb_true_iff, !fifthb_spec. exact H.
    + now apply same_notesb_spec.
    + now apply paralb_spec.
    + rewrite <- fifthb_spec in B, C. rewrite <- same_notesb_spec in D. rewrite <- paralb_spec in E. rewrite !andb_true_iff, !negb_true_iff. repeat split; try (now apply not_true_is_false). lia.
Qed.
Definition relations : list relation := [Tonic; Fifth; Relative; Parallel; Other].
Lemma relations_all r : In r relations. Proof. destruct r; cbn; auto 6. Qed.
Lemma relation_eqb_eq a b : relation_eqb a b = true <-> a = b. Proof. destruct a, b; cbn; split; congruence. Qed.
Lemma judged_swept : forallb (fun T => forallb (fun K => forallb (fun r => Bool.eqb (judgedb T K r) (relation_eqb (compare_keys T K) r)) relations) (zseq 24)) (zseq 24) = true.
Proof. vm_compute. reflexivity. Qed.
Lemma C48_proof T K r : is_key T -> is_key K -> compare_keys T K = r <-> judged T K r.
Proof.
  intros HT HK. pose proof (zseq_sweep2 24 24 _ judged_swept T K HT HK) as S. cbv beta in S. rewrite forallb_forall in S. specialize (S r (relations_all r)). cbv beta in S. apply Bool.eqb_prop in S.
  rewrite <- judgedb_spec, S. symmetry. apply relation_eqb_eq.
Qed.
Lemma C48_symmetric_proof T K : is_key T -> is_key K -> compare_keys T K = compare_keys K T.
Proof.
  intros HT HK. assert (C : forallb (fun T => forallb (fun K => relation_eqb (compare_keys T K) (compare_keys K T)) (zseq 24)) (zseq 24) = true) by (vm_compute; reflexivity).
  apply relation_eqb_eq. exact (zseq_sweep2 24 24 _ C T K HT HK).
Qed.
Lemma transpose_key_reduce t k : transpose_key t k = transpose_key (t mod 12) k.
Proof. unfold transpose_key. now rewrite Zplus_mod_idemp_r. Qed.
Lemma C48_transposed_proof t T K : is_key T -> is_key K -> compare_keys (transpose_key t T) (transpose_key t K) = compare_keys T K.
Proof.
  intros HT HK. rewrite (transpose_key_reduce t T), (transpose_key_reduce t K). pose proof (Z.mod_pos_bound t 12 eq_refl) as B. generalize dependent (t mod 12). clear t. intros t Ht.
  assert (C : forallb (fun T => forallb (fun K => forallb (fun t => relation_eqb (compare_keys (transpose_key t T) (transpose_key t K)) (compare_keys T K)) (zseq 12)) (zseq 24)) (zseq 24) = true) by (vm_compute; reflexivity).
  apply relation_eqb_eq. exact (zseq_sweep 12 _ (zseq_sweep2 24 24 _ C T K HT HK) t Ht).
Qed.
Lemma C48_cpp_proof T K : is_key T -> is_key K -> ~ fifth_above T K -> credit K T (credit_text (compare_keys T K)).
Proof.
  intros HT HK N. assert (C : forallb (fun T => forallb (fun K => fifthb T K || creditb K T (credit_text (compare_keys T K))) (zseq 24)) (zseq 24) = true) by (vm_compute; reflexivity).
  pose proof (zseq_sweep2 24 24 _ C T K HT HK) as S. cbv beta in S. apply orb_prop in S. destruct S as [S|S]; [apply fifthb_spec in S; contradiction|]. now apply creditb_spec.
Qed.
Lemma C48_cpp_refuted_proof : ~ (forall T K, is_key T -> is_key K -> credit K T (credit_text (compare_keys T K))).
Proof. intros H. specialize (H 0 5 ltac:(unfold is_key; lia) ltac:(unfold is_key; lia)). apply creditb_spec in H. vm_compute in H. discriminate. Qed.
Lemma C48_unknown_proof K : is_key K -> compare_keys (-1) K = if K =? 11 then Parallel else if K =? 23 then Other else compare_keys 11 K.
Proof.
  intros HK. assert (C : forallb (fun K => relation_eqb (compare_keys (-1) K) (if K =? 11 then Parallel else if K =? 23 then Other else compare_keys 11 K)) (zseq 24) = true) by (vm_compute; reflexivity).
  apply relation_eqb_eq. exact (zseq_sweep 24 _ C K HK).
Qed.

(** ** The score of a list *)
Lemma map_seq_combine {A B C} (f : A -> B -> C) da db (la : list A) (lb : list B) : length la = length lb ->
  map (fun i => f (nth i la da) (nth i lb db)) (seq 0 (length lb)) = map (fun p => f (fst p) (snd p)) (combine la lb).
Proof.
  revert lb. induction la as [|a la IH]; intros [|b lb] H; try discriminate; [reflexivity|]. cbn [combine map length seq nth fst snd]. f_equal.
  rewrite <- IH by (cbn in H; lia). rewrite <- seq_shift, map_map. reflexivity.
Qed.
Lemma count_occurs r rs : count r rs = Z.of_nat (count_occ relation_eq rs r).
Proof.
  unfold count. f_equal. induction rs as [|a rs IH]; [reflexivity|]. cbn [filter count_occ]. destruct (relation_eq a r) as [->|N].
  - replace (relation_eqb r r) with true by (now destruct r). cbn. now rewrite IH.
  - destruct (relation_eqb r a) eqn:E; [apply relation_eqb_eq in E; congruence|exact IH].
Qed.
Lemma judged_list y pred rs : Forall is_key y -> Forall is_key pred -> length pred = length y -> Forall2 (fun p r => judged (fst p) (snd p) r) (combine y pred) rs ->
  map (fun p => compare_keys (fst p) (snd p)) (combine y pred) = rs.
Proof.
  intros Hy. revert pred rs. induction Hy as [|a y Ha Hy IH]; intros [|b pred] rs Hp L F; try discriminate; cbn in F |- *; inversion F; subst; [reflexivity|].
  inversion Hp; subst. f_equal; [now apply C48_proof|]. apply IH; [assumption|cbn in L; lia|assumption].
Qed.
Lemma counts_total rs : (length rs = count_occ relation_eq rs Tonic + count_occ relation_eq rs Fifth + count_occ relation_eq rs Relative + count_occ relation_eq rs Parallel + count_occ relation_eq rs Other)%nat.
Proof. induction rs as [|a rs IH]; [reflexivity|]. cbn [length count_occ]. destruct a; cbn [relation_eq relation_rec relation_rect]; repeat destruct (relation_eq _ _); try congruence; lia. Qed.
Lemma credits_total rs : fold_right Rplus 0%R (map credit_value rs) =
  (INR (count_occ relation_eq rs Tonic) + / 2 * INR (count_occ relation_eq rs Fifth) + 3 / 10 * INR (count_occ relation_eq rs Relative) + / 5 * INR (count_occ relation_eq rs Parallel))%R.
Proof.
  induction rs as [|a rs IH]; [cbn; lra|]. cbn [map fold_right count_occ]. rewrite IH.
  destruct a; cbn [credit_value]; repeat destruct (relation_eq _ _); try congruence; rewrite ?S_INR; lra.
Qed.

Section Score.
  Variables t f r p o n : Z.
  Hypothesis Ht : 0 <= t. Hypothesis Hf : 0 <= f. Hypothesis Hr : 0 <= r. Hypothesis Hp : 0 <= p. Hypothesis Ho : 0 <= o.
  Hypothesis Hn : n = t + f + r + p + o. Hypothesis N : 0 < n <= 2 ^ 50.
  Definition mirex : b64 := fadd (fadd (fadd (py_float t) (fmul (rat64 5 10) (py_float f))) (fmul (rat64 3 10) (py_float r))) (fmul (rat64 2 10) (py_float p)).
  Local Open Scope R_scope.
  Definition eps : R := bpow radix2 (-53).
  Lemma small_big v : Rabs v <= bpow radix2 52 -> Rabs v <= big.
  Proof. intros H. apply Rle_trans with (1 := H). apply bpow_le. lia. Qed.
  Lemma half_R : is_finite (rat64 5 10) = true /\ B2R (rat64 5 10) = / 2.
  Proof. destruct (rat64_unit 5 10 ltac:(lia)) as (F & E). split; [exact F|]. rewrite E. replace (5 / 10) with (IZR 1 / 2) by lra. replace (/ 2) with (IZR 1 / 2) by lra. apply rnd_id, half_format. lia. Qed.
  Lemma three_R : is_finite (rat64 3 10) = true /\ 0 <= B2R (rat64 3 10) <= / 2 /\ Rabs (B2R (rat64 3 10) - 3 / 10) <= eps.
  Proof.
    destruct (rat64_unit 3 10 ltac:(lia)) as (F & E). split; [exact F|]. rewrite E. split; [split; [apply rnd_ge0; lra|]|].
    - replace (/ 2) with (IZR 1 / 2) by lra. apply rnd_ub; [apply half_format; lia|lra].
    - apply Rle_trans with (1 := rnd_error _). rewrite Rabs_pos_eq by lra. assert (bpow radix2 (-1075) <= bpow radix2 (-54)) by (apply bpow_le; lia).
      replace (bpow radix2 (-54)) with (/ 2 * bpow radix2 (-53)) in H by (change (/2) with (bpow radix2 (-1)); rewrite <- bpow_plus; reflexivity). unfold eps. pose proof (bpow_gt_0 radix2 (-53)). lra.
  Qed.
  Lemma two_R : is_finite (rat64 2 10) = true /\ 0 <= B2R (rat64 2 10) <= / 2 /\ Rabs (B2R (rat64 2 10) - / 5) <= eps.
  Proof.
    destruct (rat64_unit 2 10 ltac:(lia)) as (F & E). split; [exact F|]. rewrite E. split; [split; [apply rnd_ge0; lra|]|].
    - replace (/ 2) with (IZR 1 / 2) by lra. apply rnd_ub; [apply half_format; lia|lra].
    - replace (2 / 10) with (/ 5) by lra. apply Rle_trans with (1 := rnd_error _). rewrite Rabs_pos_eq by lra. assert (bpow radix2 (-1075) <= bpow radix2 (-54)) by (apply bpow_le; lia).
      replace (bpow radix2 (-54)) with (/ 2 * bpow radix2 (-53)) in H by (change (/2) with (bpow radix2 (-1)); rewrite <- bpow_plus; reflexivity). unfold eps. pose proof (bpow_gt_0 radix2 (-53)). lra.
  Qed.
  (** A product with a constant near one of the credits. *)
  Lemma part_R c v q : is_finite c = true -> 0 <= B2R c <= / 2 -> Rabs (B2R c - v) <= eps -> 0 <= v <= / 2 -> (0 <= q <= n)%Z ->
    is_finite (fmul c (py_float q)) = true /\ 0 <= B2R (fmul c (py_float q)) <= IZR q / 2 /\ Rabs (B2R (fmul c (py_float q)) - v * IZR q) <= 2 * eps * IZR q.
  Proof.
    intros Fc Bc Ec Bv Hq. destruct (py_float_R q ltac:(lia)) as (Fq & Eq). assert (Q : 0 <= IZR q) by (apply IZR_le; lia).
    assert (U : 0 <= B2R c * IZR q <= IZR q / 2) by (split; [apply Rmult_le_pos; lra|nra]).
    assert (HB : IZR q / 2 <= bpow radix2 52). { rewrite <- (IZR_bpow 52) by lia. assert (IZR q <= IZR (2 ^ 52)) by (apply IZR_le; lia). pose proof (IZR_le 0 (2 ^ 52) ltac:(lia)). lra. }
    destruct (fmul_R c (py_float q) Fc Fq) as (F & E); [rewrite Eq; apply small_big; rewrite Rabs_pos_eq; lra|].
    rewrite Eq in E. split; [exact F|]. rewrite E. split.
    - split; [apply rnd_ge0; lra|]. apply rnd_ub; [apply half_format; lia|lra].
    - destruct (Z.eq_dec q 0) as [Z|NZ].
      + rewrite Z, !Rmult_0_r, round_0, Rminus_0_r, Rabs_R0 by apply valid_rnd_N. lra.
      + assert (Q1 : 1 <= IZR q) by (apply IZR_le; lia).
        replace (rnd (B2R c * IZR q) - v * IZR q) with ((rnd (B2R c * IZR q) - B2R c * IZR q) + (B2R c - v) * IZR q) by ring.
        apply Rle_trans with (1 := Rabs_triang _ _). rewrite Rabs_mult, (Rabs_pos_eq (IZR q)) by lra.
        pose proof (rnd_error (B2R c * IZR q)) as R. rewrite (Rabs_pos_eq (B2R c * IZR q)) in R by lra.
        assert (S : bpow radix2 (-1075) <= / 2 * eps). { replace (/ 2 * eps) with (bpow radix2 (-54)) by (unfold eps; change (/2) with (bpow radix2 (-1)); rewrite <- bpow_plus; reflexivity). apply bpow_le; lia. }
        pose proof (bpow_gt_0 radix2 (-53)) as P. fold eps in P, R.
        assert (eps * (B2R c * IZR q) <= eps * (IZR q / 2)) by (apply Rmult_le_compat_l; lra).
        assert (Rabs (B2R c - v) * IZR q <= eps * IZR q) by (apply Rmult_le_compat_r; lra). assert (eps * 1 <= eps * IZR q) by (apply Rmult_le_compat_l; lra). lra.
  Qed.
  Lemma mirex_R : is_finite mirex = true /\ 0 <= B2R mirex <= IZR t + IZR (f + r + p) / 2 /\
    Rabs (B2R mirex - (IZR t + / 2 * IZR f + 3 / 10 * IZR r + / 5 * IZR p)) <= 5 * eps * IZR n.
  Proof.
    destruct half_R as (F5 & E5). destruct three_R as (F3 & B3 & D3). destruct two_R as (F2 & B2 & D2).
    destruct (py_float_R t ltac:(lia)) as (Ft & Et). destruct (py_float_R f ltac:(lia)) as (Ff & Ef).
    assert (Q : forall a b, (a <= b)%Z -> IZR a <= IZR b) by (intros; now apply IZR_le).
    assert (M : IZR (2 ^ 50) = bpow radix2 50) by (apply IZR_bpow; lia). assert (M52 : bpow radix2 52 = 4 * bpow radix2 50) by (rewrite <- M, <- (IZR_bpow 52) by lia; replace (2 ^ 52)%Z with (4 * 2 ^ 50)%Z by lia; now rewrite mult_IZR).
    pose proof (Q _ _ Ht) as Qt. pose proof (Q _ _ Hf) as Qf. pose proof (Q _ _ Hr) as Qr. pose proof (Q _ _ Hp) as Qp. pose proof (Q _ _ Ho) as Qo. pose proof (Q n (2 ^ 50)%Z ltac:(lia)) as Qn.
    assert (En : IZR n = IZR t + IZR f + IZR r + IZR p + IZR o) by (rewrite Hn, !plus_IZR; ring). rewrite M in Qn. pose proof (bpow_gt_0 radix2 50) as P50.
    (* 0.5 * f, exactly *)
    destruct (fmul_R (rat64 5 10) (py_float f) F5 Ff) as (Fa & Ea); [rewrite E5, Ef; apply small_big; rewrite Rabs_pos_eq; lra|].
    rewrite E5, Ef in Ea. rewrite rnd_id in Ea by (replace (/ 2 * IZR f) with (IZR f / 2) by field; apply half_format; lia).
    (* t + 0.5 f, exactly *)
    destruct (fadd_R (py_float t) (fmul (rat64 5 10) (py_float f)) Ft Fa) as (Fb & Eb); [rewrite Et, Ea; apply small_big; rewrite Rabs_pos_eq; lra|].
    rewrite Et, Ea in Eb. rewrite rnd_id in Eb by (replace (IZR t + / 2 * IZR f) with (IZR (2 * t + f) / 2) by (rewrite plus_IZR, mult_IZR; field); apply half_format; lia).
    destruct (part_R (rat64 3 10) (3 / 10) r F3 B3 D3 ltac:(lra) ltac:(lia)) as (Fc & Bc & Dc). destruct (part_R (rat64 2 10) (/ 5) p F2 B2 D2 ltac:(lra) ltac:(lia)) as (Fd & Bd & Dd).
    (* + 0.3 r *)
    destruct (fadd_R (fadd (py_float t) (fmul (rat64 5 10) (py_float f))) (fmul (rat64 3 10) (py_float r)) Fb Fc) as (Fe & Ee); [rewrite Eb; apply small_big; rewrite Rabs_pos_eq; lra|].
    rewrite Eb in Ee. set (x := fadd (fadd (py_float t) (fmul (rat64 5 10) (py_float f))) (fmul (rat64 3 10) (py_float r))) in *. set (c := B2R (fmul (rat64 3 10) (py_float r))) in *. set (d := B2R (fmul (rat64 2 10) (py_float p))) in *.
    assert (Bx : 0 <= B2R x <= IZR t + IZR (f + r) / 2).
    { rewrite Ee. split; [apply rnd_ge0; lra|]. apply rnd_ub; [|rewrite plus_IZR; lra]. replace (IZR t + IZR (f + r) / 2) with (IZR (2 * t + (f + r)) / 2) by (rewrite (plus_IZR (2 * t)), mult_IZR; field). apply half_format. lia. }
    rewrite plus_IZR in Bx.
    assert (Dx : Rabs (B2R x - (IZR t + / 2 * IZR f + c)) <= eps * IZR n + bpow radix2 (-1075)).
    { rewrite Ee. apply Rle_trans with (1 := rnd_error _). fold eps. apply Rplus_le_compat_r. apply Rmult_le_compat_l; [unfold eps; apply bpow_ge_0|]. rewrite Rabs_pos_eq by lra. lra. }
    destruct (fadd_R x (fmul (rat64 2 10) (py_float p)) Fe Fd) as (Fm & Em); [fold d; apply small_big; rewrite Rabs_pos_eq; lra|]. fold d in Em.
    unfold mirex. fold x. split; [exact Fm|]. rewrite Em. split.
    - split; [apply rnd_ge0; lra|]. apply rnd_ub; [|rewrite !plus_IZR; lra]. replace (IZR t + IZR (f + r + p) / 2) with (IZR (2 * t + (f + r + p)) / 2) by (rewrite (plus_IZR (2 * t)), mult_IZR; field). apply half_format. lia.
    - pose proof (rnd_error (B2R x + d)) as R. fold eps in R. rewrite (Rabs_pos_eq (B2R x + d)) in R by lra.
      assert (G : eps * (B2R x + d) <= eps * IZR n) by (apply Rmult_le_compat_l; [unfold eps; apply bpow_ge_0|lra]).
      assert (Sm : bpow radix2 (-1075) <= / 2 * eps). { replace (/ 2 * eps) with (bpow radix2 (-54)) by (unfold eps; change (/2) with (bpow radix2 (-1)); rewrite <- bpow_plus; reflexivity). apply bpow_le; lia. }
      assert (E0 : 0 < eps) by (unfold eps; apply bpow_gt_0). pose proof (Q 1%Z n ltac:(lia)) as N1. assert (eps * 1 <= eps * IZR n) by (apply Rmult_le_compat_l; lra).
      assert (eps * IZR r + eps * IZR p <= eps * IZR n) by (rewrite <- Rmult_plus_distr_l; apply Rmult_le_compat_l; lra).
      replace (rnd (B2R x + d) - (IZR t + / 2 * IZR f + 3 / 10 * IZR r + / 5 * IZR p)) with
        ((rnd (B2R x + d) - (B2R x + d)) + (B2R x - (IZR t + / 2 * IZR f + c)) + (c - 3 / 10 * IZR r) + (d - / 5 * IZR p)) by ring.
      repeat (apply Rle_trans with (1 := Rabs_triang _ _); apply Rle_trans with (1 := Rplus_le_compat_r _ _ _ (Rabs_triang _ _)) || idtac).
      pose proof (Rabs_triang (rnd (B2R x + d) - (B2R x + d)) (B2R x - (IZR t + / 2 * IZR f + c))) as T1. lra.
  Qed.
End Score.

Lemma Rdiv_nonneg a b : (0 <= a -> 0 < b -> 0 <= a / b)%R.
Proof. intros A B. apply Rle_mult_inv_pos; assumption. Qed.
Lemma Rdiv_upper a b c : (0 < b -> a <= c * b -> a / b <= c)%R.
Proof. intros B H. apply (Rmult_le_reg_r b); [exact B|]. unfold Rdiv. rewrite Rmult_assoc, Rinv_l, Rmult_1_r by lra. exact H. Qed.
(** What the program computes for equal lengths. *)
Lemma weighted_score_eq pred y rs : Forall is_key y -> Forall is_key pred -> length pred = length y -> Forall2 (fun p r => judged (fst p) (snd p) r) (combine y pred) rs ->
  length rs = length y /\
  weighted_score pred y =
    (py_do s <- float_div (mirex (count Tonic rs) (count Fifth rs) (count Relative rs) (count Parallel rs)) (py_float (Z.of_nat (length y)));
     py_do l <- pymap (fun x => int_div x (Z.of_nat (length y))) [count Tonic rs; count Fifth rs; count Relative rs; count Parallel rs; count Other rs];
     Returns (Some (s :: l))).
Proof.
  intros Hy Hp L F. pose proof (judged_list y pred rs Hy Hp L F) as E. split.
  - rewrite <- E, map_length, combine_length. lia.
  - unfold weighted_score. rewrite L, Nat.eqb_refl. cbn [negb]. pose proof (map_seq_combine compare_keys 0 0 y pred (eq_sym L)) as M. rewrite E, L in M. rewrite M. reflexivity.
Qed.
Lemma int_div_share m n : 0 <= m <= n -> 0 < n -> exists x, int_div m n = Returns x /\ is_finite x = true /\ B2R x = rnd (IZR m / IZR n).
Proof. intros H P. destruct n as [|q|q]; try lia. exists (rat64 m q). split; [reflexivity|]. now apply rat64_unit. Qed.
Lemma all_tonic y pred rs : Forall2 (fun p r => judged (fst p) (snd p) r) (combine y pred) rs -> length pred = length y -> count_occ relation_eq rs Tonic = length rs -> pred = y.
Proof.
  revert pred rs. induction y as [|a y IH]; intros [|b pred] rs F L C; try discriminate; [reflexivity|]. cbn in F. inversion F as [|x r l rs' J F']; subst. cbn in J. cbn [length count_occ] in C.
  destruct (relation_eq r Tonic) as [->|N].
  - inversion J; subst. f_equal. apply (IH pred rs'); [assumption|cbn in L; lia|cbn in C; lia].
  - pose proof (count_occ_bound relation_eq Tonic rs'). lia.
Qed.
Lemma same_tonics y rs : Forall2 (fun p r => judged (fst p) (snd p) r) (combine y y) rs -> Forall is_key y -> count_occ relation_eq rs Tonic = length rs.
Proof.
  intros F H. revert rs F. induction H as [|a y Ha H IH]; intros rs F; cbn in F; inversion F as [|x r l rs' J F']; subst; [reflexivity|]. cbn in J.
  assert (r = Tonic) by (apply (C48_proof a a r Ha Ha) in J; unfold compare_keys in J; rewrite Z.eqb_refl in J; congruence). subst. cbn. now rewrite IH.
Qed.
Lemma C49_proof pred y rs : Forall is_key y -> Forall is_key pred -> length pred = length y -> (0 < Z.of_nat (length y) <= 2 ^ 50) ->
  Forall2 (fun p r => judged (fst p) (snd p) r) (combine y pred) rs ->
  exists s l, weighted_score pred y = Returns (Some (s :: l)) /\ is_finite s = true /\ (0 <= B2R s <= 1)%R /\ (B2R s = 1%R <-> pred = y) /\
    (Rabs (B2R s - mean (map credit_value rs)) <= 1 / 10 ^ 15)%R /\
    Forall2 (fun x r => is_finite x = true /\ B2R x = rnd (share r rs)) l [Tonic; Fifth; Relative; Parallel; Other].
Proof.
  intros Hy Hp L N F. destruct (weighted_score_eq pred y rs Hy Hp L F) as (Lr & E). rewrite <- Lr in *. pose proof (counts_total rs) as CT.
  assert (CZ : Z.of_nat (length rs) = count Tonic rs + count Fifth rs + count Relative rs + count Parallel rs + count Other rs) by (rewrite !count_occurs; lia).
  assert (P : forall r, 0 <= count r rs) by (intros; unfold count; lia).
  pose proof (P Tonic) as P1. pose proof (P Fifth) as P2. pose proof (P Relative) as P3. pose proof (P Parallel) as P4. pose proof (P Other) as P5.
  destruct (mirex_R _ _ _ _ _ _ P1 P2 P3 P4 P5 CZ N) as (Fm & Bm & Dm).
  set (n := Z.of_nat (length rs)) in *. destruct (py_float_R n ltac:(lia)) as (Fn & En). set (m := mirex _ _ _ _) in *.
  assert (N1 : (1 <= IZR n)%R) by (apply IZR_le; lia). pose proof (IZR_le n _ (proj2 N)) as N2. rewrite IZR_bpow in N2 by lia.
  assert (BP : (B2R m <= IZR n)%R). { apply Rle_trans with (1 := proj2 Bm). rewrite CZ. rewrite !plus_IZR. pose proof (IZR_le _ _ P2). pose proof (IZR_le _ _ P3). pose proof (IZR_le _ _ P4). pose proof (IZR_le _ _ P5). lra. }
  assert (Q : (0 <= B2R m / IZR n <= 1)%R). { split; [apply Rdiv_nonneg; lra|]. apply Rdiv_upper; lra. }
  assert (B1 : (1 <= big)%R) by (change 1%R with (bpow radix2 0); apply bpow_le; lia).
  destruct (fdiv_R m (py_float n) Fm Fn) as (Fs & Es); [rewrite En; lra|rewrite En, Rabs_pos_eq; lra|]. rewrite En in Es. set (s := Bdiv mode_NE m (py_float n)) in *.
  assert (FD : float_div m (py_float n) = Returns s).
  { unfold float_div. destruct (feq (py_float n) fzero) eqn:Z0; [|reflexivity]. exfalso. unfold feq in Z0. rewrite Beqb_correct in Z0 by (assumption || reflexivity). rewrite En in Z0. change (B2R fzero) with 0%R in Z0. destruct (Req_bool_spec (IZR n) 0); [lra|discriminate]. }
  rewrite FD in E. cbn [pybind] in E.
  assert (CB : forall r, 0 <= count r rs <= n) by (intros []; lia).
  destruct (int_div_share _ n (CB Tonic) ltac:(lia)) as (x1 & I1 & G1). destruct (int_div_share _ n (CB Fifth) ltac:(lia)) as (x2 & I2 & G2). destruct (int_div_share _ n (CB Relative) ltac:(lia)) as (x3 & I3 & G3).
  destruct (int_div_share _ n (CB Parallel) ltac:(lia)) as (x4 & I4 & G4). destruct (int_div_share _ n (CB Other) ltac:(lia)) as (x5 & I5 & G5).
  cbn [pymap] in E. rewrite I1, I2, I3, I4, I5 in E. cbn [pybind] in E.
  assert (SH : forall r, (share r rs = IZR (count r rs) / IZR n)%R) by (intros r; unfold share; rewrite count_occurs, !INR_IZR_INZ; reflexivity).
  exists s, [x1; x2; x3; x4; x5]. split; [exact E|]. split; [exact Fs|].
  assert (Bs : (0 <= B2R s <= 1)%R). { rewrite Es. split; [apply rnd_ge0; lra|]. apply rnd_ub; [apply (int_format 1); lia|lra]. }
  split; [exact Bs|]. split; [|split].
  - split; intros H.
    + (* not all tonic: the quotient is at most (2 n - 1) / 2 n *)
      apply (all_tonic y pred rs F); [lia|]. destruct (Z.eq_dec (count Tonic rs) n) as [T|T]; [rewrite count_occurs in T; lia|exfalso].
      assert (M : (B2R m <= IZR n - / 2)%R).
      { apply Rle_trans with (1 := proj2 Bm). rewrite CZ, !plus_IZR. pose proof (IZR_le _ _ P5). pose proof (IZR_le _ _ P2). pose proof (IZR_le _ _ P3). pose proof (IZR_le _ _ P4).
        assert (1 <= count Fifth rs + count Relative rs + count Parallel rs + count Other rs) as K by lia. apply IZR_le in K. rewrite !plus_IZR in K. lra. }
      assert (LT : (B2R s <= 1 - bpow radix2 (-52))%R).
      { rewrite Es. apply rnd_ub.
        - replace (1 - bpow radix2 (-52))%R with (F2R (Float radix2 (2 ^ 52 - 1) (-52))).
          2:{ unfold F2R. cbn [Fnum Fexp]. rewrite minus_IZR, IZR_bpow by lia. rewrite Rmult_minus_distr_r, <- bpow_plus. change (52 + -52) with 0%Z. change (bpow radix2 0) with 1%R. lra. }
          apply generic_format_FLT. exists (Float radix2 (2 ^ 52 - 1) (-52)); [reflexivity|cbn; lia|cbn; lia].
        - apply Rdiv_upper; [lra|]. assert (K : (bpow radix2 (-52) * IZR n <= / 4)%R).
          { apply Rle_trans with (bpow radix2 (-52) * bpow radix2 50)%R; [apply Rmult_le_compat_l; [apply bpow_ge_0|exact N2]|]. rewrite <- bpow_plus. change (-52 + 50) with (-2). cbn. lra. }
          lra. }
      pose proof (bpow_gt_0 radix2 (-52)). lra.
    + subst pred. pose proof (same_tonics y rs F Hy) as T. assert (TN : count Tonic rs = n) by (rewrite count_occurs, T; reflexivity).
      assert (Z2 : count Fifth rs = 0) by lia. assert (Z3 : count Relative rs = 0) by lia. assert (Z4 : count Parallel rs = 0) by lia.
      assert (m = py_float n \/ B2R m = IZR n) as [M|M].
      { right. unfold m, mirex. rewrite TN, Z2, Z3, Z4. destruct half_R as (F5 & E5). destruct three_R as (F3 & B3 & D3). destruct two_R as (F2 & B2' & D2). destruct (py_float_R 0 ltac:(lia)) as (F0 & E0).
        destruct (fmul_R _ _ F5 F0) as (Fa & Ea); [rewrite E0, Rmult_0_r, Rabs_R0; lra|]. destruct (fmul_R _ _ F3 F0) as (Fb & Eb); [rewrite E0, Rmult_0_r, Rabs_R0; lra|]. destruct (fmul_R _ _ F2 F0) as (Fc & Ec); [rewrite E0, Rmult_0_r, Rabs_R0; lra|].
        rewrite E0, Rmult_0_r, round_0 in Ea, Eb, Ec by apply valid_rnd_N.
        assert (NB : (Rabs (IZR n) <= big)%R) by (rewrite Rabs_pos_eq by lra; apply Rle_trans with (1 := N2); apply bpow_le; lia).
        assert (FN : generic_format radix2 fexp64 (IZR n)) by (apply int_format; lia).
        destruct (fadd_R _ _ Fn Fa) as (F6 & E6); [rewrite Ea, En, Rplus_0_r; exact NB|]. rewrite Ea, En, Rplus_0_r, rnd_id in E6 by exact FN.
        destruct (fadd_R _ _ F6 Fb) as (F7 & E7); [rewrite Eb, E6, Rplus_0_r; exact NB|]. rewrite Eb, E6, Rplus_0_r, rnd_id in E7 by exact FN.
        destruct (fadd_R _ _ F7 Fc) as (F8 & E8); [rewrite Ec, E7, Rplus_0_r; exact NB|]. rewrite Ec, E7, Rplus_0_r, rnd_id in E8 by exact FN. exact E8. }
      * rewrite Es, M, En. unfold Rdiv. rewrite Rinv_r by lra. apply rnd_id, (int_format 1). lia.
      * rewrite Es, M. unfold Rdiv. rewrite Rinv_r by lra. apply rnd_id, (int_format 1). lia.
  - assert (MC : mean (map credit_value rs) = ((IZR (count Tonic rs) + / 2 * IZR (count Fifth rs) + 3 / 10 * IZR (count Relative rs) + / 5 * IZR (count Parallel rs)) / IZR n)%R).
    { unfold mean. rewrite map_length, credits_total, !count_occurs, !INR_IZR_INZ. reflexivity. }
    rewrite MC. set (v := (IZR (count Tonic rs) + _ + _ + _)%R) in *. rewrite Es.
    replace (rnd (B2R m / IZR n) - v / IZR n)%R with ((rnd (B2R m / IZR n) - B2R m / IZR n) + (B2R m - v) / IZR n)%R by (field; lra).
    apply Rle_trans with (1 := Rabs_triang _ _). pose proof (rnd_error (B2R m / IZR n)) as R. rewrite (Rabs_pos_eq (B2R m / IZR n)) in R by lra.
    assert (D : (Rabs ((B2R m - v) / IZR n) <= 5 * eps)%R). { unfold Rdiv. rewrite Rabs_mult, (Rabs_pos_eq (/ IZR n)) by (left; apply Rinv_0_lt_compat; lra). apply Rdiv_upper; lra. }
    fold eps in R. assert (E0 : (0 < eps)%R) by (unfold eps; apply bpow_gt_0).
    assert (Sm : (bpow radix2 (-1075) <= / 2 * eps)%R). { replace (/ 2 * eps)%R with (bpow radix2 (-54)) by (unfold eps; change (/2)%R with (bpow radix2 (-1)); rewrite <- bpow_plus; reflexivity). apply bpow_le; lia. }
    assert (eps * (B2R m / IZR n) <= eps * 1)%R by (apply Rmult_le_compat_l; lra).
    assert (K : (7 * eps <= 1 / 10 ^ 15)%R).
    { unfold eps. change (bpow radix2 (-53)) with (/ IZR (2 ^ 53))%R. change (2 ^ 53) with 9007199254740992. replace (10 ^ 15)%R with (IZR (10 ^ 15)) by (change (10 ^ 15) with 1000000000000000; cbn; lra). change (10 ^ 15) with 1000000000000000. lra. }
    lra.
  - repeat constructor; try (now apply G1 || now apply G2 || now apply G3 || now apply G4 || now apply G5); rewrite SH; [apply G1|apply G2|apply G3|apply G4|apply G5].
Qed.
Lemma C49_lengths_proof pred y : length pred <> length y -> weighted_score pred y = Returns None.
Proof. intros H. unfold weighted_score. apply Nat.eqb_neq in H. now rewrite H. Qed.
Lemma C49_empty_proof : weighted_score [] [] = Raises ZeroDivisionError.
Proof. vm_compute. reflexivity. Qed.

(** ** Transposition of a data point *)
Lemma chunks_roll {A} (d : A) t n (l : list A) r c : length l = (12 * n)%nat -> (r < n)%nat -> (c < 12)%nat -> 0 <= t < 12 ->
  nth (12 * r + Z.to_nat ((Z.of_nat c + t) mod 12)) (concat (map (roll t) (chunks n l))) d = nth (12 * r + c) l d.
Proof.
  intros L R C T. revert l r L R. induction n as [|n IH]; intros l r L R; [lia|]. cbn [chunks map concat].
  assert (Lf : length (firstn 12 l) = 12%nat) by (rewrite firstn_length; lia). assert (Lr : length (roll t (firstn 12 l)) = 12%nat) by (unfold roll; now rewrite rotate_length).
  pose proof (Z.mod_pos_bound (Z.of_nat c + t) 12 eq_refl) as MB. destruct r as [|r].
  - replace (12 * 0 + Z.to_nat ((Z.of_nat c + t) mod 12))%nat with (Z.to_nat ((Z.of_nat c + t) mod 12)) by lia.
    rewrite app_nth1 by (rewrite Lr; lia). unfold roll. rewrite Lf. change (Z.of_nat 12) with 12. pose proof (Z.mod_pos_bound (- t) 12 eq_refl) as MB'.
    rewrite rotate_nth by (rewrite Lf; lia). rewrite Lf. transitivity (nth c (firstn 12 l) d).
    + f_equal. apply Nat2Z.inj. rewrite Nat2Z.inj_mod, Nat2Z.inj_add, !Z2Nat.id by lia. change (Z.of_nat 12) with 12. rewrite <- Zplus_mod. replace (Z.of_nat c + t + - t) with (Z.of_nat c) by lia. apply Z.mod_small. lia.
    + rewrite <- (firstn_skipn 12 l) at 2. rewrite app_nth1 by (rewrite Lf; lia). f_equal.
  - rewrite app_nth2 by (rewrite Lr; lia). rewrite Lr. replace (12 * S r + Z.to_nat ((Z.of_nat c + t) mod 12) - 12)%nat with (12 * r + Z.to_nat ((Z.of_nat c + t) mod 12))%nat by lia.
    rewrite IH by (rewrite ?skipn_length; lia). rewrite <- (firstn_skipn 12 l) at 2. rewrite app_nth2 by (rewrite Lf; lia). f_equal. rewrite Lf. lia.
Qed.
Lemma chunks_roll_length {A} t n (l : list A) : length l = (12 * n)%nat -> length (concat (map (roll t) (chunks n l))) = (12 * n)%nat.
Proof.
  revert l. induction n as [|n IH]; intros l L; [reflexivity|]. cbn [chunks map concat]. rewrite app_length, IH by (rewrite skipn_length; lia). unfold roll. rewrite rotate_length, firstn_length. lia.
Qed.
Lemma roll_0 {A} (row : list A) : roll 0 row = row.
Proof. unfold roll. cbn [Z.opp]. rewrite Zmod_0_l. cbn. unfold rotate. cbn. apply app_nil_r. Qed.
Lemma chunks_concat {A} n (l : list A) : length l = (12 * n)%nat -> concat (chunks n l) = l.
Proof. revert l. induction n as [|n IH]; intros l L; cbn [chunks concat]; [now apply length_zero_iff_nil in L|]. rewrite IH by (rewrite skipn_length; lia). apply firstn_skipn. Qed.
Lemma reshape12_ok {A} (l : list A) m : length l = (12 * m)%nat -> reshape12 l = Returns (chunks m l).
Proof. intros L. unfold reshape12. rewrite L, (Nat.mul_comm 12), Nat.mod_mul, Nat.div_mul by lia. reflexivity. Qed.
Lemma transpose_eq {A} (Xi : list A) y m : length Xi = (24 * m)%nat ->
  transpose Xi y = Returns (map (fun ti => concat (map (roll ti) (chunks (2 * m) Xi))) (zseq 12), map (fun ti => (y + ti) mod 12 + 12 * (y / 12)) (zseq 12)).
Proof. intros L. unfold transpose. rewrite (reshape12_ok Xi (2 * m)) by lia. reflexivity. Qed.
Lemma transposed_label t y : is_key y -> (y + t) mod 12 + 12 * (y / 12) = transpose_key t y.
Proof.
  intros H. unfold transpose_key, tonic, majorb, is_key in *. rewrite Zplus_mod_idemp_l. destruct (Z.ltb_spec y 12); [rewrite (Z.div_small y 12) by lia; lia|].
  replace (y / 12) with 1; [lia|]. apply (Z.div_unique y 12 1 (y - 12)); lia.
Qed.
Lemma nth_map_zseq {A} (f : Z -> A) n t d : (t < n)%nat -> nth t (map f (zseq n)) d = f (Z.of_nat t).
Proof. intros H. rewrite (nth_indep _ d (f 0)) by (rewrite map_length, zseq_length; lia). rewrite map_nth. now rewrite nth_zseq. Qed.
Lemma NoDup_map_on {A B} (f : A -> B) l : (forall a b, In a l -> In b l -> f a = f b -> a = b) -> NoDup l -> NoDup (map f l).
Proof.
  intros H D. induction D as [|a l N D IH]; [constructor|]. cbn. constructor.
  - rewrite in_map_iff. intros (b & E & I). apply N. rewrite (H a b); cbn; auto.
  - apply IH. intros x y X Y. apply H; now right.
Qed.
Lemma C50_proof {A} (Xi : list A) y m : length Xi = (24 * m)%nat -> is_key y ->
  exists F L, transpose Xi y = Returns (F, L) /\ length F = 12%nat /\ length L = 12%nat /\ nth 0 F [] = Xi /\ NoDup L /\ Forall is_key L /\
    forall t, (t < 12)%nat -> nth t L (-1) = transpose_key (Z.of_nat t) y /\ length (nth t F []) = (24 * m)%nat /\
      forall b k d, (b < m)%nat -> is_key k -> nth (24 * b + Z.to_nat (transpose_key (Z.of_nat t) k)) (nth t F []) d = nth (24 * b + Z.to_nat k) Xi d.
Proof.
  intros L Hy. rewrite (transpose_eq Xi y m L). do 2 eexists. split; [reflexivity|]. rewrite !map_length, zseq_length. repeat (split; [reflexivity|]).
  split; [|split; [|split]].
  - rewrite nth_map_zseq by lia. change (Z.of_nat 0) with 0. rewrite (map_ext _ (fun x => x)) by (intros; apply roll_0). rewrite map_id. apply chunks_concat. lia.
  - apply NoDup_map_on; [|apply zseq_NoDup]. intros a b Ha Hb E. apply zseq_In in Ha, Hb. change (Z.of_nat 12) with 12 in *.
    pose proof (Z.div_mod (y + a) 12 ltac:(lia)). pose proof (Z.div_mod (y + b) 12 ltac:(lia)). nia.
  - apply Forall_map, Forall_forall. intros t _. rewrite transposed_label by exact Hy. unfold is_key, transpose_key. pose proof (Z.mod_pos_bound (tonic y + t) 12 eq_refl). destruct (majorb y); lia.
  - intros t T. rewrite !nth_map_zseq by exact T. split; [now apply transposed_label|]. split; [rewrite chunks_roll_length by lia; lia|].
    intros b k d B K. unfold is_key in K. assert (K' : exists q c, (q < 2)%nat /\ (c < 12)%nat /\ k = 12 * Z.of_nat q + Z.of_nat c).
    { destruct (Z.lt_ge_cases k 12); [exists 0%nat, (Z.to_nat k)|exists 1%nat, (Z.to_nat (k - 12))]; lia. }
    destruct K' as (q & c & Q & C & ->). rewrite <- (transposed_label (Z.of_nat t) (12 * Z.of_nat q + Z.of_nat c)) by (unfold is_key; lia).
    replace ((12 * Z.of_nat q + Z.of_nat c) / 12) with (Z.of_nat q) by (symmetry + idtac; apply (Z.div_unique _ 12 _ (Z.of_nat c)); lia).
    replace ((12 * Z.of_nat q + Z.of_nat c + Z.of_nat t) mod 12) with ((Z.of_nat c + Z.of_nat t) mod 12) by (rewrite <- (Z_mod_plus_full (Z.of_nat c + Z.of_nat t) (Z.of_nat q) 12); f_equal; lia).
    pose proof (Z.mod_pos_bound (Z.of_nat c + Z.of_nat t) 12 eq_refl).
    replace (24 * b + Z.to_nat ((Z.of_nat c + Z.of_nat t) mod 12 + 12 * Z.of_nat q))%nat with (12 * (2 * b + q) + Z.to_nat ((Z.of_nat c + Z.of_nat t) mod 12))%nat by lia.
    replace (24 * b + Z.to_nat (12 * Z.of_nat q + Z.of_nat c))%nat with (12 * (2 * b + q) + c)%nat by lia.
    apply chunks_roll; lia.
Qed.
Lemma C50_ragged_proof {A} (Xi : list A) y : (length Xi mod 12 <> 0)%nat -> transpose Xi y = Raises ValueError.
Proof. intros H. unfold transpose, reshape12. apply Nat.eqb_neq in H. now rewrite H. Qed.
Lemma C50_unknown_proof {A} (Xi : list A) m : length Xi = (24 * m)%nat -> exists F L, transpose Xi (-1) = Returns (F, L) /\ nth 0 L 0 = -1 /\ nth 1 L 0 = -12.
Proof. intros L. rewrite (transpose_eq Xi (-1) m L). do 2 eexists. split; [reflexivity|]. vm_compute. now split. Qed.
Lemma augmentation_ok {A} m (X : list (list A)) y : length X = length y -> Forall (fun Xi => length Xi = (24 * m)%nat) X ->
  exists F L, data_augmentation X y = Returns (F, L) /\ length F = (12 * length X)%nat /\ length L = (12 * length X)%nat /\
    forall i, (i < length X)%nat -> exists Fi Li, transpose (nth i X []) (nth i y 0) = Returns (Fi, Li) /\ length Fi = 12%nat /\ length Li = 12%nat /\
      forall t, (t < 12)%nat -> nth (12 * i + t) F [] = nth t Fi [] /\ nth (12 * i + t) L (-1) = nth t Li (-1).
Proof.
  intros E H. revert y E. induction H as [|Xi X HX H IH]; intros [|yi y] E; try discriminate.
  - exists [], []. split; [reflexivity|]. repeat (split; [reflexivity|]). intros i Hi. cbn in Hi. lia.
  - destruct (IH y) as (F & L & D & LF & LL & P); [cbn in E; lia|]. cbn [data_augmentation]. rewrite (transpose_eq Xi yi m HX). cbn [pybind]. rewrite D. cbn [pybind].
    set (Fi := map (fun ti => concat _) (zseq 12)). set (Li := map (fun ti => _ + _) (zseq 12)).
    assert (LFi : length Fi = 12%nat) by (unfold Fi; now rewrite map_length, zseq_length). assert (LLi : length Li = 12%nat) by (unfold Li; now rewrite map_length, zseq_length).
    exists (Fi ++ F), (Li ++ L). split; [reflexivity|]. rewrite !app_length, LFi, LLi, LF, LL. cbn [length]. split; [lia|]. split; [lia|].
    intros [|i] Hi.
    + exists Fi, Li. cbn [nth]. rewrite (transpose_eq Xi yi m HX). split; [reflexivity|]. split; [exact LFi|]. split; [exact LLi|]. intros t T. rewrite !app_nth1 by (rewrite ?LFi, ?LLi; lia). split; f_equal; lia.
    + destruct (P i ltac:(lia)) as (Gi & Mi & Ti & LG & LM & Q). exists Gi, Mi. cbn [nth]. split; [exact Ti|]. split; [exact LG|]. split; [exact LM|]. intros t T. destruct (Q t T) as (Q1 & Q2).
      rewrite !app_nth2 by (rewrite ?LFi, ?LLi; lia). rewrite LFi, LLi. replace (12 * S i + t - 12)%nat with (12 * i + t)%nat by lia. now split.
Qed.
Lemma C50_augmentation_proof {A} m (X : list (list A)) y : length X = length y -> Forall (fun Xi => length Xi = (24 * m)%nat) X -> Forall is_key y ->
  exists F L, data_augmentation X y = Returns (F, L) /\ length F = (12 * length X)%nat /\ length L = (12 * length X)%nat /\
    forall i t, (i < length X)%nat -> (t < 12)%nat -> nth (12 * i + t) L (-1) = transpose_key (Z.of_nat t) (nth i y 0) /\ length (nth (12 * i + t) F []) = (24 * m)%nat /\
      forall b k d, (b < m)%nat -> is_key k -> nth (24 * b + Z.to_nat (transpose_key (Z.of_nat t) k)) (nth (12 * i + t) F []) d = nth (24 * b + Z.to_nat k) (nth i X []) d.
Proof.
  intros E HX Hy. destruct (augmentation_ok m X y E HX) as (F & L & D & LF & LL & P). exists F, L. split; [exact D|]. split; [exact LF|]. split; [exact LL|].
  intros i t Hi Ht. destruct (P i Hi) as (Fi & Li & Ti & _ & _ & Q). destruct (Q t Ht) as (Q1 & Q2). rewrite Q1, Q2.
  destruct (C50_proof (nth i X []) (nth i y 0) m) as (F' & L' & T' & _ & _ & _ & _ & _ & R); [rewrite Forall_forall in HX; apply HX, nth_In, Hi|rewrite Forall_forall in Hy; apply Hy, nth_In; lia|].
  rewrite Ti in T'. injection T' as <- <-. exact (R t Ht).
Qed.
