(** Rounded operations on doubles in terms of real numbers. *)
From Coq Require Import ZArith Reals Lra Lia Bool.
From Flocq Require Import Core.Core IEEE754.BinarySingleNaN.
From Flocq Require Import Relative.
From Verif Require Import Base Fp Py FpFacts NumFacts HmmAccuracy.
Open Scope R_scope.

Definition big : R := bpow radix2 1000.
Lemma big_format : generic_format radix2 fexp64 big.
Proof. apply generic_format_bpow. unfold SpecFloat.fexp, SpecFloat.emin, prec64, emax64. lia. Qed.
Lemma big_lt : big < bpow radix2 emax64.
Proof. apply bpow_lt. reflexivity. Qed.
Lemma rnd_abs v b : generic_format radix2 fexp64 b -> Rabs v <= b -> Rabs (rnd v) <= b.
Proof. intros F H. apply abs_round_le_generic; [exact fexp64_valid|apply valid_rnd_N|exact F|exact H]. Qed.
Lemma rnd_big v : Rabs v <= big -> Rlt_bool (Rabs (rnd v)) (bpow radix2 emax64) = true.
Proof. intros H. apply Rlt_bool_true. apply Rle_lt_trans with (2 := big_lt). now apply rnd_abs; [apply big_format|]. Qed.
Lemma fadd_R x y : is_finite x = true -> is_finite y = true -> Rabs (B2R x + B2R y) <= big -> is_finite (fadd x y) = true /\ B2R (fadd x y) = rnd (B2R x + B2R y).
Proof. intros Fx Fy H. pose proof (Bplus_correct prec64 emax64 _ _ mode_NE x y Fx Fy) as C. cbn [round_mode] in C. rewrite rnd_big in C by exact H. now destruct C as (E & F & _). Qed.
Lemma fsub_R x y : is_finite x = true -> is_finite y = true -> Rabs (B2R x - B2R y) <= big -> is_finite (fsub x y) = true /\ B2R (fsub x y) = rnd (B2R x - B2R y).
Proof. intros Fx Fy H. pose proof (Bminus_correct prec64 emax64 _ _ mode_NE x y Fx Fy) as C. cbn [round_mode] in C. rewrite rnd_big in C by exact H. now destruct C as (E & F & _). Qed.
Lemma fmul_R x y : is_finite x = true -> is_finite y = true -> Rabs (B2R x * B2R y) <= big -> is_finite (fmul x y) = true /\ B2R (fmul x y) = rnd (B2R x * B2R y).
Proof.
  intros Fx Fy H. pose proof (Bmult_correct prec64 emax64 _ _ mode_NE x y) as C. cbn [round_mode] in C. rewrite rnd_big in C by exact H. destruct C as (E & F & _).
  split; [|exact E]. unfold fmul. rewrite F, Fx, Fy. reflexivity.
Qed.
Lemma fdiv_R (x y : b64) : is_finite x = true -> is_finite y = true -> B2R y <> 0 -> Rabs (B2R x / B2R y) <= big ->
  is_finite (Bdiv mode_NE x y) = true /\ B2R (Bdiv mode_NE x y) = rnd (B2R x / B2R y).
Proof.
  intros Fx Fy N H. pose proof (Bdiv_correct prec64 emax64 _ _ mode_NE x y N) as C. cbn [round_mode] in C. rewrite rnd_big in C by exact H. destruct C as (E & F & _).
  split; [|exact E]. now rewrite F.
Qed.
Lemma IZR_bpow n : (0 <= n)%Z -> IZR (2 ^ n) = bpow radix2 n.
Proof. intros H. change 2%Z with (radix_val radix2). now rewrite IZR_Zpower. Qed.
(** Half-integers below 2^52 are doubles. *)
Lemma half_format n : (Z.abs n <= 2 ^ 53)%Z -> generic_format radix2 fexp64 (IZR n / 2).
Proof.
  intros H. destruct (Z.eq_dec (Z.abs n) (2 ^ 53)) as [E|E].
  - assert (X : IZR n / 2 = bpow radix2 52 \/ IZR n / 2 = - bpow radix2 52).
    { rewrite <- (IZR_bpow 52) by lia. destruct (Z.abs_eq_or_opp n) as [A|A]; [left|right].
      - replace n with (2 * 2 ^ 52)%Z by lia. rewrite mult_IZR. field.
      - replace n with (- (2 * 2 ^ 52))%Z by lia. rewrite opp_IZR, mult_IZR. field. }
    assert (B : generic_format radix2 fexp64 (bpow radix2 52)) by (apply generic_format_bpow; unfold SpecFloat.fexp, SpecFloat.emin, prec64, emax64; lia).
    destruct X as [-> | ->]; [exact B|now apply generic_format_opp].
  - apply generic_format_FLT. exists (Float radix2 n (-1)); cbn [Fnum Fexp].
    + unfold F2R. cbn [Fnum Fexp bpow]. change (radix_val radix2) with 2%Z. cbn. lra.
    + change (radix_val radix2) with 2%Z. change prec64 with 53%Z. lia.
    + cbn. lia.
Qed.
Lemma int_format n : (Z.abs n <= 2 ^ 52)%Z -> generic_format radix2 fexp64 (IZR n).
Proof. intros H. replace (IZR n) with (IZR (2 * n) / 2) by (rewrite mult_IZR; field). apply half_format. lia. Qed.
Lemma rnd_id v : generic_format radix2 fexp64 v -> rnd v = v.
Proof. intros H. apply round_generic; [apply valid_rnd_N|exact H]. Qed.
Lemma rnd_le u v : u <= v -> rnd u <= rnd v.
Proof. intros H. apply round_le; [exact fexp64_valid|apply valid_rnd_N|exact H]. Qed.
Lemma rnd_ge0 v : 0 <= v -> 0 <= rnd v.
Proof. intros H. apply round_ge_generic; [exact fexp64_valid|apply valid_rnd_N|apply generic_format_0|exact H]. Qed.
Lemma rnd_ub v b : generic_format radix2 fexp64 b -> v <= b -> rnd v <= b.
Proof. intros F H. apply round_le_generic; [exact fexp64_valid|apply valid_rnd_N|exact F|exact H]. Qed.
Lemma rnd_lb v b : generic_format radix2 fexp64 b -> b <= v -> b <= rnd v.
Proof. intros F H. apply round_ge_generic; [exact fexp64_valid|apply valid_rnd_N|exact F|exact H]. Qed.
Lemma py_float_R n : (0 <= n <= 2 ^ 52)%Z -> is_finite (py_float n) = true /\ B2R (py_float n) = IZR n.
Proof.
  intros H. unfold py_float. destruct (Z.eq_dec n 0) as [->|N]; [split; reflexivity|].
  assert (G : rnd (IZR n / IZR 1) = IZR n) by (unfold Rdiv; rewrite Rinv_1, Rmult_1_r; apply rnd_id, int_format; lia).
  destruct (rat64_correct n 1 ltac:(lia)) as (F & E); [rewrite G|split; [exact F|now rewrite E]].
  rewrite Rabs_pos_eq by (apply IZR_le; lia). apply Rle_lt_trans with (IZR (2 ^ 52)); [apply IZR_le; lia|]. rewrite IZR_bpow by lia. apply bpow_lt. lia.
Qed.
(** Relative error of rounding, with the smallest doubles as absolute error. *)
Lemma rnd_error v : Rabs (rnd v - v) <= bpow radix2 (-53) * Rabs v + bpow radix2 (-1075).
Proof.
  destruct (error_N_FLT radix2 (-1074) 53 ltac:(lia) (fun t => negb (Z.even t)) v) as (e & n & He & Hn & _ & E).
  change (FLT_exp (-1074) 53) with fexp64 in E. rewrite E. replace (v * (1 + e) + n - v) with (v * e + n) by ring.
  apply Rle_trans with (1 := Rabs_triang _ _). rewrite Rabs_mult. apply Rplus_le_compat.
  - rewrite Rmult_comm. apply Rmult_le_compat_r; [apply Rabs_pos|]. apply Rle_trans with (1 := He). replace (bpow radix2 (-53)) with (/ 2 * bpow radix2 (- (53) + 1)) by (change (/2) with (bpow radix2 (-1)); rewrite <- bpow_plus; reflexivity). lra.
  - apply Rle_trans with (1 := Hn). replace (bpow radix2 (-1075)) with (/ 2 * bpow radix2 (-1074)) by (change (/2) with (bpow radix2 (-1)); rewrite <- bpow_plus; reflexivity). lra.
Qed.
