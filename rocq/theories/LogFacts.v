(** Functions that meet the assumptions made about the C library's [log10]: the assumptions are consistent, and a
    computable stand-in makes concrete runs possible. *)
From Coq Require Import Reals Lra Lia ZifyBool.
From Flocq Require Import Core.Core IEEE754.BinarySingleNaN.
From Flocq Require Import Relative Ulp.
From Verif Require Import Base Fp FpFacts.
Open Scope R_scope.

Definition Rlog10 (x : R) : R := ln x / ln 10.
Definition log_error : R := bpow radix2 (-43).
(** Accuracy assumed of [log10] where it matters: absolute error at most 2^-43 (2 ulp at the far end of its range). *)
Definition log10_accurate (f : b64 -> b64) : Prop :=
  forall x, is_finite x = true -> 0 < B2R x -> Rabs (B2R (f x) - Rlog10 (B2R x)) <= log_error.

(** ** The correctly rounded logarithm *)
Definition b64_of_R (x : R) : b64 :=
  binary_normalize prec64 emax64 _ _ mode_NE (ZnearestE (scaled_mantissa radix2 fexp64 x)) (cexp radix2 fexp64 x) false.
Lemma b64_of_R_correct x : Rabs x <= 512 ->
  is_finite (b64_of_R x) = true /\ B2R (b64_of_R x) = rnd x /\ Rabs (B2R (b64_of_R x)) <= 512 /\
  (B2R (b64_of_R x) = 0 -> Bsign (b64_of_R x) = false).
Proof.
  intros H. unfold b64_of_R.
  pose proof (binary_normalize_correct prec64 emax64 _ _ mode_NE (ZnearestE (scaled_mantissa radix2 fexp64 x)) (cexp radix2 fexp64 x) false) as C.
  cbv zeta in C. cbn [round_mode] in C.
  assert (G : generic_format radix2 fexp64 (rnd x)) by (apply generic_format_round; [exact fexp64_valid|apply valid_rnd_N]).
  change (F2R (Float radix2 (ZnearestE (scaled_mantissa radix2 fexp64 x)) (cexp radix2 fexp64 x))) with (rnd x) in C.
  rewrite (round_generic radix2 fexp64 ZnearestE (rnd x) G) in C.
  assert (G9 : generic_format radix2 fexp64 512).
  { change 512 with (bpow radix2 9). apply generic_format_bpow. unfold SpecFloat.fexp, SpecFloat.emin, prec64, emax64. lia. }
  assert (B : Rabs (rnd x) <= 512).
  { apply Rabs_le_inv in H. apply Rabs_le. split.
    - apply round_ge_generic; [exact fexp64_valid|apply valid_rnd_N| |lra]. now apply generic_format_opp.
    - apply round_le_generic; [exact fexp64_valid|apply valid_rnd_N|exact G9|lra]. }
  rewrite Rlt_bool_true in C.
  2:{ apply Rle_lt_trans with (1 := B). change 512 with (bpow radix2 9). apply bpow_lt. unfold emax64. lia. }
  destruct C as (C1 & C2 & C3). split; [exact C2|]. split; [exact C1|]. split; [now rewrite C1|].
  intros Z. rewrite C3. rewrite C1 in Z. rewrite Z, Rcompare_Eq by reflexivity. reflexivity.
Qed.
Definition cr_log10 (x : b64) : b64 :=
  match x with
  | B754_zero _ => fninf
  | B754_infinity false => fpinf
  | B754_finite false _ _ _ => b64_of_R (Rlog10 (B2R x))
  | _ => fnan
  end.
Lemma ln10_pos : 0 < ln 10. Proof. rewrite <- ln_1. apply ln_increasing; lra. Qed.
Lemma ln_bpow e : ln (bpow radix2 e) = IZR e * ln 2.
Proof.
  rewrite bpow_exp. rewrite ln_exp. reflexivity.
Qed.
Lemma ln2_ln10 : 3 * ln 2 <= ln 10.
Proof.
  replace (3 * ln 2) with (ln 8); [apply Rlt_le, ln_increasing; lra|].
  replace 8 with (bpow radix2 3) by reflexivity. rewrite ln_bpow. reflexivity.
Qed.
Lemma ln2_pos : 0 < ln 2. Proof. rewrite <- ln_1. apply ln_increasing; lra. Qed.
Lemma Rlog10_range x : bpow radix2 (-1074) <= x -> x <= bpow radix2 1024 -> Rabs (Rlog10 x) <= 512.
Proof.
  intros H1 H2. pose proof ln10_pos as P. pose proof ln2_ln10 as Q. pose proof ln2_pos as P2.
  pose proof (bpow_gt_0 radix2 (-1074)) as B.
  assert (L : IZR (-1074) * ln 2 <= ln x) by (rewrite <- ln_bpow; destruct (Req_dec (bpow radix2 (-1074)) x) as [->|N]; [lra|apply Rlt_le, ln_increasing; lra]).
  assert (U : ln x <= IZR 1024 * ln 2) by (rewrite <- ln_bpow; destruct (Req_dec (bpow radix2 1024) x) as [->|N]; [lra|apply Rlt_le, ln_increasing; lra]).
  unfold Rlog10. apply Rabs_le. split.
  - apply Rmult_le_reg_r with (ln 10); [exact P|]. unfold Rdiv. rewrite Rmult_assoc, Rinv_l by lra. lra.
  - apply Rmult_le_reg_r with (ln 10); [exact P|]. unfold Rdiv. rewrite Rmult_assoc, Rinv_l by lra. lra.
Qed.
Lemma b64_range (x : b64) : is_finite x = true -> 0 < B2R x -> bpow radix2 (-1074) <= B2R x /\ B2R x < bpow radix2 1024.
Proof.
  intros F P. split.
  - pose proof (abs_B2R_ge_emin prec64 emax64 x) as H.
    assert (S : is_finite_strict x = true).
    { destruct x as [s|s| |s m e B]; try reflexivity; try discriminate F. cbn in P. lra. }
    specialize (H S). rewrite Rabs_pos_eq in H by lra. exact H.
  - pose proof (abs_B2R_lt_emax prec64 emax64 x) as H. rewrite Rabs_pos_eq in H by lra. exact H.
Qed.
Lemma cr_log10_pos x : is_finite x = true -> 0 < B2R x -> cr_log10 x = b64_of_R (Rlog10 (B2R x)).
Proof.
  destruct x as [s|s| |s m e B]; try discriminate; cbn [cr_log10]; intros _ P; [cbn in P; lra|].
  destruct s; [|reflexivity]. exfalso. cbn [B2R] in P.
  assert (F2R (Float radix2 (cond_Zopp true (Zpos m)) e) < 0) by now apply F2R_lt_0. lra.
Qed.
Lemma cr_log10_ok : log10_ok cr_log10.
Proof.
  split; try reflexivity.
  - intros x F Z. destruct x as [s|s| |s m e B]; try discriminate; [reflexivity|]. exfalso. cbn [B2R] in Z. apply eq_0_F2R in Z. destruct s; discriminate.
  - intros x F P. rewrite cr_log10_pos by assumption. destruct (b64_range x F P) as [A B].
    destruct (b64_of_R_correct (Rlog10 (B2R x)) (Rlog10_range _ A (Rlt_le _ _ B))) as (C & _ & D & E). repeat split; assumption.
  - intros x F N. destruct x as [s|s| |s m e B]; try discriminate; [cbn in N; lra|]. destruct s; [reflexivity|]. exfalso.
    cbn [B2R cond_Zopp] in N. assert (0 <= F2R (Float radix2 (Zpos m) e)) by now apply F2R_ge_0. lra.
Qed.
Lemma cr_log10_accurate : log10_accurate cr_log10.
Proof.
  intros x F P. rewrite cr_log10_pos by assumption. destruct (b64_range x F P) as [A B].
  pose proof (Rlog10_range _ A (Rlt_le _ _ B)) as R. destruct (b64_of_R_correct _ R) as (_ & C & _). rewrite C.
  apply Rle_trans with (/ 2 * ulp radix2 fexp64 (Rlog10 (B2R x))).
  - apply error_le_half_ulp. exact fexp64_valid.
  - assert (U : ulp radix2 fexp64 (Rlog10 (B2R x)) <= ulp radix2 fexp64 512).
    { apply ulp_le; [exact fexp64_valid|exact fexp64_monotone|]. rewrite (Rabs_pos_eq 512) by lra. exact R. }
    change 512 with (bpow radix2 9) in U. rewrite ulp_bpow in U. unfold log_error.
    replace (fexp64 (9 + 1)) with (-43)%Z in U by reflexivity. pose proof (bpow_gt_0 radix2 (-43)). lra.
Qed.

(** ** A computable stand-in: a quarter of the binary exponent *)
Definition toy_log10 (x : b64) : b64 :=
  match x with
  | B754_zero _ => fninf
  | B754_infinity false => fpinf
  | B754_finite false m e _ => binary_normalize prec64 emax64 _ _ mode_NE (Z.log2 (Zpos m) + e) (-2) false
  | _ => fnan
  end.
Lemma toy_log10_ok : log10_ok toy_log10.
Proof.
  split; try reflexivity.
  - intros x F Z. destruct x as [s|s| |s m e B]; try discriminate; [reflexivity|]. exfalso. cbn [B2R] in Z. apply eq_0_F2R in Z. destruct s; discriminate.
  - intros x F P. destruct (b64_range x F P) as [A A2].
    destruct x as [s|s| |s m e B]; try discriminate; [cbn in P; lra|]. destruct s.
    { exfalso. cbn [B2R] in P. assert (F2R (Float radix2 (cond_Zopp true (Zpos m)) e) < 0) by now apply F2R_lt_0. lra. }
    cbn [toy_log10]. set (n := (Z.log2 (Zpos m) + e)%Z).
    assert (N : (-1074 <= n <= 1074)%Z).
    { cbn [B2R cond_Zopp] in A, A2. unfold F2R in A, A2. cbn [Fnum Fexp] in A, A2.
      pose proof (Z.log2_spec (Zpos m) ltac:(lia)) as [L1 L2]. pose proof (Z.log2_nonneg (Zpos m)) as L0.
      assert (I1 : bpow radix2 (Z.log2 (Z.pos m)) <= IZR (Zpos m)) by (rewrite <- IZR_Zpower by lia; now apply IZR_le).
      assert (I2 : IZR (Zpos m) < bpow radix2 (Z.succ (Z.log2 (Z.pos m)))) by (rewrite <- IZR_Zpower by lia; now apply IZR_lt).
      split.
      - assert (X : bpow radix2 (-1074) < bpow radix2 (Z.succ (Z.log2 (Z.pos m)) + e)).
        { rewrite bpow_plus. apply Rle_lt_trans with (1 := A). apply Rmult_lt_compat_r; [apply bpow_gt_0|exact I2]. }
        apply lt_bpow in X. unfold n. lia.
      - assert (X : bpow radix2 (Z.log2 (Z.pos m) + e) < bpow radix2 1024).
        { rewrite bpow_plus. apply Rle_lt_trans with (2 := A2). apply Rmult_le_compat_r; [apply bpow_ge_0|exact I1]. }
        apply lt_bpow in X. unfold n. lia. }
    pose proof (binary_normalize_correct prec64 emax64 _ _ mode_NE n (-2) false) as C. cbv zeta in C. cbn [round_mode] in C.
    assert (V : Rabs (F2R (Float radix2 n (-2))) <= 512).
    { unfold F2R. cbn [Fnum Fexp]. change (bpow radix2 (-2)) with (/4). rewrite Rabs_mult, <- abs_IZR, (Rabs_pos_eq (/4)) by lra.
      assert (IZR (Z.abs n) <= IZR 2048) by (apply IZR_le; lia). lra. }
    assert (G : generic_format radix2 fexp64 (F2R (Float radix2 n (-2)))).
    { apply generic_format_F2R. intros Hn. unfold cexp, SpecFloat.fexp, SpecFloat.emin, prec64, emax64. cbn [Fnum Fexp].
      assert (mag radix2 (F2R (Float radix2 n (-2))) <= 10)%Z; [|lia].
      apply mag_le_bpow; [intros X; apply eq_0_F2R in X; cbn in X; contradiction|].
      apply Rle_lt_trans with (1 := V). change (bpow radix2 10) with 1024. lra. }
    rewrite (round_generic radix2 fexp64 ZnearestE _ G) in C. rewrite Rlt_bool_true in C.
    2:{ apply Rle_lt_trans with (1 := V). change 512 with (bpow radix2 9). apply bpow_lt. unfold emax64. lia. }
    destruct C as (C1 & C2 & C3). split; [exact C2|]. split; [now rewrite C1|]. intros Z. rewrite C3. rewrite C1 in Z.
    rewrite Z, Rcompare_Eq by reflexivity. reflexivity.
  - intros x F N. destruct x as [s|s| |s m e B]; try discriminate; [cbn in N; lra|]. destruct s; [reflexivity|]. exfalso.
    cbn [B2R cond_Zopp] in N. assert (0 <= F2R (Float radix2 (Zpos m) e)) by now apply F2R_ge_0. lra.
Qed.
