(** The pitches of the tuning plug-in. *)
From Coq Require Import Reals Lra Lia.
From Flocq Require Import Core.Core IEEE754.BinarySingleNaN.
From Verif Require Import Base BaseFacts Fp FloatKit Options Chromagram ChromaFacts Nnls NnlsArith NnlsFacts NnlsSafe NnlsSingle Plug PlugSpec PlugFacts PlugNum PlugSafe PlugMain PlugClean PlugTuning Setup SetupMachine Tune TuneSpec.
Open Scope R_scope.

(** ** Powers of two *)
Lemma ln2_lt1 : ln 2 < 1.
Proof. apply exp_lt_inv. rewrite exp_ln by lra. assert (H := exp_ineq1 1 ltac:(lra)). lra. Qed.
Lemma ln2_gt0 : 0 < ln 2. Proof. rewrite <- ln_1. apply ln_increasing; lra. Qed.
Lemma pow2_gt0 x : 0 < Rpower 2 x. Proof. apply exp_pos. Qed.
Lemma pow2_ge d : 0 <= d -> 1 <= Rpower 2 d. Proof. intros D. rewrite <- (Rpower_O 2) by lra. apply Rle_Rpower; lra. Qed.
Lemma pow2_small d : 0 <= d <= / 2 -> Rpower 2 d <= 1 + 2 * d.
Proof.
  intros D. assert (A := ln2_lt1). assert (A' := ln2_gt0). unfold Rpower. assert (M : exp (d * ln 2) <= exp d) by (destruct (Req_dec d 0) as [-> | N]; [rewrite Rmult_0_l; lra|left; apply exp_increasing; nra]).
  apply Rle_trans with (1 := M). assert (I : 1 + - d <= exp (- d)) by (destruct (Req_dec d 0) as [-> | N]; [rewrite Ropp_0, exp_0; lra|left; apply exp_ineq1; lra]). rewrite exp_Ropp in I. assert (P := exp_pos d).
  assert (Q : (1 - d) * exp d <= 1) by (apply Rmult_le_reg_r with (/ exp d); [now apply Rinv_0_lt_compat|]; rewrite Rmult_assoc, Rinv_r by lra; lra).
  apply Rmult_le_reg_l with (1 - d); [lra|]. nra.
Qed.
Lemma pow2_opp x : Rpower 2 (- x) * Rpower 2 x = 1. Proof. rewrite <- Rpower_plus. replace (- x + x) with 0 by lra. apply Rpower_O. lra. Qed.
Lemma pow2_close x y e : Rabs (x - y) <= e -> e <= / 4 -> Rabs (Rpower 2 x - Rpower 2 y) <= 2 * e * Rpower 2 y.
Proof.
  intros H E. assert (P := pow2_gt0 y). replace (Rpower 2 x) with (Rpower 2 y * Rpower 2 (x - y)) by (rewrite <- Rpower_plus; f_equal; lra).
  replace (Rpower 2 y * Rpower 2 (x - y) - Rpower 2 y) with ((Rpower 2 (x - y) - 1) * Rpower 2 y) by ring. rewrite Rabs_mult, (Rabs_pos_eq (Rpower 2 y)) by lra. apply Rmult_le_compat_r; [lra|]. set (d := x - y) in *. apply Rabs_le_inv in H.
  destruct (Rle_lt_dec 0 d) as [G | G].
  - assert (A := pow2_ge d G). assert (B := pow2_small d ltac:(lra)). rewrite Rabs_pos_eq by lra. lra.
  - assert (A := pow2_ge (- d) ltac:(lra)). assert (B := pow2_small (- d) ltac:(lra)). assert (C := pow2_opp d). assert (D := pow2_gt0 d). rewrite Rabs_left1 by nra. nra.
Qed.
(** 2^(1/24). *)
Lemma root24 : Rpower 2 (/ 24) ^ 24 = 2.
Proof. rewrite <- Rpower_pow by apply pow2_gt0. rewrite Rpower_mult. replace (/ 24 * INR 24) with 1 by (rewrite INR_IZR_INZ; cbn; lra). apply Rpower_1. lra. Qed.
Lemma ratio_pow a b n : 0 < IZR b -> (IZR a / IZR b) ^ n = IZR (a ^ Z.of_nat n) / IZR (b ^ Z.of_nat n).
Proof. intros B. unfold Rdiv. rewrite Rpow_mult_distr, pow_inv, !pow_IZR. reflexivity. Qed.
Lemma root24_bounds : 102930223 / 100000000 <= Rpower 2 (/ 24) <= 102930224 / 100000000.
Proof.
  assert (E := root24). assert (P := pow2_gt0 (/ 24)). set (r := Rpower 2 (/ 24)) in *. split; apply Rnot_lt_le; intros N.
  - assert (C : r ^ 24 <= (102930223 / 100000000) ^ 24) by (apply pow_incr; lra). rewrite E, ratio_pow in C by (apply IZR_lt; reflexivity).
    assert (Q : IZR (102930223 ^ Z.of_nat 24) / IZR (100000000 ^ Z.of_nat 24) < 2); [|lra]. apply Rmult_lt_reg_r with (IZR (100000000 ^ Z.of_nat 24)); [apply IZR_lt; reflexivity|]. unfold Rdiv. rewrite Rmult_assoc, Rinv_l, Rmult_1_r by (apply IZR_neq; discriminate). rewrite <- mult_IZR. apply IZR_lt. reflexivity.
  - assert (C : (102930224 / 100000000) ^ 24 <= r ^ 24) by (apply pow_incr; lra). rewrite E, ratio_pow in C by (apply IZR_lt; reflexivity).
    assert (Q : 2 < IZR (102930224 ^ Z.of_nat 24) / IZR (100000000 ^ Z.of_nat 24)); [|lra]. apply Rmult_lt_reg_r with (IZR (100000000 ^ Z.of_nat 24)); [apply IZR_lt; reflexivity|]. unfold Rdiv. rewrite Rmult_assoc, Rinv_l, Rmult_1_r by (apply IZR_neq; discriminate). rewrite <- mult_IZR. apply IZR_lt. reflexivity.
Qed.
Lemma pow2_range x : Rabs x <= / 24 -> 97153193 / 100000000 <= Rpower 2 x <= 102930224 / 100000000.
Proof.
  intros H. apply Rabs_le_inv in H. destruct root24_bounds as (L & U). assert (A : Rpower 2 x <= Rpower 2 (/ 24)) by (apply Rle_Rpower; lra). assert (B : Rpower 2 (- / 24) <= Rpower 2 x) by (apply Rle_Rpower; lra).
  assert (C := pow2_opp (/ 24)). split; [|lra]. apply Rle_trans with (2 := B). apply Rmult_le_reg_r with (Rpower 2 (/ 24)); [apply pow2_gt0|]. rewrite C. lra.
Qed.
Lemma concert_range t : Rabs t <= / 2 -> 427474 / 1000 <= concert_pitch t <= 452893 / 1000.
Proof. intros H. unfold concert_pitch. assert (T : Rabs (t / 12) <= / 24) by (unfold Rdiv; rewrite Rabs_mult, (Rabs_pos_eq (/ 12)) by lra; lra). assert (P := pow2_range _ T). lra. Qed.

(** ** A pitch on the machine *)
Section Machine.
  Context (pow : b64 -> b64 -> b64) (POW : pow2_law pow).
  Lemma concert_close (x : b64) t : is_finite x = true -> Rabs t <= / 2 -> Rabs (B2R x - t / 12) <= / 2 ^ 27 -> pitched t (concert pow x).
  Proof.
    intros F T H. set (X := t / 12) in *. assert (TX : Rabs X <= / 24) by (unfold X, Rdiv; rewrite Rabs_mult, (Rabs_pos_eq (/ 12)) by lra; lra). assert (PX := pow2_range X TX).
    assert (E27 : / 2 ^ 27 = / 134217728) by (f_equal; lra). rewrite E27 in H. assert (E50 : / 2 ^ 50 = / 1125899906842624) by (f_equal; lra).
    assert (SM : Rabs (B2R x) <= / 20) by (apply Rabs_le_inv in TX; apply Rabs_le_inv in H; apply Rabs_le; lra).
    assert (F2 : is_finite (rat64 2 1) = true /\ B2R (rat64 2 1) = 2) by (apply (rat64_block 2); lia). assert (F4 : is_finite (rat64 440 1) = true /\ B2R (rat64 440 1) = 440) by (apply (rat64_block 440); lia).
    destruct (POW _ x (proj1 F2) (proj2 F2) F SM) as (P1 & P2). rewrite E50 in P2. assert (C := pow2_close _ _ _ H ltac:(lra)). set (v := pow (rat64 2 1) x) in *.
    apply Rabs_le_inv in P2. apply Rabs_le_inv in C. set (p := Rpower 2 (B2R x)) in *. set (q := Rpower 2 X) in *.
    destruct (fmul_R _ v (proj1 F4) P1) as (G1 & G2); [rewrite (proj2 F4), Rabs_pos_eq by lra; apply Rle_trans with (bpow radix2 10); [cbn; lra|apply bpow_big; lia]|]. rewrite (proj2 F4) in G2.
    assert (ER := rnd_error (440 * B2R v)). rewrite <- G2 in ER. rewrite (Rabs_pos_eq (440 * B2R v)) in ER by lra. assert (S1 : bpow radix2 (-53) = / 9007199254740992) by (cbn; lra). assert (S2 : bpow radix2 (-1075) <= bpow radix2 (-53)) by (apply bpow_le; lia). rewrite S1 in *. apply Rabs_le_inv in ER.
    set (w := fmul (rat64 440 1) v) in *. destruct (narrow_R w 512 G1) as (N1 & N2); [change 512 with (bpow radix2 9); apply fmt_bpow; lia|change 512 with (bpow radix2 9); apply bpow_lt; unfold emax32; lia|rewrite Rabs_pos_eq by lra; lra|].
    split; [exact N1|]. unfold concert. fold v w. rewrite N2.
    assert (ER2 : Rabs (rnd32 (B2R w) - B2R w) <= / 2 * ulp radix2 fexp32 (B2R w)) by (apply error_le_half_ulp; apply fexp_correct; reflexivity).
    assert (UL : ulp radix2 fexp32 (B2R w) <= bpow radix2 (-15)).
    { rewrite ulp_neq_0 by lra. apply bpow_le. unfold cexp. assert (M : (mag radix2 (B2R w) <= 9)%Z) by (apply mag_le_bpow; [lra|]; rewrite Rabs_pos_eq by lra; change (bpow radix2 9) with 512; lra). unfold fexp32, SpecFloat.fexp, SpecFloat.emin, prec32, emax32 in *. lia. }
    assert (S3 : bpow radix2 (-15) = / 32768) by (cbn; lra). rewrite S3 in UL. apply Rabs_le_inv in ER2. unfold concert_pitch. fold X q. apply Rabs_le. lra.
  Qed.
  Lemma rnd32_near v k : (-100 <= k <= 100)%Z -> Rabs v <= bpow radix2 k -> Rabs (rnd32 v - v) <= / 2 * bpow radix2 (k - 23).
  Proof.
    intros K H. assert (E : Rabs (rnd32 v - v) <= / 2 * ulp radix2 fexp32 v) by (apply error_le_half_ulp; apply fexp_correct; reflexivity). apply Rle_trans with (1 := E). apply Rmult_le_compat_l; [lra|].
    apply Rle_trans with (ulp radix2 fexp32 (bpow radix2 k)); [|rewrite ulp_bpow; apply bpow_le; unfold SpecFloat.fexp, SpecFloat.emin, prec32, emax32; lia].
    apply ulp_le; [apply fexp_correct; reflexivity|apply FLT_exp_monotone|]. rewrite (Rabs_pos_eq (bpow radix2 k)) by apply bpow_ge_0. exact H.
  Qed.
  Lemma local_close (t : b32) : below t (1 / 2) -> pitched (B2R t) (local_pitch pow t).
  Proof.
    intros (F & H). destruct (rat32_int 12 ltac:(lia)) as (T1 & T2). assert (B := Bdiv_correct prec32 emax32 _ _ mode_NE t (rat32 12 1) ltac:(rewrite T2; lra)). fold (fdiv32 t (rat32 12 1)) in B. rewrite T2 in B.
    change (round radix2 fexp32 (round_mode mode_NE) (B2R t / 12)) with (rnd32 (B2R t / 12)) in B. assert (H' : Rabs (B2R t / 12) <= / 24) by (unfold Rdiv; rewrite Rabs_mult, (Rabs_pos_eq (/ 12)) by lra; lra).
    rewrite (in_range _ 1) in B; [|change 1 with (bpow radix2 0); apply fmt_bpow; lia|change 1 with (bpow radix2 0); apply bpow_lt; unfold emax32; lia|lra]. destruct B as (E & F' & _). rewrite F in F'.
    destruct (f32_to_64_value _ F') as (F6 & V6 & _). apply concert_close; [exact F6|lra|]. rewrite V6, E. assert (N := rnd32_near (B2R t / 12) (-4) ltac:(lia)). change (bpow radix2 (-4)) with (/ 16) in N. specialize (N ltac:(lra)). change (bpow radix2 (-4 - 23)) with (/ 134217728) in N. apply Rle_trans with (1 := N). replace (2 ^ 27) with 134217728 by lra. lra.
  Qed.
  Lemma mean_close (a : b32) : is_finite a = true -> Rabs (B2R a) <= 13176795 / 4194304 -> pitched (B2R (turn a)) (concert pow (div64 (f32_to_64 a) (fmul (rat64 24 1) m_pi))).
  Proof.
    intros F H. destruct (turn_half a F H) as (TF & TH). destruct (f32_to_64_value a F) as (F' & V & _). destruct (computed (fmul (rat64 24 1) m_pi) false 5305678314021330 (-46) ltac:(vm_compute; reflexivity)) as (KF & KV). set (K := fmul (rat64 24 1) m_pi) in *. cbn [cond_Zopp] in KV. change (bpow radix2 (-46)) with (/ 70368744177664) in KV.
    destruct (fdiv_R (f32_to_64 a) K F' KF ltac:(rewrite KV; lra)) as (G1 & G2).
    { rewrite V. apply Rle_trans with (bpow radix2 2); [|apply bpow_big; lia]. unfold Rdiv. rewrite Rabs_mult, (Rabs_pos_eq (/ B2R K)) by (rewrite KV; left; apply Rinv_0_lt_compat; lra). change (bpow radix2 2) with 4. rewrite KV. lra. }
    apply concert_close; [exact G1|lra|]. fold (div64 (f32_to_64 a) K) in G2. rewrite G2, V, KV. unfold turn. destruct two_pi_R as (T1 & T2).
    destruct (fdiv_R (f32_to_64 a) two_pi F' T1 ltac:(rewrite T2; lra)) as (D1 & D2).
    { rewrite V, T2. apply Rle_trans with (bpow radix2 2); [|apply bpow_big; lia]. unfold Rdiv. rewrite Rabs_mult, (Rabs_pos_eq (/ _)) by (left; apply Rinv_0_lt_compat; lra). change (bpow radix2 2) with 4. lra. }
    fold (div64 (f32_to_64 a) two_pi) in D1, D2 |- *. rewrite V, T2 in D2. set (q := B2R a / (884279719003555 / 140737488355328)) in *. set (x := B2R a / _). assert (S1 : bpow radix2 (-53) = / 9007199254740992) by (cbn; lra). assert (S2 : bpow radix2 (-1075) <= bpow radix2 (-53)) by (apply bpow_le; lia). rewrite S1 in *.
    assert (A := Rabs_le_inv _ _ H). assert (QX : Rabs (x - q / 12) <= / 1000000000000000) by (unfold x, q; apply Rabs_le; lra). assert (Q : Rabs q <= 500001 / 1000000) by (unfold q; apply Rabs_le; lra). assert (X : Rabs x <= / 16) by (unfold x; apply Rabs_le; lra).
    assert (E1 := rnd_error q). assert (E2 := rnd_error x). rewrite S1 in *. rewrite <- D2 in E1. assert (B : Rabs (B2R (div64 (f32_to_64 a) two_pi)) <= 1) by (apply Rabs_le_inv in E1; apply Rabs_le_inv in Q as Q'; apply Rabs_le; lra).
    destruct (narrow_R (div64 (f32_to_64 a) two_pi) 1 D1) as (N1 & N2); [change 1 with (bpow radix2 0); apply fmt_bpow; lia|change 1 with (bpow radix2 0); apply bpow_lt; unfold emax32; lia|exact B|]. rewrite N2.
    assert (E3 := rnd32_near (B2R (div64 (f32_to_64 a) two_pi)) 0 ltac:(lia)). change (bpow radix2 0) with 1 in E3. specialize (E3 B). change (bpow radix2 (0 - 23)) with (/ 8388608) in E3. replace (2 ^ 27) with 134217728 by lra.
    set (d := B2R (div64 (f32_to_64 a) two_pi)) in *. apply Rabs_le_inv in E1. apply Rabs_le_inv in E2. apply Rabs_le_inv in E3. apply Rabs_le_inv in QX. apply Rabs_le. lra.
  Qed.
End Machine.
