(** Facts about the double-precision numbers used by the Viterbi procedure. *)
From Coq Require Import ZArith Reals Lra Lia Bool Psatz.
From Flocq Require Import Core.Core IEEE754.BinarySingleNaN.
From Flocq Require Import Plus_error.
From Verif Require Import Fp.
Open Scope R_scope.

Notation rnd := (round radix2 (SpecFloat.fexp prec64 emax64) ZnearestE).
Notation fexp64 := (SpecFloat.fexp prec64 emax64).

#[global] Instance fexp64_valid : Valid_exp fexp64.
Proof. apply fexp_correct. exact prec64_gt_0. Qed.
#[global] Instance fexp64_monotone : Monotone_exp fexp64.
Proof. apply fexp_monotone. Qed.

Lemma fgt_finite x y : is_finite x = true -> is_finite y = true -> fgt x y = Rlt_bool (B2R y) (B2R x).
Proof. intros Hx Hy. unfold fgt. now apply Bltb_correct. Qed.
Lemma fgt_ninf_l y : fgt fninf y = false.
Proof. unfold fgt, fninf, Bltb, SpecFloat.SFltb. destruct y as [s|s| |s m e H]; cbn; try reflexivity. now destruct s. Qed.
Lemma fgt_ninf_r x : is_finite x = true -> fgt x fninf = true.
Proof. destruct x; try discriminate; reflexivity. Qed.
Lemma fgt_ninf_true x : fgt x fninf = true -> x = fpinf \/ is_finite x = true.
Proof. destruct x as [s|[|]| |s m e H]; cbn; intros E; try discriminate; auto. Qed.
Lemma fgt_nan_l y : fgt fnan y = false.
Proof. unfold fgt, Bltb, SpecFloat.SFltb. destruct y; reflexivity. Qed.

Lemma fgt_any_ninf p z : fgt p z = true -> fgt p fninf = true.
Proof.
  destruct p as [s|[|]| |s m e H]; try reflexivity.
  - rewrite fgt_ninf_l. discriminate.
  - rewrite fgt_nan_l. discriminate.
Qed.
Lemma fadd_ninf_l y : fadd fninf y = fninf \/ fadd fninf y = fnan.
Proof. destruct y as [s|[|]| |s m e H]; cbn; auto. Qed.
Lemma fadd_nan_l y : fadd fnan y = fnan.
Proof. now destruct y. Qed.
Lemma fgt_add_ninf x y z : fgt (fadd x y) z = true -> fgt x fninf = true.
Proof.
  destruct x as [s|[|]| |s m e H]; try reflexivity; intros E.
  - destruct (fadd_ninf_l y) as [X|X]; unfold fninf in X; rewrite X in E; [rewrite fgt_ninf_l in E|rewrite fgt_nan_l in E]; discriminate.
  - change (@B754_nan prec64 emax64) with fnan in E. rewrite fadd_nan_l, fgt_nan_l in E. discriminate.
Qed.

(** Scores stay within 2^63; one step contributes at most 512. *)
Definition bound63 : R := bpow radix2 63.
Definition fin_score (x : b64) : Prop := is_finite x = true /\ Rabs (B2R x) <= bound63 /\ (B2R x = 0 -> Bsign x = false).
Definition fin_weight (x : b64) : Prop := is_finite x = true /\ Rabs (B2R x) <= 512 /\ (B2R x = 0 -> Bsign x = false).
Definition good (x : b64) : Prop := x = fninf \/ fin_score x.
Definition goodw (x : b64) : Prop := x = fninf \/ fin_weight x.

Lemma good_ninf : good fninf. Proof. now left. Qed.
Lemma goodw_ninf : goodw fninf. Proof. now left. Qed.
Lemma fin_weight_score x : fin_weight x -> fin_score x.
Proof.
  intros (A & B & C). repeat split; try assumption. apply Rle_trans with (1 := B). unfold bound63.
  change 512 with (bpow radix2 9). apply bpow_le. lia.
Qed.
Lemma goodw_good x : goodw x -> good x.
Proof. intros [H|H]; [now left|right; now apply fin_weight_score]. Qed.

Lemma Bsign_nonzero (x : b64) : is_finite x = true -> B2R x <> 0 -> Bsign x = Rlt_bool (B2R x) 0.
Proof.
  destruct x as [s|s| |s m e H]; try discriminate; cbn [B2R Bsign]; intros _ Hn; [contradiction|].
  destruct s; cbn [SpecFloat.cond_Zopp Z.opp].
  - rewrite Rlt_bool_true; [reflexivity|]. now apply F2R_lt_0.
  - rewrite Rlt_bool_false; [reflexivity|]. now apply F2R_ge_0.
Qed.
Lemma fin_score_eq x y : fin_score x -> fin_score y -> B2R x = B2R y -> x = y.
Proof.
  intros (Fx & _ & Sx) (Fy & _ & Sy) E. apply B2R_Bsign_inj; try assumption.
  destruct (Req_dec (B2R x) 0) as [Z|Z].
  - rewrite Sx by exact Z. rewrite Sy by congruence. reflexivity.
  - rewrite !Bsign_nonzero; try assumption; congruence.
Qed.

Lemma good_le_trans x y z : good x -> good y -> good z -> fgt x y = false -> fgt y z = false -> fgt x z = false.
Proof.
  intros [->|Hx] [->|Hy] [->|Hz] A B; try apply fgt_ninf_l; try assumption;
  try (rewrite fgt_ninf_r in * by (apply Hx || apply Hy); discriminate).
  rewrite fgt_finite in * by (apply Hx || apply Hy || apply Hz).
  apply Rlt_bool_false. destruct (Rlt_bool_spec (B2R y) (B2R x)); destruct (Rlt_bool_spec (B2R z) (B2R y)); try discriminate. lra.
Qed.
Lemma good_gt_asym x y : good x -> good y -> fgt x y = true -> fgt y x = false.
Proof.
  intros [->|Hx] [->|Hy] A; try apply fgt_ninf_l.
  - now rewrite fgt_ninf_l in A.
  - rewrite fgt_finite in * by (apply Hx || apply Hy).
    destruct (Rlt_bool_spec (B2R y) (B2R x)); try discriminate. apply Rlt_bool_false. lra.
Qed.
Lemma good_antisym x y : good x -> good y -> fgt x y = false -> fgt y x = false -> x = y.
Proof.
  intros [->|Hx] [->|Hy] A B; try reflexivity;
  try (rewrite fgt_ninf_r in * by (apply Hx || apply Hy); discriminate).
  rewrite fgt_finite in * by (apply Hx || apply Hy). apply fin_score_eq; try assumption.
  destruct (Rlt_bool_spec (B2R y) (B2R x)); destruct (Rlt_bool_spec (B2R x) (B2R y)); try discriminate. lra.
Qed.
Lemma good_ninf_least x : good x -> fgt fninf x = false.
Proof. intros _. apply fgt_ninf_l. Qed.

Lemma bpow63_format : generic_format radix2 fexp64 bound63.
Proof. apply generic_format_bpow. unfold SpecFloat.fexp, SpecFloat.emin, prec64, emax64. lia. Qed.
Lemma succ_bound63 : succ radix2 fexp64 bound63 = bound63 + 2048.
Proof.
  unfold bound63. rewrite succ_eq_pos by apply bpow_ge_0. rewrite ulp_bpow.
  unfold SpecFloat.fexp, SpecFloat.emin, prec64, emax64. reflexivity.
Qed.
Lemma rnd_bound v : Rabs v <= bound63 + 512 -> Rabs (rnd v) <= bound63.
Proof.
  intros H. apply Rabs_le_inv in H. apply Rabs_le. split.
  - apply round_N_ge_midp.
    + exact fexp64_valid.
    + apply generic_format_opp. exact bpow63_format.
    + rewrite pred_opp, succ_bound63. lra.
  - apply round_N_le_midp.
    + exact fexp64_valid.
    + exact bpow63_format.
    + rewrite succ_bound63. lra.
Qed.
Lemma bound63_lt : bound63 < bpow radix2 emax64.
Proof. apply bpow_lt. reflexivity. Qed.

Lemma fadd_fin x w : fin_score x -> fin_weight w ->
  fin_score (fadd x w) /\ B2R (fadd x w) = rnd (B2R x + B2R w).
Proof.
  intros (Fx & Bx & Sx) (Fw & Bw & Sw). unfold fadd.
  pose proof (Bplus_correct prec64 emax64 _ _ mode_NE x w Fx Fw) as H. cbn [round_mode] in H.
  assert (R : Rabs (rnd (B2R x + B2R w)) <= bound63).
  { apply rnd_bound. apply Rle_trans with (1 := Rabs_triang _ _). lra. }
  rewrite Rlt_bool_true in H by (pose proof bound63_lt; lra).
  destruct H as (E & F & S). split; [|exact E]. split; [exact F|]. split; [now rewrite E|].
  intros Z. rewrite S. destruct (Rcompare_spec (B2R x + B2R w) 0) as [L|L|L]; [|  |reflexivity].
  - exfalso. (* x + w < 0 rounds to zero: impossible *)
    rewrite E in Z. apply (round_plus_neq_0 radix2 fexp64 ZnearestE (B2R x) (B2R w)); try exact Z; try lra; apply generic_format_B2R.
  - destruct (Req_dec (B2R x) 0) as [Zx|Zx].
    + rewrite Sx by exact Zx. reflexivity.
    + rewrite (Bsign_nonzero x), (Bsign_nonzero w); try assumption; try lra.
      destruct (Rlt_bool_spec (B2R x) 0); destruct (Rlt_bool_spec (B2R w) 0); try reflexivity; lra.
Qed.
Lemma fadd_ninf_r x : good x -> fadd x fninf = fninf.
Proof. intros [->|(H & _)]; [reflexivity|]. destruct x; try discriminate; reflexivity. Qed.
Lemma fadd_ninf_l_good w : goodw w -> fadd fninf w = fninf.
Proof. intros [->|(H & _)]; [reflexivity|]. destruct w; try discriminate; reflexivity. Qed.
Lemma good_add x w : good x -> goodw w -> good (fadd x w).
Proof.
  intros Hx Hw. destruct Hx as [->|Hx].
  - rewrite fadd_ninf_l_good by exact Hw. apply good_ninf.
  - destruct Hw as [->|Hw].
    + rewrite fadd_ninf_r by now right. apply good_ninf.
    + right. now apply fadd_fin.
Qed.
Lemma good_le_add x y w : good x -> good y -> goodw w -> fgt x y = false -> fgt (fadd x w) (fadd y w) = false.
Proof.
  intros Hx Hy Hw H. destruct Hw as [->|Hw].
  - rewrite !fadd_ninf_r by assumption. apply fgt_ninf_l.
  - assert (Gw : goodw w) by now right. destruct Hx as [->|Hx].
    + rewrite fadd_ninf_l_good by exact Gw. apply fgt_ninf_l.
    + destruct Hy as [->|Hy].
      * rewrite fgt_ninf_r in H by apply Hx. discriminate.
      * rewrite fgt_finite in H by (apply Hx || apply Hy).
        destruct (fadd_fin x w Hx Hw) as (Fx & Ex). destruct (fadd_fin y w Hy Hw) as (Fy & Ey).
        rewrite fgt_finite by (apply Fx || apply Fy). rewrite Ex, Ey. apply Rlt_bool_false.
        apply round_le; [exact fexp64_valid|apply valid_rnd_N|]. destruct (Rlt_bool_spec (B2R y) (B2R x)); [discriminate|lra].
Qed.

(** ** Probabilities and their products *)
Definition nonneg (x : b64) : Prop := is_finite x = true /\ 0 <= B2R x.
Lemma fmul_nonneg x y : nonneg x -> nonneg y -> is_finite (fmul x y) = true -> nonneg (fmul x y).
Proof.
  intros (Fx & Px) (Fy & Py) F. split; [exact F|]. unfold fmul in *.
  pose proof (Bmult_correct prec64 emax64 _ _ mode_NE x y) as H. cbn [round_mode] in H.
  destruct (Rlt_bool _ _).
  - destruct H as (E & _). rewrite E. apply round_ge_generic; [exact fexp64_valid|apply valid_rnd_N|apply generic_format_0|].
    now apply Rmult_le_pos.
  - exfalso. rewrite <- is_finite_SF_B2SF, H in F. unfold binary_overflow in F.
    destruct (overflow_to_inf mode_NE _) eqn:O; cbn in F; [discriminate|cbn in O; discriminate].
Qed.

(** What the C library's [log10] is assumed to do: special values as in C99 annex F, finite results of magnitude at
    most 512 on finite positive arguments (the true range is -324..309), and no negative zero. *)
Record log10_ok (f : b64 -> b64) : Prop := {
  log10_zero : forall x, is_finite x = true -> B2R x = 0 -> f x = fninf;
  log10_pos : forall x, is_finite x = true -> 0 < B2R x -> fin_weight (f x);
  log10_neg : forall x, is_finite x = true -> B2R x < 0 -> f x = fnan;
  log10_ninf : f fninf = fnan;
  log10_nan : f fnan = fnan;
  log10_pinf : f fpinf = fpinf }.

Lemma log10_goodw f x : log10_ok f -> nonneg x -> goodw (f x).
Proof.
  intros Hf (Fx & Px). destruct (Rle_lt_or_eq_dec 0 (B2R x) Px) as [H|H].
  - right. now apply (log10_pos f Hf).
  - left. now apply (log10_zero f Hf).
Qed.
