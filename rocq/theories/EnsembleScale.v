(** Facts about the scaling of the features. *)
From Coq Require Import Lia Lra Reals Ascii.
From Flocq Require Import Core.Core IEEE754.BinarySingleNaN.
From Verif Require Import Base BaseFacts Fp FpFacts Text Options Main Py OptTables Dataset Ensemble.
From Verif Require Import MusicSpec TextSpec FloatKit DumpFacts GaFacts EnsembleSpec EnsembleFacts EnsembleRun EnsembleScore.
Open Scope R_scope.

(** ** Least and greatest *)
Lemma np_min_spec l : forall x : b64, is_finite x = true -> Forall (fun y => is_finite y = true) l ->
  In (np_min x l) (x :: l) /\ forall y, In y (x :: l) -> B2R (np_min x l) <= B2R y.
Proof.
  unfold np_min. induction l as [|z l IH]; intros x Fx F; [cbn; split; [now left|intros y [<-|[]]; lra]|]. apply Forall_cons_iff in F. destruct F as (Fz & F). cbn [fold_left].
  rewrite flt_R by assumption. destruct (Rlt_bool_spec (B2R z) (B2R x)) as [L|L].
  - destruct (IH z Fz F) as (A & B). split; [destruct A as [A|A]; [right; now left|right; now right]|]. intros y [<-|Y]; [specialize (B z (or_introl eq_refl)); lra|now apply B].
  - destruct (IH x Fx F) as (A & B). split; [destruct A as [A|A]; [now left|right; now right]|]. intros y [<-|[<-|Y]]; [apply B; now left|specialize (B x (or_introl eq_refl)); lra|apply B; now right].
Qed.
Lemma np_max_spec l : forall x : b64, is_finite x = true -> Forall (fun y => is_finite y = true) l ->
  In (np_max x l) (x :: l) /\ forall y, In y (x :: l) -> B2R y <= B2R (np_max x l).
Proof.
  unfold np_max. induction l as [|z l IH]; intros x Fx F; [cbn; split; [now left|intros y [<-|[]]; lra]|]. apply Forall_cons_iff in F. destruct F as (Fz & F). cbn [fold_left].
  rewrite fgt_finite by assumption. destruct (Rlt_bool_spec (B2R x) (B2R z)) as [L|L].
  - destruct (IH z Fz F) as (A & B). split; [destruct A as [A|A]; [right; now left|right; now right]|]. intros y [<-|Y]; [specialize (B z (or_introl eq_refl)); lra|now apply B].
  - destruct (IH x Fx F) as (A & B). split; [destruct A as [A|A]; [now left|right; now right]|]. intros y [<-|[<-|Y]]; [apply B; now left|specialize (B x (or_introl eq_refl)); lra|apply B; now right].
Qed.

(** ** Errors *)
Definition u53 : R := / 9007199254740992.
Lemma u53_bpow : bpow radix2 (-53) = u53.
Proof. reflexivity. Qed.
Definition eta : R := bpow radix2 (-1075).
Definition two100 : R := IZR (2 ^ 100).
Lemma eta_small : 0 < eta <= / IZR (2 ^ 200).
Proof. unfold eta. split; [apply bpow_gt_0|]. rewrite IZR_bpow by lia. rewrite <- bpow_opp. apply bpow_le. lia. Qed.
Lemma rnd_err v : Rabs (rnd v - v) <= u53 * Rabs v + eta.
Proof. rewrite <- u53_bpow. apply rnd_error. Qed.
Lemma big_200 : IZR (2 ^ 300) <= big.
Proof. rewrite IZR_bpow by lia. apply bpow_le. lia. Qed.
Lemma abs_two a b : Rabs a <= b -> - b <= a <= b.
Proof. apply Rabs_le_inv. Qed.
Ltac ab := repeat match goal with H : Rabs _ <= _ |- _ => apply abs_two in H end.
Lemma eta_u : eta <= u53 / 1000000.
Proof. destruct eta_small as (_ & H). eapply Rle_trans; [exact H|]. unfold u53. change (2 ^ 200)%Z with 1606938044258990275541962092341162602522202993782792835301376%Z. lra. Qed.
Lemma u53_pos : 0 < u53 <= / 1000000000000000.
Proof. unfold u53. lra. Qed.
Lemma scaled_one m M q : Rabs m <= M -> 1 <= M -> Rabs (q - 1) <= 21 / 10 * u53 -> Rabs (rnd (m * q) - m) <= 32 / 10 * u53 * M.
Proof.
  intros Hm HM Hq. pose proof (rnd_err (m * q)) as E. pose proof u53_pos as U. pose proof eta_u as ET. pose proof eta_small as EP.
  assert (A : Rabs (m * q - m) <= 21 / 10 * u53 * M).
  { replace (m * q - m) with (m * (q - 1)) by ring. rewrite Rabs_mult. rewrite (Rmult_comm (21 / 10 * u53)). apply Rmult_le_compat; auto using Rabs_pos. }
  assert (B : Rabs (m * q) <= M * (1 + 21 / 10 * u53)).
  { rewrite Rabs_mult. apply Rmult_le_compat; auto using Rabs_pos. ab. apply Rabs_le. lra. }
  assert (C : Rabs (rnd (m * q) - m) <= Rabs (rnd (m * q) - m * q) + Rabs (m * q - m)) by (replace (rnd (m * q) - m) with ((rnd (m * q) - m * q) + (m * q - m)) by ring; apply Rabs_triang).
  assert (D : u53 * Rabs (m * q) <= u53 * (M * (1 + 21 / 10 * u53))) by (apply Rmult_le_compat_l; lra).
  assert (F : u53 * (M * (1 + 21 / 10 * u53)) <= 105 / 100 * (u53 * M)) by (assert (0 <= u53 * M) by nra; nra).
  assert (G : eta <= / 100 * (u53 * M)) by nra. lra.
Qed.
Lemma ratio_error d1 d2 q : q * (1 + d2) = 1 + d1 -> Rabs d1 <= 101 / 100 * u53 -> Rabs d2 <= 101 / 100 * u53 -> Rabs (q - 1) <= 21 / 10 * u53.
Proof.
  intros E A B. pose proof u53_pos as U. ab.
  assert (Q : 1 - / 1000 < q < 1 + / 1000) by (split; nra).
  assert (P : Rabs (q * d2) <= (1 + / 1000) * (101 / 100 * u53)) by (rewrite Rabs_mult; apply Rmult_le_compat; auto using Rabs_pos; apply Rabs_le; lra).
  ab. apply Rabs_le. lra.
Qed.
Lemma range_error Rg : / two100 <= Rg -> Rg <= 2 * two100 -> Rabs (rnd Rg - Rg) <= 101 / 100 * (u53 * Rg).
Proof.
  intros A B. pose proof (rnd_err Rg) as E. destruct eta_small as (_ & ET).
  assert (P : 0 < / two100) by (apply Rinv_0_lt_compat, IZR_lt; reflexivity). rewrite (Rabs_pos_eq Rg) in E by lra.
  assert (X : eta <= / 100 * u53 * / two100).
  { eapply Rle_trans; [exact ET|]. unfold u53, two100. change (2 ^ 200)%Z with 1606938044258990275541962092341162602522202993782792835301376%Z. change (2 ^ 100)%Z with 1267650600228229401496703205376%Z. lra. }
  assert (Y : / 100 * u53 * / two100 <= / 100 * u53 * Rg) by (apply Rmult_le_compat_l; [pose proof u53_pos; lra|exact A]). lra.
Qed.
Lemma two100_val : two100 = 1267650600228229401496703205376.
Proof. reflexivity. Qed.
(** The scale: positive, close to 2 over the range, and not too large. *)
Lemma scale_error Rg : / two100 <= Rg -> Rg <= 2 * two100 -> let r := rnd Rg in let s := rnd (2 / r) in
  0 < r /\ Rabs (2 / r) <= 4 * two100 /\ 0 < s <= 4 * two100 /\ Rabs (s * Rg / 2 - 1) <= 21 / 10 * u53.
Proof.
  intros A B r s. pose proof (range_error Rg A B) as E. fold r in E. pose proof u53_pos as U.
  assert (P : 0 < / two100) by (apply Rinv_0_lt_compat, IZR_lt; reflexivity). assert (P2 : 0 < two100) by (apply IZR_lt; reflexivity).
  assert (Ru : u53 * Rg <= / 1000000000 * Rg) by (apply Rmult_le_compat_r; lra). assert (Ru0 : 0 <= u53 * Rg) by (apply Rmult_le_pos; lra).
  assert (Rr : 99 / 100 * Rg <= r <= 101 / 100 * Rg) by (ab; lra).
  assert (r0 : 0 < r) by lra. split; [exact r0|].
  assert (I : 2 / r <= 4 * two100).
  { unfold Rdiv. apply Rle_trans with (2 * / (/ 2 * / two100)); [apply Rmult_le_compat_l; [lra|]; apply Rinv_le; lra|]. rewrite Rinv_mult, !Rinv_inv. lra. }
  assert (I0 : 0 < 2 / r) by (apply Rdiv_lt_0_compat; lra). split; [rewrite Rabs_pos_eq; lra|].
  pose proof (rnd_err (2 / r)) as ES. fold s in ES. rewrite (Rabs_pos_eq (2 / r)) in ES by lra.
  assert (D1 : Rabs (s * r / 2 - 1) <= 101 / 100 * u53).
  { replace (s * r / 2 - 1) with ((s - 2 / r) * (r / 2)) by (field; lra). rewrite Rabs_mult, (Rabs_pos_eq (r / 2)) by lra.
    apply Rle_trans with ((u53 * (2 / r) + eta) * (r / 2)); [apply Rmult_le_compat_r; lra|].
    replace ((u53 * (2 / r) + eta) * (r / 2)) with (u53 + eta * (r / 2)) by (field; lra).
    assert (X : eta * (r / 2) <= / IZR (2 ^ 200) * (2 * two100)) by (destruct eta_small as (E1 & E2); apply Rmult_le_compat; lra).
    assert (Y : / IZR (2 ^ 200) * (2 * two100) <= / 100 * u53) by (rewrite two100_val; unfold u53; change (2 ^ 200)%Z with 1606938044258990275541962092341162602522202993782792835301376%Z; lra). lra. }
  assert (Q : Rabs (s * Rg / 2 - 1) <= 21 / 10 * u53).
  { apply (ratio_error (s * r / 2 - 1) ((r - Rg) / Rg)); [field; lra|exact D1|]. unfold Rdiv. rewrite Rabs_mult, Rabs_inv, (Rabs_pos_eq Rg) by lra.
    apply Rmult_le_reg_r with Rg; [lra|]. rewrite Rmult_assoc, Rinv_l by lra. lra. }
  split; [|exact Q]. split.
  - ab. assert (H : 0 < s * Rg) by lra. apply Rmult_lt_reg_r with Rg; lra.
  - apply rnd_ub; [|exact I]. unfold two100. rewrite <- mult_IZR. change (4 * 2 ^ 100)%Z with (2 ^ 102)%Z. rewrite IZR_bpow by lia. apply generic_format_bpow. unfold SpecFloat.fexp, SpecFloat.emin, prec64, emax64. lia.
Qed.
Lemma place_error lo hi v A : / two100 <= hi - lo -> Rabs lo <= A -> Rabs hi <= A -> A <= two100 -> lo <= v <= hi ->
  let s := rnd (2 / rnd (hi - lo)) in let sh := rnd (-1 - rnd (lo * s)) in let y := rnd (rnd (v * s) + sh) in
  Rabs (y - relative_place lo hi v) <= 16 * u53 * (1 + A / (hi - lo)).
Proof.
  intros HR Hlo Hhi HA Hv s sh y. set (Rg := hi - lo) in *. assert (P2 : 0 < two100) by (apply IZR_lt; reflexivity). assert (P : 0 < / two100) by now apply Rinv_0_lt_compat. pose proof u53_pos as U.
  destruct (scale_error Rg HR ltac:(ab; unfold Rg; lra)) as (_ & _ & (s0 & _) & Q). fold s in s0, Q.
  set (M := 2 * (A / Rg)). assert (M1 : 1 <= M).
  { unfold M. apply Rmult_le_reg_r with Rg; [lra|]. replace (2 * (A / Rg) * Rg) with (2 * A) by (field; lra). ab. unfold Rg. lra. }
  assert (X : forall x, lo <= x <= hi -> Rabs (rnd (x * s) - 2 * x / Rg) <= 32 / 10 * u53 * M).
  { intros x Hx. replace (x * s) with (2 * x / Rg * (s * Rg / 2)) by (field; lra). apply scaled_one; [|exact M1|exact Q].
    unfold M, Rdiv. rewrite !Rabs_mult, Rabs_inv, (Rabs_pos_eq Rg), (Rabs_pos_eq 2) by lra. rewrite Rmult_assoc. apply Rmult_le_compat_l; [lra|]. apply Rmult_le_compat_r; [left; apply Rinv_0_lt_compat; lra|]. ab. apply Rabs_le. lra. }
  pose proof (X lo ltac:(ab; unfold Rg in *; lra)) as Xlo. pose proof (X v Hv) as Xv.
  assert (Ml : Rabs (2 * lo / Rg) <= M).
  { unfold M, Rdiv. rewrite !Rabs_mult, Rabs_inv, (Rabs_pos_eq Rg), (Rabs_pos_eq 2) by lra. rewrite Rmult_assoc. apply Rmult_le_compat_l; [lra|]. apply Rmult_le_compat_r; [left; apply Rinv_0_lt_compat; lra|exact Hlo]. }
  pose proof (rnd_err (-1 - rnd (lo * s))) as E1. fold sh in E1. pose proof (rnd_err (rnd (v * s) + sh)) as E2. fold y in E2. pose proof eta_u as ET. pose proof eta_small as EP.
  set (m := 2 * v / Rg) in *. set (ml := 2 * lo / Rg) in *. set (p := rnd (v * s)) in *. set (pl := rnd (lo * s)) in *.
  assert (UM : 0 <= u53 * M) by (apply Rmult_le_pos; lra). assert (UM1 : u53 <= u53 * M) by (rewrite <- (Rmult_1_r u53) at 1; apply Rmult_le_compat_l; lra). assert (UM2 : u53 * (u53 * M) <= / 1000000 * (u53 * M)) by (apply Rmult_le_compat_r; lra).
  replace (32 / 10 * u53 * M) with (32 / 10 * (u53 * M)) in * by ring.
  assert (S1 : Rabs (-1 - pl) <= 1 + M + 32 / 10 * (u53 * M)) by (ab; apply Rabs_le; lra).
  assert (S2 : u53 * Rabs (-1 - pl) <= u53 + 11 / 10 * (u53 * M)).
  { apply Rle_trans with (u53 * (1 + M + 32 / 10 * (u53 * M))); [apply Rmult_le_compat_l; lra|]. lra. }
  assert (S3 : Rabs (sh - (-1 - ml)) <= 44 / 10 * (u53 * M) + 11 / 10 * u53) by (ab; apply Rabs_le; lra).
  assert (PL : relative_place lo hi v = m + (-1 - ml)) by (unfold relative_place, m, ml; fold Rg; field; lra).
  assert (P1 : -1 <= relative_place lo hi v <= 1).
  { unfold relative_place. fold Rg. assert (Z : 0 <= (v - lo) / Rg <= 1); [split|].
    - apply Rmult_le_pos; [lra|left; apply Rinv_0_lt_compat; lra].
    - apply Rmult_le_reg_r with Rg; [lra|]. unfold Rdiv. rewrite Rmult_assoc, Rinv_l by lra. unfold Rg. lra.
    - replace (2 * (v - lo) / Rg) with (2 * ((v - lo) / Rg)) by (field; lra). lra. }
  assert (S4 : Rabs (p + sh - relative_place lo hi v) <= 76 / 10 * (u53 * M) + 11 / 10 * u53) by (rewrite PL; ab; apply Rabs_le; lra).
  assert (S5 : Rabs (p + sh) <= 1 + 76 / 10 * (u53 * M) + 11 / 10 * u53) by (ab; apply Rabs_le; lra).
  assert (S6 : u53 * Rabs (p + sh) <= 11 / 10 * u53 + / 1000 * (u53 * M)).
  { apply Rle_trans with (u53 * (1 + 76 / 10 * (u53 * M) + 11 / 10 * u53)); [apply Rmult_le_compat_l; lra|]. assert (u53 * u53 <= / 1000 * u53) by (apply Rmult_le_compat_r; lra). lra. }
  replace (16 * u53 * (1 + A / Rg)) with (16 * u53 + 8 * (u53 * M)) by (unfold M; field; lra). ab. apply Rabs_le. lra.
Qed.

(** ** One row *)
Lemma py_float_neg1 : is_finite (py_float (-1)) = true /\ B2R (py_float (-1)) = -1.
Proof.
  assert (E : B2SF (py_float (-1)) = SpecFloat.S754_finite true 4503599627370496 (-52)) by (vm_compute; reflexivity).
  split; [rewrite <- is_finite_SF_B2SF, E; reflexivity|]. rewrite <- SF2R_B2SF, E. unfold SF2R, F2R. cbn [Fnum Fexp cond_Zopp]. rewrite (bpow2_neg 52) by lia. change (2 ^ 52)%Z with 4503599627370496%Z. rewrite opp_IZR. lra.
Qed.
Lemma feq_zero (x : b64) : is_finite x = true -> feq x fzero = true <-> B2R x = 0.
Proof.
  intros F. unfold feq, Beqb, SpecFloat.SFeqb. pose proof (Bcompare_correct prec64 emax64 x fzero F eq_refl) as C. unfold Bcompare in C. rewrite C. cbn [B2R fzero]. destruct (Rcompare_spec (B2R x) 0); split; intros; try discriminate; try lra; reflexivity.
Qed.
Lemma abs_big v b : Rabs v <= b -> b <= IZR (2 ^ 300) -> Rabs v <= big.
Proof. intros A B. pose proof big_200. lra. Qed.
Lemma bigs : two100 = IZR (2 ^ 100).
Proof. reflexivity. Qed.
Lemma pow2_format n : (0 <= n <= 1000)%Z -> generic_format radix2 fexp64 (IZR (2 ^ n)).
Proof. intros H. rewrite IZR_bpow by lia. apply generic_format_bpow. unfold SpecFloat.fexp, SpecFloat.emin, prec64, emax64. lia. Qed.
(** Multiplying by the scale and shifting: finite, monotone, computed as in real numbers with rounding. *)
Lemma affine (s v lo : b64) : is_finite s = true -> is_finite v = true -> is_finite lo = true -> 0 <= B2R s <= 4 * two100 -> Rabs (B2R v) <= two100 -> Rabs (B2R lo) <= two100 ->
  let y := fadd (fmul v s) (fsub (py_float (-1)) (fmul lo s)) in
  is_finite y = true /\ B2R y = rnd (rnd (B2R v * B2R s) + rnd (-1 - rnd (B2R lo * B2R s))).
Proof.
  intros Fs Fv Flo Hs Hv Hlo y. assert (PR : forall x, Rabs x <= two100 -> Rabs (x * B2R s) <= IZR (2 ^ 202)).
  { intros x Hx. rewrite Rabs_mult, (Rabs_pos_eq (B2R s)) by lra. apply Rle_trans with (two100 * (4 * two100)); [apply Rmult_le_compat; auto using Rabs_pos; lra|]. unfold two100. rewrite <- !mult_IZR. apply IZR_le. vm_compute. discriminate. }
  assert (PRr : forall x, Rabs x <= two100 -> Rabs (rnd (x * B2R s)) <= IZR (2 ^ 202)) by (intros x Hx; apply rnd_abs; [apply pow2_format; lia|now apply PR]).
  destruct (fmul_R v s Fv Fs) as (F1 & E1); [apply (abs_big _ _ (PR _ Hv)), IZR_le; vm_compute; discriminate|].
  destruct (fmul_R lo s Flo Fs) as (F2 & E2); [apply (abs_big _ _ (PR _ Hlo)), IZR_le; vm_compute; discriminate|].
  destruct py_float_neg1 as (F0 & E0).
  assert (B1 : Rabs (-1 - rnd (B2R lo * B2R s)) <= IZR (2 ^ 203)).
  { pose proof (PRr _ Hlo) as X. change (2 ^ 203)%Z with (2 * 2 ^ 202)%Z. rewrite mult_IZR. assert (1 <= IZR (2 ^ 202)) by (apply IZR_le; vm_compute; discriminate). ab. apply Rabs_le. lra. }
  destruct (fsub_R (py_float (-1)) (fmul lo s) F0 F2) as (F3 & E3); [rewrite E0, E2; apply (abs_big _ _ B1), IZR_le; vm_compute; discriminate|]. rewrite E0, E2 in E3.
  assert (B2 : Rabs (rnd (B2R v * B2R s) + rnd (-1 - rnd (B2R lo * B2R s))) <= IZR (2 ^ 204)).
  { pose proof (PRr _ Hv) as X. assert (Y : Rabs (rnd (-1 - rnd (B2R lo * B2R s))) <= IZR (2 ^ 203)) by (apply rnd_abs; [apply pow2_format; lia|exact B1]).
    change (2 ^ 204)%Z with (2 * 2 ^ 203)%Z. change (2 ^ 203)%Z with (2 * 2 ^ 202)%Z in *. rewrite !mult_IZR in *. assert (1 <= IZR (2 ^ 202)) by (apply IZR_le; vm_compute; discriminate). ab. apply Rabs_le. lra. }
  destruct (fadd_R (fmul v s) (fsub (py_float (-1)) (fmul lo s)) F1 F3) as (F4 & E4); [rewrite E1, E3; apply (abs_big _ _ B2), IZR_le; vm_compute; discriminate|]. rewrite E1, E3 in E4. split; [exact F4|exact E4].
Qed.
Lemma constant_error v A : Rabs v <= A -> A <= two100 -> let y := rnd (rnd (v * 2) + rnd (-1 - rnd (v * 2))) in Rabs (y + 1) <= 8 * u53 * (1 + A).
Proof.
  intros Hv HA y. pose proof (rnd_err (v * 2)) as E0. pose proof (rnd_err (-1 - rnd (v * 2))) as E1. pose proof (rnd_err (rnd (v * 2) + rnd (-1 - rnd (v * 2)))) as E2. fold y in E2.
  set (p := rnd (v * 2)) in *. set (q := rnd (-1 - p)) in *. pose proof u53_pos as U. pose proof eta_u as ET. pose proof eta_small as EP.
  assert (A0 : 0 <= A) by (pose proof (Rabs_pos v); lra). assert (UA : 0 <= u53 * A) by (apply Rmult_le_pos; lra). assert (UUA : u53 * (u53 * A) <= / 1000 * (u53 * A)) by (apply Rmult_le_compat_r; lra). assert (UU : u53 * u53 <= / 1000 * u53) by (apply Rmult_le_compat_r; lra).
  assert (X0 : u53 * Rabs (v * 2) <= 2 * (u53 * A)) by (rewrite Rabs_mult, (Rabs_pos_eq 2) by lra; replace (2 * (u53 * A)) with (u53 * (A * 2)) by ring; apply Rmult_le_compat_l; [lra|apply Rmult_le_compat_r; lra]).
  assert (P : Rabs p <= 2 * A + 2 * (u53 * A) + / 1000 * u53) by (ab; apply Rabs_le; lra).
  assert (X1 : Rabs (-1 - p) <= 1 + 2 * A + 2 * (u53 * A) + / 1000 * u53) by (ab; apply Rabs_le; lra).
  assert (Y1 : u53 * Rabs (-1 - p) <= 102 / 100 * u53 + 21 / 10 * (u53 * A)) by (apply Rle_trans with (u53 * (1 + 2 * A + 2 * (u53 * A) + / 1000 * u53)); [apply Rmult_le_compat_l; lra|lra]).
  assert (X2 : Rabs (p + q) <= 1 + 2 * u53 + 22 / 10 * (u53 * A)) by (ab; apply Rabs_le; lra).
  assert (Y2 : u53 * Rabs (p + q) <= 102 / 100 * u53 + / 10 * (u53 * A)) by (apply Rle_trans with (u53 * (1 + 2 * u53 + 22 / 10 * (u53 * A))); [apply Rmult_le_compat_l; lra|lra]).
  replace (8 * u53 * (1 + A)) with (8 * u53 + 8 * (u53 * A)) by ring. ab. apply Rabs_le. lra.
Qed.
Lemma pow_100 : 2 ^ 100 = two100.
Proof. rewrite (pow_IZR 2 100). reflexivity. Qed.
Lemma scale_row (row : list b64) lo hi : row <> [] -> moderate row -> least lo row -> greatest hi row ->
  exists ys, min_max_scale row = Returns ys /\ length ys = length row /\
    (forall i x y, nth_error row i = Some x -> nth_error ys i = Some y -> is_finite y = true /\
      (lo < hi -> Rabs (B2R y - relative_place lo hi (B2R x)) <= / 2 ^ 49 * (1 + Rmax (Rabs lo) (Rabs hi) / (hi - lo))) /\
      (lo = hi -> Rabs (B2R y + 1) <= / 2 ^ 50 * (1 + Rabs lo))) /\
    (forall i j x x' y y', nth_error row i = Some x -> nth_error row j = Some x' -> nth_error ys i = Some y -> nth_error ys j = Some y' -> B2R x <= B2R x' -> B2R y <= B2R y').
Proof.
  intros NE (MF & MG) (LI & LO) (HI & HO). destruct row as [|x0 l]; [contradiction|]. set (row := x0 :: l) in *.
  assert (FF : Forall (fun x => is_finite x = true) row) by (eapply Forall_impl; [|exact MF]; intros x X; apply X).
  assert (FB : forallb is_finite row = true) by (apply forallb_forall; rewrite Forall_forall in FF; exact FF).
  apply Forall_cons_iff in FF. destruct FF as (Fx0 & Fl). destruct (np_min_spec l x0 Fx0 Fl) as (I1 & M1). destruct (np_max_spec l x0 Fx0 Fl) as (I2 & M2). fold row in I1, M1, I2, M2.
  set (a := np_min x0 l) in *. set (b := np_max x0 l) in *.
  assert (EQ : forall s, Bdiv mode_NE (py_float 2) (if feq (fsub b a) fzero then py_float 1 else fsub b a) = s -> min_max_scale row = Returns (map (fun v => fadd (fmul v s) (fsub (py_float (-1)) (fmul a s))) row)).
  { intros s <-. unfold min_max_scale, row. fold row. rewrite FB. reflexivity. }
  assert (Ea : B2R a = lo) by (destruct LI as (z & Z & <-); specialize (M1 z Z); specialize (LO a I1); lra).
  assert (Eb : B2R b = hi) by (destruct HI as (z & Z & <-); specialize (M2 z Z); specialize (HO b I2); lra).
  rewrite Forall_forall in MF. pose proof (MF a I1) as (Fa & Ba). pose proof (MF b I2) as (Fb & Bb). rewrite pow_100 in *. rewrite Ea in Ba. rewrite Eb in Bb.
  assert (P2 : 0 < two100) by (apply IZR_lt; reflexivity).
  assert (BR : Rabs (hi - lo) <= 2 * two100) by (ab; apply Rabs_le; lra).
  destruct (fsub_R b a Fb Fa) as (Fr & Er); [rewrite Ea, Eb; apply (abs_big _ _ BR); unfold two100; rewrite <- mult_IZR; apply IZR_le; vm_compute; discriminate|]. rewrite Ea, Eb in Er.
  set (r := fsub b a) in *.
  assert (LH : lo <= hi) by (rewrite <- Ea, <- Eb; apply M1; exact I2).
  destruct (py_float_R 2 ltac:(lia)) as (F2 & E2). destruct (py_float_R 1 ltac:(lia)) as (F1 & E1).
  assert (SC : exists s, Bdiv mode_NE (py_float 2) (if feq r fzero then py_float 1 else r) = s /\ is_finite s = true /\ 0 <= B2R s <= 4 * two100 /\
    (lo < hi -> B2R s = rnd (2 / rnd (hi - lo))) /\ (lo = hi -> B2R s = 2)).
  { eexists. split; [reflexivity|]. destruct (Req_dec lo hi) as [Q|Q].
    - assert (Z : feq r fzero = true) by (apply feq_zero; [exact Fr|]; rewrite Er, Q, Rminus_diag_eq by reflexivity; apply round_0; apply valid_rnd_N). rewrite Z.
      destruct (fdiv_R (py_float 2) (py_float 1) F2 F1) as (Fs & Es); [rewrite E1; lra|rewrite E1, E2; replace (2 / 1) with 2 by lra; rewrite Rabs_pos_eq by lra; pose proof big_200; assert (2 <= IZR (2 ^ 300)) by (apply IZR_le; vm_compute; discriminate); lra|].
      rewrite E1, E2 in Es. replace (2 / 1) with 2 in Es by lra. rewrite rnd_id in Es by (apply (pow2_format 1); lia). rewrite Es. split; [exact Fs|]. split; [|split; [intros; lra|reflexivity]]. unfold two100. split; [lra|]. assert (1 <= IZR (2 ^ 100)) by (apply IZR_le; vm_compute; discriminate). lra.
    - assert (G : / two100 <= hi - lo) by (rewrite <- Ea, <- Eb; apply MG; [exact I1|exact I2|lra]).
      destruct (scale_error (hi - lo) G ltac:(ab; lra)) as (r0 & D & (s0 & s1) & _). rewrite <- Er in r0, D, s0, s1.
      assert (Z : feq r fzero = false) by (apply Bool.not_true_is_false; rewrite feq_zero by exact Fr; lra). rewrite Z.
      destruct (fdiv_R (py_float 2) r F2 Fr) as (Fs & Es); [lra|rewrite E2; apply (abs_big _ _ D); unfold two100; rewrite <- mult_IZR; apply IZR_le; vm_compute; discriminate|]. rewrite E2 in Es.
      rewrite Es. split; [exact Fs|]. split; [lra|]. split; [rewrite Er; reflexivity|intros; lra]. }
  destruct SC as (s & ES & Fs & Bs & S1 & S2).
  assert (AT : forall i x y, nth_error row i = Some x -> nth_error (map (fun v => fadd (fmul v s) (fsub (py_float (-1)) (fmul a s))) row) i = Some y ->
     y = fadd (fmul x s) (fsub (py_float (-1)) (fmul a s)) /\ In x row).
  { intros i x y X Y. rewrite (map_nth_error _ _ _ X) in Y. apply Some_inj in Y. split; [congruence|]. eapply nth_error_In; exact X. }
  eexists. split; [exact (EQ s ES)|]. split; [apply map_length|]. split.
  - intros i x y X Y. destruct (AT i x y X Y) as (-> & IX). destruct (MF x IX) as (Fx & Bx). destruct (affine s x a Fs Fx Fa Bs Bx ltac:(now rewrite Ea)) as (FY & EY). rewrite EY, Ea. split; [exact FY|]. split.
    + intros L. rewrite (S1 L). assert (G : / two100 <= hi - lo) by (rewrite <- Ea, <- Eb; apply MG; [exact I1|exact I2|lra]).
      replace (/ 2 ^ 49) with (16 * u53) by (rewrite (pow_IZR 2 49); unfold u53; change (2 ^ Z.of_nat 49)%Z with 562949953421312%Z; lra).
      apply place_error; [exact G|apply Rmax_l|apply Rmax_r|apply Rmax_lub; assumption|]. split; [now apply LO|now apply HO].
    + intros Q. rewrite (S2 Q). replace (B2R x) with lo by (specialize (LO x IX); specialize (HO x IX); lra).
      replace (/ 2 ^ 50) with (8 * u53) by (rewrite (pow_IZR 2 50); unfold u53; change (2 ^ Z.of_nat 50)%Z with 1125899906842624%Z; lra).
      apply constant_error; [apply Rle_refl|exact Ba].
  - intros i j x x' y y' X X' Y Y' L. destruct (AT i x y X Y) as (-> & IX). destruct (AT j x' y' X' Y') as (-> & IX'). destruct (MF x IX) as (Fx & Bx). destruct (MF x' IX') as (Fx' & Bx').
    destruct (affine s x a Fs Fx Fa Bs Bx ltac:(now rewrite Ea)) as (_ & EY). destruct (affine s x' a Fs Fx' Fa Bs Bx' ltac:(now rewrite Ea)) as (_ & EY'). rewrite EY, EY'.
    apply rnd_le. apply Rplus_le_compat_r. apply rnd_le. apply Rmult_le_compat_r; [lra|exact L].
Qed.
Lemma scale_refused (row : list b64) : row = [] \/ Exists (fun x => is_finite x = false) row -> min_max_scale row = Raises ValueError.
Proof.
  intros [->|H]; [reflexivity|]. destruct row as [|x l]; [inversion H|]. unfold min_max_scale. destruct (forallb is_finite (x :: l)) eqn:E; [|reflexivity].
  exfalso. rewrite forallb_forall in E. apply Exists_exists in H. destruct H as (z & Z & F). rewrite (E z Z) in F. discriminate.
Qed.

(** ** All rows *)
Lemma chunks_concat {A} (rows : list (list A)) : Forall (fun r => length r = 24%nat) rows -> chunks24 (length rows) (concat rows) = rows.
Proof.
  induction 1 as [|r rows L _ IH]; [reflexivity|]. cbn [length chunks24 concat]. rewrite <- L at 1. rewrite firstn_app, firstn_all, Nat.sub_diag, firstn_O, app_nil_r.
  rewrite <- L at 1. rewrite skipn_app, skipn_all, Nat.sub_diag. cbn [skipn app]. now rewrite IH.
Qed.
Lemma concat_24 {A} (rows : list (list A)) : Forall (fun r => length r = 24%nat) rows -> length (concat rows) = (length rows * 24)%nat.
Proof. induction 1 as [|r rows L _ IH]; [reflexivity|]. cbn. rewrite app_length, L, IH. lia. Qed.
Lemma reshape_concat {A} (rows : list (list A)) : Forall (fun r => length r = 24%nat) rows -> reshape24 (concat rows) = Returns rows.
Proof. intros F. unfold reshape24. rewrite (concat_24 rows F), Nat.mod_mul, Nat.div_mul by discriminate. cbn [Nat.eqb]. now rewrite chunks_concat. Qed.
Lemma scaling_rows rows zs : Forall (fun r => length r = 24%nat) rows -> Forall2 (fun r z => min_max_scale r = Returns z) rows zs -> feature_scaling1 (concat rows) = Returns (concat zs).
Proof. intros F H. unfold feature_scaling1. rewrite reshape_concat by exact F. cbn [pybind]. now rewrite (pymap_forall2 _ _ _ H). Qed.
Lemma scaling_length x : Nat.eqb (length x mod 24) 0 = false -> feature_scaling1 x = Raises ValueError.
Proof. intros H. unfold feature_scaling1, reshape24. rewrite H. reflexivity. Qed.

(** ** Failed rows *)
Definition minus_one : b64 := py_float (-1).
Lemma failed_repeat row : failed row -> row = repeat minus_million 24.
Proof.
  intros (L & F). rewrite <- L. clear L. induction F as [|y row (Fy & Ey) _ IH]; [reflexivity|]. cbn [length repeat]. rewrite <- IH. f_equal.
  destruct minus_million_value as (Fm & Em). apply B2R_inj; [| |congruence]; apply is_finite_strict_B2R; rewrite ?Ey, ?Em; lra.
Qed.
Lemma failed_scaled : min_max_scale (repeat minus_million 24) = Returns (repeat minus_one 24).
Proof.
  assert (X : match min_max_scale (repeat minus_million 24) with Returns l => map B2SF l = map B2SF (repeat minus_one 24) | Raises _ => False end) by (vm_compute; reflexivity).
  destruct (min_max_scale (repeat minus_million 24)) as [l|]; [|contradiction]. f_equal. revert X. generalize (repeat minus_one 24). clear. intros m. revert m. induction l as [|x l IH]; intros [|y m] E; try discriminate; [reflexivity|].
  cbn [map] in E. pose proof (f_equal (fun z => hd (SpecFloat.S754_nan) z) E) as E1. pose proof (f_equal (@tl _) E) as E2. cbn [hd tl] in E1, E2. f_equal; [now apply B2SF_inj|now apply IH].
Qed.
