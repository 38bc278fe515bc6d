(** Relative closeness that composes: within k roundings. *)
From Coq Require Import Lia Lra Reals.
From Flocq Require Import Core.Core IEEE754.BinarySingleNaN.
Require Import Flocq.Prop.Plus_error Flocq.Prop.Relative.
From Verif Require Import Base Fp Text Py FpFacts FloatKit NumFacts.
Open Scope R_scope.

Definition u : R := / 9007199254740992.
Definition near (k : nat) (x v : R) : Prop := v * (1 - u) ^ k <= x <= v / (1 - u) ^ k.
Lemma u_pos : 0 < u < 1 / 100. Proof. unfold u. lra. Qed.
Lemma c_pos k : 0 < (1 - u) ^ k. Proof. apply pow_lt. pose proof u_pos. lra. Qed.
Lemma c_le1 k : (1 - u) ^ k <= 1. Proof. apply Rle_trans with (1 ^ k); [apply pow_incr; pose proof u_pos; lra|rewrite pow1; lra]. Qed.
Lemma c_anti k m : (k <= m)%nat -> (1 - u) ^ m <= (1 - u) ^ k.
Proof. intros L. replace m with (k + (m - k))%nat by lia. rewrite pow_add. rewrite <- (Rmult_1_r ((1 - u) ^ k)) at 2. apply Rmult_le_compat_l; [left; apply c_pos|apply c_le1]. Qed.
Lemma bernoulli k : 1 - INR k * u <= (1 - u) ^ k.
Proof.
  induction k as [|k IH]; [cbn; lra|]. rewrite S_INR. cbn [pow]. pose proof u_pos as U.
  assert (0 <= INR k) by apply pos_INR. assert (0 <= INR k * u * u) by (apply Rmult_le_pos; [apply Rmult_le_pos|]; lra).
  apply Rle_trans with ((1 - u) * (1 - INR k * u)); [nra|]. apply Rmult_le_compat_l; lra.
Qed.
Lemma near_refl v : near 0 v v. Proof. unfold near. cbn. lra. Qed.
Lemma near_mono k m x v : (k <= m)%nat -> 0 <= v -> near k x v -> near m x v.
Proof.
  intros L V [A B]. pose proof (c_anti k m L) as C. pose proof (c_pos m) as P. split.
  - apply Rle_trans with (2 := A). now apply Rmult_le_compat_l.
  - apply Rle_trans with (1 := B). apply Rmult_le_compat_l; [exact V|]. now apply Rinv_le.
Qed.
Lemma near_pos k x v : 0 < v -> near k x v -> 0 < x.
Proof. intros V [A _]. apply Rlt_le_trans with (2 := A). apply Rmult_lt_0_compat; [exact V|apply c_pos]. Qed.
Lemma near_nonneg k x v : 0 <= v -> near k x v -> 0 <= x.
Proof. intros V [A _]. apply Rle_trans with (2 := A). apply Rmult_le_pos; [exact V|left; apply c_pos]. Qed.
Lemma near_plus k x y v w : near k x v -> near k y w -> near k (x + y) (v + w).
Proof. intros [A B] [C D]. split; [lra|]. unfold Rdiv in *. lra. Qed.
Lemma near_mult k m x y v w : 0 <= v -> 0 <= w -> near k x v -> near m y w -> near (k + m) (x * y) (v * w).
Proof.
  intros V W X Y. pose proof (near_nonneg k x v V X). pose proof (near_nonneg m y w W Y). destruct X as [A B], Y as [C D]. pose proof (c_pos k). pose proof (c_pos m). split.
  - rewrite pow_add. replace (v * w * ((1 - u) ^ k * (1 - u) ^ m)) with ((v * (1 - u) ^ k) * (w * (1 - u) ^ m)) by ring.
    apply Rmult_le_compat; try assumption; apply Rmult_le_pos; lra.
  - rewrite pow_add. replace (v * w / ((1 - u) ^ k * (1 - u) ^ m)) with ((v / (1 - u) ^ k) * (w / (1 - u) ^ m)) by (field; lra). now apply Rmult_le_compat.
Qed.
Lemma near_inv m y w : 0 < w -> near m y w -> near m (/ y) (/ w).
Proof.
  intros W Y. pose proof (near_pos m y w W Y). destruct Y as [C D]. pose proof (c_pos m). split.
  - replace (/ w * (1 - u) ^ m) with (/ (w / (1 - u) ^ m)) by (field; lra). now apply Rinv_le.
  - replace (/ w / (1 - u) ^ m) with (/ (w * (1 - u) ^ m)) by (field; lra). apply Rinv_le; [now apply Rmult_lt_0_compat|exact C].
Qed.
Lemma near_div k m x y v w : 0 <= v -> 0 < w -> near k x v -> near m y w -> near (k + m) (x / y) (v / w).
Proof. intros V W X Y. apply near_mult; [exact V|left; now apply Rinv_0_lt_compat|exact X|now apply near_inv]. Qed.
Lemma near_trans k m x y v : 0 <= v -> near k x y -> near m y v -> near (k + m) x v.
Proof.
  intros V [A B] [C D]. pose proof (c_pos k). pose proof (c_pos m). rewrite <- (Rmult_1_r v). split.
  - rewrite Nat.add_comm, pow_add. apply Rle_trans with (2 := A). replace (v * 1 * ((1 - u) ^ m * (1 - u) ^ k)) with (v * (1 - u) ^ m * (1 - u) ^ k) by ring. apply Rmult_le_compat_r; lra.
  - rewrite pow_add. apply Rle_trans with (1 := B). replace (v * 1 / ((1 - u) ^ k * (1 - u) ^ m)) with (v / (1 - u) ^ m / (1 - u) ^ k) by (field; lra).
    apply Rmult_le_compat_r; [left; now apply Rinv_0_lt_compat|exact D].
Qed.
Lemma half_left k : (k <= 1000)%nat -> 1 / 2 <= 1 - INR k * u.
Proof. intros L. apply le_INR in L. replace (INR 1000) with 1000 in L by (rewrite INR_IZR_INZ; reflexivity). unfold u. pose proof (pos_INR k). nra. Qed.
Lemma near_double k x v : (k <= 1000)%nat -> 0 <= v -> near k x v -> 0 <= x <= 2 * v.
Proof.
  intros L V N. split; [now apply (near_nonneg k x v)|]. destruct N as [_ B]. apply Rle_trans with (1 := B). rewrite Rmult_comm. apply Rmult_le_compat_l; [exact V|].
  pose proof (half_left k L). pose proof (bernoulli k). replace 2 with (/ (1 / 2)) by field. apply Rinv_le; lra.
Qed.
Lemma near_half k x v : (k <= 1000)%nat -> 0 <= v -> near k x v -> v / 2 <= x.
Proof.
  intros L V [A _]. apply Rle_trans with (2 := A). pose proof (half_left k L). pose proof (bernoulli k). unfold Rdiv. apply Rmult_le_compat_l; [exact V|lra].
Qed.
Lemma near_error k x v : (k <= 1000)%nat -> 0 <= v -> near k x v -> Rabs (x - v) <= INR (S k) * u * v.
Proof.
  intros L V [A B]. pose proof (half_left k L) as H. pose proof (bernoulli k) as C. pose proof u_pos as U. rewrite S_INR. pose proof (pos_INR k) as K.
  assert (U2 : INR k * u <= 1000 * u).
  { apply Rmult_le_compat_r; [lra|]. replace 1000 with (INR 1000) by (rewrite INR_IZR_INZ; reflexivity). now apply le_INR. }
  apply Rabs_le. split.
  - apply Rle_trans with (v * (1 - INR k * u) - v); [nra|]. assert (v * (1 - INR k * u) <= v * (1 - u) ^ k) by (now apply Rmult_le_compat_l). lra.
  - assert (D : v / (1 - u) ^ k <= v * (1 + (INR k + 1) * u)); [|nra]. apply Rmult_le_compat_l; [exact V|].
    apply Rle_trans with (/ (1 - INR k * u)); [apply Rinv_le; lra|]. apply (Rmult_le_reg_r (1 - INR k * u)); [lra|]. rewrite Rinv_l by lra.
    assert (INR k * (INR k + 1) * u * u <= u); [|nra].
    assert (INR k <= 1000) by (replace 1000 with (INR 1000) by (rewrite INR_IZR_INZ; reflexivity); now apply le_INR).
    assert (INR k * (INR k + 1) <= 1001000) by nra. assert (INR k * (INR k + 1) * u <= 1); [|nra]. apply Rle_trans with (1001000 * u); [apply Rmult_le_compat_r; lra|]. unfold u. lra.
Qed.
Lemma near_of_relative e v x : 0 <= v -> Rabs e <= u -> x = v * (1 + e) -> near 1 x v.
Proof.
  intros V E ->. apply Rabs_le_inv in E. pose proof u_pos as U. unfold near. rewrite pow_1. split; [apply Rmult_le_compat_l; lra|]. apply Rmult_le_compat_l; [exact V|].
  apply (Rmult_le_reg_r (1 - u)); [lra|]. rewrite Rinv_l by lra. nra.
Qed.
(** Sums never underflow. *)
Lemma u_ro_eq : u_ro radix2 53 = u.
Proof. unfold u_ro, u. change (bpow radix2 (- (53) + 1)) with (/ 4503599627370496). lra. Qed.
Lemma rnd_plus_near x y : generic_format radix2 fexp64 x -> generic_format radix2 fexp64 y -> 0 <= x + y -> near 1 (rnd (x + y)) (x + y).
Proof.
  intros X Y P. destruct (FLT_plus_error_N_ex radix2 (-1074) 53 (fun z => negb (Z.even z)) x y X Y) as (e & E & H). rewrite u_ro_eq in E.
  apply (near_of_relative e); [exact P| |exact H]. apply Rle_trans with (1 := E). pose proof u_pos. apply (Rmult_le_reg_r (1 + u)); [lra|]. unfold Rdiv. rewrite Rmult_assoc, Rinv_l by lra. nra.
Qed.
Lemma rnd_normal_near v : bpow radix2 (-1022) <= v -> near 1 (rnd v) v.
Proof.
  intros V. assert (P : 0 < v) by (apply Rlt_le_trans with (2 := V); apply bpow_gt_0).
  destruct (relative_error_N_FLT_ex radix2 (-1074) 53 (eq_refl : (0 < 53)%Z) (fun z => negb (Z.even z)) v) as (e & E & H).
  - rewrite Rabs_pos_eq by lra. exact V.
  - apply (near_of_relative e); [lra| |exact H]. apply Rle_trans with (1 := E). rewrite <- u_ro_eq. unfold u_ro. lra.
Qed.
(** ** Sum of a list *)
Definition rsum (l : list R) : R := fold_right Rplus 0 l.
Lemma rsum_nonneg l : Forall (fun v => 0 <= v) l -> 0 <= rsum l.
Proof. induction 1 as [|v l H F IH]; cbn; [lra|]. unfold rsum in IH. lra. Qed.
Lemma sum_near_from k : forall l vs, Forall2 (fun (x : b64) v => is_finite x = true /\ 0 <= v /\ near k (B2R x) v) l vs ->
  forall j (a : b64) s, is_finite a = true -> 0 <= s -> near (k + j) (B2R a) s -> (k + j + length l <= 1000)%nat -> s + rsum vs <= bpow radix2 900 ->
  is_finite (fold_left fadd l a) = true /\ near (k + j + length l) (B2R (fold_left fadd l a)) (s + rsum vs).
Proof.
  induction 1 as [|x v l vs (F & V & N) H IH]; intros j a s A S0 K L B; cbn [fold_left length rsum fold_right].
  - rewrite Nat.add_0_r, Rplus_0_r. now split.
  - change (fold_right Rplus 0 vs) with (rsum vs) in *. cbn [rsum fold_right] in B. change (fold_right Rplus 0 vs) with (rsum vs) in B. cbn [length] in L.
    assert (R0 : 0 <= rsum vs). { apply rsum_nonneg. clear - H. induction H as [|? ? ? ? (? & ? & ?)]; constructor; assumption. }
    assert (P : near (k + j) (B2R a + B2R x) (s + v)) by (apply near_plus; [exact K|apply (near_mono k); [lia|exact V|exact N]]).
    pose proof (near_double (k + j) (B2R a + B2R x) (s + v) ltac:(lia) ltac:(lra) P) as D.
    destruct (fadd_R a x A F) as (F' & E').
    { rewrite Rabs_pos_eq by lra. apply Rle_trans with (2 * bpow radix2 900); [lra|]. apply Rle_trans with (bpow radix2 901); [right; change (bpow radix2 901) with (bpow radix2 (1 + 900)); rewrite bpow_plus; reflexivity|]. unfold big. apply bpow_le. lia. }
    replace (s + (v + rsum vs)) with ((s + v) + rsum vs) by ring. replace (k + j + S (length l))%nat with (k + S j + length l)%nat by lia. apply IH; [exact F'|lra| |lia|lra].
    rewrite E'. replace (k + S j)%nat with (1 + (k + j))%nat by lia. apply near_trans with (B2R a + B2R x); [lra| |exact P].
    apply rnd_plus_near; [apply generic_format_B2R|apply generic_format_B2R|lra].
Qed.
Lemma py_sum_near k l vs : Forall2 (fun (x : b64) v => is_finite x = true /\ 0 <= v /\ near k (B2R x) v) l vs -> (k + length l <= 1000)%nat -> rsum vs <= bpow radix2 900 ->
  is_finite (py_sum l) = true /\ near (k + length l) (B2R (py_sum l)) (rsum vs).
Proof.
  intros H L B. destruct (py_float_R 0 ltac:(lia)) as (F & E). pose proof (sum_near_from k l vs H 0 (py_float 0) 0 F) as S. rewrite Nat.add_0_r, Rplus_0_l in S. apply S; [lra| |exact L|exact B].
  rewrite E. unfold near, Rdiv. rewrite !Rmult_0_l. change (IZR 0) with 0. lra.
Qed.
