(** The chord decoder in double precision: it never restarts, and its path is nearly a most probable one. *)
From Coq Require Import Reals Lra Lia.
From Flocq Require Import Core.Core IEEE754.BinarySingleNaN.
From Verif Require Import Base BaseFacts Fp Options FpFacts NumFacts HmmAccuracy FloatKit StlFacts Nnls NnlsFacts NnlsViterbiFacts PlugFacts PlugNan ChordViterbi ChordSpec ChordFacts ChordExact NearSpec.
Open Scope Z_scope.

(** ** One rounding *)
Notation p2 := (bpow radix2).
Definition lam : R := (1 + p2 (-52))%R.
Lemma lam_gt : (1 < lam)%R. Proof. unfold lam. pose proof (bpow_gt_0 radix2 (-52)). lra. Qed.
Definition near (x y : R) : Prop := (x <= lam * y /\ y <= lam * x)%R.
Lemma rnd_near v : (p2 (-1000) <= v)%R -> near (rnd v) v.
Proof.
  intros H. assert (P : (0 < v)%R) by (apply Rlt_le_trans with (2 := H); apply bpow_gt_0). pose proof (rnd_error v) as E. rewrite (Rabs_pos_eq v) in E by lra.
  assert (S : (p2 (-1075) <= p2 (-75) * v)%R) by (apply Rle_trans with (p2 (-75) * p2 (-1000))%R; [rewrite <- bpow_plus; apply bpow_le; lia|apply Rmult_le_compat_l; [apply bpow_ge_0|exact H]]).
  assert (B : (Rabs (rnd v - v) <= (p2 (-53) + p2 (-75)) * v)%R) by (rewrite Rmult_plus_distr_r; lra). apply Rabs_le_inv in B. unfold near, lam.
  assert (A52 : p2 (-52) = (2 * p2 (-53))%R) by (change 2%R with (p2 1); rewrite <- bpow_plus; reflexivity). assert (A75 : (p2 (-75) <= / 1000 * p2 (-53))%R).
  { apply Rle_trans with (p2 (-10) * p2 (-53))%R; [rewrite <- bpow_plus; apply bpow_le; lia|]. apply Rmult_le_compat_r; [apply bpow_ge_0|]. cbn. lra. }
  assert (A0 : (0 < p2 (-53) <= / 1000)%R) by (split; [apply bpow_gt_0|]; apply Rle_trans with (p2 (-10)); [apply bpow_le; lia|cbn; lra]). rewrite A52. set (u := p2 (-53)) in *. set (w := p2 (-75)) in *. pose proof (bpow_ge_0 radix2 (-75)) as W0. fold w in W0.
  split; [nra|]. assert (Q : (v * (1 - u - w) <= rnd v)%R) by nra. apply Rle_trans with ((1 + 2 * u) * (v * (1 - u - w)))%R; [|apply Rmult_le_compat_l; [lra|exact Q]].
  replace ((1 + 2 * u) * (v * (1 - u - w)))%R with (v * (1 + (u - w - 2 * u * u - 2 * u * w)))%R by ring. assert (X : (0 <= u - w - 2 * u * u - 2 * u * w)%R) by nra. nra.
Qed.
Lemma near_0 : near 0 0. Proof. unfold near. lra. Qed.

(** ** Doubles from 0 to 1 that are 0 or not too small *)
Definition at_least (k : Z) (x : b64) : Prop := unit_double x /\ (p2 (- k) <= B2R x)%R.
Definition zero_or (k : Z) (x : b64) : Prop := unit_double x /\ (B2R x = 0%R \/ (p2 (- k) <= B2R x)%R).
Lemma at_zero k x : at_least k x -> zero_or k x. Proof. intros (U & H). split; [exact U|now right]. Qed.
Lemma at_weaken k l x : k <= l -> at_least k x -> at_least l x.
Proof. intros L (U & H). split; [exact U|]. apply Rle_trans with (2 := H). apply bpow_le. lia. Qed.
Lemma zero_weaken k l x : k <= l -> zero_or k x -> zero_or l x.
Proof. intros L (U & [H|H]); (split; [exact U|]); [now left|right]. apply Rle_trans with (2 := H). apply bpow_le. lia. Qed.
Lemma at_pos k x : at_least k x -> (0 < B2R x)%R. Proof. intros (_ & H). apply Rlt_le_trans with (2 := H). apply bpow_gt_0. Qed.
Lemma zero_pos k x : zero_or k x -> (0 < B2R x)%R -> at_least k x. Proof. intros (U & [H|H]) P; [lra|now split]. Qed.
Lemma bpow_format e : -1000 <= e <= 1000 -> generic_format radix2 fexp64 (p2 e).
Proof. intros H. apply generic_format_bpow. unfold fexp64, SpecFloat.fexp, SpecFloat.emin, prec64, emax64. lia. Qed.
Lemma mul_at a b x y : 0 <= a -> 0 <= b -> a + b <= 1000 -> at_least a x -> at_least b y -> at_least (a + b) (fmul x y) /\ near (B2R (fmul x y)) (B2R x * B2R y).
Proof.
  intros A B L (Ux & Hx) (Uy & Hy). destruct (fmul_unit x y Ux Uy) as (U & E). assert (P : (p2 (- (a + b)) <= B2R x * B2R y)%R).
  { replace (- (a + b)) with (- a + - b) by lia. rewrite bpow_plus. apply Rmult_le_compat; try apply bpow_ge_0; assumption. }
  split; [split; [exact U|]; rewrite E; apply rnd_lb; [apply bpow_format; lia|exact P]|]. rewrite E. apply rnd_near. apply Rle_trans with (2 := P). apply bpow_le. lia.
Qed.
Lemma mul_zero a b x y : 0 <= a -> 0 <= b -> a + b <= 1000 -> zero_or a x -> zero_or b y -> zero_or (a + b) (fmul x y) /\ near (B2R (fmul x y)) (B2R x * B2R y).
Proof.
  intros A B L (Ux & Hx) (Uy & Hy). destruct (fmul_unit x y Ux Uy) as (U & E). destruct (Req_dec (B2R x * B2R y) 0) as [Z0|N0].
  - rewrite Z0, rnd_0 in E. split; [split; [exact U|now left]|]. rewrite E, Z0. apply near_0.
  - destruct Hx as [Hx|Hx]; [rewrite Hx, Rmult_0_l in N0; lra|]. destruct Hy as [Hy|Hy]; [rewrite Hy, Rmult_0_r in N0; lra|]. destruct (mul_at a b x y A B L (conj Ux Hx) (conj Uy Hy)) as (Q1 & Q2). split; [now apply at_zero|exact Q2].
Qed.
(** Sums of many of them. *)
Lemma grid_format k e : 0 <= k <= 2 ^ 50 -> -1000 <= e <= 900 -> generic_format radix2 fexp64 (IZR k * p2 e).
Proof. intros K H. apply (generic_format_FLT radix2 (-1074) 53). exists (Float radix2 k e); cbn [Fnum Fexp]; [reflexivity|change (Z.abs k < 2 ^ 53); lia|lia]. Qed.
Lemma sum_upper l : forall k e (a : b64), Forall unit_double l -> Forall (fun x => (B2R x <= p2 e)%R) l -> is_finite a = true -> (0 <= B2R a <= IZR k * p2 e)%R -> 0 <= k -> k + Z.of_nat (length l) <= 2 ^ 50 -> -1000 <= e <= 0 ->
  (B2R (fold_left fadd l a) <= IZR (k + Z.of_nat (length l)) * p2 e)%R.
Proof.
  induction l as [|y l IH]; intros k e a U H Fa Ha Hk Hl He; cbn [fold_left length]; [rewrite Z.add_0_r; lra|]. apply Forall_cons_iff in U as ((Fy & Uy) & U). apply Forall_cons_iff in H as (Hy & H). cbn [length] in Hl.
  assert (P1 : (p2 e <= 1)%R) by (change 1%R with (p2 0); apply bpow_le; lia). assert (P0 := bpow_gt_0 radix2 e). assert (K : (IZR k * p2 e + p2 e = IZR (k + 1) * p2 e)%R) by (rewrite plus_IZR; ring).
  assert (KB : (0 <= IZR (k + 1) <= IZR (2 ^ 50))%R) by (split; apply IZR_le; lia).
  destruct (fadd_R a y Fa Fy) as (F & E). { rewrite Rabs_pos_eq by lra. apply Rle_trans with (IZR (2 ^ 50)); [|rewrite IZR_bpow by lia; apply bpow_le; lia]. apply Rle_trans with (IZR (k + 1) * p2 e)%R; [lra|]. rewrite <- (Rmult_1_r (IZR (2 ^ 50))). apply Rmult_le_compat; lra. }
  replace (k + Z.of_nat (S (length l))) with (k + 1 + Z.of_nat (length l)) by lia. apply IH; try assumption; try lia. rewrite E. split; [apply rnd_ge0; lra|]. apply rnd_ub; [apply grid_format; lia|lra].
Qed.
(** ** Shares *)
Lemma share_near (n a : Z) (raw : list b64) i0 : 1 <= n <= 2 ^ 20 -> Z.of_nat (length raw) = n -> 0 <= a <= 500 -> Forall (zero_or a) raw -> 0 <= i0 < n -> (0 < B2R (znth fzero raw i0))%R ->
  let s := fold_left fadd raw fzero in
  is_finite s = true /\ (p2 (- a) <= B2R s <= IZR n)%R /\ (forall i, 0 <= i < n -> zero_or (a + 20) (Bdiv mode_NE (znth fzero raw i) s) /\ near (B2R (Bdiv mode_NE (znth fzero raw i) s)) (B2R (znth fzero raw i) / B2R s)) /\
  (exists i, 0 <= i < n /\ at_least 21 (Bdiv mode_NE (znth fzero raw i) s)) /\ forall i, 0 <= i < n -> (0 < B2R (znth fzero raw i))%R -> at_least (a + 20) (Bdiv mode_NE (znth fzero raw i) s).
Proof.
  intros N L A F I0 P0. cbv zeta. assert (U : Forall unit_double raw) by (apply Forall_impl with (2 := F); now intros x (Q & _)). assert (EN : IZR (2 ^ 20) = p2 20) by (apply IZR_bpow; lia).
  destruct (fadd_sums raw 0 fzero U eq_refl) as ((FS & _) & _ & SI); [cbn; lra|lia|lia|]. set (s := fold_left fadd raw fzero) in *.
  assert (SX : forall i, 0 <= i < n -> (B2R (znth fzero raw i) <= B2R s)%R) by (intros i I; apply SI; unfold znth; apply nth_In; lia).
  assert (UX : forall i, 0 <= i < n -> zero_or a (znth fzero raw i)) by (intros i I; apply (Forall_znth fzero _ _ _ F); lia).
  assert (SU : (B2R s <= IZR n)%R). { pose proof (sum_upper raw 0 0 fzero U) as X. rewrite L, Z.add_0_l in X. change (p2 0) with 1%R in X. rewrite (Rmult_1_r (IZR n)) in X. apply X; try reflexivity; try lia; [apply Forall_impl with (2 := U); now intros x (_ & Q)|cbn; lra]. }
  assert (S1 : (p2 (- a) <= B2R s)%R) by (apply Rle_trans with (2 := SX i0 I0); destruct (zero_pos a _ (UX i0 I0) P0) as (_ & Q); exact Q). assert (S0 : (0 < B2R s)%R) by (apply Rlt_le_trans with (2 := S1); apply bpow_gt_0).
  assert (NB : (IZR n <= p2 20)%R) by (rewrite <- EN; apply IZR_le; lia). split; [exact FS|]. split; [now split|].
  assert (D : forall i, 0 <= i < n -> (0 < B2R (znth fzero raw i))%R -> at_least (a + 20) (Bdiv mode_NE (znth fzero raw i) s) /\ near (B2R (Bdiv mode_NE (znth fzero raw i) s)) (B2R (znth fzero raw i) / B2R s)).
  { intros i I Pi. destruct (zero_pos a _ (UX i I) Pi) as (Ui & Hi). destruct (fdiv_unit (znth fzero raw i) s Ui (conj FS (Rlt_le _ _ S0)) S0 (SX i I)) as (UD & ED). change (fdiv64 (znth fzero raw i) s) with (Bdiv mode_NE (znth fzero raw i) s) in *.
    assert (Q : (p2 (- (a + 20)) <= B2R (znth fzero raw i) / B2R s)%R). { apply (Rmult_le_reg_r (B2R s)); [exact S0|]. unfold Rdiv. rewrite Rmult_assoc, Rinv_l, Rmult_1_r by lra. apply Rle_trans with (2 := Hi). apply Rle_trans with (p2 (- (a + 20)) * p2 20)%R; [apply Rmult_le_compat_l; [apply bpow_ge_0|lra]|]. rewrite <- bpow_plus. apply bpow_le. lia. }
    split; [split; [exact UD|]; rewrite ED; apply rnd_lb; [apply bpow_format; lia|exact Q]|]. rewrite ED. apply rnd_near. apply Rle_trans with (2 := Q). apply bpow_le. lia. }
  split; [|split].
  - intros i I. destruct (UX i I) as (Ui & Hi). destruct (Req_dec (B2R (znth fzero raw i)) 0) as [Zi|Ni]; [|destruct Hi as [Hi|Hi]; [contradiction|]; destruct (D i I) as (Q1 & Q2); [apply Rlt_le_trans with (2 := Hi); apply bpow_gt_0|]; split; [now apply at_zero|exact Q2]].
    destruct (fdiv_unit (znth fzero raw i) s Ui (conj FS (Rlt_le _ _ S0)) S0 (SX i I)) as (UD & ED). change (fdiv64 (znth fzero raw i) s) with (Bdiv mode_NE (znth fzero raw i) s) in *. rewrite Zi in *. unfold Rdiv in *. rewrite Rmult_0_l, rnd_0 in ED. rewrite Rmult_0_l, ED. split; [split; [exact UD|now left]|apply near_0].
  - assert (MX : exists m, 0 <= m < n /\ forall i, 0 <= i < n -> (B2R (znth fzero raw i) <= B2R (znth fzero raw m))%R).
    { assert (G : forall k : nat, Z.of_nat k < n -> exists m, 0 <= m < n /\ forall i, 0 <= i <= Z.of_nat k -> (B2R (znth fzero raw i) <= B2R (znth fzero raw m))%R).
      { induction k as [|k IH]; intros K; [exists 0; split; [lia|]; intros i I; replace i with 0 by lia; lra|]. destruct IH as (m & M & H); [lia|]. destruct (Rle_dec (B2R (znth fzero raw (Z.of_nat (S k)))) (B2R (znth fzero raw m))) as [Q|Q].
        - exists m. split; [exact M|]. intros i I. destruct (Z.eq_dec i (Z.of_nat (S k))) as [-> |NE]; [exact Q|]. apply H. lia.
        - exists (Z.of_nat (S k)). split; [lia|]. intros i I. destruct (Z.eq_dec i (Z.of_nat (S k))) as [-> |NE]; [lra|]. specialize (H i ltac:(lia)). lra. }
      destruct (G (Z.to_nat (n - 1)) ltac:(lia)) as (m & M & H). exists m. split; [exact M|]. intros i I. apply H. lia. }
    destruct MX as (m & M & MX). exists m. split; [exact M|]. set (x := znth fzero raw m) in *. assert (PX : (0 < B2R x)%R) by (specialize (MX i0 I0); lra). destruct (zero_pos a x (UX m M) PX) as (Ux & Hx). destruct (Ux) as (Fx & _ & Ux1).
    destruct (mag radix2 (B2R x)) as (e & He). specialize (He ltac:(lra)). rewrite (Rabs_pos_eq (B2R x)) in He by lra. assert (E1 : -600 <= e <= 1).
    { split; [|assert (X : (p2 (e - 1) <= p2 0)%R) by (change (p2 0) with 1%R; lra); apply le_bpow in X; lia]. assert (X : (p2 (- a) < p2 e)%R) by lra. apply lt_bpow in X. lia. }
    assert (SE : (B2R s <= p2 21 * B2R x)%R).
    { destruct (Z.eq_dec e 1) as [E2|E2].
      - assert (X1 : (1 <= B2R x)%R) by (destruct He as (He & _); rewrite E2 in He; change (p2 (1 - 1)) with 1%R in He; exact He). assert (T : p2 21 = (2 * p2 20)%R) by (change 2%R with (p2 1); rewrite <- bpow_plus; reflexivity). assert (T0 := bpow_gt_0 radix2 20). nra.
      - pose proof (sum_upper raw 0 e fzero U) as X. rewrite L, Z.add_0_l in X. fold s in X. assert (Y : (B2R s <= IZR n * p2 e)%R).
        { apply X; try reflexivity; try lia; [|cbn; lra]. apply Forall_forall. intros y Y. apply (In_nth _ _ fzero) in Y. destruct Y as (k & K1 & K2). specialize (MX (Z.of_nat k) ltac:(lia)). unfold znth in MX at 1. rewrite Nat2Z.id, K2 in MX. lra. }
        apply Rle_trans with (1 := Y). assert (T : p2 e = (2 * p2 (e - 1))%R) by (change 2%R with (p2 1); rewrite <- bpow_plus; f_equal; lia). assert (T1 : p2 21 = (2 * p2 20)%R) by (change 2%R with (p2 1); rewrite <- bpow_plus; reflexivity). assert (T0 := bpow_gt_0 radix2 (e - 1)).
        apply Rle_trans with (p2 20 * p2 e)%R; [apply Rmult_le_compat_r; [apply bpow_ge_0|exact NB]|]. rewrite T, T1. assert (T2 := bpow_gt_0 radix2 20). replace (p2 20 * (2 * p2 (e - 1)))%R with (2 * p2 20 * p2 (e - 1))%R by ring. apply Rmult_le_compat_l; lra. }
    destruct (fdiv_unit x s Ux (conj FS (Rlt_le _ _ S0)) S0 (SX m M)) as (UD & ED). change (fdiv64 x s) with (Bdiv mode_NE x s) in *. split; [exact UD|]. rewrite ED. apply rnd_lb; [apply bpow_format; lia|]. apply (Rmult_le_reg_r (B2R s)); [exact S0|]. unfold Rdiv. rewrite Rmult_assoc, Rinv_l, Rmult_1_r by lra.
    apply Rle_trans with (p2 (- (21)) * (p2 21 * B2R x))%R; [apply Rmult_le_compat_l; [apply bpow_ge_0|exact SE]|]. rewrite <- Rmult_assoc, <- bpow_plus. change (p2 (- (21) + 21)) with 1%R. lra.
  - intros i I Pi. now apply D.
Qed.

(** ** Frames *)
Notation de := (entry (W := doubles)).
Definition good (n : Z) (row : list b64) : Prop := (forall i, 0 <= i < n -> zero_or 221 (de row i)) /\ exists i, 0 <= i < n /\ at_least 21 (de row i).
Definition heard (n : Z) (o : list b64) : Prop := forall i, 0 <= i < n -> at_least 140 (de o i).
Definition linked (n : Z) (trans : list (list b64)) : Prop := forall i j, 0 <= i < n -> 0 <= j < n -> at_least 40 (de (znth [] trans i) j).
Definition started (n : Z) (init : list b64) : Prop := (forall i, 0 <= i < n -> zero_or 40 (de init i)) /\ exists i, 0 <= i < n /\ (0 < B2R (de init i))%R.
Lemma zero_fin k x : zero_or k x -> is_finite x = true /\ (0 <= B2R x)%R. Proof. intros ((F & U & _) & _). now split. Qed.
Lemma choose_double n (f : Z -> b64) : 0 < n -> (forall i, 0 <= i < n -> is_finite (f i) = true /\ (0 <= B2R (f i))%R) -> (exists i, 0 <= i < n /\ (0 < B2R (f i))%R) ->
  let b := choose (W := doubles) n f in 0 <= fst b < n /\ snd b = f (fst b) /\ forall i, 0 <= i < n -> (B2R (f i) <= B2R (snd b))%R.
Proof.
  intros P H (i1 & I1 & X1). set (h := fun (b : Z * b64) i => if fgt (f i) (snd b) then (i, f i) else b).
  assert (G : forall l b, Forall (fun i => 0 <= i < n) l -> is_finite (snd b) = true -> let r := fold_left h l b in (B2R (snd b) <= B2R (snd r))%R /\ (forall i, In i l -> (B2R (f i) <= B2R (snd r))%R) /\ (r = b \/ In (fst r) l /\ snd r = f (fst r))).
  { induction l as [|i l IH]; intros b F B; cbn [fold_left]; [split; [lra|]; split; [intros j []|now left]|]. apply Forall_cons_iff in F as (Ii & F). destruct (H i Ii) as (Fi & _).
    assert (Q : (B2R (snd b) <= B2R (snd (h b i)) /\ B2R (f i) <= B2R (snd (h b i)))%R /\ (h b i = b \/ h b i = (i, f i)) /\ is_finite (snd (h b i)) = true).
    { unfold h. pose proof (fgt_B2R (f i) (snd b) Fi B) as X. destruct (fgt (f i) (snd b)); cbn [snd].
      - assert (Y : (B2R (snd b) < B2R (f i))%R) by (now apply X). split; [lra|]. split; [now right|exact Fi].
      - assert (Y : ~ (B2R (snd b) < B2R (f i))%R) by (intros Y; apply X in Y; discriminate Y). split; [lra|]. split; [now left|exact B]. }
    destruct Q as (Q1 & Q2 & Q3). destruct (IH (h b i) F Q3) as (A & B' & C). cbv zeta in *. set (r := fold_left h l (h b i)) in *.
    split; [lra|]. split; [intros j [->|J]; [lra|now apply B']|]. destruct C as [C|(C1 & C2)]; [|right; split; [now right|exact C2]]. destruct Q2 as [Q2|Q2]; [left; congruence|]. right. rewrite C, Q2. split; [now left|reflexivity]. }
  cbv zeta. assert (FS : Forall (fun i => 0 <= i < n) (states n)) by (apply Forall_forall; intros i I; apply zrange_In in I; lia). destruct (G (states n) (n - 1, fzero) FS eq_refl) as (A & B & C). cbv zeta in A, B, C. change (choose (W := doubles) n f) with (fold_left h (states n) (n - 1, fzero)).
  set (r := fold_left h (states n) (n - 1, fzero)) in *. cbn [snd] in A. assert (B' : forall i, 0 <= i < n -> (B2R (f i) <= B2R (snd r))%R) by (intros i I; apply B, zrange_In; lia).
  destruct C as [C|(C1 & C2)]; [|split; [apply zrange_In in C1; change (0 <= @fst Z b64 r < n); lia|]; now split]. exfalso. specialize (B' i1 I1). rewrite C in B'. cbn [snd] in B'. change (B2R fzero) with 0%R in B'. lra.
Qed.
Lemma near_ge x y : (0 <= y)%R -> near x y -> (0 <= x)%R.
Proof. intros Y (A & B). pose proof lam_gt. nra. Qed.
Definition cube : R := (lam * lam * lam)%R.
Section Frames.
  Context (n : Z) (N : 1 <= n <= 2 ^ 20) (trans : list (list b64)) (LINK : linked n trans).
  Notation tr i j := (B2R (de (znth [] trans i) j)).
  Lemma reached_near row o j : good n row -> heard n o -> 0 <= j < n -> let b := reached (W := doubles) n trans row o j in
    0 <= fst b < n /\ at_least 61 (snd b) /\ (B2R (snd b) <= lam * (B2R (de row (fst b)) * tr (fst b) j))%R /\ forall i, 0 <= i < n -> (B2R (de row i) * tr i j <= lam * B2R (snd b))%R.
  Proof.
    intros (Hr & i1 & I1 & R1) Ho J. cbv zeta. unfold reached. change (v_gt (w := doubles)) with fgt. pose proof (at_pos _ _ (Ho j J)) as OP. destruct (Ho j J) as ((Fo & _) & _). replace (fgt (de o j) (v0 (w := doubles))) with true by (symmetry; apply (fgt_B2R _ fzero Fo eq_refl); exact OP).
    set (f := fun i => v_mul (w := doubles) (de row i) (de (znth [] trans i) j)). match goal with |- context [choose n ?c] => change (choose n c) with (choose (W := doubles) n f) end. assert (M : forall i, 0 <= i < n -> zero_or 261 (f i) /\ near (B2R (f i)) (B2R (de row i) * tr i j)) by (intros i I; apply (mul_zero 221 40); try lia; [now apply Hr|apply at_zero; now apply LINK]).
    assert (M1 : at_least 61 (f i1)) by (apply (mul_at 21 40); try lia; [exact R1|now apply LINK]).
    destruct (choose_double n f ltac:(lia)) as (B1 & B2 & B3); [intros i I; apply (zero_fin 261), M, I|exists i1; split; [exact I1|exact (at_pos _ _ M1)]|]. set (b := choose (W := doubles) n f) in *. split; [exact B1|]. change (@snd Z (v_num doubles) b) with (@snd Z b64 b) in *. change (@fst Z (v_num doubles) b) with (@fst Z b64 b) in *. split; [|split].
    - rewrite B2. destruct (M _ B1) as ((U & _) & _). split; [exact U|]. rewrite <- B2. apply Rle_trans with (2 := B3 i1 I1). apply M1.
    - rewrite B2. apply M, B1.
    - intros i I. destruct (M i I) as (_ & _ & Q). apply Rle_trans with (1 := Q). apply Rmult_le_compat_l; [pose proof lam_gt; lra|]. now apply B3.
  Qed.
  Lemma double_raw row o j : 0 <= j < n -> de (raw_row (W := doubles) n trans row o) j = fmul (snd (reached (W := doubles) n trans row o j)) (de o j).
  Proof. intros J. unfold raw_row. now rewrite entry_map by exact J. Qed.
  Lemma double_raw_length row o : Z.of_nat (@length b64 (raw_row (W := doubles) n trans row o)) = n.
  Proof. unfold raw_row, states. change (v_num doubles) with b64. rewrite map_length, zrange_length. lia. Qed.
  Lemma next_near row o : good n row -> heard n o -> good n (next_row (W := doubles) n trans row o) /\ exists sum, (p2 (-201) <= B2R sum <= IZR n)%R /\ is_finite sum = true /\ next_scale (W := doubles) n trans row o = Bdiv mode_NE (rat64 1 1) sum /\ next_row (W := doubles) n trans row o = share (W := doubles) (raw_row (W := doubles) n trans row o) /\
    (forall i j, 0 <= i < n -> 0 <= j < n -> (B2R (de row i) * tr i j * B2R (de o j) <= cube * (B2R sum * B2R (de (next_row (W := doubles) n trans row o) j)))%R) /\
    forall j, 0 <= j < n -> let i := fst (reached (W := doubles) n trans row o j) in (B2R sum * B2R (de (next_row (W := doubles) n trans row o) j) <= cube * (B2R (de row i) * tr i j * B2R (de o j)))%R.
  Proof.
    intros Hr Ho. set (raw := raw_row (W := doubles) n trans row o). assert (L : Z.of_nat (@length b64 raw) = n) by apply double_raw_length.
    assert (RW : forall j, 0 <= j < n -> at_least 201 (de raw j) /\ near (B2R (de raw j)) (B2R (snd (reached (W := doubles) n trans row o j)) * B2R (de o j))).
    { intros j J. unfold raw. rewrite double_raw by exact J. destruct (reached_near row o j Hr Ho J) as (_ & Q & _). apply (mul_at 61 140); try lia; [exact Q|now apply Ho]. }
    assert (FR : Forall (zero_or 201) raw). { apply Forall_forall. intros x X. apply (In_nth _ _ fzero) in X. destruct X as (k & K1 & K2). destruct (RW (Z.of_nat k) ltac:(lia)) as (Q & _). unfold entry, znth in Q. rewrite Nat2Z.id in Q. change (nth k raw fzero) with (nth k raw (v0 (w := doubles))) in K2. rewrite K2 in Q. now apply at_zero. }
    assert (P0 : (0 < B2R (znth fzero raw 0))%R) by (apply (at_pos 201), (RW 0); lia). destruct (share_near n 201 raw 0 N L ltac:(lia) FR ltac:(lia) P0) as (FS & (S1 & S2) & SN & SM & _). set (s := fold_left fadd raw fzero) in *. assert (S0 : (0 < B2R s)%R) by (apply Rlt_le_trans with (2 := S1); apply bpow_gt_0).
    assert (EN : next_row (W := doubles) n trans row o = share (W := doubles) raw /\ next_scale (W := doubles) n trans row o = Bdiv mode_NE (rat64 1 1) s).
    { unfold next_row, next_scale. fold raw. change (sum_of (W := doubles) raw) with s. change (v_gt (w := doubles) s v0) with (fgt s fzero). replace (fgt s fzero) with true by (symmetry; apply (fgt_B2R s fzero FS eq_refl); exact S0). split; reflexivity. }
    destruct EN as (EN & ES). assert (EE : forall j, 0 <= j < n -> de (share (W := doubles) raw) j = Bdiv mode_NE (znth fzero raw j) s).
    { intros j J. unfold entry, share, znth. change (sum_of (W := doubles) raw) with s. rewrite (nth_indep _ v0 (v_div (w := doubles) fzero s)) by (rewrite map_length; change (Z.to_nat j < @length b64 raw)%nat; lia). exact (map_nth (fun d => v_div (w := doubles) d s) raw fzero (Z.to_nat j)). }
    rewrite EN. split; [split; [intros i I; rewrite EE by exact I; apply (SN i I)|destruct SM as (i & I & Q); exists i; split; [exact I|rewrite EE by exact I; exact Q]]|].
    exists s. split; [now split|]. split; [exact FS|]. split; [exact ES|]. split; [reflexivity|]. pose proof lam_gt as LG. unfold cube. split.
    - intros i j I J. rewrite EE by exact J. destruct (SN j J) as (_ & _ & D2). destruct (RW j J) as (RP & _ & R2). destruct (reached_near row o j Hr Ho J) as (_ & _ & _ & Q). specialize (Q i I). cbv zeta in Q. change (znth fzero raw j) with (de raw j) in *. set (x := B2R (snd (reached (W := doubles) n trans row o j))) in *. set (y := B2R (Bdiv mode_NE (de raw j) s)) in *. pose proof (at_pos _ _ (Ho j J)) as OP. set (w := B2R (de o j)) in *. set (r := B2R (de raw j)) in *.
      assert (D3 : (r <= lam * (B2R s * y))%R). { apply Rle_trans with (B2R s * (r / B2R s))%R; [apply Req_le; field; lra|]. rewrite (Rmult_comm lam), Rmult_assoc, (Rmult_comm y). apply Rmult_le_compat_l; [lra|exact D2]. }
      apply Rle_trans with (lam * x * w)%R; [apply Rmult_le_compat_r; [lra|exact Q]|]. rewrite Rmult_assoc. apply Rle_trans with (lam * (lam * r))%R; [apply Rmult_le_compat_l; [lra|exact R2]|]. rewrite !Rmult_assoc. apply Rmult_le_compat_l; [lra|]. apply Rmult_le_compat_l; [lra|]. exact D3.
    - intros j J. cbv zeta. rewrite EE by exact J. destruct (SN j J) as (_ & D1 & _). destruct (RW j J) as (RP & R1 & _). destruct (reached_near row o j Hr Ho J) as (_ & _ & Q & _). cbv zeta in Q. change (znth fzero raw j) with (de raw j) in *. set (b := reached (W := doubles) n trans row o j) in *. set (x := B2R (snd b)) in *. set (y := B2R (Bdiv mode_NE (de raw j) s)) in *. pose proof (at_pos _ _ (Ho j J)) as OP. set (w := B2R (de o j)) in *. set (r := B2R (de raw j)) in *.
      assert (D3 : (B2R s * y <= lam * r)%R). { apply Rle_trans with (B2R s * (lam * (r / B2R s)))%R; [apply Rmult_le_compat_l; [lra|exact D1]|]. apply Req_le. field. lra. }
      apply Rle_trans with (1 := D3). rewrite !Rmult_assoc. apply Rmult_le_compat_l; [lra|]. apply Rle_trans with (1 := R1). apply Rmult_le_compat_l; [lra|]. rewrite <- !Rmult_assoc. apply Rmult_le_compat_r; [lra|]. rewrite Rmult_assoc. exact Q.
  Qed.
End Frames.

(** ** All frames *)
Lemma values_at l i : znth 0%R (values l) i = B2R (de l i).
Proof. unfold znth, values, entry. exact (map_nth B2R l fzero (Z.to_nat i)). Qed.
Lemma values_row (l : list (list b64)) i : znth [] (map values l) i = values (znth [] l i).
Proof. unfold znth. exact (map_nth values l [] (Z.to_nat i)). Qed.
Lemma pow_step k : (lam ^ (3 * S k) = cube * lam ^ (3 * k))%R.
Proof. replace (3 * S k)%nat with (3 + 3 * k)%nat by lia. rewrite pow_add. unfold cube. ring. Qed.
Lemma last_move (p : list Z) : forall j s, last (j :: p) s = last p j.
Proof. induction p as [|y p IH]; intros j s; [reflexivity|]. change (last (j :: y :: p) s) with (last (y :: p) s). rewrite !IH. reflexivity. Qed.
Section All.
  Context (n : Z) (N : 1 <= n <= 2 ^ 20) (trans : list (list b64)) (LINK : linked n trans).
  Notation goes s os p := (going (map values trans) s (map values os) p).
  Notation rows := (rows_from (W := doubles) n trans). Notation from := (origins_from (W := doubles) n trans). Notation scales := (scales_from (W := doubles) n trans).
  Lemma heard_pos o j : heard n o -> 0 <= j < n -> (0 < B2R (de o j))%R. Proof. intros H J. exact (at_pos _ _ (H j J)). Qed.
  Lemma goes_cons s o os j p : goes s (o :: os) (j :: p) = (B2R (de (znth [] trans s) j) * B2R (de o j) * goes j os p)%R.
  Proof. cbn [map going]. now rewrite values_row, !values_at. Qed.
  Lemma goes_pos os : Forall (heard n) os -> forall s p, 0 <= s < n -> Forall (fun s => 0 <= s < n) p -> (0 < goes s os p)%R.
  Proof. induction 1 as [|o os Ho H IH]; intros s [|j p] Hs Fp; [cbn; lra|cbn; lra|cbn; lra|]. apply Forall_cons_iff in Fp as (J & Fp). rewrite goes_cons. apply Rmult_lt_0_compat; [apply Rmult_lt_0_compat; [exact (at_pos _ _ (LINK s j Hs J))|now apply heard_pos]|now apply IH]. Qed.
  Lemma rows_last row o os : last (rows row (o :: os)) [] = last (rows (next_row (W := doubles) n trans row o) os) [].
  Proof. destruct os; reflexivity. Qed.
  Definition fine_scale (x : b64) : Prop := is_finite x = true /\ (p2 (-20) <= B2R x <= p2 201)%R.
  Lemma scale_fine sum : is_finite sum = true -> (p2 (-201) <= B2R sum <= IZR n)%R -> fine_scale (Bdiv mode_NE (rat64 1 1) sum).
  Proof.
    intros F (A & B). assert (P : (0 < B2R sum)%R) by (apply Rlt_le_trans with (2 := A); apply bpow_gt_0). assert (O1 : B2R (rat64 1 1) = 1%R /\ is_finite (rat64 1 1) = true) by (split; [unfold B2R; vm_compute; field|reflexivity]). destruct O1 as (O1 & O2).
    assert (Q : (p2 (-20) <= 1 / B2R sum <= p2 201)%R).
    { assert (NB : (IZR n <= p2 20)%R) by (rewrite <- IZR_bpow by lia; apply IZR_le; lia). unfold Rdiv. rewrite Rmult_1_l. split.
      - change (-20) with (- (20)). rewrite bpow_opp. apply Rinv_le_contravar; lra.
      - change 201 with (- (-201)). rewrite bpow_opp. apply Rinv_le_contravar; [apply bpow_gt_0|exact A]. }
    destruct (fdiv_R (rat64 1 1) sum O2 F) as (F' & E); [lra|rewrite O1, Rabs_pos_eq by (apply Rle_trans with (2 := proj1 Q); apply bpow_ge_0); apply Rle_trans with (1 := proj2 Q); apply bpow_le; lia|]. rewrite O1 in E. split; [exact F'|]. rewrite E. split; [apply rnd_lb; [apply bpow_format; lia|apply Q]|apply rnd_ub; [apply bpow_format; lia|apply Q]].
  Qed.
  Lemma flows_near os : Forall (heard n) os -> forall row, good n row -> let fin := last (rows row os) [] in let q := (lam ^ (3 * length os))%R in
    good n fin /\ Forall fine_scale (scales row os) /\ exists K, (0 < K)%R /\
    (forall s p, 0 <= s < n -> length p = length os -> Forall (fun s => 0 <= s < n) p -> (B2R (de row s) * goes s os p <= q * (K * B2R (de fin (last p s))))%R) /\
    forall e, 0 <= e < n -> exists s p, way (from row os) e = s :: p /\ (K * B2R (de fin e) <= q * (B2R (de row s) * goes s os p))%R.
  Proof.
    pose proof lam_gt as LG. induction 1 as [|o os Ho H IH]; intros row Hr; cbv zeta.
    - cbn [rows_from scales_from origins_from last length]. split; [exact Hr|]. split; [constructor|]. exists 1%R. split; [lra|]. split.
      + intros s [|? ?] _ L _; [|discriminate L]. cbn. lra.
      + intros e E. exists e, []. split; [reflexivity|]. cbn. lra.
    - destruct (next_near n N trans LINK row o Hr Ho) as (G' & sum & S1 & FS & ES & EN & UP & DN). destruct (IH _ G') as (GF & SF & K & KP & A & B). cbv zeta in *. rewrite rows_last. cbn [scales_from origins_from length]. set (row' := next_row (W := doubles) n trans row o) in *. set (fin := last (rows row' os) []) in *.
      assert (S0 : (0 < B2R sum)%R) by (apply Rlt_le_trans with (2 := proj1 S1); apply bpow_gt_0). assert (C0 : (0 < cube)%R) by (unfold cube; nra). assert (Q0 : (0 < lam ^ (3 * length os))%R) by (apply pow_lt; lra). rewrite pow_step. set (q := (lam ^ (3 * length os))%R) in *.
      split; [exact GF|]. split; [constructor; [rewrite ES; now apply scale_fine|exact SF]|]. exists (B2R sum * K)%R. split; [now apply Rmult_lt_0_compat|]. split.
      + intros s [|j p] Hs L Fp; [discriminate L|]. injection L as L. apply Forall_cons_iff in Fp as (J & Fp). rewrite goes_cons, last_move. specialize (UP s j Hs J). specialize (A j p J L Fp). pose proof (goes_pos os H j p J Fp) as GP. set (g := goes j os p) in *. set (x := B2R (de row' j)) in *. set (y := B2R (de fin (last p j))) in *.
        rewrite <- !Rmult_assoc. apply Rle_trans with (cube * (B2R sum * x) * g)%R; [apply Rmult_le_compat_r; [lra|exact UP]|]. replace (cube * q * B2R sum * K * y)%R with (cube * B2R sum * (q * (K * y)))%R by ring. replace (cube * (B2R sum * x) * g)%R with (cube * B2R sum * (x * g))%R by ring. apply Rmult_le_compat_l; [|exact A]. apply Rlt_le. now apply Rmult_lt_0_compat.
      + intros e E. destruct (B e E) as (j & p & EW & EF). assert (W' : Forall (fun s => 0 <= s < n) (way (from row' os) e)).
        { apply way_range; [exact E|]. clear - N. generalize row'. induction os as [|o' os IH]; intros r; constructor; [|apply IH]. unfold origins. split; [unfold states; rewrite map_length, zrange_length; lia|]. apply Forall_map, Forall_forall. intros j _. unfold reached. destruct (v_gt _ _); [apply choose_range; lia|cbn; lia]. }
        rewrite EW in W'. apply Forall_cons_iff in W' as (J & Fp). cbn [way]. rewrite EW. cbn [hd]. exists (znth 0 (origins (W := doubles) n trans row o) j), (j :: p). split; [reflexivity|].
        assert (EO : znth 0 (origins (W := doubles) n trans row o) j = fst (reached (W := doubles) n trans row o j)) by (unfold origins, states; now rewrite znth_map by lia). rewrite EO, goes_cons. specialize (DN j J). cbv zeta in DN. set (i := fst (reached (W := doubles) n trans row o j)) in *. pose proof (goes_pos os H j p J Fp) as GP. set (g := goes j os p) in *. set (x := B2R (de row' j)) in *.
        apply Rle_trans with (B2R sum * (q * (x * g)))%R; [rewrite Rmult_assoc; apply Rmult_le_compat_l; [lra|exact EF]|]. replace (B2R sum * (q * (x * g)))%R with (q * g * (B2R sum * x))%R by ring. replace (cube * q * (B2R (de row i) * (B2R (de (znth [] trans i) j) * B2R (de o j) * g)))%R with (q * g * (cube * (B2R (de row i) * B2R (de (znth [] trans i) j) * B2R (de o j))))%R by ring. apply Rmult_le_compat_l; [|exact DN]. apply Rlt_le. now apply Rmult_lt_0_compat.
  Qed.
  Lemma first_near init o : started n init -> heard n o -> let raw := start_row (W := doubles) n init o in let row := share (W := doubles) raw in good n row /\ fine_scale (Bdiv mode_NE (rat64 1 1) (sum_of (W := doubles) raw)) /\
    exists sum, (0 < sum)%R /\ forall s, 0 <= s < n -> (B2R (de init s) * B2R (de o s) <= lam * lam * (sum * B2R (de row s)))%R /\ (sum * B2R (de row s) <= lam * lam * (B2R (de init s) * B2R (de o s)))%R.
  Proof.
    intros (Hi & i1 & I1 & P1) Ho. cbv zeta. set (raw := start_row (W := doubles) n init o). pose proof lam_gt as LG. assert (L : Z.of_nat (@length b64 raw) = n) by (unfold raw, start_row, states; change (v_num doubles) with b64; rewrite map_length, zrange_length; lia).
    assert (ER : forall j, 0 <= j < n -> de raw j = fmul (de init j) (de o j)) by (intros j J; unfold raw, start_row; now rewrite entry_map by exact J).
    assert (RW : forall j, 0 <= j < n -> zero_or 180 (de raw j) /\ near (B2R (de raw j)) (B2R (de init j) * B2R (de o j))) by (intros j J; rewrite ER by exact J; apply (mul_zero 40 140); try lia; [now apply Hi|apply at_zero, Ho, J]).
    assert (FR : Forall (zero_or 180) raw). { apply Forall_forall. intros x X. apply (In_nth _ _ fzero) in X. destruct X as (k & K1 & K2). destruct (RW (Z.of_nat k) ltac:(lia)) as (Q & _). unfold entry, znth in Q. rewrite Nat2Z.id in Q. change (nth k raw fzero) with (nth k raw (v0 (w := doubles))) in K2. now rewrite K2 in Q. }
    assert (P0 : (0 < B2R (znth fzero raw i1))%R). { change (znth fzero raw i1) with (de raw i1). destruct (mul_at 40 140 (de init i1) (de o i1)) as (Q & _); try lia; [apply zero_pos; [now apply Hi|exact P1]|now apply Ho|]. rewrite ER by exact I1. exact (at_pos _ _ Q). }
    destruct (share_near n 180 raw i1 N L ltac:(lia) FR I1 P0) as (FS & (S1 & S2) & SN & SM & _). change (sum_of (W := doubles) raw) with (fold_left fadd raw fzero). set (s := fold_left fadd raw fzero) in *. assert (S0 : (0 < B2R s)%R) by (apply Rlt_le_trans with (2 := S1); apply bpow_gt_0).
    assert (EE : forall j, 0 <= j < n -> de (share (W := doubles) raw) j = Bdiv mode_NE (znth fzero raw j) s).
    { intros j J. unfold entry, share, znth. change (sum_of (W := doubles) raw) with s. rewrite (nth_indep _ v0 (v_div (w := doubles) fzero s)) by (rewrite map_length; change (Z.to_nat j < @length b64 raw)%nat; lia). exact (map_nth (fun d => v_div (w := doubles) d s) raw fzero (Z.to_nat j)). }
    split; [split; [intros i I; rewrite EE by exact I; apply (zero_weaken (180 + 20)); [lia|]; apply (SN i I)|destruct SM as (i & I & Q); exists i; split; [exact I|rewrite EE by exact I; exact Q]]|].
    split; [apply scale_fine; [exact FS|split; [apply Rle_trans with (2 := S1); apply bpow_le; lia|exact S2]]|]. exists (B2R s). split; [exact S0|]. intros j J. rewrite EE by exact J. destruct (SN j J) as (_ & D1 & D2). destruct (RW j J) as (_ & R1 & R2). change (znth fzero raw j) with (de raw j) in *. set (y := B2R (Bdiv mode_NE (de raw j) s)) in *. set (r := B2R (de raw j)) in *. set (v := (B2R (de init j) * B2R (de o j))%R) in *. split.
    - assert (D3 : (r <= lam * (B2R s * y))%R). { apply Rle_trans with (B2R s * (r / B2R s))%R; [apply Req_le; field; lra|]. rewrite (Rmult_comm lam), Rmult_assoc, (Rmult_comm y). apply Rmult_le_compat_l; [lra|exact D2]. }
      apply Rle_trans with (1 := R2). rewrite !Rmult_assoc. apply Rmult_le_compat_l; [lra|]. exact D3.
    - assert (D3 : (B2R s * y <= lam * r)%R). { apply Rle_trans with (B2R s * (lam * (r / B2R s)))%R; [apply Rmult_le_compat_l; [lra|exact D1]|]. apply Req_le. field. lra. }
      apply Rle_trans with (1 := D3). rewrite Rmult_assoc. apply Rmult_le_compat_l; [lra|]. exact R1.
  Qed.
  Lemma path_near init obs : started n init -> obs <> [] -> Forall (heard n) obs -> Forall fine_scale (scales_of (W := doubles) n init trans obs) /\ forall q, a_path n (map values obs) q ->
    (probability (values init) (map values trans) (map values obs) q <= lam ^ (6 * length obs) * probability (values init) (map values trans) (map values obs) (path_of (W := doubles) n init trans obs))%R.
  Proof.
    intros Hi NE Ho. destruct obs as [|o os]; [congruence|]. apply Forall_cons_iff in Ho as (Ho & Hos). destruct (first_near init o Hi Ho) as (G & F0 & sum & S0 & S). cbv zeta in G, F0, S. destruct (flows_near os Hos _ G) as (GF & SF & K & KP & A & B). cbv zeta in GF, SF, A, B. set (row := share (W := doubles) (start_row (W := doubles) n init o)) in *. set (fin := last (rows row os) []) in *. pose proof lam_gt as LG.
    split. { unfold scales_of. cbn [hd tl]. unfold first_row. cbn [hd]. constructor; [exact F0|exact SF]. }
    intros q (L & Fq). destruct q as [|s0 p0]; [discriminate L|]. cbn [map length] in L. injection L as L. rewrite map_length in L. apply Forall_cons_iff in Fq as (Hs0 & Fp0).
    set (e := final_state (W := doubles) n (rows_of (W := doubles) n init trans (o :: os))). assert (EP : path_of (W := doubles) n init trans (o :: os) = way (from row os) e) by reflexivity.
    assert (EB : 0 <= e < n /\ forall i, 0 <= i < n -> (B2R (de fin i) <= B2R (de fin e))%R).
    { destruct GF as (GZ & i1 & I1 & G1). destruct (choose_double n (de fin) ltac:(lia)) as (B1 & B2 & B3); [intros i I; apply (zero_fin 221), GZ, I|exists i1; split; [exact I1|exact (at_pos _ _ G1)]|]. change (fst (choose (W := doubles) n (de fin))) with e in *. split; [exact B1|]. intros i I. specialize (B3 i I). rewrite B2 in B3. exact B3. }
    destruct EB as (E & EB). destruct (B e E) as (s & p & EW & EF). rewrite EP, EW. change (map values (o :: os)) with (values o :: map values os). cbn [probability]. rewrite !values_at. specialize (A s0 p0 Hs0 L Fp0).
    assert (WR : Forall (fun s => 0 <= s < n) (way (from row os) e)).
    { apply way_range; [exact E|]. clear - N. generalize row. induction os as [|o' os IH]; intros r; constructor; [|apply IH]. unfold origins. split; [unfold states; rewrite map_length, zrange_length; lia|]. apply Forall_map, Forall_forall. intros j _. unfold reached. destruct (v_gt _ _); [apply choose_range; lia|cbn; lia]. }
    rewrite EW in WR. apply Forall_cons_iff in WR as (Hs & Fp). assert (LR : 0 <= last p0 s0 < n) by (clear - Hs0 Fp0; revert s0 Hs0; induction Fp0 as [|x l X F IH]; intros s0 H0; [exact H0|]; rewrite last_move; now apply IH).
    specialize (EB _ LR). destruct (S s0 Hs0) as (U1 & _). destruct (S s Hs) as (_ & U2). pose proof (goes_pos os Hos s0 p0 Hs0 Fp0) as G0. pose proof (goes_pos os Hos s p Hs Fp) as G1. set (g0 := goes s0 os p0) in *. set (g1 := goes s os p) in *. set (a0 := B2R (de fin (last p0 s0))) in *. set (a1 := B2R (de fin e)) in *. set (r0 := B2R (de row s0)) in *. set (r1 := B2R (de row s)) in *. set (v0' := (B2R (de init s0) * B2R (de o s0))%R) in *. set (v1' := (B2R (de init s) * B2R (de o s))%R) in *.
    assert (Q0 : (1 <= lam ^ (3 * length os))%R) by (apply pow_R1_Rle; lra). set (q := (lam ^ (3 * length os))%R) in *.
    assert (X : (sum * (r0 * g0) <= q * q * (sum * (r1 * g1)))%R).
    { replace (q * q * (sum * (r1 * g1)))%R with (sum * (q * (q * (r1 * g1))))%R by ring. apply Rmult_le_compat_l; [lra|]. apply Rle_trans with (1 := A). apply Rmult_le_compat_l; [lra|]. apply Rle_trans with (2 := EF). apply Rmult_le_compat_l; lra. }
    assert (V1 : (0 <= v1')%R) by (unfold v1'; apply Rmult_le_pos; [apply (zero_fin 40), Hi, Hs|apply Rlt_le; now apply heard_pos]).
    apply Rle_trans with (lam * lam * (lam * lam) * (q * q) * (v1' * g1))%R.
    - apply Rle_trans with (lam * lam * (sum * r0) * g0)%R; [apply Rmult_le_compat_r; lra|]. apply Rle_trans with (lam * lam * (q * q * (sum * (r1 * g1))))%R; [replace (lam * lam * (sum * r0) * g0)%R with (lam * lam * (sum * (r0 * g0)))%R by ring; apply Rmult_le_compat_l; [nra|exact X]|].
      replace (lam * lam * (q * q * (sum * (r1 * g1))))%R with (lam * lam * (q * q) * g1 * (sum * r1))%R by ring. replace (lam * lam * (lam * lam) * (q * q) * (v1' * g1))%R with (lam * lam * (q * q) * g1 * (lam * lam * v1'))%R by ring. apply Rmult_le_compat_l; [|exact U2]. repeat apply Rmult_le_pos; lra.
    - apply Rmult_le_compat_r; [apply Rmult_le_pos; lra|]. replace (6 * length (o :: os))%nat with (2 + (4 + (3 * length os + 3 * length os)))%nat by (cbn [length]; lia). rewrite !pow_add. fold q. replace (lam * lam * (lam * lam) * (q * q))%R with (1 * (lam ^ 4 * (q * q)))%R by ring. apply Rmult_le_compat_r; [|nra]. apply Rmult_le_pos; [apply pow_le; lra|]. apply Rmult_le_pos; lra.
  Qed.
End All.
