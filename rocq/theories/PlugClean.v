(** When the tunings of the chroma plug-in are numbers: sound without not-a-number, and one sample that is not a number. *)
From Coq Require Import Reals Lra Lia.
From Flocq Require Import Core.Core Relative IEEE754.BinarySingleNaN.
From Verif Require Import Base BaseFacts Fp Options Chromagram ChromaFacts NumberFacts FpFacts NumFacts HmmAccuracy FloatKit Nnls NnlsArith NnlsFacts NnlsSafe NnlsSingle Plug PlugSpec PlugFacts PlugNum PlugSafe PlugMain.
Open Scope Z_scope.

(** ** Order with infinities *)
Definition ext (x : b32) : R := match x with B754_infinity false => bpow radix2 200 | B754_infinity true => (- bpow radix2 200)%R | _ => B2R x end.
Lemma ext_finite (x : b32) : is_finite x = true -> (Rabs (ext x) < bpow radix2 200)%R.
Proof. intros F. replace (ext x) with (B2R x) by (destruct x; try discriminate F; reflexivity). apply Rlt_trans with (1 := abs_B2R_lt_emax prec32 emax32 x). apply bpow_lt. reflexivity. Qed.
Lemma Bltb_ext (x y : b32) : is_nan x = false -> is_nan y = false -> Bltb x y = true <-> (ext x < ext y)%R.
Proof.
  intros X Y. assert (P := bpow_gt_0 radix2 200). destruct (is_finite x) eqn:FX, (is_finite y) eqn:FY.
  - unfold Bltb. rewrite (Bltb_correct prec32 emax32 x y FX FY : SpecFloat.SFltb _ _ = _) || rewrite (Bltb_correct prec32 emax32 x y FX FY). replace (ext x) with (B2R x) by (destruct x; try discriminate FX; reflexivity). replace (ext y) with (B2R y) by (destruct y; try discriminate FY; reflexivity).
    destruct (Rlt_bool_spec (B2R x) (B2R y)) as [Q|Q]; split; intros W; try assumption; try reflexivity; try discriminate; lra.
  - assert (B := ext_finite x FX). apply Rabs_lt_inv in B. destruct y as [|[|]| |]; try discriminate; cbn [ext]; destruct x as [[|]| | |[|]]; try discriminate; cbn in *; split; intros H; try reflexivity; try discriminate; try lra.
  - assert (B := ext_finite y FY). apply Rabs_lt_inv in B. destruct x as [|[|]| |]; try discriminate; cbn [ext]; destruct y as [[|]| | |[|]]; try discriminate; cbn in *; split; intros H; try reflexivity; try discriminate; try lra.
  - destruct x as [|[|]| |]; try discriminate; destruct y as [|[|]| |]; try discriminate; cbn [ext]; cbn; split; intros H; try reflexivity; try discriminate; lra.
Qed.
Lemma Bltb_nan_l (y : b32) : Bltb B754_nan y = false. Proof. reflexivity. Qed.
Lemma Bltb_nan_r (x : b32) : Bltb x B754_nan = false. Proof. now destruct x as [[|]|[|]| |[|]]. Qed.

(** ** Not a number goes through *)
Lemma nan_mul_l (y : b32) : mul32 B754_nan y = B754_nan. Proof. now destruct y. Qed.
Lemma nan_mul_r (x : b32) : mul32 x B754_nan = B754_nan. Proof. now destruct x. Qed.
Lemma nan_add_l (y : b32) : fadd32 B754_nan y = B754_nan. Proof. now destruct y. Qed.
Lemma nan_add_r (x : b32) : fadd32 x B754_nan = B754_nan. Proof. now destruct x. Qed.
Lemma nan_fadd_l (y : b64) : fadd B754_nan y = B754_nan. Proof. now destruct y. Qed.
Lemma nan_fadd_r (x : b64) : fadd x B754_nan = B754_nan. Proof. now destruct x. Qed.
Lemma nan_div_l (y : b32) : fdiv32 B754_nan y = B754_nan. Proof. now destruct y. Qed.
Lemma nan_fmul (x : b64) : fmul B754_nan x = B754_nan. Proof. now destruct x. Qed.

(** ** Numbers stay numbers *)
Lemma mul_num (x y : b32) : is_finite x = true -> is_finite y = true -> is_nan (mul32 x y) = false.
Proof.
  intros X Y. assert (C := Bmult_correct prec32 emax32 _ _ mode_NE x y). unfold mul32. destruct (Rlt_bool _ _).
  - destruct C as (_ & C & _). rewrite X, Y in C. now destruct (Bmult mode_NE x y).
  - assert (E : B2SF (Bmult mode_NE x y) = SpecFloat.S754_infinity (xorb (Bsign x) (Bsign y))) by exact C. now destruct (Bmult mode_NE x y).
Qed.
Lemma square_num (x : b32) : is_nan x = false -> is_nan (mul32 x x) = false /\ nn (mul32 x x).
Proof.
  intros X. destruct x as [s|s| |s m e H]; try discriminate; [destruct s; now split|destruct s; now split|]. set (x := B754_finite s m e H : b32) in *. split; [now apply mul_num|].
  assert (C := Bmult_correct prec32 emax32 _ _ mode_NE x x). unfold mul32. destruct (Rlt_bool _ _).
  - destruct C as (C1 & C2 & _). apply nn_value; [exact C2|]. rewrite C1. apply round_nn. apply Rle_0_sqr.
  - apply overflow_nn. rewrite C. now rewrite xorb_nilpotent.
Qed.
Lemma add_num (x y : b32) : nn x -> nn y -> is_nan x = false -> is_nan y = false -> is_nan (fadd32 x y) = false.
Proof.
  intros Nx Ny X Y. apply nn_iff in Nx. apply nn_iff in Ny. destruct x as [sx|[|]| |sx mx ex Hx], y as [sy|[|]| |sy my ey Hy]; try discriminate; try contradiction; try reflexivity; try (destruct sx, sy; reflexivity); try (destruct sx; reflexivity).
  set (x := B754_finite sx mx ex Hx : b32) in *. set (y := B754_finite sy my ey Hy : b32) in *. unfold fadd32. assert (C := Bplus_correct prec32 emax32 _ _ mode_NE x y eq_refl eq_refl). destruct (Rlt_bool _ _).
  - destruct C as (_ & C & _). now destruct (Bplus mode_NE x y).
  - destruct C as (C & _). assert (E : B2SF (Bplus mode_NE x y) = SpecFloat.S754_infinity sx) by exact C. now destruct (Bplus mode_NE x y).
Qed.
Lemma sqrt_num (x : b32) : nn x -> is_nan x = false -> is_nan (sqrt32 x) = false.
Proof.
  intros N X. apply nn_iff in N. destruct x as [s|[|]| |[|] m e H]; try discriminate; try contradiction; try reflexivity. unfold sqrt32.
  assert (C := Bsqrt_correct prec32 emax32 _ _ mode_NE (B754_finite false m e H)). destruct C as (_ & C & _). destruct (Bsqrt mode_NE _); try reflexivity. discriminate C.
Qed.

(** ** Values between 0 and a bound *)
Definition upto (b : R) (x : b32) : Prop := is_finite x = true /\ (0 <= B2R x <= b)%R.
Definition fits (b : R) : Prop := fmt b /\ (b < bpow radix2 emax32)%R.
Lemma fits_scaled n e : 0 <= n <= 2 ^ 24 -> -149 <= e -> n * 2 ^ (e + 149) < 2 ^ 277 -> fits (IZR n * bpow radix2 e).
Proof.
  intros N E L. split; [apply fmt_scaled; lia|]. change (bpow radix2 emax32) with (bpow radix2 128). apply Rmult_lt_reg_r with (bpow radix2 149); [apply bpow_gt_0|]. rewrite Rmult_assoc, <- !bpow_plus. change (128 + 149) with 277. rewrite <- !(IZR_Zpower radix2) by lia. rewrite <- mult_IZR. apply IZR_lt. exact L.
Qed.
Lemma upto_0 b : (0 <= b)%R -> upto b z32. Proof. intros B. split; [reflexivity|]. cbn. lra. Qed.
Lemma upto_le a b x : (a <= b)%R -> upto a x -> upto b x. Proof. intros L (F & V). split; [exact F|lra]. Qed.
Lemma upto_add a b c x y : upto a x -> upto b y -> fits c -> (a + b <= c)%R -> upto c (fadd32 x y).
Proof.
  intros (Fx & Vx) (Fy & Vy) (C1 & C2) L. destruct (add_R x y c Fx Fy C1 C2) as (F & V); [rewrite Rabs_pos_eq; lra|]. split; [exact F|]. rewrite V. split; [apply round_nn; lra|]. rewrite <- (rnd32_id c C1). apply rnd32_le. lra.
Qed.
Lemma upto_mul a b c x y : upto a x -> upto b y -> fits c -> (a * b <= c)%R -> upto c (mul32 x y).
Proof.
  intros (Fx & Vx) (Fy & Vy) (C1 & C2) L. assert (0 <= B2R x * B2R y <= c)%R by (split; [apply Rmult_le_pos; lra|]; apply Rle_trans with (2 := L); apply Rmult_le_compat; lra).
  destruct (mul_R x y c Fx Fy C1 C2) as (F & V); [rewrite Rabs_pos_eq; lra|]. split; [exact F|]. rewrite V. split; [apply round_nn; lra|]. rewrite <- (rnd32_id c C1). apply rnd32_le. lra.
Qed.
Lemma upto_nn b x : upto b x -> nn x. Proof. intros (F & V). now apply nn_value. Qed.

(** ** The magnitudes *)
Definition num (x : b32) : Prop := is_nan x = false.
Definition magnitude (block : Z) (fbuf : list b32) (k : Z) : b32 :=
  clip block (sqrt32 (fadd32 (mul32 (znth z32 fbuf (2 * k)) (znth z32 fbuf (2 * k))) (mul32 (znth z32 fbuf (2 * k + 1)) (znth z32 fbuf (2 * k + 1))))).
Definition larger (mx v : b32) : b32 := if Bltb mx v then v else mx.
Lemma magnitudes_eq block fbuf : 0 <= block <= Z.of_nat (length fbuf) ->
  magnitudes block fbuf = Ret (map (magnitude block fbuf) (zrange 0 (block / 2 - 1)), fold_left larger (map (magnitude block fbuf) (zrange 0 (block / 2 - 1))) (rat32 (-10000) 1)).
Proof.
  intros B. unfold magnitudes. assert (D2 := Z.mul_div_le block 2 ltac:(lia)).
  rewrite (loop_pure _ (fun '(l, mx) k => (l ++ [magnitude block fbuf k], larger mx (magnitude block fbuf k)))).
  - f_equal. generalize (zrange 0 (block / 2 - 1)). intros l. generalize (rat32 (-10000) 1). intros mx. assert (G : forall acc mx, fold_left (fun '(l, mx) k => (l ++ [magnitude block fbuf k], larger mx (magnitude block fbuf k))) l (acc, mx) = (acc ++ map (magnitude block fbuf) l, fold_left larger (map (magnitude block fbuf) l) mx)); [|exact (G [] mx)].
    induction l as [|k l IH]; intros acc mx'; cbn [fold_left map]; [now rewrite app_nil_r|]. rewrite IH, <- app_assoc. reflexivity.
  - intros (l, mx) k K. rewrite !(elt_ok z32) by lia. reflexivity.
Qed.
Lemma rat64_block block : 0 <= block <= 2 ^ 20 -> is_finite (rat64 block 1) = true /\ B2R (rat64 block 1) = IZR block.
Proof.
  intros B. destruct (Z.eq_dec block 0) as [->|N]; [now split|]. assert (E : rnd (IZR block / IZR (Z.pos 1)) = IZR block).
  { replace (IZR block / IZR (Z.pos 1))%R with (IZR block * bpow radix2 0)%R by (cbn; field). etransitivity; [apply round_generic; [apply valid_rnd_N|]; apply fmt64_scaled; lia|]. cbn. ring. }
  destruct (rat64_correct block 1 ltac:(lia)) as (F & V); [rewrite E; rewrite Rabs_pos_eq by (apply IZR_le; lia); apply Rle_lt_trans with (IZR (2 ^ 20)); [apply IZR_le; lia|]; change (2 ^ 20)%Z with (Zpower radix2 20); rewrite IZR_Zpower by lia; now apply bpow_lt|].
  split; [exact F|]. now rewrite V.
Qed.
Lemma clip_upto block v : 0 <= block <= 2 ^ 20 -> nn v -> num v -> upto (IZR block) (clip block v).
Proof.
  intros B N V. unfold clip. destruct (rat64_block block B) as (Fb & Vb). destruct (rat32_int block ltac:(lia)) as (F3 & V3). assert (P : (0 <= IZR block)%R) by (apply IZR_le; lia).
  destruct (fgt (f32_to_64 v) (rat64 block 1)) eqn:G; [split; [exact F3|rewrite V3; lra]|].
  destruct (is_finite v) eqn:F.
  - split; [exact F|]. split; [now apply nn_pos|]. destruct (f32_to_64_value v F) as (F' & V' & _). unfold fgt in G. rewrite (Bltb_correct prec64 emax64 _ _ Fb F') in G. rewrite V', Vb in G. destruct (Rlt_bool_spec (IZR block) (B2R v)); [discriminate|lra].
  - exfalso. apply nn_iff in N. destruct v as [|[|]| |]; try discriminate; try contradiction. cbn [f32_to_64] in G. unfold fgt in G. destruct (rat64 block 1) as [[|]| | |[|]]; try discriminate Fb; discriminate G.
Qed.
Lemma magnitude_clean block fbuf k : 0 <= block <= 2 ^ 20 -> Forall num fbuf -> 0 <= k -> 2 * k + 1 < Z.of_nat (length fbuf) -> upto (IZR block) (magnitude block fbuf k).
Proof.
  intros B F K L. assert (A1 := Forall_znth z32 num fbuf (2 * k) F ltac:(lia)). assert (A2 := Forall_znth z32 num fbuf (2 * k + 1) F ltac:(lia)). destruct (square_num _ A1) as (Q1 & R1). destruct (square_num _ A2) as (Q2 & R2).
  apply clip_upto; [exact B|apply nn_sqrt|]. apply sqrt_num; [now apply nn_add|now apply add_num].
Qed.

(** ** The notes *)
Notation p2 e := (bpow radix2 e).
Lemma p2_ge0 e : (0 <= p2 e)%R. Proof. left. apply bpow_gt_0. Qed.
Definition kernel_fits (n : Z) (kernel : list (Z * Z * b32)) : Prop := Forall (fun '(fft, note, v) => 0 <= fft < n /\ 0 <= note < nNote /\ upto (p2 60) v) kernel /\ Z.of_nat (length kernel) <= 2 ^ 22.
Lemma note_magnitudes_clean kernel n block mag : 0 <= block <= 2 ^ 20 -> shaped n (upto (IZR block)) mag -> kernel_fits n kernel -> ok (shaped nNote (upto (p2 102))) (note_magnitudes kernel mag).
Proof.
  intros B (L & F) (K & KL). unfold note_magnitudes.
  apply ok_weaken with (P := shaped nNote (upto (IZR (Z.of_nat (length kernel)) * p2 80))).
  - apply (ok_over_at (fun done => shaped nNote (upto (IZR (Z.of_nat (length done)) * p2 80)))); [apply shaped_repeat; [unfold nNote; lia|]; apply upto_0; cbn [length Z.of_nat]; lra|].
    intros done ((fft, note), v) rest nm E N. assert (X : In (fft, note, v) kernel) by (rewrite E; apply in_elt). rewrite Forall_forall in K. destruct (K _ X) as (K1 & K2 & K3).
    assert (LD : Z.of_nat (length done) + 1 <= 2 ^ 22) by (rewrite E, app_length in KL; cbn [length] in KL; lia).
    at_elt z32. rewrite app_length. cbn [length]. replace (Z.of_nat (length done + 1)) with (Z.of_nat (length done) + 1) by lia. set (k := Z.of_nat (length done)) in *.
    assert (LE : (IZR k * p2 80 <= IZR (k + 1) * p2 80)%R) by (apply Rmult_le_compat_r; [apply p2_ge0|apply IZR_le; lia]).
    assert (N' : shaped nNote (upto (IZR (k + 1) * p2 80)) nm) by (destruct N as (N1 & N2); split; [exact N1|]; apply Forall_impl with (2 := N2); intros a; now apply upto_le).
    assert (PR : upto (p2 80) (mul32 (znth z32 mag fft) v)).
    { apply upto_mul with (a := IZR block) (b := p2 60); [apply Forall_znth; [exact F|lia]|exact K3|replace (p2 80) with (IZR 1 * p2 80)%R by ring; apply fits_scaled; lia|].
      replace (p2 80) with (p2 20 * p2 60)%R by (rewrite <- bpow_plus; reflexivity). apply Rmult_le_compat_r; [apply p2_ge0|]. change (p2 20) with (IZR (2 ^ 20)). apply IZR_le. lia. }
    unfold addto. destruct N as (N1 & N2). at_elt z32. rewrite upd_ok by lia. apply ok_ret. apply shaped_replace; [exact N'|].
    apply upto_add with (a := (IZR k * p2 80)%R) (b := p2 80); [apply Forall_znth; [exact N2|lia]|exact PR|apply fits_scaled; [lia|lia|]|rewrite plus_IZR; lra].
    change (80 + 149) with 229. apply Z.lt_le_trans with (2 ^ 23 * 2 ^ 229); [apply Z.mul_lt_mono_pos_r; lia|]. vm_compute. discriminate.
  - intros nm (N1 & N2). split; [exact N1|]. apply Forall_impl with (2 := N2). intros a. apply upto_le. replace (p2 102) with (p2 22 * p2 80)%R by (rewrite <- bpow_plus; reflexivity). apply Rmult_le_compat_r; [apply p2_ge0|]. change (p2 22) with (IZR (2 ^ 22)). apply IZR_le. exact KL.
Qed.

(** ** The tunings *)
Lemma one_over n : 1 <= n <= 2 ^ 18 -> let x := f64_to_32 (Bdiv mode_NE (rat64 1 1) (rat64 n 1)) in upto 1 x /\ upto 1 (mul32 (rat32 (n - 1) 1) x).
Proof.
  intros N. cbv zeta. destruct (rat64_block 1 ltac:(lia)) as (F1 & V1). destruct (rat64_block n ltac:(lia)) as (Fn & Vn). assert (Pn : (1 <= IZR n)%R) by (apply IZR_le; lia).
  assert (Pn18 : (IZR n <= 262144)%R) by (apply (IZR_le _ 262144); lia).
  assert (C := Bdiv_correct prec64 emax64 _ _ mode_NE (rat64 1 1) (rat64 n 1) ltac:(rewrite Vn; lra)). rewrite V1, Vn in C. set (q := (1 / IZR n)%R) in *. change (round radix2 (SpecFloat.fexp prec64 emax64) (round_mode mode_NE) q) with (rnd q) in C.
  assert (Q : (/ 262144 <= q <= 1)%R) by (unfold q; split; [unfold Rdiv; rewrite Rmult_1_l; apply Rinv_le; lra|apply Rmult_le_reg_r with (IZR n); [lra|]; unfold Rdiv; rewrite Rmult_assoc, Rinv_l by lra; lra]).
  assert (R1 : (Rabs (rnd q - q) <= / 2 * p2 (-53 + 1) * Rabs q)%R) by (apply (relative_error_N_FLT radix2 (-1074) 53 ltac:(lia) (fun z => negb (Z.even z)) q); apply Rle_trans with (p2 (-18)); [apply bpow_le; lia|]; change (p2 (-18)) with (/ 262144)%R; rewrite Rabs_pos_eq by lra; lra).
  rewrite (Rabs_pos_eq q) in R1 by lra. apply Rabs_le_inv in R1. assert (E53 : (/ 2 * p2 (-53 + 1) <= / 67108864)%R) by (change (-53 + 1)%Z with (-52)%Z; change (p2 (-52)) with (/ 4503599627370496)%R; lra).
  assert (E53' : (/ 2 * p2 (-53 + 1) * q <= / 67108864 * q)%R) by (apply Rmult_le_compat_r; lra).
  assert (B64 : (0 <= rnd q <= 1)%R) by (split; [lra|]; assert (A := rnd_abs q 1 ltac:(replace 1%R with (IZR 1 * p2 0)%R by (cbn; ring); apply fmt64_scaled; lia) ltac:(rewrite Rabs_pos_eq; lra)); apply Rabs_le_inv in A; lra).
  rewrite Rlt_bool_true in C by (rewrite Rabs_pos_eq by lra; apply Rle_lt_trans with 1%R; [lra|]; change 1%R with (p2 0); now apply bpow_lt). destruct C as (C1 & C2 & _). rewrite F1 in C2. set (y := Bdiv mode_NE (rat64 1 1) (rat64 n 1)) in *.
  assert (F1' : fmt 1) by (apply fmt_int; lia). assert (L1 : (1 < bpow radix2 emax32)%R) by (change 1%R with (p2 0); now apply bpow_lt).
  destruct (narrow_R y 1 C2 F1' L1) as (N1 & N2); [rewrite C1, Rabs_pos_eq; lra|]. rewrite C1 in N2.
  assert (R2 : (Rabs (rnd32 (rnd q) - rnd q) <= / 2 * p2 (-24 + 1) * Rabs (rnd q))%R) by (apply (relative_error_N_FLT radix2 (-149) 24 ltac:(lia) (fun z => negb (Z.even z)) (rnd q)); apply Rle_trans with (p2 (-19)); [apply bpow_le; lia|]; change (p2 (-19)) with (/ 524288)%R; rewrite Rabs_pos_eq by lra; lra).
  rewrite (Rabs_pos_eq (rnd q)) in R2 by lra. apply Rabs_le_inv in R2. change (/ 2 * p2 (-24 + 1))%R with (/ 2 * / 8388608)%R in R2.
  assert (U1 : upto 1 (f64_to_32 y)) by (split; [exact N1|]; rewrite N2; split; [apply round_nn; lra|]; rewrite <- (rnd32_id 1 F1'); apply rnd32_le; lra). split; [exact U1|].
  destruct (rat32_int (n - 1) ltac:(lia)) as (Fm & Vm). assert (P : (0 <= B2R (rat32 (n - 1) 1) * B2R (f64_to_32 y) <= 1)%R).
  { rewrite Vm, N2. rewrite minus_IZR. split; [apply Rmult_le_pos; [lra|apply round_nn; lra]|].
    assert (U : (rnd32 (rnd q) <= q * (1 + / 4194304))%R) by nra. apply Rle_trans with ((IZR n - 1) * (q * (1 + / 4194304)))%R; [apply Rmult_le_compat_l; lra|].
    assert (NQ : (IZR n * q = 1)%R) by (unfold q; field; lra). nra. }
  destruct (mul_R _ _ 1 Fm N1 F1' L1) as (G1 & G2); [rewrite Rabs_pos_eq; lra|]. split; [exact G1|]. rewrite G2. split; [apply round_nn; lra|]. rewrite <- (rnd32_id 1 F1'). apply rnd32_le. lra.
Qed.
