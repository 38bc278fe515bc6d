(** Facts for the chroma plug-in: rounded operations on floats, and the shift that the tuning makes. *)
From Coq Require Import Reals Lra Lia.
From Flocq Require Import Core.Core IEEE754.BinarySingleNaN.
From Verif Require Import Base BaseFacts Fp Options Chromagram ChromaFacts TextSpec ChromaSpec NumberFacts SequenceFacts FpFacts HmmAccuracy FloatKit Nnls NnlsArith NnlsFacts NnlsSafe NnlsSingle Plug PlugFacts.
Open Scope R_scope.

Notation fexp32 := (SpecFloat.fexp prec32 emax32).
Definition rnd32 (v : R) : R := round radix2 fexp32 ZnearestE v.
Lemma fexp32_valid : Valid_exp fexp32. Proof. apply fexp_correct. reflexivity. Qed.
#[global] Existing Instance fexp32_valid.
Notation fmt v := (generic_format radix2 fexp32 v).
Lemma rnd32_abs v b : fmt b -> Rabs v <= b -> Rabs (rnd32 v) <= b.
Proof. intros F H. apply abs_round_le_generic; [exact fexp32_valid|apply valid_rnd_N|exact F|exact H]. Qed.
Lemma rnd32_le v w : v <= w -> rnd32 v <= rnd32 w.
Proof. intros H. apply round_le; [exact fexp32_valid|apply valid_rnd_N|exact H]. Qed.
Lemma rnd32_id v : fmt v -> rnd32 v = v.
Proof. intros H. apply round_generic; [apply valid_rnd_N|exact H]. Qed.
Lemma fmt_float (x : b32) : fmt (B2R x). Proof. apply generic_format_B2R. Qed.
Lemma fmt_bpow e : (-149 <= e < 128)%Z -> fmt (bpow radix2 e).
Proof. intros H. apply generic_format_bpow. unfold SpecFloat.fexp, SpecFloat.emin, prec32, emax32. lia. Qed.
(** n * 2^e has few enough bits. *)
Lemma fmt_scaled n e : (Z.abs n <= 2 ^ 24)%Z -> (-149 <= e)%Z -> fmt (IZR n * bpow radix2 e).
Proof.
  intros N E. destruct (Z.eq_dec (Z.abs n) (2 ^ 24)) as [Q|Q].
  - assert (A : fmt (bpow radix2 (24 + e))) by (apply generic_format_bpow; unfold SpecFloat.fexp, SpecFloat.emin, prec32, emax32; lia).
    assert (V : IZR (2 ^ 24) * bpow radix2 e = bpow radix2 (24 + e)) by (rewrite bpow_plus; f_equal; symmetry; apply (IZR_Zpower radix2 24); lia).
    destruct (Z_le_gt_dec 0 n).
    + replace n with (2 ^ 24)%Z by lia. now rewrite V.
    + replace n with (- 2 ^ 24)%Z by lia. rewrite opp_IZR, Ropp_mult_distr_l_reverse, V. now apply generic_format_opp.
  - change (IZR n * bpow radix2 e) with (F2R (Float radix2 n e)). apply (generic_format_FLT radix2 (-149) 24). exists (Float radix2 n e); [reflexivity|cbn; lia|cbn; lia].
Qed.
Lemma fmt_int n : (Z.abs n <= 2 ^ 24)%Z -> fmt (IZR n).
Proof. intros N. rewrite <- (Rmult_1_r (IZR n)). apply (fmt_scaled n 0); [exact N|lia]. Qed.

(** ** Operations within a bound *)
Definition below (x : b32) (b : R) : Prop := is_finite x = true /\ Rabs (B2R x) <= b.
Lemma in_range v b : fmt b -> b < bpow radix2 emax32 -> Rabs v <= b -> Rlt_bool (Rabs (rnd32 v)) (bpow radix2 emax32) = true.
Proof. intros F L H. apply Rlt_bool_true. apply Rle_lt_trans with (2 := L). now apply rnd32_abs. Qed.
Lemma add_R x y b : is_finite x = true -> is_finite y = true -> fmt b -> b < bpow radix2 emax32 -> Rabs (B2R x + B2R y) <= b ->
  is_finite (fadd32 x y) = true /\ B2R (fadd32 x y) = rnd32 (B2R x + B2R y).
Proof. intros X Y F L H. assert (C := Bplus_correct prec32 emax32 _ _ mode_NE x y X Y). change (round radix2 fexp32 (round_mode mode_NE) (B2R x + B2R y)) with (rnd32 (B2R x + B2R y)) in C. rewrite (in_range _ b F L H) in C. destruct C as (C1 & C2 & _). now split. Qed.
Lemma sub_R x y b : is_finite x = true -> is_finite y = true -> fmt b -> b < bpow radix2 emax32 -> Rabs (B2R x - B2R y) <= b ->
  is_finite (sub32 x y) = true /\ B2R (sub32 x y) = rnd32 (B2R x - B2R y).
Proof. intros X Y F L H. assert (C := Bminus_correct prec32 emax32 _ _ mode_NE x y X Y). change (round radix2 fexp32 (round_mode mode_NE) (B2R x - B2R y)) with (rnd32 (B2R x - B2R y)) in C. rewrite (in_range _ b F L H) in C. destruct C as (C1 & C2 & _). now split. Qed.
Lemma mul_R x y b : is_finite x = true -> is_finite y = true -> fmt b -> b < bpow radix2 emax32 -> Rabs (B2R x * B2R y) <= b ->
  is_finite (mul32 x y) = true /\ B2R (mul32 x y) = rnd32 (B2R x * B2R y).
Proof. intros X Y F L H. assert (C := Bmult_correct prec32 emax32 _ _ mode_NE x y). change (round radix2 fexp32 (round_mode mode_NE) (B2R x * B2R y)) with (rnd32 (B2R x * B2R y)) in C. rewrite (in_range _ b F L H) in C. destruct C as (C1 & C2 & _). rewrite X, Y in C2. now split. Qed.
Lemma sqrt_R (x : b32) : (0 <= B2R x) -> is_finite x = true -> is_finite (sqrt32 x) = true /\ B2R (sqrt32 x) = rnd32 (sqrt (B2R x)).
Proof.
  intros P X. unfold sqrt32. assert (C := Bsqrt_correct prec32 emax32 _ _ mode_NE x). destruct C as (C1 & C2 & _). split; [|exact C1]. etransitivity; [exact C2|].
  destruct x as [| | |[|] m e B]; try reflexivity; try discriminate. exfalso. assert (Q := nn_value _ X P). now apply nn_iff in Q.
Qed.
Lemma below_add x y b : fmt b -> b < bpow radix2 emax32 -> is_finite x = true -> is_finite y = true -> Rabs (B2R x + B2R y) <= b -> below (fadd32 x y) b.
Proof. intros F L X Y H. destruct (add_R x y b X Y F L H) as (A & B). split; [exact A|]. rewrite B. now apply rnd32_abs. Qed.
Lemma below_mul x y b : fmt b -> b < bpow radix2 emax32 -> is_finite x = true -> is_finite y = true -> Rabs (B2R x * B2R y) <= b -> below (mul32 x y) b.
Proof. intros F L X Y H. destruct (mul_R x y b X Y F L H) as (A & B). split; [exact A|]. rewrite B. now apply rnd32_abs. Qed.
Lemma below_sub x y b : fmt b -> b < bpow radix2 emax32 -> is_finite x = true -> is_finite y = true -> Rabs (B2R x - B2R y) <= b -> below (sub32 x y) b.
Proof. intros F L X Y H. destruct (sub_R x y b X Y F L H) as (A & B). split; [exact A|]. rewrite B. now apply rnd32_abs. Qed.
Lemma narrow_R (x : b64) b : is_finite x = true -> fmt b -> b < bpow radix2 emax32 -> Rabs (B2R x) <= b -> is_finite (f64_to_32 x) = true /\ B2R (f64_to_32 x) = rnd32 (B2R x).
Proof.
  destruct x as [s|s| |s m e H]; try discriminate; intros _ F L B.
  - split; [reflexivity|]. cbn. symmetry. apply round_0. apply valid_rnd_N.
  - cbn [f64_to_32]. assert (C := binary_normalize_correct prec32 emax32 prec32_gt_0 prec32_lt mode_NE (cond_Zopp s (Zpos m)) e s). cbv zeta in C.
    change (F2R (Float radix2 (cond_Zopp s (Z.pos m)) e)) with (B2R (B754_finite s m e H : b64)) in C.
    change (round radix2 fexp32 (round_mode mode_NE) (B2R (B754_finite s m e H : b64))) with (rnd32 (B2R (B754_finite s m e H : b64))) in C. rewrite (in_range _ b F L B) in C. destruct C as (C1 & C2 & _). now split.
Qed.
(** The value of a float that has been computed. *)
Lemma computed {p e} (x : binary_float p e) s m k : B2SF x = SpecFloat.S754_finite s m k -> is_finite x = true /\ B2R x = IZR (cond_Zopp s (Zpos m)) * bpow radix2 k.
Proof. destruct x; try discriminate. cbn. intros [= <- <- <-]. now split. Qed.
Lemma rat32_int n : (Z.abs n <= 2 ^ 24)%Z -> is_finite (rat32 n 1) = true /\ B2R (rat32 n 1) = IZR n.
Proof.
  intros N. destruct (Z.eq_dec n 0) as [->|Z]; [now split|]. assert (C := ratB_correct prec32 emax32 n 1 Z). cbv zeta in C. replace (IZR n / IZR (Z.pos 1)) with (IZR n) in C by (cbn; field).
  assert (Q : rounded prec32 emax32 (IZR n) = IZR n) by (apply (rnd32_id (IZR n)); now apply fmt_int). rewrite Q in C. rewrite Rlt_bool_true in C; [destruct C as (C1 & C2 & _); now split|].
  rewrite <- abs_IZR. apply Rle_lt_trans with (IZR (2 ^ 24)); [now apply IZR_le|]. change (2 ^ 24)%Z with (Zpower radix2 24). rewrite IZR_Zpower by lia. apply bpow_lt. reflexivity.
Qed.

(** ** The angle of the tuning *)
(** What C says of atan2f on the machine: not-a-number only if an argument is; otherwise between -pi and pi, where pi is 13176795 / 2^22. *)
Definition atan2_law (atan2 : b32 -> b32 -> b32) : Prop := forall y x,
  (is_nan y = false /\ is_nan x = false -> is_finite (atan2 y x) = true /\ Rabs (B2R (atan2 y x)) <= 13176795 / 4194304) /\ (is_nan y = true \/ is_nan x = true -> atan2 y x = B754_nan).
Definition turn (a : b32) : b32 := f64_to_32 (Bdiv mode_NE (f32_to_64 a) two_pi).
Lemma two_pi_R : is_finite two_pi = true /\ B2R two_pi = 884279719003555 / 140737488355328.
Proof.
  assert (C := ratB_correct prec64 emax64 884279719003555 (2 ^ 47) ltac:(discriminate)). cbv zeta in C. change (ratB prec64 emax64 884279719003555 (2 ^ 47)) with two_pi in C.
  assert (Q : rounded prec64 emax64 (IZR 884279719003555 / IZR (Z.pos (2 ^ 47))) = 884279719003555 / 140737488355328).
  { change (IZR (Z.pos (2 ^ 47))) with 140737488355328. apply round_generic; [apply valid_rnd_N|]. replace (884279719003555 / 140737488355328) with (F2R (Float radix2 884279719003555 (-47))) by (unfold F2R; cbn; lra).
    apply generic_format_FLT. exists (Float radix2 884279719003555 (-47)); [reflexivity|cbn; lia|cbn; lia]. }
  rewrite Q in C. rewrite Rlt_bool_true in C; [destruct C as (C1 & C2 & _); now split|]. rewrite Rabs_pos_eq by lra. apply Rlt_trans with (bpow radix2 4); [cbn; lra|]. apply bpow_lt. reflexivity.
Qed.
Lemma fmt64_scaled n e : (Z.abs n < 2 ^ 53)%Z -> (-1074 <= e)%Z -> generic_format radix2 (SpecFloat.fexp prec64 emax64) (IZR n * bpow radix2 e).
Proof. intros N E. change (IZR n * bpow radix2 e) with (F2R (Float radix2 n e)). apply (generic_format_FLT radix2 (-1074) 53). exists (Float radix2 n e); [reflexivity|cbn; lia|cbn; lia]. Qed.
Lemma turn_half a : is_finite a = true -> Rabs (B2R a) <= 13176795 / 4194304 -> below (turn a) (1 / 2).
Proof.
  intros F H. unfold turn. destruct (f32_to_64_value a F) as (F' & V & _). destruct two_pi_R as (_ & T).
  assert (C := Bdiv_correct prec64 emax64 _ _ mode_NE (f32_to_64 a) two_pi ltac:(rewrite T; lra)). rewrite V, T in C.
  set (q := B2R a / (884279719003555 / 140737488355328)) in C. change (round radix2 (SpecFloat.fexp prec64 emax64) (round_mode mode_NE) q) with (rnd q) in C.
  assert (Q : Rabs q <= 33554433 * bpow radix2 (-26)).
  { unfold q, Rdiv. rewrite Rabs_mult. rewrite (Rabs_pos_eq (/ _)) by (left; apply Rinv_0_lt_compat; lra).
    change (bpow radix2 (-26)) with (/ 67108864). apply Rmult_le_reg_r with (884279719003555 / 140737488355328); [lra|]. rewrite Rmult_assoc, Rinv_l by lra. lra. }
  assert (G := rnd_abs q _ (fmt64_scaled 33554433 (-26) ltac:(lia) ltac:(lia)) Q).
  rewrite Rlt_bool_true in C by (apply Rle_lt_trans with (1 := G); apply Rlt_trans with (bpow radix2 1); [change (bpow radix2 (-26)) with (/ 67108864); change (bpow radix2 1) with 2; lra|apply bpow_lt; reflexivity]).
  destruct C as (C1 & C2 & _). rewrite F' in C2. set (y := Bdiv mode_NE (f32_to_64 a) two_pi) in *. rewrite <- C1 in G.
  destruct (narrow_R y 1 C2 (fmt_int 1 ltac:(lia)) ltac:(change 1 with (bpow radix2 0); now apply bpow_lt)) as (N1 & N2).
  { apply Rle_trans with (1 := G). change (bpow radix2 (-26)) with (/ 67108864). lra. }
  split; [exact N1|]. rewrite N2.
  (* half a turn and a little rounds to half a turn *)
  assert (W : rnd32 (33554433 * bpow radix2 (-26)) = 1 / 2).
  { destruct (computed (rat32 33554433 67108864) false 8388608 (-24) eq_refl) as (_ & E). assert (X := ratB_correct prec32 emax32 33554433 67108864 ltac:(discriminate)). cbv zeta in X.
    change (33554433 * bpow radix2 (-26)) with (IZR 33554433 / IZR 67108864). change (ratB prec32 emax32 33554433 67108864) with (rat32 33554433 67108864) in X.
    change (rounded prec32 emax32 (33554433 / 67108864)) with (rnd32 (33554433 / 67108864)) in X. destruct (Rlt_bool _ _).
    - destruct X as (_ & X & _). rewrite <- X, E. change (bpow radix2 (-24)) with (/ 16777216). cbn [cond_Zopp]. lra.
    - exfalso. assert (Y : B2SF (rat32 33554433 67108864) = SpecFloat.S754_infinity false) by now rewrite X. discriminate Y. }
  apply Rabs_le_inv in G. destruct G as (G1 & G2). apply Rabs_le. split; [|rewrite <- W; now apply rnd32_le]. rewrite <- W. assert (O : rnd32 (- (33554433 * bpow radix2 (-26))) = - rnd32 (33554433 * bpow radix2 (-26))) by apply round_NE_opp. rewrite <- O. now apply rnd32_le.
Qed.

(** ** The shift *)
Lemma shifts_nan : shifts B754_nan = Undef FloatCast. Proof. reflexivity. Qed.
Lemma shifts_ok a : below a (1 / 2) -> ok (fun '(i, f) => (-2 <= i <= 1)%Z /\ nn f /\ nn (sub32 one32 f)) (shifts a).
Proof.
  intros (F & H). unfold shifts. destruct (rat32_int 3 ltac:(lia)) as (F3 & V3). assert (M32 : forall k, (0 <= k < 128)%Z -> bpow radix2 k < bpow radix2 emax32) by (intros k K; apply bpow_lt; unfold emax32; lia).
  assert (B32 : fmt (3 / 2)) by (replace (3 / 2) with (3 * bpow radix2 (-1)) by (change (bpow radix2 (-1)) with (/ 2); lra); apply fmt_scaled; lia).
  assert (L32 : 3 / 2 < bpow radix2 emax32) by (apply Rlt_trans with (bpow radix2 1); [change (bpow radix2 1) with 2; lra|apply M32; lia]).
  apply Rabs_le_inv in H. assert (P : Rabs (B2R a * B2R (rat32 3 1)) <= 3 / 2) by (rewrite V3; apply Rabs_le; lra).
  destruct (below_mul a (rat32 3 1) (3 / 2) B32 L32 F F3 P) as (Ft & Ht). set (t3 := mul32 a (rat32 3 1)) in *. clearbody t3. apply Rabs_le_inv in Ht.
  destruct (f32_to_64_value t3 Ft) as (F' & V' & _). destruct (ffloor_floored (f32_to_64 t3) F') as (Ff & Vf). rewrite V' in Vf. set (i := Zfloor (B2R t3)) in *.
  assert (I : (-2 <= i <= 1)%Z).
  { assert (A := Zfloor_lb (B2R t3)). assert (B := Zfloor_ub (B2R t3)). fold i in A, B. split; [apply Z.lt_succ_r; apply lt_IZR; rewrite succ_IZR; lra|apply Z.lt_succ_r; apply lt_IZR; rewrite succ_IZR; lra]. }
  assert (W : whole (ffloor (f32_to_64 t3)) i) by (split; [exact Ff|]; split; [exact Vf|lia]). rewrite (to_int_whole _ _ W). cbn [bind]. apply ok_ret. split; [exact I|].
  destruct (rat32_int i ltac:(lia)) as (Fi & Vi). assert (A := Zfloor_lb (B2R t3)). assert (B := Zfloor_ub (B2R t3)). fold i in A, B.
  assert (L1 : 1 < bpow radix2 emax32) by (change 1 with (bpow radix2 0); apply M32; lia).
  destruct (sub_R t3 (rat32 i 1) 1 Ft Fi (fmt_int 1 ltac:(lia)) L1) as (Fs & Vs); [rewrite Vi; apply Rabs_le; lra|]. rewrite Vi in Vs.
  assert (S0 : 0 <= B2R (sub32 t3 (rat32 i 1)) <= 1).
  { rewrite Vs. split; [apply round_nn; lra|]. rewrite <- (rnd32_id 1 (fmt_int 1 ltac:(lia))). apply rnd32_le. lra. }
  split; [apply nn_value; [exact Fs|apply S0]|]. destruct (rat32_int 1 ltac:(lia)) as (F1 & V1). fold one32 in F1, V1.
  destruct (sub_R one32 (sub32 t3 (rat32 i 1)) 1 F1 Fs (fmt_int 1 ltac:(lia)) L1) as (Fd & Vd); [rewrite V1; apply Rabs_le; lra|]. apply nn_value; [exact Fd|]. rewrite Vd, V1. apply round_nn. lra.
Qed.
