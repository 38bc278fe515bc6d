(** The numbers that the plug-ins compute before the first block, for a C library of which little is known. *)
From Coq Require Import Reals Lra Lia.
From Flocq Require Import Core.Core IEEE754.BinarySingleNaN.
From Verif Require Import Base BaseFacts Fp FpFacts Options Chromagram ChromaFacts FloatKit NumFacts Nnls NnlsArith NnlsSpec NnlsFacts Plug PlugSpec PlugFacts PlugNum PlugSafe PlugClean PlugTuning PlugNotes Setup SetupSpec SetupFacts.
Open Scope R_scope.

(** ** Between powers of two *)
Notation fmt64 v := (generic_format radix2 fexp64 v).
Lemma fmt64_bpow e : (-1074 <= e < 1024)%Z -> fmt64 (bpow radix2 e).
Proof. intros H. rewrite <- (Rmult_1_l (bpow radix2 e)). apply (fmt64_scaled 1); lia. Qed.
Definition pw {p e} (lo hi : Z) (x : binary_float p e) : Prop := is_finite x = true /\ bpow radix2 lo <= B2R x <= bpow radix2 hi.
Definition sm (e : Z) (x : b64) : Prop := is_finite x = true /\ Rabs (B2R x) <= bpow radix2 e.
Lemma bpow_big e : (e <= 1000)%Z -> bpow radix2 e <= big.
Proof. intros H. unfold big. now apply bpow_le. Qed.
Lemma pw_sm lo hi (x : b64) : pw lo hi x -> sm hi x.
Proof. intros (F & A & B). split; [exact F|]. assert (P := bpow_gt_0 radix2 lo). rewrite Rabs_pos_eq; lra. Qed.
Lemma sm_mul a b x y : (-1074 <= a + b <= 1000)%Z -> sm a x -> sm b y -> sm (a + b) (fmul x y).
Proof.
  intros H (FX & X) (FY & Y). assert (P : Rabs (B2R x * B2R y) <= bpow radix2 (a + b)) by (rewrite Rabs_mult, bpow_plus; apply Rmult_le_compat; (apply Rabs_pos || assumption)).
  destruct (fmul_R x y FX FY) as (F & E); [apply Rle_trans with (1 := P); apply bpow_big; lia|]. split; [exact F|]. rewrite E. apply rnd_abs; [apply fmt64_bpow; lia|exact P].
Qed.
Lemma pw_mul a b c d x y : (-1074 <= a + c)%Z -> (b + d <= 1000)%Z -> pw a b x -> pw c d y -> pw (a + c) (b + d) (fmul x y).
Proof.
  intros H1 H2 (FX & X1 & X2) (FY & Y1 & Y2). assert (PA := bpow_gt_0 radix2 a). assert (PC := bpow_gt_0 radix2 c).
  assert (L : bpow radix2 (a + c) <= B2R x * B2R y) by (rewrite bpow_plus; apply Rmult_le_compat; lra). assert (U : B2R x * B2R y <= bpow radix2 (b + d)) by (rewrite bpow_plus; apply Rmult_le_compat; lra). assert (PL := bpow_gt_0 radix2 (a + c)).
  assert (O : (a + c <= b + d)%Z) by (apply (le_bpow radix2); lra).
  destruct (fmul_R x y FX FY) as (F & E); [rewrite Rabs_pos_eq by lra; apply Rle_trans with (1 := U); apply bpow_big; lia|]. split; [exact F|]. rewrite E. split; [apply rnd_lb; [apply fmt64_bpow; lia|exact L]|apply rnd_ub; [apply fmt64_bpow; lia|exact U]].
Qed.
Lemma quotient_bounds a b c d u v : bpow radix2 a <= u <= bpow radix2 b -> bpow radix2 c <= v <= bpow radix2 d -> bpow radix2 (a - d) <= u / v <= bpow radix2 (b - c).
Proof.
  intros (X1 & X2) (Y1 & Y2). assert (PA := bpow_gt_0 radix2 a). assert (PC := bpow_gt_0 radix2 c). unfold Z.sub. rewrite !bpow_plus, !bpow_opp. unfold Rdiv.
  split; apply Rmult_le_compat; try lra; try (left; apply Rinv_0_lt_compat; (apply bpow_gt_0 || lra)); apply Rinv_le; lra.
Qed.
Lemma pw_div a b c d (x y : b64) : (-1074 <= a - d)%Z -> (b - c <= 1000)%Z -> pw a b x -> pw c d y -> pw (a - d) (b - c) (div64 x y).
Proof.
  intros H1 H2 (FX & X) (FY & Y). destruct (quotient_bounds a b c d _ _ X Y) as (L & U). assert (PL := bpow_gt_0 radix2 (a - d)). assert (PC := bpow_gt_0 radix2 c).
  assert (O : (a - d <= b - c)%Z) by (apply (le_bpow radix2); lra).
  destruct (fdiv_R x y FX FY) as (F & E); [lra|rewrite Rabs_pos_eq by lra; apply Rle_trans with (1 := U); apply bpow_big; lia|]. split; [exact F|]. unfold div64. rewrite E. split; [apply rnd_lb; [apply fmt64_bpow; lia|exact L]|apply rnd_ub; [apply fmt64_bpow; lia|exact U]].
Qed.
Lemma pw_int n a b : (1 <= n <= 2 ^ 40)%Z -> (0 <= a)%Z -> (2 ^ a <= n <= 2 ^ b)%Z -> pw a b (rat64 n 1).
Proof.
  intros N A B. assert (BB : (0 <= b)%Z) by (destruct (Z_lt_le_dec b 0); [rewrite (Z.pow_neg_r 2 b) in B by lia; lia|lia]).
  assert (E : rnd (IZR n / 1) = IZR n) by (unfold Rdiv; rewrite Rinv_1, Rmult_1_r; apply rnd_id; apply int_format; lia).
  destruct (rat64_correct n 1) as (F & V); [lia|rewrite E, Rabs_pos_eq by (apply IZR_le; lia); apply Rle_lt_trans with (bpow radix2 40); [rewrite <- IZR_bpow by lia; apply IZR_le; lia|apply bpow_lt; lia]|].
  split; [exact F|]. rewrite V, E. rewrite <- !IZR_bpow by lia. split; apply IZR_le; lia.
Qed.
Lemma pw_narrow a b (x : b64) : (-149 <= a)%Z -> (b < 128)%Z -> pw a b x -> pw a b (f64_to_32 x).
Proof.
  intros A B (F & L & U). assert (P := bpow_gt_0 radix2 a). assert (O : (a <= b)%Z) by (apply (le_bpow radix2); lra).
  destruct (narrow_R x (bpow radix2 b) F) as (G & E); [apply fmt_bpow; lia|apply bpow_lt; unfold emax32; lia|rewrite Rabs_pos_eq by lra; exact U|]. split; [exact G|]. rewrite E.
  split; [rewrite <- (rnd32_id (bpow radix2 a)) by (apply fmt_bpow; lia)|rewrite <- (rnd32_id (bpow radix2 b)) by (apply fmt_bpow; lia)]; now apply rnd32_le.
Qed.
Lemma pw_widen a b (x : b32) : pw a b x -> pw a b (f32_to_64 x).
Proof. intros (F & V). destruct (f32_to_64_value x F) as (G & E & _). split; [exact G|]. now rewrite E. Qed.
Lemma pw_le a b c d {p e} (x : binary_float p e) : (c <= a)%Z -> (b <= d)%Z -> pw a b x -> pw c d x.
Proof. intros A B (F & L & U). split; [exact F|]. apply (bpow_le radix2) in A, B. lra. Qed.
Lemma pw_mul32 a b c d (x y : b32) : (-149 <= a + c)%Z -> (b + d < 128)%Z -> pw a b x -> pw c d y -> pw (a + c) (b + d) (mul32 x y).
Proof.
  intros H1 H2 (FX & X1 & X2) (FY & Y1 & Y2). assert (PA := bpow_gt_0 radix2 a). assert (PC := bpow_gt_0 radix2 c).
  assert (L : bpow radix2 (a + c) <= B2R x * B2R y) by (rewrite bpow_plus; apply Rmult_le_compat; lra). assert (U : B2R x * B2R y <= bpow radix2 (b + d)) by (rewrite bpow_plus; apply Rmult_le_compat; lra). assert (PL := bpow_gt_0 radix2 (a + c)).
  assert (O : (a + c <= b + d)%Z) by (apply (le_bpow radix2); lra).
  destruct (mul_R x y (bpow radix2 (b + d)) FX FY) as (F & E); [apply fmt_bpow; lia|apply bpow_lt; unfold emax32; lia|rewrite Rabs_pos_eq by lra; exact U|]. split; [exact F|]. rewrite E.
  split; [rewrite <- (rnd32_id (bpow radix2 (a + c))) by (apply fmt_bpow; lia)|rewrite <- (rnd32_id (bpow radix2 (b + d))) by (apply fmt_bpow; lia)]; now apply rnd32_le.
Qed.
(** A number from 0 to 1 divided by one from 2^c on. *)
Lemma upto_div c d (x y : b32) : (-149 <= - c < 128)%Z -> upto 1 x -> pw c d y -> upto (bpow radix2 (- c)) (fdiv32 x y).
Proof.
  intros H (FX & X1 & X2) (FY & Y1 & Y2). assert (PC := bpow_gt_0 radix2 c). assert (NZ : B2R y <> 0) by lra.
  assert (I0 : 0 < / B2R y) by (apply Rinv_0_lt_compat; lra). assert (U : / B2R y <= bpow radix2 (- c)) by (rewrite bpow_opp; apply Rinv_le; lra).
  assert (Q : 0 <= B2R x / B2R y <= bpow radix2 (- c)). { unfold Rdiv. split; [apply Rmult_le_pos; lra|]. rewrite <- (Rmult_1_l (bpow radix2 (- c))). apply Rmult_le_compat; lra. }
  assert (B := Bdiv_correct prec32 emax32 _ _ mode_NE x y NZ). fold (fdiv32 x y) in B. change (round radix2 fexp32 (round_mode mode_NE) (B2R x / B2R y)) with (rnd32 (B2R x / B2R y)) in B.
  rewrite (in_range _ (bpow radix2 (- c))) in B; [|apply fmt_bpow; lia|apply bpow_lt; unfold emax32; lia|rewrite Rabs_pos_eq by lra; lra]. destruct B as (E & F & _). split; [rewrite F; exact FX|]. rewrite E.
  split; [rewrite <- (rnd32_id 0) by apply generic_format_0|rewrite <- (rnd32_id (bpow radix2 (- c))) by (apply fmt_bpow; lia)]; apply rnd32_le; lra.
Qed.

(** ** What is asked of the C library *)
Record libm_law (L : libm) : Prop := mkLaw {
  law_cos : forall x, is_finite x = true -> is_finite (l_cos L x) = true /\ Rabs (B2R (l_cos L x)) <= 1;
  law_cos_0 : forall x, is_finite x = true -> B2R x = 0 -> B2R (l_cos L x) = 1;
  law_sin : forall x, is_finite x = true -> is_finite (l_sin L x) = true /\ Rabs (B2R (l_sin L x)) <= 1;
  law_log : is_finite (l_log L (rat64 2 1)) = true /\ / 2 <= B2R (l_log L (rat64 2 1)) <= 1;
  law_log2 : is_finite (l_log2 L (rat64 1 1)) = true /\ B2R (l_log2 L (rat64 1 1)) = 0;
  law_powf : forall s n, upto 1 s -> is_finite n = true -> 0 <= B2R n -> upto 1 (l_powf L s n);
  law_powf_0 : forall s, upto 1 s -> B2R (l_powf L s (rat32 0 1)) = 1 }.

Lemma half64 : is_finite (rat64 1 2) = true /\ B2R (rat64 1 2) = / 2.
Proof. assert (C : B2SF (rat64 1 2) = SpecFloat.S754_finite false 4503599627370496 (-53)) by (vm_compute; reflexivity). destruct (computed _ _ _ _ C) as (F & V). split; [exact F|]. rewrite V. unfold cond_Zopp. change (Zpos 4503599627370496) with (2 ^ 52)%Z. rewrite IZR_bpow, <- bpow_plus by lia. reflexivity. Qed.
Lemma pi_sm : sm 2 m_pi.
Proof. assert (C : exists m k, B2SF m_pi = SpecFloat.S754_finite false m k /\ (Zpos m * 2 ^ (k + 100) <= 2 ^ 102)%Z /\ (-100 <= k)%Z) by (eexists; eexists; split; [vm_compute; reflexivity|split; vm_compute; discriminate]).
  destruct C as (m & k & C & U & K). destruct (computed _ _ _ _ C) as (F & V). split; [exact F|]. rewrite V. cbn [cond_Zopp]. assert (P := bpow_gt_0 radix2 k). rewrite Rabs_pos_eq by (apply Rmult_le_pos; [apply IZR_le; lia|lra]).
  apply Rmult_le_reg_r with (bpow radix2 100); [apply bpow_gt_0|]. rewrite Rmult_assoc, <- !bpow_plus. rewrite <- (IZR_bpow (k + 100)) by lia. rewrite <- mult_IZR. change (2 + 100)%Z with 102%Z. rewrite <- IZR_bpow by lia. apply IZR_le. exact U.
Qed.
(** A comparison with a finite number that succeeds has a finite left side. *)
Lemma leb_abs (d : b32) (y : b64) : is_finite y = true -> Bleb (f32_to_64 (Babs d)) y = true -> is_finite d = true /\ Rabs (B2R d) <= B2R y.
Proof.
  intros F H. assert (D : is_finite d = true).
  { destruct d as [s|s| |s m e B]; try reflexivity; exfalso; [|discriminate H]. destruct y as [t|t| |t m e B]; try discriminate F; discriminate H. }
  split; [exact D|]. assert (D' : is_finite (Babs d) = true) by (rewrite is_finite_Babs; exact D). destruct (f32_to_64_value (Babs d) D') as (G & E & _). rewrite Bleb_correct in H by assumption. rewrite E, B2R_Babs in H. destruct (Rle_bool_spec (Rabs (B2R d)) (B2R y)) as [A|A]; [exact A|discriminate H].
Qed.
Section Laws.
  Context (L : libm) (LAW : libm_law L).
  Notation M := (machine L).
  (** Half a cosine and a half. *)
  Lemma raised x : is_finite x = true -> upto 1 (f64_to_32 (fadd (fmul (l_cos L x) (rat64 1 2)) (rat64 1 2))) /\ (B2R x = 0 -> B2R (f64_to_32 (fadd (fmul (l_cos L x) (rat64 1 2)) (rat64 1 2))) = 1).
  Proof.
    intros F. destruct (law_cos L LAW x F) as (FC & C). destruct half64 as (FH & H). assert (BG : 1 <= big) by (change 1 with (bpow radix2 0); apply bpow_big; lia). assert (C' := proj1 (Rabs_le_inv _ _ C)). assert (C'' := proj2 (Rabs_le_inv _ _ C)).
    assert (F1 : fmt64 1) by (change 1 with (bpow radix2 0); apply fmt64_bpow; lia). assert (F2 : fmt64 (/ 2)) by (change (/ 2) with (bpow radix2 (-1)); apply fmt64_bpow; lia).
    destruct (fmul_R (l_cos L x) (rat64 1 2) FC FH) as (FM & EM); [rewrite H; apply Rabs_le; lra|]. rewrite H in EM.
    assert (BM : - / 2 <= B2R (fmul (l_cos L x) (rat64 1 2)) <= / 2) by (apply Rabs_le_inv; rewrite EM; apply rnd_abs; [exact F2|]; apply Rabs_le; lra).
    destruct (fadd_R (fmul (l_cos L x) (rat64 1 2)) (rat64 1 2) FM FH) as (FA & EA); [rewrite H; apply Rabs_le; lra|]. rewrite H in EA.
    assert (BA : 0 <= B2R (fadd (fmul (l_cos L x) (rat64 1 2)) (rat64 1 2)) <= 1) by (rewrite EA; split; [apply rnd_ge0; lra|apply rnd_ub; [exact F1|lra]]).
    destruct (narrow_R _ 1 FA) as (FN & EN); [change 1 with (bpow radix2 0); apply fmt_bpow; lia|change 1 with (bpow radix2 0); apply bpow_lt; reflexivity|rewrite Rabs_pos_eq; lra|].
    split.
    - split; [exact FN|]. rewrite EN. split; [rewrite <- (rnd32_id 0) by apply generic_format_0|rewrite <- (rnd32_id 1) by (change 1 with (bpow radix2 0); apply fmt_bpow; lia)]; apply rnd32_le; lra.
    - intros X0. rewrite EN, EA, EM. rewrite (law_cos_0 L LAW x F X0). rewrite Rmult_1_l, (rnd_id (/ 2)) by exact F2. replace (/ 2 + / 2) with 1 by lra. rewrite (rnd_id 1) by exact F1. apply rnd32_id. change 1 with (bpow radix2 0). apply fmt_bpow. lia.
  Qed.
  Lemma cospuls_unit (x centre w : b32) : pw (-20) 40 w -> upto 1 (cospuls M x centre w).
  Proof.
    intros W. unfold cospuls. cbn [machine up down f_int d_int d_half d_pi f_add f_sub f_mul f_abs d_add d_sub d_mul d_div d_abs d_leb d_ltb d_cos fl db].
    set (d := sub32 x centre). destruct (Bleb _ _) eqn:G; [|apply upto_0; lra].
    assert (HW : pw (-1 + -20) (-1 + 40) (fmul (rat64 1 2) (f32_to_64 w))). { apply pw_mul; [lia|lia| |now apply pw_widen]. destruct half64 as (A & B). split; [exact A|]. rewrite B. change (bpow radix2 (-1)) with (/ 2). lra. }
    destruct (leb_abs d _ (proj1 HW) G) as (FD & D). destruct HW as (_ & _ & HW).
    apply raised. assert (T : is_finite (rat32 2 1) = true /\ B2R (rat32 2 1) = 2) by (apply rat32_int; lia). destruct T as (FT & T).
    assert (S1 : below (mul32 d (rat32 2 1)) (bpow radix2 40)).
    { apply below_mul; [apply fmt_bpow; lia|apply bpow_lt; reflexivity|exact FD|exact FT|]. rewrite T, Rabs_mult, (Rabs_pos_eq 2) by lra. change (bpow radix2 40) with (bpow radix2 (39 + 1)). rewrite bpow_plus. change (bpow radix2 1) with 2. change (-1 + 40)%Z with 39%Z in HW. apply Rmult_le_compat_r; lra. }
    assert (S2 : sm 40 (f32_to_64 (mul32 d (rat32 2 1)))) by (destruct S1 as (A & B); destruct (f32_to_64_value _ A) as (A' & B' & _); split; [exact A'|now rewrite B']).
    assert (R1 : pw (0 - 40) (0 - -20) (f64_to_32 (div64 (rat64 1 1) (f32_to_64 w)))). { apply pw_narrow; [lia|lia|]. apply pw_div; [lia|lia|apply pw_int; cbn; lia|now apply pw_widen]. }
    assert (S3 := sm_mul (40 + 2) (0 - -20) _ _ ltac:(lia) (sm_mul 40 2 _ _ ltac:(lia) S2 pi_sm) (pw_sm _ _ _ (pw_widen _ _ _ R1))). exact (proj1 S3).
  Qed.
  Lemma cospuls_centre (x c w : b32) : is_finite x = true -> is_finite c = true -> B2R x = B2R c -> pw (-20) 40 w -> B2R (cospuls M x c w) = 1.
  Proof.
    intros FX FC XC W. unfold cospuls. cbn [machine up down f_int d_int d_half d_pi f_add f_sub f_mul f_abs d_add d_sub d_mul d_div d_abs d_leb d_ltb d_cos fl db].
    assert (HW : pw (-1 + -20) (-1 + 40) (fmul (rat64 1 2) (f32_to_64 w))). { apply pw_mul; [lia|lia| |now apply pw_widen]. destruct half64 as (A & B). split; [exact A|]. rewrite B. change (bpow radix2 (-1)) with (/ 2). lra. }
    set (d := sub32 x c). assert (D : is_finite d = true /\ B2R d = 0).
    { unfold d. destruct (sub_R x c (bpow radix2 0) FX FC) as (A & B); [apply fmt_bpow; lia|apply bpow_lt; reflexivity|replace (B2R x - B2R c) with 0 by (rewrite XC; ring); rewrite Rabs_R0; apply bpow_ge_0|]. split; [exact A|]. rewrite B. replace (B2R x - B2R c) with 0 by (rewrite XC; ring). apply rnd32_id. apply generic_format_0. }
    destruct D as (FD & D). assert (G : Bleb (f32_to_64 (Babs d)) (fmul (rat64 1 2) (f32_to_64 w)) = true).
    { assert (D' : is_finite (Babs d) = true) by (rewrite is_finite_Babs; exact FD). destruct (f32_to_64_value (Babs d) D') as (A & B & _). rewrite Bleb_correct by (exact A || exact (proj1 HW)). rewrite B, B2R_Babs, D, Rabs_R0. apply Rle_bool_true. destruct HW as (_ & HW & _). assert (P := bpow_gt_0 radix2 (-1 + -20)). lra. }
    rewrite G. assert (T : is_finite (rat32 2 1) = true /\ B2R (rat32 2 1) = 2) by (apply rat32_int; lia). destruct T as (FT & T).
    assert (S1 : is_finite (mul32 d (rat32 2 1)) = true /\ B2R (mul32 d (rat32 2 1)) = 0).
    { destruct (mul_R d (rat32 2 1) (bpow radix2 0) FD FT) as (A & B); [apply fmt_bpow; lia|apply bpow_lt; reflexivity|rewrite D, Rmult_0_l, Rabs_R0; apply bpow_ge_0|]. split; [exact A|]. rewrite B, D, Rmult_0_l. apply rnd32_id. apply generic_format_0. }
    assert (Z0 : forall u v : b64, is_finite u = true -> B2R u = 0 -> is_finite v = true -> is_finite (fmul u v) = true /\ B2R (fmul u v) = 0).
    { intros u v U U0 V. destruct (fmul_R u v U V) as (A & B); [rewrite U0, Rmult_0_l, Rabs_R0; unfold big; apply bpow_ge_0|]. split; [exact A|]. rewrite B, U0, Rmult_0_l. apply rnd_id. apply generic_format_0. }
    assert (R1 : pw (0 - 40) (0 - -20) (f64_to_32 (div64 (rat64 1 1) (f32_to_64 w)))). { apply pw_narrow; [lia|lia|]. apply pw_div; [lia|lia|apply pw_int; cbn; lia|now apply pw_widen]. }
    destruct S1 as (A1 & B1). destruct (f32_to_64_value _ A1) as (A2 & B2 & _). rewrite B1 in B2. destruct (Z0 _ m_pi A2 B2 (proj1 pi_sm)) as (A3 & B3). destruct (Z0 _ (f32_to_64 (f64_to_32 (div64 (rat64 1 1) (f32_to_64 w)))) A3 B3 (proj1 (pw_widen _ _ _ R1))) as (A4 & B4).
    now apply raised.
  Qed.
End Laws.
