(** How far the returned path can be from the most probable one (C18). *)
From Coq Require Import Reals Lra Lia ZifyBool Permutation Psatz.
From Flocq Require Import Core.Core IEEE754.BinarySingleNaN.
From Flocq Require Import Relative Ulp.
From Verif Require Import Base BaseFacts Fp FpFacts Key Hmm MusicSpec ViterbiSpec ViterbiFacts HmmSpec HmmFacts LogFacts.
Open Scope R_scope.

Lemma fexp_FLT : forall e, fexp64 e = FLT_exp (-1074) 53 e.
Proof. reflexivity. Qed.

Lemma Rlog10_mult x y : 0 < x -> 0 < y -> Rlog10 (x * y) = Rlog10 x + Rlog10 y.
Proof. intros Hx Hy. unfold Rlog10. rewrite ln_mult by assumption. field. pose proof ln10_pos. lra. Qed.
Lemma ln10_ge_1 : 1 <= ln 10.
Proof.
  rewrite <- (ln_exp 1). apply Rlt_le, ln_increasing; [apply exp_pos|]. pose proof exp_le_3. lra.
Qed.
Lemma Rlog10_small e : Rabs e <= / 2 -> Rabs (Rlog10 (1 + e)) <= 2 * Rabs e.
Proof.
  intros H. assert (He : -/2 <= e <= /2) by (apply Rabs_le_inv; exact H).
  pose proof ln10_ge_1 as L.
  assert (A : ln (1 + e) <= Rabs e).
  { apply Rle_trans with e; [|apply Rle_abs]. rewrite <- (ln_exp e) at 2. destruct (Req_dec e 0) as [->|N].
    - rewrite Rplus_0_r, exp_0, ln_1. lra.
    - apply Rlt_le, ln_increasing; [lra|]. now apply exp_ineq1. }
  assert (B : - (2 * Rabs e) <= ln (1 + e)).
  { replace (ln (1 + e)) with (- ln (/ (1 + e))) by (rewrite ln_Rinv by lra; lra).
    apply Ropp_le_contravar. 
    assert (I : / (1 + e) <= 1 + 2 * Rabs e).
    { apply Rmult_le_reg_r with (1 + e); [lra|]. rewrite Rinv_l by lra. 
      unfold Rabs. destruct (Rcase_abs e); nra. }
    apply Rle_trans with (ln (exp (2 * Rabs e))); [|rewrite ln_exp; lra].
    assert (J : 1 + 2 * Rabs e <= exp (2 * Rabs e)).
    { destruct (Req_dec (2 * Rabs e) 0) as [Z|Z]; [rewrite Z, exp_0; lra|]. apply Rlt_le. now apply exp_ineq1. }
    assert (0 < / (1 + e)) by (apply Rinv_0_lt_compat; lra).
    destruct (Req_dec (/ (1 + e)) (exp (2 * Rabs e))) as [E|E]; [rewrite E; lra|]. apply Rlt_le, ln_increasing; lra. }
  unfold Rlog10. apply Rabs_le. split.
  - apply Rmult_le_reg_r with (ln 10); [lra|]. unfold Rdiv. rewrite Rmult_assoc, Rinv_l by lra. pose proof (Rabs_pos e). nra.
  - apply Rmult_le_reg_r with (ln 10); [lra|]. unfold Rdiv. rewrite Rmult_assoc, Rinv_l by lra. pose proof (Rabs_pos e). nra.
Qed.

Section Accuracy.
  Variable log10 : b64 -> b64.
  Hypothesis Hlog : log10_ok log10.
  Hypothesis Hacc : log10_accurate log10.

  (** ** One step *)
  Lemma bpow_neg1022 : bpow radix2 (-1022) = / 2 ^ 1022.
  Proof. change (-1022)%Z with (- (1022))%Z. rewrite bpow_opp. f_equal. rewrite <- IZR_Zpower by lia. change (radix_val radix2) with 2%Z.
    replace 1022%Z with (Z.of_nat 1022) by reflexivity. rewrite <- pow_IZR. reflexivity. Qed.
  Lemma weight_accurate x y : probability x -> probability y -> is_finite (fmul x y) = true -> / 2 ^ 1022 <= B2R x * B2R y ->
    fin_weight (log10 (fmul x y)) /\ Rabs (B2R (log10 (fmul x y)) - Rlog10 (B2R x * B2R y)) <= bpow radix2 (-42).
  Proof.
    intros (Fx & Px) (Fy & Py) F Hm.
    assert (P : 0 < B2R x * B2R y) by (apply Rlt_le_trans with (2 := Hm); rewrite <- bpow_neg1022; apply bpow_gt_0).
    assert (E : B2R (fmul x y) = rnd (B2R x * B2R y)).
    { unfold fmul in *. pose proof (Bmult_correct prec64 emax64 _ _ mode_NE x y) as H. cbn [round_mode] in H.
      destruct (Rlt_bool _ _); [apply H|]. exfalso. rewrite <- is_finite_SF_B2SF, H in F. unfold binary_overflow in F.
      destruct (overflow_to_inf mode_NE _) eqn:O; cbn in F; [discriminate|cbn in O; discriminate]. }
    destruct (relative_error_N_FLT_ex radix2 (-1074) 53 ltac:(lia) (fun t => negb (Z.even t)) (B2R x * B2R y)) as (e & He & Er).
    { rewrite Rabs_pos_eq by lra. change (-1074 + 53 - 1)%Z with (-1022)%Z. rewrite bpow_neg1022. exact Hm. }
    change (round radix2 (FLT_exp (-1074) 53) (Znearest (fun t => negb (Z.even t))) (B2R x * B2R y)) with (rnd (B2R x * B2R y)) in Er.
    change (- (53) + 1)%Z with (-52)%Z in He.
    assert (Hs : bpow radix2 (-52) <= / 4096).
    { replace (/ 4096) with (bpow radix2 (-12)) by reflexivity. apply bpow_le. lia. }
    assert (Pf : 0 < B2R (fmul x y)).
    { rewrite E, Er. apply Rmult_lt_0_compat; [exact P|]. apply Rabs_le_inv in He. pose proof (bpow_gt_0 radix2 (-52)). lra. }
    split; [now apply (log10_pos log10 Hlog)|].
    pose proof (Hacc (fmul x y) F Pf) as A. rewrite E, Er in A. rewrite Rlog10_mult in A; [|exact P|].
    2:{ apply Rabs_le_inv in He. pose proof (bpow_gt_0 radix2 (-52)). lra. }
    pose proof (Rlog10_small e) as S. assert (Rabs e <= / 2) as S0 by (pose proof (bpow_gt_0 radix2 (-52)); lra). specialize (S S0).
    replace (B2R (log10 (fmul x y)) - Rlog10 (B2R x * B2R y)) with
      ((B2R (log10 (fmul x y)) - (Rlog10 (B2R x * B2R y) + Rlog10 (1 + e))) + Rlog10 (1 + e)) by ring.
    apply Rle_trans with (1 := Rabs_triang _ _). unfold log_error in A.
    assert (B1 : bpow radix2 (-42) = 2 * bpow radix2 (-43)) by (change 2 with (bpow radix2 1); rewrite <- bpow_plus; reflexivity).
    assert (B2 : bpow radix2 (-52) <= bpow radix2 (-43)) by (apply bpow_le; lia).
    lra.
  Qed.

  (** ** Adding up *)
  Definition drift (k : R) : R := k * bpow radix2 (-42) + k * k * bpow radix2 (-44).
  Definition tracks (k : Z) (acc : b64) (L : R) : Prop :=
    is_finite acc = true /\ Rabs (B2R acc) <= 512 * IZR k /\ Rabs (B2R acc - L) <= drift (IZR k).
  Lemma fmt512 k : (0 <= k < 2 ^ 53)%Z -> generic_format radix2 fexp64 (512 * IZR k).
  Proof.
    intros H. apply (generic_format_FLT radix2 (-1074) 53). exists (Float radix2 k 9).
    - unfold F2R. cbn [Fnum Fexp]. change (bpow radix2 9) with 512. ring.
    - cbn [Fnum]. change (radix_val radix2) with 2%Z. lia.
    - cbn [Fexp]. lia.
  Qed.
  Lemma tracks_step k acc L w l : (1 <= k)%Z -> (k + 1 < 2 ^ 53)%Z -> tracks k acc L -> fin_weight w -> Rabs (B2R w - l) <= bpow radix2 (-42) ->
    tracks (k + 1) (fadd acc w) (L + l).
  Proof.
    intros Hk Hb (Fa & Ba & Da) (Fw & Bw & _) Dl.
    assert (Kp : 1 <= IZR k) by (apply (IZR_le 1); lia).
    set (v := B2R acc + B2R w).
    assert (V : Rabs v <= 512 * IZR (k + 1)). { unfold v. apply Rle_trans with (1 := Rabs_triang _ _). rewrite plus_IZR. lra. }
    assert (RV : Rabs (rnd v) <= 512 * IZR (k + 1)).
    { apply Rabs_le_inv in V. apply Rabs_le. split.
      - apply round_ge_generic; [exact fexp64_valid|apply valid_rnd_N| |lra]. apply generic_format_opp. apply fmt512. lia.
      - apply round_le_generic; [exact fexp64_valid|apply valid_rnd_N|apply fmt512; lia|lra]. }
    unfold fadd. pose proof (Bplus_correct prec64 emax64 _ _ mode_NE acc w Fa Fw) as H. cbn [round_mode] in H. fold v in H.
    rewrite Rlt_bool_true in H.
    2:{ apply Rle_lt_trans with (1 := RV). apply Rle_lt_trans with (bpow radix2 62).
        - replace (bpow radix2 62) with (512 * bpow radix2 53) by (change 512 with (bpow radix2 9); rewrite <- bpow_plus; reflexivity).
          apply Rmult_le_compat_l; [lra|]. rewrite <- IZR_Zpower by lia. apply IZR_le. change (radix_val radix2) with 2%Z. lia.
        - apply bpow_lt. unfold emax64. lia. }
    destruct H as (E & F & _). split; [exact F|]. rewrite E. split; [exact RV|].
    assert (Er : Rabs (rnd v - v) <= IZR (k + 1) * bpow radix2 (-44)).
    { apply Rle_trans with (/ 2 * ulp radix2 fexp64 v); [apply error_le_half_ulp; exact fexp64_valid|].
      assert (U : ulp radix2 fexp64 v <= ulp radix2 fexp64 (512 * IZR (k + 1))).
      { apply ulp_le; [exact fexp64_valid|exact fexp64_monotone|]. rewrite (Rabs_pos_eq (512 * _)); [exact V|]. rewrite plus_IZR. lra. }
      assert (U2 : ulp radix2 fexp64 (512 * IZR (k + 1)) <= 512 * IZR (k + 1) * bpow radix2 (-52)).
      { pose proof (ulp_FLT_le radix2 (-1074) 53 (512 * IZR (k + 1))) as X. rewrite (Rabs_pos_eq (512 * _)) in X by (rewrite plus_IZR; lra).
        change (1 - 53)%Z with (-52)%Z in X. apply X.
        apply Rle_trans with 1; [change 1 with (bpow radix2 0); apply bpow_le; lia|]. rewrite plus_IZR. lra. }
      assert (B : bpow radix2 (-44) = 256 * bpow radix2 (-52)) by (change 256 with (bpow radix2 8); rewrite <- bpow_plus; reflexivity).
      rewrite B. lra. }
    replace (rnd v - (L + l)) with ((rnd v - v) + ((B2R acc - L) + (B2R w - l))) by (unfold v; ring).
    apply Rle_trans with (1 := Rabs_triang _ _). pose proof (Rabs_triang (B2R acc - L) (B2R w - l)) as T.
    unfold drift in *. rewrite plus_IZR in *. pose proof (bpow_gt_0 radix2 (-44)) as G. pose proof (bpow_gt_0 radix2 (-42)) as G2.
    assert (0 <= IZR k * bpow radix2 (-44)) by (apply Rmult_le_pos; lra).
    replace ((IZR k + 1) * (IZR k + 1) * bpow radix2 (-44)) with (IZR k * IZR k * bpow radix2 (-44) + 2 * (IZR k * bpow radix2 (-44)) + bpow radix2 (-44)) by ring.
    lra.
  Qed.

  Lemma exact_nonneg h : proper h -> forall path obs prev, (forall o, In o obs -> In o (h_obs h)) -> In prev (h_states h) ->
    Forall (fun s => In s (h_states h)) path -> 0 <= exact_steps h prev path obs.
  Proof.
    intros [_ Hp] path. induction path as [|s path IH]; intros [|o obs] prev Ho Hin Hf; cbn [exact_steps]; try lra.
    inversion Hf as [|? ? Hs Hf']; subst. destruct (Hp s o Hs (Ho o ltac:(now left))) as ((_ & He) & _ & _ & Ht).
    destruct (Ht prev Hin) as ((_ & Ht') & _). apply Rmult_le_pos; [now apply Rmult_le_pos|].
    apply IH; auto. intros; apply Ho; now right.
  Qed.
  Lemma score_tracks h : proper h -> no_underflow h -> forall path obs prev acc L k,
    length path = length obs -> (forall o, In o obs -> In o (h_obs h)) -> In prev (h_states h) ->
    Forall (fun s => In s (h_states h)) path -> 0 < exact_steps h prev path obs ->
    (1 <= k)%Z -> (k + Z.of_nat (length obs) < 2 ^ 53)%Z -> tracks k acc L ->
    tracks (k + Z.of_nat (length obs))
      (score_from fadd (fun p s o => log10 (fmul (prob_transition h p s) (prob_emission h s o))) acc prev path obs)
      (L + Rlog10 (exact_steps h prev path obs)).
  Proof.
    intros Hp Hu path. induction path as [|s path IH]; intros [|o obs] prev acc L k Hl Ho Hin Hf Hpos Hk Hb Ht; try discriminate.
    - cbn [score_from exact_steps length]. replace (k + Z.of_nat 0)%Z with k by lia. unfold Rlog10. rewrite ln_1. unfold Rdiv. rewrite Rmult_0_l, Rplus_0_r. exact Ht.
    - inversion Hf as [|? ? Hs Hf']; subst. cbn [score_from exact_steps] in *.
      destruct (proj2 Hp s o Hs (Ho o ltac:(now left))) as (He & _ & _ & HT). destruct (HT prev Hin) as (Ht1 & Ht2).
      assert (N : 0 <= exact_steps h s path obs) by (apply exact_nonneg; auto; intros; apply Ho; now right).
      assert (M : 0 <= B2R (prob_transition h prev s) * B2R (prob_emission h s o)) by (apply Rmult_le_pos; [apply Ht1|apply He]).
      assert (M' : 0 < B2R (prob_transition h prev s) * B2R (prob_emission h s o)).
      { destruct M as [M|M]; [exact M|]. rewrite <- M, Rmult_0_l in Hpos. lra. }
      assert (N' : 0 < exact_steps h s path obs).
      { destruct N as [N|N]; [exact N|]. rewrite <- N, Rmult_0_r in Hpos. lra. }
      destruct (Hu s o Hs (Ho o ltac:(now left))) as (_ & U). destruct (U prev Hin) as [U0|U1]; [lra|].
      destruct (weight_accurate _ _ Ht1 He Ht2 U1) as (W & Wa).
      rewrite Rlog10_mult by assumption. rewrite <- Rplus_assoc.
      replace (k + Z.of_nat (length (o :: obs)))%Z with ((k + 1) + Z.of_nat (length obs))%Z by (cbn [length]; lia).
      cbn [length] in *. apply IH; auto; try lia.
      + intros; apply Ho; now right.
      + apply tracks_step; try assumption. lia.
  Qed.
  Lemma hscore_tracks h path : proper h -> no_underflow h -> h_obs h <> [] -> is_path (h_states h) (h_obs h) path ->
    (Z.of_nat (length (h_obs h)) < 2 ^ 53)%Z -> 0 < exact_prob h path ->
    tracks (Z.of_nat (length (h_obs h))) (hscore log10 h path) (Rlog10 (exact_prob h path)).
  Proof.
    intros Hp Hu Hne [Hl Hf] Hb Hpos. unfold hscore, exact_prob in *.
    assert (Ho : forall o, In o (h_obs h) -> In o (h_obs h)) by auto.
    destruct (h_obs h) as [|o obs] eqn:Eo; [contradiction|].
    destruct path as [|s path]; [discriminate|]. inversion Hf as [|? ? Hs Hf']; subst. cbn [path_score] in *.
    rewrite <- Eo in Ho. destruct (proj2 Hp s o Hs ltac:(rewrite Eo; now left)) as (He & Hi & Hm & _).
    assert (Ho' : forall o', In o' obs -> In o' (h_obs h)) by (intros; rewrite Eo; now right).
    assert (N : 0 <= exact_steps h s path obs) by (apply exact_nonneg; auto).
    assert (M : 0 <= B2R (prob_initial h s) * B2R (prob_emission h s o)) by (apply Rmult_le_pos; [apply Hi|apply He]).
    assert (M' : 0 < B2R (prob_initial h s) * B2R (prob_emission h s o)).
    { destruct M as [M|M]; [exact M|]. rewrite <- M, Rmult_0_l in Hpos. lra. }
    assert (N' : 0 < exact_steps h s path obs).
    { destruct N as [N|N]; [exact N|]. rewrite <- N, Rmult_0_r in Hpos. lra. }
    destruct (Hu s o Hs ltac:(rewrite Eo; now left)) as (U & _). destruct U as [U0|U1]; [lra|].
    destruct (weight_accurate _ _ Hi He Hm U1) as (W & Wa).
    rewrite Rlog10_mult by assumption.
    replace (Z.of_nat (length (o :: obs))) with (1 + Z.of_nat (length obs))%Z by (cbn [length]; lia).
    cbn [length] in *. apply score_tracks; auto; try lia.
    destruct W as (W1 & W2 & _). split; [exact W1|]. split; [lra|]. unfold drift. pose proof (bpow_gt_0 radix2 (-44)). lra.
  Qed.
  Lemma exact_positive h path : proper h -> h_obs h <> [] -> is_path (h_states h) (h_obs h) path -> positive_path h path -> 0 < exact_prob h path.
  Proof.
    intros Hp Hne [Hl Hf] Hpos.
    assert (Z : forall x y, probability x -> probability y -> is_finite (fmul x y) = true -> 0 < B2R (fmul x y) -> 0 < B2R x * B2R y).
    { intros x y (Fx & Px) (Fy & Py) F P. unfold fmul in *. pose proof (Bmult_correct prec64 emax64 _ _ mode_NE x y) as H. cbn [round_mode] in H.
      destruct (Rlt_bool _ _).
      - destruct H as (E & _). rewrite E in P. assert (Q0 : 0 <= B2R x * B2R y) by now apply Rmult_le_pos. destruct Q0 as [Q|Q].
        + exact Q.
        + exfalso. rewrite <- Q in P. rewrite round_0 in P; [lra|apply valid_rnd_N].
      - exfalso. rewrite <- is_finite_SF_B2SF, H in F. unfold binary_overflow in F.
        destruct (overflow_to_inf mode_NE _) eqn:O; cbn in F; [discriminate|cbn in O; discriminate]. }
    assert (S : forall path obs prev, (forall o, In o obs -> In o (h_obs h)) -> In prev (h_states h) ->
       Forall (fun s => In s (h_states h)) path -> steps_positive h prev path obs -> 0 < exact_steps h prev path obs).
    { intros q. induction q as [|s q IH]; intros [|o obs] prev Ho Hin Hq Hs; cbn [exact_steps]; try lra.
      inversion Hq as [|? ? Hs' Hq']; subst. cbn [steps_positive] in Hs. destruct Hs as [H1 H2].
      destruct (proj2 Hp s o Hs' (Ho o ltac:(now left))) as (He & _ & _ & HT). destruct (HT prev Hin) as (Ht1 & Ht2).
      apply Rmult_lt_0_compat; [now apply Z|]. apply IH; auto. intros; apply Ho; now right. }
    unfold exact_prob, positive_path in *. destruct path as [|s path]; [lra|].
    assert (Ho : forall o, In o (h_obs h) -> In o (h_obs h)) by auto. destruct (h_obs h) as [|o obs] eqn:Eo; [lra|].
    inversion Hf as [|? ? Hs Hf']; subst. destruct Hpos as [H1 H2].
    destruct (proj2 Hp s o Hs ltac:(rewrite Eo; now left)) as (He & Hi & Hm & _).
    apply Rmult_lt_0_compat; [now apply Z|]. apply S; auto. intros; now right.
  Qed.

  Lemma C18_proof : forall iter h h', iteration_order iter -> h_keys h = [] -> h_obs h <> [] -> proper h -> no_underflow h ->
    (Z.of_nat (length (h_obs h)) < 2 ^ 53)%Z -> run_viterbi log10 iter h = Ret h' ->
    exists path, h_keys h' = map key_of_int path /\ is_path (h_states h) (h_obs h) path /\ 0 < exact_prob h path /\
      forall q, is_path (h_states h) (h_obs h) q ->
        exact_prob h q <= exact_prob h path * Rpower 10 (2 * drift (INR (length (h_obs h)))).
  Proof.
    intros iter h h' Hi Hk Hne Hp Hu Hb E.
    destruct (C15_proof log10 iter Hi Hlog h h' Hk Hne Hp E) as (path & Ek & Hpath & Hbest).
    destruct (C16_score_proof log10 iter Hi h h' Hk Hne E) as (path' & last & Ek' & _ & _ & _ & _ & Hg & _).
    assert (path' = path) as ->.
    { rewrite Ek in Ek'. pose proof (proj1 Hp) as Hv.
      destruct (C14_proof log10 iter Hi h h' Hk Hne E) as (p2 & E2 & Hp2 & K2 & _).
      assert (Inj : forall a b, Forall is_key a -> Forall is_key b -> map key_of_int a = map key_of_int b -> a = b).
      { induction a as [|x a IH]; intros [|y b] Ha Hb' Eab; try discriminate; [reflexivity|].
        inversion Ha; inversion Hb'; subst. cbn [map] in Eab. injection Eab as E1 E3. f_equal; [|now apply IH].
        unfold key_of_int, to_uint32, NUMBER_OF_KEYS, is_key in *. rewrite !Z.mod_small in E1 by lia.
        replace (x <? 24)%Z with true in E1 by lia. replace (y <? 24)%Z with true in E1 by lia. congruence. }
      assert (Forall is_key path).
      { destruct Hpath as [_ Hf]. apply (Forall_impl (P := fun s => In s (h_states h))); [|exact Hf]. intros s Hs. exact (proj1 (Forall_forall _ _) Hv s Hs). }
      assert (Forall is_key path').
      { destruct (run_general log10 iter Hi h Hne Hv) as [(p3 & l3 & mp & pr & E3 & Hp3 & _)|(E3 & _)]; [|congruence].
        rewrite E in E3. injection E3 as E3. assert (map key_of_int p3 = map key_of_int path').
        { rewrite <- Ek', <- Ek, E3. cbn [h_keys]. rewrite Hk. cbn [rev]. now rewrite app_nil_r. }
        assert (Forall (fun k => exists z, kint k = Some z /\ is_key z) (map key_of_int path')).
        { rewrite <- H0. apply Forall_forall. intros k Hk0. apply in_map_iff in Hk0. destruct Hk0 as (z & <- & Hz).
          pose proof (proj1 (Forall_forall _ _) (proj2 Hp3) z Hz) as Hz'. pose proof (proj1 (Forall_forall _ _) Hv z Hz') as Hkz. exists z. split; [|exact Hkz].
          unfold key_of_int, to_uint32, NUMBER_OF_KEYS, is_key in *. rewrite Z.mod_small by lia. replace (z <? 24)%Z with true by lia. reflexivity. }
        apply Forall_forall. intros z Hz. rewrite Forall_forall in H1. destruct (H1 (key_of_int z) (in_map _ _ _ Hz)) as (z' & Ez & Hz').
        unfold key_of_int in Ez. destruct (to_uint32 z <? NUMBER_OF_KEYS)%Z; cbn [kint] in Ez; [|discriminate]. apply Some_inj in Ez. now subst. }
      symmetry. apply Inj; assumption. }
    assert (Pp : positive_path h path).
    { destruct (hscore_positive log10 Hlog h path Hp Hne Hpath) as [[A _]|[_ B]]; [exact A|]. rewrite B, fgt_ninf_l in Hg. discriminate. }
    pose proof (exact_positive h path Hp Hne Hpath Pp) as Xp.
    exists path. split; [exact Ek|]. split; [exact Hpath|]. split; [exact Xp|]. intros q Hq.
    assert (R10 : 0 < Rpower 10 (2 * drift (INR (length (h_obs h))))) by apply exp_pos.
    destruct (Rle_lt_dec (exact_prob h q) 0) as [Z|Xq].
    { apply Rle_trans with (1 := Z). apply Rmult_le_pos; lra. }
    destruct (hscore_tracks h path Hp Hu Hne Hpath Hb Xp) as (F1 & _ & D1).
    destruct (hscore_tracks h q Hp Hu Hne Hq Hb Xq) as (F2 & _ & D2).
    pose proof (Hbest q Hq) as G. rewrite fgt_finite in G by assumption.
    assert (LE : B2R (hscore log10 h q) <= B2R (hscore log10 h path)).
    { destruct (Rlt_bool_spec (B2R (hscore log10 h path)) (B2R (hscore log10 h q))); [discriminate|assumption]. }
    rewrite <- INR_IZR_INZ in D1, D2. set (n := INR (length (h_obs h))) in *. apply Rabs_le_inv in D1. apply Rabs_le_inv in D2.
    assert (LL : Rlog10 (exact_prob h q) <= Rlog10 (exact_prob h path) + 2 * drift n) by lra.
    unfold Rlog10 in LL. pose proof ln10_pos as L10.
    assert (L2 : ln (exact_prob h q) <= ln (exact_prob h path) + 2 * drift n * ln 10).
    { apply Rmult_le_compat_r with (r := ln 10) in LL; [|lra]. unfold Rdiv in LL. rewrite Rmult_plus_distr_r in LL. rewrite !Rmult_assoc, Rinv_l in LL by lra. lra. }
    rewrite <- (exp_ln (exact_prob h q)) by exact Xq. rewrite <- (exp_ln (exact_prob h path)) by exact Xp. unfold Rpower. rewrite <- exp_plus.
    destruct L2 as [L2|L2]; [left; apply exp_increasing; exact L2|right; now rewrite L2].
  Qed.
End Accuracy.
