(** Facts about the tables of the optimizer. *)
From Coq Require Import Lia Lra Reals.
From Flocq Require Import Core.Core IEEE754.BinarySingleNaN.
From Verif Require Import Base Fp Text Py KeyProfile KeyTransition Options OptTables Pipeline.
From Verif Require Import TextSpec PrintSpec ChromaSpec OptSpec FpFacts TextFacts NumberFacts ReadFacts FormatFacts PrintFacts FloatKit OptionFacts MainFacts.
Open Scope Z_scope.

(** ** Fifteen places *)
Lemma fifteen_spec v n : ZnearestE (v * IZR (10 ^ 15)) = n -> fifteen_places v = (IZR n * powerRZ 10 (- 15))%R.
Proof.
  intros <-. unfold fifteen_places, round, scaled_mantissa, cexp, FIX_exp, F2R. cbn [Fnum Fexp].
  change (- -15) with 15. rewrite (bpow10_IZR 15) by lia. now rewrite bpow10.
Qed.
Lemma fifteen_opp v : fifteen_places (- v) = (- fifteen_places v)%R.
Proof. apply round_NE_opp. Qed.
Lemma fifteen_0 : fifteen_places 0 = 0%R.
Proof. unfold fifteen_places. apply round_0. typeclasses eauto. Qed.
Lemma fraction_parts (x : b64) s m e B : x = B754_finite s m e B -> exists n d,
  (if e <? 0 then (Zpos m, 2 ^ (- e)) else (Zpos m * 2 ^ e, 1)) = (n, d) /\ 0 < n /\ 0 < d /\ (IZR n / IZR d = Rabs (B2R x))%R.
Proof.
  intros ->. unfold B2R. rewrite <- F2R_Zabs, abs_cond_Zopp. unfold F2R. cbn [Fnum Fexp]. destruct (Z.ltb_spec e 0) as [L|L]; eexists _, _; (split; [reflexivity|]).
  - assert (P : 0 < 2 ^ (- e)) by (apply Z.pow_pos_nonneg; lia). split; [lia|]. split; [exact P|].
    replace e with (- (- e)) at 2 by lia. rewrite bpow_opp. rewrite <- IZR_Zpower by lia. reflexivity.
  - split; [apply Z.mul_pos_pos; [lia|apply Z.pow_pos_nonneg; lia]|]. split; [lia|]. rewrite <- IZR_Zpower by lia. rewrite <- mult_IZR. change (Zpower radix2 e) with (2 ^ e).
    cbn [Z.abs]. field.
Qed.
Lemma digits_value_app a b : Forall is_dig b -> digits_value (a ++ b) = digits_value a * 10 ^ Z.of_nat (length b) + digits_value b.
Proof.
  intros _. induction b as [|d b IH] using rev_ind.
  - rewrite app_nil_r. cbn. lia.
  - rewrite app_assoc, !digits_value_snoc, IH, app_length. cbn [length]. rewrite Nat2Z.inj_add. change (Z.of_nat 1) with 1.
    rewrite Z.pow_add_r by lia. change (10 ^ 1) with 10. ring.
Qed.
Lemma fixed_numeral_text (x : b64) : is_finite x = true -> exists d, fixed15 x = show_decimal d /\ fixed_numeral x d.
Proof.
  intros F. destruct x as [s|s| |s m e B]; try discriminate.
  - exists (mkDecimal (if s then Minus else NoSign) [0] (Some (repeat 0 15)) None). split; [destruct s; vm_compute; reflexivity|].
    split; cbn [B2R Bsign d_mark d_exp d_int d_frac].
    + reflexivity.
    + split; [constructor; [unfold is_dig; lia|constructor]|]. split; [discriminate|reflexivity].
    + exists (repeat 0 15). split; [reflexivity|]. split; [|reflexivity]. apply Forall_forall. intros z H. apply repeat_spec in H. subst z. unfold is_dig. lia.
    + reflexivity.
    + rewrite fifteen_0. unfold decimal_value, mantissa, frac_digits. cbn [d_int d_frac d_exp d_mark app].
      replace (digits_value (0 :: repeat 0 15)) with 0 by reflexivity. destruct s; cbn [signed]; [change (- 0) with 0|]; apply Rmult_0_l.
  - set (x := B754_finite s m e B).
    assert (FG : fixed15 x = let '(n, d) := if e <? 0 then (Zpos m, 2 ^ (- e)) else (Zpos m * 2 ^ e, 1) in
      let v := round_even (n * 10 ^ 15) d in
      ((if s then "-" else "") ++ format_int (v / 10 ^ 15) ++ "." ++ to_digits 15 (v mod 10 ^ 15))%string) by reflexivity.
    rewrite FG. clear FG. destruct (fraction_parts x s m e B eq_refl) as (n & d & -> & N & D & V). cbv zeta.
    set (v := round_even (n * 10 ^ 15) d).
    assert (E : v = ZnearestE (Rabs (B2R x) * IZR (10 ^ 15))).
    { unfold v. rewrite round_even_spec by exact D. f_equal. rewrite mult_IZR, <- V. field. apply IZR_neq. lia. }
    assert (V0 : 0 <= v).
    { unfold v, round_even. assert (0 <= n * 10 ^ 15 / d) by (apply Z.div_pos; lia). repeat (match goal with |- context [if ?b then _ else _] => destruct b end); lia. }
    assert (Q0 : 0 <= v / 10 ^ 15) by (apply Z.div_pos; lia).
    destruct (format_int_spec (v / 10 ^ 15) Q0) as (ds & Ed & Dd & Vd & Nd & Hd).
    rewrite Ed, to_digits_show. exists (mkDecimal (if s then Minus else NoSign) ds (Some (digits_of 15 (v mod 10 ^ 15))) None). split.
    + unfold show_decimal. cbn [d_mark d_int d_frac d_exp show_frac show_exp]. rewrite show_mark_sign. now rewrite app_string_nil.
    + split; cbn [d_mark d_exp d_int d_frac].
      * reflexivity.
      * split; [exact Dd|split; assumption].
      * eexists. split; [reflexivity|]. split; [apply digits_of_dig|apply digits_of_length].
      * reflexivity.
      * unfold decimal_value, mantissa, frac_digits, exponent_value. cbn [d_int d_frac d_exp d_mark]. rewrite digits_of_length.
        rewrite digits_value_app by apply digits_of_dig. rewrite digits_of_length, Vd, digits_of_value.
        change (Z.of_nat 15) with 15. rewrite Z.mod_mod by lia. rewrite (Z.mul_comm (v / 10 ^ 15)), <- Z.div_mod by lia. change (0 - 15) with (- 15).
        assert (FV : fifteen_places (Rabs (B2R x)) = (IZR v * powerRZ 10 (- 15))%R) by (apply fifteen_spec; symmetry; exact E).
        destruct s; cbn [signed].
        -- assert (A : Rabs (B2R x) = (- B2R x)%R) by (apply Rabs_left; unfold x, B2R; apply F2R_lt_0; reflexivity).
           rewrite A, fifteen_opp in FV. rewrite opp_IZR. lra.
        -- assert (A : Rabs (B2R x) = B2R x) by (apply Rabs_pos_eq; unfold x, B2R; apply F2R_ge_0; discriminate).
           rewrite A in FV. symmetry. exact FV.
Qed.
Lemma fixed_formed x d : fixed_numeral x d -> well_formed d.
Proof.
  intros [_ (A & B & _) (f & E & C & _) X _]. unfold well_formed, mantissa, frac_digits. rewrite E, X. split; [apply Forall_app; now split|].
  split; [|exact I]. intros H. apply app_eq_nil in H. now destruct H.
Qed.
Lemma fifteen_int n : fifteen_places (IZR n) = IZR n.
Proof.
  unfold fifteen_places. apply round_generic; [typeclasses eauto|]. apply generic_format_FIX. exists (Float radix10 (n * 10 ^ 15) (-15)); [|reflexivity].
  unfold F2R. cbn [Fnum Fexp]. rewrite mult_IZR, bpow10. rewrite Rmult_assoc, <- (powerRZ_IZR 10 15) by lia. change (IZR 10) with 10%R.
  rewrite <- powerRZ_add by lra. change (15 + -15) with 0. cbn. lra.
Qed.
Lemma fifteen_le u v : (u <= v)%R -> (fifteen_places u <= fifteen_places v)%R.
Proof. intros H. unfold fifteen_places. apply round_le; [apply FIX_exp_valid|typeclasses eauto|exact H]. Qed.
Lemma fifteen_range (x : b64) d : is_finite x = true -> fixed_numeral x d -> ~ overflows 53 1024 d.
Proof.
  intros F K O. unfold overflows in O. rewrite (fx_value x d K) in O. revert O. apply Rlt_not_le.
  destruct x as [s|s| |s m e B]; try discriminate.
  - cbn [B2R]. rewrite fifteen_0, rounded_0, Rabs_R0 by reflexivity. apply bpow_gt_0.
  - destruct (Z_le_gt_dec 0 e) as [L|L].
    + assert (I : exists n, B2R (B754_finite s m e B : b64) = IZR n).
      { exists (cond_Zopp s (Zpos m) * 2 ^ e). unfold B2R, F2R. cbn [Fnum Fexp]. rewrite mult_IZR. f_equal. symmetry. now apply IZR_bpow. }
      destruct I as (n & I). rewrite I, fifteen_int, <- I. unfold rounded. rewrite round_generic; [|typeclasses eauto|].
      * apply (abs_B2R_lt_emax _ _ (B754_finite s m e B : b64)).
      * apply (generic_format_B2R 53 1024 (B754_finite s m e B)).
    + set (x := B754_finite s m e B : b64). assert (U : (Rabs (B2R x) <= IZR (2 ^ 53))%R).
      { unfold x, B2R. rewrite <- F2R_Zabs, abs_cond_Zopp. cbn [Z.abs]. rewrite IZR_bpow by lia.
        assert (B' := B). unfold SpecFloat.bounded in B'. apply andb_prop in B'. destruct B' as [B' _]. unfold SpecFloat.canonical_mantissa in B'. apply Zeq_bool_eq in B'.
        assert (P : Z.pos (SpecFloat.digits2_pos m) <= 53).
        { unfold SpecFloat.fexp, SpecFloat.emin, prec64, emax64 in B'. lia. }
        unfold F2R. cbn [Fnum Fexp]. apply Rle_trans with (IZR (Zpos m) * 1)%R.
        - apply Rmult_le_compat_l; [apply IZR_le; lia|]. change 1%R with (bpow radix2 0). apply bpow_le. lia.
        - rewrite Rmult_1_r, <- IZR_bpow by lia. apply IZR_le. rewrite Digits.Zpos_digits2_pos in P.
          pose proof (proj2 (Digits.Zdigits_correct radix2 (Zpos m))) as Z. change (Zpower radix2) with (Z.pow 2) in Z. cbn [Z.abs] in Z.
          assert (2 ^ Digits.Zdigits radix2 (Z.pos m) <= 2 ^ 53) by (apply Z.pow_le_mono_r; lia). lia. }
      assert (A : (Rabs (fifteen_places (B2R x)) <= IZR (2 ^ 53))%R).
      { apply Rabs_le. apply Rabs_le_inv in U. rewrite <- (fifteen_int (2 ^ 53)). rewrite <- fifteen_opp. split; apply fifteen_le; lra. }
      apply Rle_lt_trans with (IZR (2 ^ 53)).
      * unfold rounded. apply abs_round_le_generic; [typeclasses eauto|typeclasses eauto| |exact A].
        rewrite IZR_bpow by lia. apply generic_format_bpow. cbv. discriminate.
      * rewrite IZR_bpow by lia. apply bpow_lt. reflexivity.
Qed.
(** ** The text of a table *)
Lemma texts_numerals (l : table) : Forall (fun x => is_finite x = true) l -> exists ds, map fixed15 l = map show_decimal ds /\ Forall2 fixed_numeral l ds.
Proof.
  induction l as [|x l IH]; intros F; [exists []; now split|]. apply Forall_cons_iff in F. destruct F as [X F]. destruct (IH F) as (ds & E & K).
  destruct (fixed_numeral_text x X) as (d & Ed & Kd). exists (d :: ds). cbn [map]. rewrite Ed, E. split; [reflexivity|now constructor].
Qed.
Lemma join_cons s l : join_spaces (s :: l) = (s ++ match l with [] => "" | _ => String " " (join_spaces l) end)%string.
Proof. destruct l; [symmetry; apply app_string_nil|reflexivity]. Qed.
Lemma join_spaced d ds : join_spaces (map show_decimal (d :: ds)) = spaced ((""%string, d) :: map (pair " "%string) ds) "".
Proof.
  revert d. induction ds as [|e ds IH]; intros d; cbn [map spaced append].
  - cbn [join_spaces]. symmetry. apply app_string_nil.
  - rewrite join_cons. cbn [map]. rewrite <- map_cons, (IH e). cbn [spaced append]. reflexivity.
Qed.
Lemma fixed_transmitted (x : b64) d : is_finite x = true -> fixed_numeral x d -> transmitted x (nearest prec64 emax64 (numeral_of d)).
Proof.
  intros F K. pose proof (fixed_formed x d K) as W. destruct (nearest_numeral prec64 emax64 d (proj1 W)) as [((A & B & C) & _)|(O & _)].
  - split; [exact A|]. split; [rewrite B, (fx_value x d K); reflexivity|]. rewrite C, (fx_sign x d K). now destruct (Bsign x).
  - now elim (fifteen_range x d F K).
Qed.
Lemma table_text (l : table) : Forall (fun x => is_finite x = true) l -> exists ys, reads (join_spaces (map fixed15 l)) ys /\ Forall2 transmitted l ys.
Proof.
  intros F. destruct l as [|x l].
  - exists []. split; [|constructor]. constructor. apply spaces_readless. constructor.
  - destruct (texts_numerals (x :: l) F) as (ds & E & K). destruct ds as [|d ds]; [inversion K|]. rewrite E, join_spaced.
    exists (map (fun wd => nearest prec64 emax64 (numeral_of (snd wd))) ((""%string, d) :: map (pair " "%string) ds)). split.
    + apply reads_spaced; [constructor| |].
      * assert (G : Forall (fun d => in_range d) (d :: ds)).
        { clear E. revert F K. generalize (x :: l), (d :: ds). induction l0 as [|y l0 IH]; intros ds0 F K; inversion K; subst; [constructor|].
          apply Forall_cons_iff in F. destruct F as [Fy F]. constructor; [|now apply IH]. split; [exact (fixed_formed y _ H1)|exact (fifteen_range y _ Fy H1)]. }
        apply Forall_cons_iff in G. destruct G as [G1 G]. constructor; [split; [constructor|exact G1]|]. apply Forall_map. eapply Forall_impl; [|exact G].
        intros e He. split; [|exact He]. constructor; [left; reflexivity|constructor].
      * cbn [tl]. apply Forall_map. apply Forall_forall. intros e _. discriminate.
    + cbn [map snd]. rewrite map_map. cbn [snd]. change (Forall2 transmitted (x :: l) (map (fun d => nearest prec64 emax64 (numeral_of d)) (d :: ds))).
      clear E. revert F K. generalize (x :: l), (d :: ds). induction l0 as [|y l0 IH]; intros ds0 F K; inversion K; subst; [constructor|].
      apply Forall_cons_iff in F. destruct F as [Fy F]. cbn [map]. constructor; [now apply fixed_transmitted|now apply IH].
Qed.
Lemma stored_text (d : dict) name (l : table) : assoc String.eqb name d = Some l -> l <> [] -> Forall (fun x => is_finite x = true) l ->
  exists text ys, get_as_string d name = Some text /\ reads text ys /\ Forall2 transmitted l ys.
Proof.
  intros A N F. destruct (table_text l F) as (ys & R & T). exists (join_spaces (map fixed15 l)), ys. unfold get_as_string. rewrite A.
  destruct l; [now elim N|]. now split.
Qed.
(** ** Size of the loss *)
Lemma fifteen_error v : (Rabs (fifteen_places v - v) <= 1 / 2 * / 10 ^ 15)%R.
Proof.
  unfold fifteen_places. eapply Rle_trans; [apply error_le_half_ulp; typeclasses eauto|]. rewrite ulp_FIX, bpow10.
  change (powerRZ 10 (-15)) with (/ 10 ^ 15)%R. lra.
Qed.
Lemma fifteen_zero v : fifteen_places v = 0%R <-> (Rabs v <= 1 / 2 * / 10 ^ 15)%R.
Proof.
  assert (P : (0 < 10 ^ 15)%R) by (apply pow_lt; lra). split.
  - intros H. pose proof (fifteen_error v) as E. rewrite H in E. replace (0 - v)%R with (- v)%R in E by ring. now rewrite Rabs_Ropp in E.
  - intros H. rewrite (fifteen_spec v 0); [apply Rmult_0_l|]. replace (IZR (10 ^ 15)) with (10 ^ 15)%R by (rewrite <- powerRZ_IZR by lia; reflexivity).
    assert (B : (Rabs (v * 10 ^ 15) <= 1 / 2)%R).
    { rewrite Rabs_mult, (Rabs_pos_eq (10 ^ 15)) by lra. apply Rmult_le_reg_r with (/ 10 ^ 15)%R; [apply Rinv_0_lt_compat; exact P|].
      rewrite Rmult_assoc, Rinv_r, Rmult_1_r by lra. exact H. }
    set (u := (v * 10 ^ 15)%R) in *. clearbody u. clear - B. apply Rabs_le_inv in B. unfold Znearest.
    destruct (Rle_lt_dec 0 u) as [G|G].
    + rewrite (Zfloor_imp 0) by (cbn; lra). rewrite Rminus_0_r. destruct (Rcompare_spec u (/ 2)) as [C|C|C]; [reflexivity|reflexivity|lra].
    + assert (F : Zfloor u = (-1)%Z) by (apply Zfloor_imp; cbn; lra). assert (C : Zceil u = 0%Z) by (rewrite Zceil_floor_neq; rewrite F; [reflexivity|cbn; lra]).
      rewrite F, C. destruct (Rcompare_spec (u - IZR (-1)) (/ 2)) as [D|D|D]; [cbn in D; lra|reflexivity|reflexivity].
Qed.
Lemma transmitted_zero (x y : b64) : transmitted x y -> (B2R y = 0%R <-> (Rabs (B2R x) <= 1 / 2 * / 10 ^ 15)%R).
Proof.
  intros (_ & E & _). rewrite <- fifteen_zero. rewrite E. split; [|intros ->; now apply rounded_0].
  intros H. assert (L : exists n, fifteen_places (B2R x) = (IZR n * powerRZ 10 (-15))%R) by (eexists; now apply fifteen_spec).
  destruct L as (n & L). destruct (Z.eq_dec n 0) as [->|N]; [rewrite L; apply Rmult_0_l|]. exfalso.
  assert (T : (bpow radix2 (-50) <= Rabs (fifteen_places (B2R x)))%R).
  { rewrite L, Rabs_mult. assert (Q : (0 < powerRZ 10 (-15))%R) by (apply powerRZ_lt; lra). rewrite (Rabs_pos_eq (powerRZ _ _)) by lra.
    apply Rle_trans with (1 * powerRZ 10 (-15))%R.
    - rewrite Rmult_1_l. change (powerRZ 10 (-15)) with (/ 10 ^ 15)%R. replace (bpow radix2 (-50)) with (/ bpow radix2 50)%R by (symmetry; apply (bpow_opp radix2 50)). apply Rinv_le; [apply pow_lt; lra|]. rewrite <- IZR_bpow by lia.
      replace (10 ^ 15)%R with (IZR (10 ^ 15)) by (rewrite <- powerRZ_IZR by lia; reflexivity). apply IZR_le. vm_compute. discriminate.
    - apply Rmult_le_compat_r; [lra|]. rewrite <- abs_IZR. apply IZR_le. lia. }
  assert (T' : (bpow radix2 (-50) <= Rabs (rounded 53 1024 (fifteen_places (B2R x))))%R).
  { unfold rounded. apply abs_round_ge_generic; [typeclasses eauto|typeclasses eauto| |exact T]. apply generic_format_bpow. cbv. discriminate. }
  rewrite H, Rabs_R0 in T'. pose proof (bpow_gt_0 radix2 (-50)). lra.
Qed.
Lemma transmitted_le (x x' y y' : b64) : transmitted x y -> transmitted x' y' -> (B2R x <= B2R x')%R -> (B2R y <= B2R y')%R.
Proof.
  intros (_ & E & _) (_ & E' & _) L. rewrite E, E'. unfold rounded. apply round_le; [typeclasses eauto|typeclasses eauto|]. now apply fifteen_le.
Qed.
Lemma transmitted_unit (x y : b64) : transmitted x y -> (0 <= B2R x <= 1)%R -> (0 <= B2R y <= 1)%R /\ (Rabs (B2R y - B2R x) <= 62 / 10 ^ 17)%R.
Proof.
  intros (_ & E & _) (L & U). pose proof (fifteen_error (B2R x)) as F. apply fifteen_le in L, U. rewrite fifteen_0 in L. change 1%R with (IZR 1) in U. rewrite fifteen_int in U.
  set (v := fifteen_places (B2R x)) in *. change (rounded 53 1024 v) with (rnd v) in E.
  split; [rewrite E; split; [now apply rnd_ge0|apply rnd_ub; [apply (int_format 1); lia|exact U]]|].
  pose proof (rnd_error v) as G. rewrite <- E in G. rewrite (Rabs_pos_eq v) in G by exact L.
  assert (G2 : (Rabs (B2R y - v) <= 115 / 10 ^ 18)%R).
  { eapply Rle_trans; [exact G|]. apply Rle_trans with (bpow radix2 (-53) * 1 + bpow radix2 (-60))%R.
    - apply Rplus_le_compat; [apply Rmult_le_compat_l; [apply bpow_ge_0|exact U]|apply bpow_le; lia].
    - rewrite Rmult_1_r. change (bpow radix2 (-53)) with (/ 9007199254740992)%R. change (bpow radix2 (-60)) with (/ 1152921504606846976)%R. lra. }
  replace (B2R y - B2R x)%R with ((B2R y - v) + (v - B2R x))%R by ring. eapply Rle_trans; [apply Rabs_triang|].
  eapply Rle_trans; [apply Rplus_le_compat; [exact G2|exact F]|]. lra.
Qed.
(** ** Into the detector *)
Lemma Forall2_length_eq {A B} (R : A -> B -> Prop) l l' : Forall2 R l l' -> length l = length l'.
Proof. induction 1; cbn; congruence. Qed.
Lemma reach_detector (dk dt : dict) kp kt (lp lt : table) (o : options) g1 g2 g3 :
  assoc String.eqb kp dk = Some lp -> assoc String.eqb kt dt = Some lt -> length lp = 24%nat -> length lt = 24%nat ->
  Forall (fun x => is_finite x = true) lp -> Forall (fun x => is_finite x = true) lt ->
  o_profiles o = Some (as_argument (get_as_string dk kp)) -> o_transitions o = Some (as_argument (get_as_string dt kt)) ->
  length g1 = 12%nat -> length g2 = 12%nat -> length g3 = 24%nat ->
  exists major minor trans, choose_tables g1 g2 g3 o = Ret (Go (mkTables "custom" "custom" major minor "custom" trans)) /\
    Forall2 transmitted (firstn 12 lp) major /\ Forall2 transmitted (skipn 12 lp) minor /\ Forall2 transmitted lt trans.
Proof.
  intros A1 A2 L1 L2 F1 F2 O1 O2 G1 G2 G3.
  destruct (stored_text dk kp lp A1 ltac:(destruct lp; discriminate) F1) as (t1 & y1 & E1 & R1 & T1).
  destruct (stored_text dt kt lt A2 ltac:(destruct lt; discriminate) F2) as (t2 & y2 & E2 & R2 & T2).
  rewrite E1 in O1. rewrite E2 in O2. cbn [as_argument] in O1, O2.
  pose proof (Forall2_length_eq _ _ _ T1) as N1. pose proof (Forall2_length_eq _ _ _ T2) as N2.
  exists (firstn 12 y1), (skipn 12 y1), y2.
  rewrite (tables_custom o t1 t2 y1 y2 g1 g2 g3 O1 O2 R1 R2) by congruence. split; [reflexivity|].
  assert (S : Forall2 transmitted (firstn 12 lp ++ skipn 12 lp) (firstn 12 y1 ++ skipn 12 y1)) by now rewrite !firstn_skipn.
  apply Forall2_app_inv_l in S. destruct S as (a & b & Sa & Sb & E).
  assert (La : length a = length (firstn 12 y1)) by (rewrite <- (Forall2_length_eq _ _ _ Sa), !firstn_length; f_equal; exact N1).
  assert (a = firstn 12 y1 /\ b = skipn 12 y1) as [-> ->].
  { clear - E La. revert La E. generalize (firstn 12 y1), (skipn 12 y1). induction a as [|z a IH]; intros [|w l] m La E; cbn in *; try discriminate; [now split|].
    injection E as -> E. destruct (IH l m ltac:(lia) E) as [-> ->]. now split. }
  now split.
Qed.
Lemma none_unread : reads "None" [].
Proof. apply read_doubles_iff. vm_compute. reflexivity. Qed.
Lemma unknown_profile (dk : dict) kp (o : options) g1 g2 g3 : assoc String.eqb kp dk = None -> o_profiles o = Some (as_argument (get_as_string dk kp)) ->
  choose_tables g1 g2 g3 o = Ret (Help (count_message "profiles" 0)).
Proof. intros A O. unfold get_as_string in O. rewrite A in O. cbn [as_argument] in O. unfold choose_tables. rewrite O. vm_compute. reflexivity. Qed.
Lemma unknown_transition (dt : dict) kt (o : options) g1 g2 g3 : assoc String.eqb kt dt = None -> o_transitions o = Some (as_argument (get_as_string dt kt)) -> o_profiles o = None ->
  choose_tables g1 g2 g3 o = Ret (Help (count_message "transitions" 0)).
Proof. intros A O P. unfold get_as_string in O. rewrite A in O. cbn [as_argument] in O. unfold choose_tables. rewrite O, P. vm_compute. reflexivity. Qed.
(** ** The tables both programs store *)
Definition sf_same (x y : SpecFloat.spec_float) : bool :=
  match x, y with
  | SpecFloat.S754_zero a, SpecFloat.S754_zero b => Bool.eqb a b
  | SpecFloat.S754_infinity a, SpecFloat.S754_infinity b => Bool.eqb a b
  | SpecFloat.S754_nan, SpecFloat.S754_nan => true
  | SpecFloat.S754_finite a m e, SpecFloat.S754_finite b n f => Bool.eqb a b && Pos.eqb m n && Z.eqb e f
  | _, _ => false
  end.
Lemma sf_same_eq x y : sf_same x y = true -> x = y.
Proof.
  destruct x, y; cbn; try discriminate; intros H; try (apply eqb_prop in H; now subst); try reflexivity.
  apply andb_prop in H. destruct H as [H H3]. apply andb_prop in H. destruct H as [H1 H2]. apply eqb_prop in H1. apply Pos.eqb_eq in H2. apply Z.eqb_eq in H3. now subst.
Qed.
Fixpoint same_list (l l' : table) : bool :=
  match l, l' with [], [] => true | x :: l, y :: l' => sf_same (B2SF x) (B2SF y) && same_list l l' | _, _ => false end.
Lemma same_list_eq l l' : same_list l l' = true -> l = l'.
Proof.
  revert l'. induction l as [|x l IH]; intros [|y l']; cbn; try discriminate; [reflexivity|]. intros H. apply andb_prop in H. destruct H as [H1 H2].
  f_equal; [apply B2SF_inj; now apply sf_same_eq|now apply IH].
Qed.
Definition same_as (d : dict) (half : table -> table) (prefix : string) (e : string * table) : bool :=
  match assoc String.eqb (prefix ++ fst e)%string d with Some l => same_list (half l) (snd e) | None => false end.
Lemma same_as_spec d half prefix e : same_as d half prefix e = true -> exists l, assoc String.eqb (prefix ++ fst e)%string d = Some l /\ half l = snd e.
Proof. unfold same_as. destruct (assoc _ _ _) as [l|]; [|discriminate]. intros H. exists l. split; [reflexivity|now apply same_list_eq]. Qed.
Lemma same_majors name a : In (name, a) builtin_major -> exists l, assoc String.eqb name initial_profiles = Some l /\ firstn 12 l = a.
Proof.
  intros H. assert (C : forallb (same_as initial_profiles (firstn 12) "") builtin_major = true) by (vm_compute; reflexivity).
  rewrite forallb_forall in C. exact (same_as_spec _ _ _ _ (C _ H)).
Qed.
Lemma same_minors name a : In (name, a) builtin_minor -> exists l, assoc String.eqb name initial_profiles = Some l /\ skipn 12 l = a.
Proof.
  intros H. assert (C : forallb (same_as initial_profiles (skipn 12) "") builtin_minor = true) by (vm_compute; reflexivity).
  rewrite forallb_forall in C. exact (same_as_spec _ _ _ _ (C _ H)).
Qed.
Lemma same_transitions name a : In name ["linear"; "exponential2"; "exponential10"]%string -> In (name, a) builtin_transitions ->
  assoc String.eqb ("ktg_" ++ name)%string initial_transitions = Some a.
Proof.
  intros N H. assert (C : forallb (fun e => negb (elem (fst e) ["linear"; "exponential2"; "exponential10"]%string) || same_as initial_transitions (fun l => l) "ktg_" e) builtin_transitions = true)
    by (vm_compute; reflexivity).
  rewrite forallb_forall in C. specialize (C _ H). cbn [fst] in C. replace (elem name ["linear"; "exponential2"; "exponential10"]%string) with true in C
    by (cbn in N; destruct N as [<-|[<-|[<-|[]]]]; reflexivity).
  destruct (same_as_spec _ _ _ _ C) as (l & E & F). cbn [fst snd] in E, F. now rewrite E, F.
Qed.
(** Every stored table: 24 values between 0 and 1. *)
Definition unit_ok (x : b64) : bool := is_finite x && negb (Bsign x) && Bleb x (py_float 1).
Lemma unit_ok_spec x : unit_ok x = true -> is_finite x = true /\ (0 <= B2R x <= 1)%R.
Proof.
  unfold unit_ok. intros H. apply andb_prop in H. destruct H as [H U]. apply andb_prop in H. destruct H as [F N]. split; [exact F|].
  destruct (py_float_R 1 ltac:(lia)) as (F1 & E1). split.
  - destruct x as [s|s| |s m e B]; try discriminate; [apply Rle_refl|]. destruct s; [discriminate|]. unfold B2R. apply F2R_ge_0. discriminate.
  - rewrite Bleb_correct in U by assumption. rewrite E1 in U. destruct (Rle_bool_spec (B2R x) (IZR 1)); [assumption|discriminate].
Qed.
Lemma stored_tables name l : In (name, l) (initial_profiles ++ initial_transitions) -> length l = 24%nat /\ Forall (fun x => is_finite x = true /\ (0 <= B2R x <= 1)%R) l.
Proof.
  intros H. assert (C : forallb (fun e => (length (snd e) =? 24)%nat && forallb unit_ok (snd e)) (initial_profiles ++ initial_transitions) = true) by (vm_compute; reflexivity).
  rewrite forallb_forall in C. specialize (C _ H). cbn [snd] in C. apply andb_prop in C. destruct C as [C1 C2]. split; [now apply Nat.eqb_eq|].
  rewrite forallb_forall in C2. apply Forall_forall. intros x X. apply unit_ok_spec. now apply C2.
Qed.
(** ** Entering and mixing *)
Lemma assoc_assign {V} (d : list (string * V)) n v m : assoc String.eqb m (assign String.eqb n v d) = if (m =? n)%string then Some v else assoc String.eqb m d.
Proof.
  induction d as [|[k u] d IH]; cbn [assign assoc].
  - destruct (m =? n)%string; reflexivity.
  - destruct (String.eqb_spec n k) as [->|N]; cbn [assoc].
    + destruct (String.eqb_spec m k); reflexivity.
    + rewrite IH. destruct (String.eqb_spec m k) as [->|M]; [|reflexivity]. destruct (String.eqb_spec k n); [congruence|reflexivity].
Qed.
Lemma mix_known (d : dict) a b (la lb : table) : assoc String.eqb a d = Some la -> assoc String.eqb b d = Some lb ->
  exists d', mix d a b = (d', Some (a ++ "_" ++ b)%string) /\ assoc String.eqb (a ++ "_" ++ b)%string d' = Some (firstn 12 la ++ skipn 12 lb) /\
  forall n, n <> (a ++ "_" ++ b)%string -> assoc String.eqb n d' = assoc String.eqb n d.
Proof.
  intros A B. unfold mix. rewrite A, B. eexists. split; [reflexivity|]. unfold insert_profile. cbn [fst]. split.
  - rewrite assoc_assign. now rewrite String.eqb_refl.
  - intros n N. rewrite assoc_assign. destruct (String.eqb_spec n (a ++ "_" ++ b)%string); [contradiction|reflexivity].
Qed.
Lemma mix_unknown (d : dict) a b : assoc String.eqb a d = None \/ assoc String.eqb b d = None -> mix d a b = (d, None).
Proof. unfold mix. intros [-> | H]; [reflexivity|]. destruct (assoc String.eqb a d); [now rewrite H|reflexivity]. Qed.

Lemma hundredth : is_finite (dec 1 2) = true /\ (99 / 10000 <= B2R (dec 1 2) <= 101 / 10000)%R.
Proof.
  assert (E : B2SF (dec 1 2) = SpecFloat.S754_finite false 5764607523034235 (-59)) by (vm_compute; reflexivity).
  assert (F : is_finite (dec 1 2) = true) by (rewrite <- is_finite_SF_B2SF, E; reflexivity). split; [exact F|].
  rewrite <- SF2R_B2SF, E. unfold SF2R, F2R. cbn [Fnum Fexp cond_Zopp]. change (bpow radix2 (-59)) with (/ 576460752303423488)%R. split; lra.
Qed.
Lemma warning_iff (s : b64) : is_finite s = true -> (Rabs (B2R s) <= 2)%R ->
  sum_warning s = Rlt_bool (B2R (dec 1 2)) (rnd (1 - Rabs (B2R s))).
Proof.
  intros F L. unfold sum_warning, fgt. destruct (py_float_R 1 ltac:(lia)) as (F1 & E1).
  assert (FA : is_finite (Babs s) = true) by now rewrite is_finite_Babs. pose proof (B2R_Babs prec64 emax64 s) as EA.
  destruct (fsub_R (py_float 1) (Babs s) F1 FA) as (FS & ES).
  - rewrite E1, EA. apply Rle_trans with 3%R; [|apply Rle_trans with (bpow radix2 2); [change (bpow radix2 2) with 4%R; lra|apply bpow_le; lia]].
    pose proof (Rabs_pos (B2R s)). apply Rabs_le. change (IZR 1) with 1%R. lra.
  - rewrite Bltb_correct; [|apply hundredth|exact FS]. now rewrite ES, E1, EA.
Qed.
Lemma no_warning_from_99 (s : b64) : is_finite s = true -> (B2R (py_float 1) - B2R (dec 1 2) <= Rabs (B2R s) <= 2)%R -> sum_warning s = false.
Proof.
  intros F (L & U). rewrite warning_iff by assumption. rewrite (proj2 (py_float_R 1 ltac:(lia))) in L. change (IZR 1) with 1%R in L. apply Rlt_bool_false.
  apply rnd_ub; [apply generic_format_B2R|lra].
Qed.
Lemma warning_below (s : b64) : is_finite s = true -> (Rabs (B2R s) <= 989 / 1000)%R -> sum_warning s = true.
Proof.
  intros F L. rewrite warning_iff by (assumption || lra). apply Rlt_bool_true. destruct hundredth as (_ & _ & H).
  pose proof (rnd_error (1 - Rabs (B2R s))) as E. pose proof (Rabs_pos (B2R s)) as P. rewrite (Rabs_pos_eq (1 - _)) in E by lra.
  assert (E2 : (Rabs (rnd (1 - Rabs (B2R s)) - (1 - Rabs (B2R s))) <= / 1000000)%R).
  { eapply Rle_trans; [exact E|]. apply Rle_trans with (bpow radix2 (-53) * 1 + bpow radix2 (-53))%R.
    - apply Rplus_le_compat; [apply Rmult_le_compat_l; [apply bpow_ge_0|lra]|apply bpow_le; lia].
    - change (bpow radix2 (-53)) with (/ 9007199254740992)%R. lra. }
  apply Rabs_le_inv in E2. lra.
Qed.
Lemma too_large_unreported : exists s : b64, is_finite s = true /\ B2R s = 2%R /\ sum_warning s = false.
Proof.
  destruct (py_float_R 2 ltac:(lia)) as (F & E). exists (py_float 2). split; [exact F|]. split; [exact E|]. apply no_warning_from_99; [exact F|].
  rewrite E, (proj2 (py_float_R 1 ltac:(lia))). destruct hundredth as (_ & H). change (IZR 1) with 1%R. change (IZR 2) with 2%R. rewrite Rabs_pos_eq by lra. lra.
Qed.
(** The weight of the remotest key in ktg_experiment6. *)
Definition small_weight : b64 := dec 15724030710075827 28.
Lemma small_weight_value : B2R small_weight = (7786162877982318 / 4951760157141521099596496896)%R.
Proof.
  assert (E : B2SF small_weight = SpecFloat.S754_finite false 7786162877982318 (-92)) by (vm_compute; reflexivity).
  rewrite <- SF2R_B2SF, E. unfold SF2R, F2R. cbn [Fnum Fexp cond_Zopp].
  change (bpow radix2 (-92)) with (/ 4951760157141521099596496896)%R. reflexivity.
Qed.
Lemma between_format : generic_format radix2 fexp64 (7785000000000000 / 4951760157141521099596496896)%R.
Proof.
  change (7785000000000000 / 4951760157141521099596496896)%R with (F2R (Float radix2 7785000000000000 (-92))).
  apply (generic_format_FLT radix2 (-1074) 53). exists (Float radix2 7785000000000000 (-92)); [reflexivity| |]; cbn; lia.
Qed.
Lemma lost_digits : exists l x, assoc String.eqb "ktg_experiment6"%string initial_transitions = Some l /\ nth_error l 6 = Some x /\ forall y, transmitted x y -> B2R y <> B2R x.
Proof.
  eexists _, small_weight. split; [reflexivity|]. split; [reflexivity|]. intros y (_ & E & _) H. rewrite small_weight_value in H, E.
  rewrite (fifteen_spec _ 1572) in E.
  - change (rounded 53 1024 (IZR 1572 * powerRZ 10 (- 15))) with (rnd (IZR 1572 * powerRZ 10 (- 15))) in E. change (powerRZ 10 (- 15)) with (/ 10 ^ 15)%R in E.
    pose proof (rnd_ub (IZR 1572 * / 10 ^ 15) _ between_format ltac:(lra)) as U. rewrite <- E, H in U. lra.
  - apply Znearest_imp. replace (IZR (10 ^ 15)) with (10 ^ 15)%R by (rewrite <- powerRZ_IZR by lia; reflexivity). apply Rabs_lt. lra.
Qed.
