(** Facts about printing numbers. *)
From Coq Require Import Lia Ascii Reals Lra.
From Flocq Require Import Core.Core IEEE754.BinarySingleNaN.
From Verif Require Import Base BaseFacts Fp PitchClass Text TextSpec TextFacts NumberFacts FormatFacts ChromaSpec PrintSpec.
From Coq Require Import ZifyBool ZifyNat.
Open Scope Z_scope.

(** ** The decimal exponent *)
Lemma bpow10 e : bpow radix10 e = powerRZ 10 e.
Proof. rewrite bpow_powerRZ. reflexivity. Qed.
Lemma bpow10_IZR e : 0 <= e -> bpow radix10 e = IZR (10 ^ e).
Proof. intros H. rewrite bpow10. apply (powerRZ_IZR 10). exact H. Qed.
Lemma le_div a n d : 0 < d -> a * d <= n -> (IZR a <= IZR n / IZR d)%R.
Proof.
  intros D H. apply Rmult_le_reg_r with (IZR d); [apply IZR_lt; exact D|]. unfold Rdiv. rewrite Rmult_assoc, Rinv_l, Rmult_1_r by (apply IZR_neq; lia).
  rewrite <- mult_IZR. apply IZR_le. exact H.
Qed.
Lemma lt_div a n d : 0 < d -> n < a * d -> (IZR n / IZR d < IZR a)%R.
Proof.
  intros D H. apply Rmult_lt_reg_r with (IZR d); [apply IZR_lt; exact D|]. unfold Rdiv. rewrite Rmult_assoc, Rinv_l, Rmult_1_r by (apply IZR_neq; lia).
  rewrite <- mult_IZR. apply IZR_lt. exact H.
Qed.
Lemma decimal_exponent_spec n d : 0 < n -> 0 < d ->
  (bpow radix10 (decimal_exponent n d) <= IZR n / IZR d < bpow radix10 (decimal_exponent n d + 1))%R.
Proof.
  intros N D. unfold decimal_exponent. destruct (Z.leb_spec d n) as [L|L].
  - assert (Q : 0 < n / d) by (apply Z.div_str_pos; lia). destruct (width_spec (n / d) Q) as (W & A & B).
    replace (width (n / d) - 1 + 1) with (width (n / d)) by lia. rewrite !bpow10_IZR by lia.
    pose proof (Z.div_mod n d ltac:(lia)). pose proof (Z.mod_pos_bound n d D). split; [apply le_div|apply lt_div]; nia.
  - set (c := (d + n - 1) / n).
    assert (C1 : n * (c - 1) < d) by (unfold c; pose proof (Z.div_mod (d + n - 1) n ltac:(lia)); pose proof (Z.mod_pos_bound (d + n - 1) n N); nia).
    assert (C2 : d <= n * c) by (unfold c; pose proof (Z.div_mod (d + n - 1) n ltac:(lia)); pose proof (Z.mod_pos_bound (d + n - 1) n N); nia).
    assert (C : 0 < c - 1) by nia. destruct (width_spec (c - 1) C) as (W & A & B). set (w := width (c - 1)) in *.
    assert (E : forall e, 0 <= e -> bpow radix10 (- e) = (/ IZR (10 ^ e))%R) by (intros e He; rewrite bpow_opp, bpow10_IZR by exact He; reflexivity).
    replace (- w + 1) with (- (w - 1)) by lia. rewrite !E by lia.
    assert (N' : (0 < IZR n)%R) by (apply IZR_lt; exact N). assert (D' : (0 < IZR d)%R) by (apply IZR_lt; exact D).
    assert (P1 : 0 < 10 ^ w) by lia. assert (P2 : 0 < 10 ^ (w - 1)) by (apply Z.pow_pos_nonneg; lia).
    apply IZR_lt in P1, P2.
    replace (IZR n / IZR d)%R with (/ (IZR d / IZR n))%R by (field; split; apply Rgt_not_eq; assumption).
    assert (Q : (0 < IZR d / IZR n)%R) by (apply Rdiv_lt_0_compat; assumption).
    split.
    + apply Rinv_le; [exact Q|]. apply Rmult_le_reg_r with (IZR n); [exact N'|]. unfold Rdiv. rewrite Rmult_assoc, Rinv_l, Rmult_1_r by (apply Rgt_not_eq; assumption).
      rewrite <- mult_IZR. apply IZR_le. nia.
    + apply Rinv_lt_contravar; [apply Rmult_lt_0_compat; assumption|]. apply Rmult_lt_reg_r with (IZR n); [exact N'|].
      unfold Rdiv. rewrite Rmult_assoc, Rinv_l, Rmult_1_r by (apply Rgt_not_eq; assumption). rewrite <- mult_IZR. apply IZR_lt. nia.
Qed.

(** ** Rounding to six digits *)
Lemma round_even_spec n d : 0 < d -> round_even n d = ZnearestE (IZR n / IZR d).
Proof.
  intros D. assert (D' : (0 < IZR d)%R) by (apply IZR_lt; exact D).
  pose proof (Z.div_mod n d ltac:(lia)) as M. pose proof (Z.mod_pos_bound n d D) as B. set (q := n / d) in *. set (r := n mod d) in *.
  assert (E : (IZR n / IZR d - IZR q = IZR r / IZR d)%R).
  { rewrite M, plus_IZR, mult_IZR. field. apply Rgt_not_eq. exact D'. }
  assert (H : forall x, (x * IZR d / IZR d = x)%R) by (intros x; field; apply Rgt_not_eq; exact D').
  unfold Znearest. rewrite Zfloor_div by lia. fold q. rewrite E. unfold round_even. fold q r.
  assert (C : 0 < r -> Zceil (IZR n / IZR d) = q + 1).
  { intros R0. rewrite Zceil_floor_neq; rewrite Zfloor_div by lia; fold q; [reflexivity|]. intros X.
    assert (Y : (IZR r / IZR d = 0)%R) by (rewrite <- E, X; apply Rminus_diag_eq; reflexivity).
    assert (0 < IZR r / IZR d)%R by (apply Rdiv_lt_0_compat; [apply IZR_lt; lia|exact D']). lra. }
  destruct (Z.ltb_spec (2 * r) d) as [L|L].
  - rewrite Rcompare_Lt; [reflexivity|]. apply Rmult_lt_reg_r with (IZR d); [exact D'|]. unfold Rdiv. rewrite Rmult_assoc, Rinv_l, Rmult_1_r by (apply Rgt_not_eq; exact D').
    apply IZR_lt in L. rewrite mult_IZR in L. lra.
  - destruct (Z.ltb_spec d (2 * r)) as [L'|L'].
    + rewrite Rcompare_Gt; [symmetry; apply C; lia|]. apply Rmult_lt_reg_r with (IZR d); [exact D'|]. unfold Rdiv. rewrite Rmult_assoc, Rinv_l, Rmult_1_r by (apply Rgt_not_eq; exact D').
      apply IZR_lt in L'. rewrite mult_IZR in L'. lra.
    + assert (R2 : 2 * r = d) by lia. rewrite Rcompare_Eq; [|rewrite <- R2, mult_IZR; field; apply Rgt_not_eq; apply IZR_lt; lia].
      rewrite C by lia. destruct (Z.even q); reflexivity.
Qed.
(** The digits of a positive number: a whole number of six digits times a power of ten. *)
Lemma six_digits_spec n d : 0 < n -> 0 < d ->
  let '(m, k) := six_digits n d in
  100000 <= m < 1000000 /\ six_figures (IZR n / IZR d) = (IZR m * bpow radix10 (k - 5))%R.
Proof.
  intros N D. unfold six_digits. pose proof (decimal_exponent_spec n d N D) as H. set (k := decimal_exponent n d) in *.
  set (v := (IZR n / IZR d)%R) in *.
  assert (E : (if k <=? 5 then round_even (n * 10 ^ (5 - k)) d else round_even n (d * 10 ^ (k - 5))) = ZnearestE (v * bpow radix10 (5 - k))).
  { assert (D' : (0 < IZR d)%R) by (apply IZR_lt; exact D).
    destruct (Z.leb_spec k 5) as [L|L].
    - rewrite round_even_spec by exact D. f_equal. rewrite mult_IZR, bpow10_IZR by lia. unfold v. field. apply Rgt_not_eq. exact D'.
    - assert (P : 0 < 10 ^ (k - 5)) by (apply Z.pow_pos_nonneg; lia).
      rewrite round_even_spec by nia. f_equal. rewrite mult_IZR. replace (5 - k) with (- (k - 5)) by lia. rewrite bpow_opp, bpow10_IZR by lia. unfold v.
      apply IZR_lt in P. field. split; apply Rgt_not_eq; assumption. }
  rewrite E. clear E. set (m := ZnearestE (v * bpow radix10 (5 - k))).
  assert (V : six_figures v = (IZR m * bpow radix10 (k - 5))%R).
  { unfold six_figures, round, F2R, scaled_mantissa, cexp. cbn [Fnum Fexp]. rewrite (mag_unique_pos radix10 v (k + 1)) by (replace (k + 1 - 1) with k by lia; exact H).
    unfold FLX_exp. replace (k + 1 - 6) with (k - 5) by lia. replace (- (k - 5)) with (5 - k) by lia. reflexivity. }
  assert (B : 100000 <= m <= 1000000).
  { assert (L : (IZR 100000 <= v * bpow radix10 (5 - k))%R).
    { change (IZR 100000) with (IZR (10 ^ 5)). rewrite <- bpow10_IZR by lia. replace 5 with (k + (5 - k)) at 1 by lia. rewrite bpow_plus. apply Rmult_le_compat_r; [apply bpow_ge_0|apply H]. }
    assert (U : (v * bpow radix10 (5 - k) <= IZR 1000000)%R).
    { change (IZR 1000000) with (IZR (10 ^ 6)). rewrite <- bpow10_IZR by lia. replace 6 with (k + 1 + (5 - k)) at 1 by lia. rewrite bpow_plus. apply Rmult_le_compat_r; [apply bpow_ge_0|apply Rlt_le, H]. }
    pose proof (Zrnd_le ZnearestE _ _ L) as L1. pose proof (Zrnd_le ZnearestE _ _ U) as U1. rewrite !Zrnd_IZR in L1, U1 by typeclasses eauto. split; assumption. }
  destruct (Z.eqb_spec m 1000000) as [M|M].
  - split; [lia|]. rewrite V, M. replace (k + 1 - 5) with (1 + (k - 5)) by lia. rewrite bpow_plus. change (bpow radix10 1) with 10%R. rewrite <- Rmult_assoc, <- mult_IZR. reflexivity.
  - split; [lia|exact V].
Qed.

(** ** Digits *)
Lemma substring_show l n m : substring n m (show_digits l) = show_digits (firstn m (skipn n l)).
Proof.
  revert n m. induction l as [|d l IH]; intros n m.
  - rewrite skipn_nil, firstn_nil. destruct n, m; reflexivity.
  - destruct n as [|n]; [|cbn [skipn show_digits substring]; apply IH]. destruct m as [|m]; [reflexivity|]. cbn [skipn firstn show_digits substring].
    f_equal. apply (IH 0%nat m).
Qed.
Fixpoint strip (l : list Z) : list Z :=
  match l with [] => [] | d :: l' => match strip l' with [] => if d =? 0 then [] else [d] | t => d :: t end end.
Lemma show_zero d : is_dig d -> (show_digit d =? "0")%char = (d =? 0).
Proof. intros H. apply dig_cases in H. cbn [In] in H. repeat (destruct H as [<-|H]; [reflexivity|]). destruct H. Qed.
Lemma strip_show l : Forall is_dig l -> strip_zeros (show_digits l) = show_digits (strip l).
Proof.
  induction 1 as [|d l D F IH]; [reflexivity|]. cbn [show_digits strip_zeros strip]. rewrite IH. destruct (strip l) as [|x t]; cbn [show_digits]; [|reflexivity].
  rewrite show_zero by exact D. destruct (d =? 0); reflexivity.
Qed.
Lemma strip_split l : exists n, l = strip l ++ repeat 0 n.
Proof.
  induction l as [|d l (n & IH)]; [exists 0%nat; reflexivity|]. cbn [strip]. destruct (strip l) as [|x t].
  - destruct (Z.eqb_spec d 0) as [->|N]; [exists (S n)|exists n]; cbn; now rewrite IH at 1.
  - exists n. cbn in *. now rewrite IH at 1.
Qed.
Lemma strip_last l : strip l <> [] -> last (strip l) 0 <> 0.
Proof.
  induction l as [|d l IH]; [intros H; now elim H|]. cbn [strip]. destruct (strip l) as [|x t] eqn:E.
  - destruct (Z.eqb_spec d 0) as [->|N]; [intros H; now elim H|]. intros _. exact N.
  - intros _. change (last (d :: x :: t) 0) with (last (x :: t) 0). apply IH. discriminate.
Qed.
Lemma strip_dig l : Forall is_dig l -> Forall is_dig (strip l).
Proof. intros H. destruct (strip_split l) as (n & E). rewrite E in H. apply Forall_app in H. apply H. Qed.
Lemma digits_value_zeros a n : digits_value (a ++ repeat 0 n) = digits_value a * 10 ^ Z.of_nat n.
Proof.
  induction n as [|n IH]; [cbn [repeat]; rewrite app_nil_r; change (10 ^ Z.of_nat 0) with 1; lia|].
  replace (repeat 0 (S n)) with (repeat 0 n ++ [0]) by (symmetry; apply (repeat_cons n 0)).
  rewrite app_assoc, digits_value_snoc, IH. rewrite Nat2Z.inj_succ, Z.pow_succ_r by lia. lia.
Qed.
Definition frac_of (l : list Z) : option (list Z) := match strip l with [] => None | t => Some t end.
Lemma point_show l : Forall is_dig l -> point (show_digits l) = show_frac (frac_of l).
Proof. intros H. unfold point, frac_of. rewrite strip_show by exact H. destruct (strip l) as [|x t]; reflexivity. Qed.
Lemma frac_of_digits l : match frac_of l with Some ds => ds | None => [] end = strip l.
Proof. unfold frac_of. destruct (strip l); reflexivity. Qed.
Lemma value_parts mk a l e :
  decimal_value (mkDecimal mk a (frac_of l) e) =
  (IZR (signed mk (digits_value (a ++ l))) * powerRZ 10 (exponent_value (mkDecimal mk a (frac_of l) e) - Z.of_nat (length l)))%R.
Proof.
  unfold decimal_value, mantissa, frac_digits. cbn [d_mark d_int d_frac]. rewrite frac_of_digits. destruct (strip_split l) as (n & E).
  set (ev := exponent_value _). rewrite E at 3 4. rewrite app_assoc, digits_value_zeros, app_length, repeat_length.
  set (v := digits_value (a ++ strip l)). replace (ev - Z.of_nat (length (strip l))) with (Z.of_nat n + (ev - Z.of_nat (length (strip l) + n))) by lia.
  rewrite powerRZ_add by lra. rewrite (powerRZ_IZR 10) by lia. rewrite <- Rmult_assoc. f_equal. rewrite <- mult_IZR. f_equal. destruct mk; cbn [signed]; lia.
Qed.
Lemma six_list m : 100000 <= m < 1000000 -> exists a t, digits_of 6 m = a :: t /\ a <> 0 /\ length t = 5%nat.
Proof.
  intros H. cbn [digits_of app]. eexists _, _. split; [reflexivity|]. split; [|reflexivity].
  rewrite !Z.div_div by lia. pose proof (Z.div_le_lower_bound m (10 * 10 * 10 * 10 * 10) 1). pose proof (Z.div_lt_upper_bound m (10 * 10 * 10 * 10 * 10) 10).
  rewrite Z.mod_small; lia.
Qed.
Lemma digits_of_zero n : digits_of n 0 = repeat 0 n.
Proof.
  induction n as [|n IH]; [reflexivity|]. cbn [digits_of]. change (0 / 10) with 0. change (0 mod 10) with 0. rewrite IH. symmetry. apply (repeat_cons n 0).
Qed.
Lemma digits_value_lead n l : digits_value (repeat 0 n ++ l) = digits_value l.
Proof. induction n as [|n IH]; [reflexivity|]. exact IH. Qed.
Lemma frac_tidy l : match frac_of l with None => True | Some f => f <> [] /\ last f 0 <> 0 end.
Proof. unfold frac_of. pose proof (strip_last l) as H. destruct (strip l) as [|x t]; [exact I|]. split; [discriminate|]. apply H. discriminate. Qed.
Lemma firstn_dig n l : Forall is_dig l -> Forall is_dig (firstn n l).
Proof. intros H. rewrite <- (firstn_skipn n l) in H. apply Forall_app in H. apply H. Qed.
Lemma skipn_dig n l : Forall is_dig l -> Forall is_dig (skipn n l).
Proof. intros H. rewrite <- (firstn_skipn n l) in H. apply Forall_app in H. apply H. Qed.
Lemma frac_formed mk a l e : Forall is_dig a -> Forall is_dig l -> a <> [] -> match e with Some (_, _, ds) => Forall is_dig ds /\ ds <> [] | None => True end ->
  well_formed (mkDecimal mk a (frac_of l) e).
Proof.
  intros A L N E. unfold well_formed, mantissa, frac_digits. cbn [d_int d_frac d_exp]. rewrite frac_of_digits. split; [apply Forall_app; split; [exact A|apply strip_dig; exact L]|].
  split; [|exact E]. intros H. apply app_eq_nil in H. now apply N.
Qed.
(** The text made from six digits and an exponent is a tidy numeral. *)
Lemma format_digits_spec mk m k : 100000 <= m < 1000000 -> exists d,
  (show_mark mk ++ format_digits m k)%string = show_decimal d /\ d_mark d = mk /\ well_formed d /\ tidy d /\
  decimal_value d = (IZR (signed mk m) * powerRZ 10 (k - 5))%R /\ (d_exp d = None <-> -4 <= k <= 5).
Proof.
  intros M. destruct (six_list m M) as (a & t & E & A & T).
  pose proof (digits_of_dig 6 m) as G. pose proof (digits_of_value 6 m) as V. change (10 ^ Z.of_nat 6) with 1000000 in V. rewrite Z.mod_small in V by lia.
  unfold format_digits. rewrite to_digits_show. rewrite !substring_show. rewrite !to_digits_show. rewrite <- show_digits_app.
  set (l := digits_of 6 m) in *. assert (LL : length l = 6%nat) by apply digits_of_length.
  destruct ((k <? -4) || (6 <=? k)) eqn:C.
  - set (w := Z.to_nat (Z.max 2 (width (Z.abs k)))).
    assert (W : (Z.abs k < 10 ^ Z.of_nat w) /\ ((2 < w)%nat -> 10 ^ (Z.of_nat w - 1) <= Z.abs k) /\ (2 <= w)%nat).
    { destruct (width_spec (Z.abs k) ltac:(lia)) as (W & L & U). unfold w. rewrite Z2Nat.id by lia. repeat split; [|intros X|lia].
      - eapply Z.lt_le_trans; [exact U|]. apply Z.pow_le_mono_r; lia.
      - rewrite Z.max_r by lia. exact L. }
    exists (mkDecimal mk (firstn 1 l) (frac_of (skipn 1 l)) (Some (false, if k <? 0 then Minus else Plus, digits_of w (Z.abs k)))).
    unfold show_decimal. cbn [d_mark d_int d_frac d_exp show_exp]. rewrite point_show by (apply firstn_dig, skipn_dig; exact G).
    rewrite (firstn_all2 (n := 5) (skipn 1 l)) by (rewrite skipn_length, LL; lia).
    refine (conj _ (conj eq_refl (conj _ (conj _ (conj _ (conj _ _)))))); [| |refine (Build_tidy _ (conj _ _) _ _); [| | |refine (conj eq_refl (conj _ (conj _ (conj _ _))))]| | |].
    + change (skipn 0 l) with l. destruct (k <? 0); reflexivity.
    + apply frac_formed; [apply firstn_dig; exact G|apply skipn_dig; exact G|rewrite E; discriminate|]. split; [apply digits_of_dig|].
      intros X. apply (f_equal (@length Z)) in X. rewrite digits_of_length in X. cbn in X. lia.
    + cbn [d_int]. rewrite E. discriminate.
    + cbn [d_int]. rewrite E. cbn. intros X. now elim A.
    + apply frac_tidy.
    + cbn [d_exp]. destruct (k <? 0); discriminate.
    + cbn [d_exp]. rewrite digits_of_length. apply W.
    + cbn [d_exp]. rewrite digits_of_length. intros X. destruct W as (U & L & _). specialize (L X). destruct w as [|w']; [lia|].
      assert (HD : forall n v, hd 0 (digits_of (S n) v) = v / 10 ^ Z.of_nat n mod 10).
      { clear. intros n. induction n as [|n IH]; intros v.
        - cbn. now rewrite Z.div_1_r.
        - change (digits_of (S (S n)) v) with (digits_of (S n) (v / 10) ++ [v mod 10]). specialize (IH (v / 10)).
          destruct (digits_of (S n) (v / 10)) as [|x y] eqn:Q; [apply (f_equal (@length Z)) in Q; rewrite digits_of_length in Q; discriminate|].
          cbn [app hd] in *. rewrite IH, Z.div_div by (try lia; apply Z.pow_nonzero; lia). rewrite Nat2Z.inj_succ, Z.pow_succ_r by lia. reflexivity. }
      rewrite HD. replace (Z.of_nat (S w') - 1) with (Z.of_nat w') in L by lia. rewrite Nat2Z.inj_succ, Z.pow_succ_r in U by lia.
      pose proof (Z.div_le_lower_bound (Z.abs k) (10 ^ Z.of_nat w') 1). pose proof (Z.div_lt_upper_bound (Z.abs k) (10 ^ Z.of_nat w') 10).
      rewrite Z.mod_small; lia.
    + cbn [d_exp d_int]. rewrite E. cbn. exists a. split; [reflexivity|exact A].
    + rewrite value_parts. rewrite firstn_skipn, V. f_equal. f_equal. rewrite skipn_length, LL. unfold exponent_value. cbn [d_exp]. rewrite digits_of_value, Z.mod_small by lia.
      destruct (Z.ltb_spec k 0); cbn [signed]; lia.
    + discriminate.
    + intros X. lia.
  - destruct (Z.ltb_spec k 0) as [K|K].
    + rewrite point_show by (apply Forall_app; split; [apply digits_of_dig|exact G]).
      exists (mkDecimal mk [0] (frac_of (digits_of (Z.to_nat (- k - 1)) 0 ++ l)) None). unfold show_decimal. cbn [d_mark d_int d_frac d_exp show_exp].
      refine (conj _ (conj eq_refl (conj _ (conj _ (conj _ (conj _ _)))))); [| |refine (Build_tidy _ (conj _ _) _ _); [| | |exact I]| | |].
      * now rewrite app_string_nil.
      * apply frac_formed; [|apply Forall_app; split; [apply digits_of_dig|exact G]|discriminate|exact I]. constructor; [unfold is_dig; lia|constructor].
      * discriminate.
      * reflexivity.
      * apply frac_tidy.
      * rewrite value_parts. rewrite digits_of_zero. change ([0] ++ repeat 0 (Z.to_nat (- k - 1)) ++ l) with (repeat 0 (S (Z.to_nat (- k - 1))) ++ l).
        rewrite digits_value_lead, V. f_equal. f_equal. rewrite app_length, repeat_length, LL. unfold exponent_value. cbn [d_exp]. lia.
      * intros _. lia.
      * reflexivity.
    + rewrite point_show by (apply firstn_dig, skipn_dig; exact G). change (skipn 0 l) with l.
      rewrite (firstn_all2 (n := Z.to_nat (5 - k)) (skipn (Z.to_nat (k + 1)) l)) by (rewrite skipn_length, LL; lia).
      exists (mkDecimal mk (firstn (Z.to_nat (k + 1)) l) (frac_of (skipn (Z.to_nat (k + 1)) l)) None). unfold show_decimal. cbn [d_mark d_int d_frac d_exp show_exp].
      assert (K1 : exists j, Z.to_nat (k + 1) = S j) by (exists (Z.to_nat k); lia). destruct K1 as (j & K1).
      refine (conj _ (conj eq_refl (conj _ (conj _ (conj _ (conj _ _)))))); [| |refine (Build_tidy _ (conj _ _) _ _); [| | |exact I]| | |].
      * now rewrite app_string_nil.
      * apply frac_formed; [apply firstn_dig; exact G|apply skipn_dig; exact G| |exact I]. rewrite K1, E. discriminate.
      * cbn [d_int]. rewrite K1, E. discriminate.
      * cbn [d_int]. rewrite K1, E. cbn. intros X. now elim A.
      * apply frac_tidy.
      * rewrite value_parts. rewrite firstn_skipn, V. f_equal. f_equal. rewrite skipn_length, LL. unfold exponent_value. cbn [d_exp]. lia.
      * intros _. lia.
      * reflexivity.
Qed.

(** ** The printed text *)
Lemma six_figures_0 : six_figures 0 = 0%R.
Proof. unfold six_figures. apply round_0. typeclasses eauto. Qed.
Lemma six_figures_opp v : six_figures (- v) = (- six_figures v)%R.
Proof. apply round_NE_opp. Qed.
Lemma show_mark_sign (s : bool) (t : string) : ((if s then "-" else "") ++ t = show_mark (if s : bool then Minus else NoSign) ++ t)%string.
Proof. destruct s; reflexivity. Qed.
Lemma format_printed x : is_finite x = true -> exists d, format_g x = show_decimal d /\ printed x d.
Proof.
  intros F. destruct x as [s|s| |s m e B]; try discriminate.
  - exists (mkDecimal (if s then Minus else NoSign) [0] None None). split; [destruct s; reflexivity|].
    assert (Z0 : Forall is_dig [0]) by (constructor; [unfold is_dig; lia|constructor]).
    split; cbn [B2R Bsign d_mark d_exp d_int d_frac].
    + unfold well_formed, mantissa, frac_digits. cbn [d_int d_frac d_exp app]. repeat split; [exact Z0|discriminate].
    + split; cbn [d_mark d_exp d_int d_frac]; repeat split. discriminate.
    + reflexivity.
    + rewrite six_figures_0. unfold decimal_value, mantissa, frac_digits. cbn [d_int d_frac d_exp d_mark app]. destruct s; cbn; lra.
    + split; [left; reflexivity|reflexivity].
  - set (x := B754_finite s m e B).
    assert (FG : format_g x = let '(n, d) := if e <? 0 then (Zpos m, 2 ^ (- e)) else (Zpos m * 2 ^ e, 1) in
      let '(ds, k) := six_digits n d in ((if s then "-" else "") ++ format_digits ds k)%string) by reflexivity.
    rewrite FG. clear FG.
    assert (ND : exists n d, (if e <? 0 then (Zpos m, 2 ^ (- e)) else (Zpos m * 2 ^ e, 1)) = (n, d) /\ 0 < n /\ 0 < d /\ (IZR n / IZR d = Rabs (B2R x))%R).
    { unfold x, B2R. rewrite <- F2R_Zabs, abs_cond_Zopp. unfold F2R. cbn [Fnum Fexp]. destruct (Z.ltb_spec e 0) as [L|L]; eexists _, _; (split; [reflexivity|]).
      - assert (P : 0 < 2 ^ (- e)) by (apply Z.pow_pos_nonneg; lia). split; [lia|]. split; [exact P|].
        replace e with (- (- e)) at 2 by lia. rewrite bpow_opp. rewrite <- IZR_Zpower by lia. reflexivity.
      - split; [apply Z.mul_pos_pos; [lia|apply Z.pow_pos_nonneg; lia]|]. split; [lia|]. rewrite <- IZR_Zpower by lia. rewrite <- mult_IZR. change (Zpower radix2 e) with (2 ^ e).
        cbn [Z.abs]. field. }
    destruct ND as (n & d & -> & N & D & V). pose proof (six_digits_spec n d N D) as S. destruct (six_digits n d) as (ds, k). destruct S as (M & S). rewrite V in S.
    rewrite show_mark_sign. destruct (format_digits_spec (if s then Minus else NoSign) ds k M) as (q & E & K & W & T & Q & X). exists q. split; [exact E|].
    assert (S' : six_figures (B2R x) = (IZR (signed (if s then Minus else NoSign) ds) * bpow radix10 (k - 5))%R).
    { destruct s; cbn [signed].
      - assert (A : Rabs (B2R x) = (- B2R x)%R) by (apply Rabs_left; unfold x, B2R; apply F2R_lt_0; reflexivity).
        rewrite A, six_figures_opp in S. rewrite opp_IZR. lra.
      - assert (A : Rabs (B2R x) = (B2R x)%R) by (apply Rabs_pos_eq; unfold x, B2R; apply F2R_ge_0; discriminate).
        rewrite A in S. exact S. }
    split; [exact W|exact T|exact K|rewrite S', bpow10; exact Q|].
    rewrite X. assert (SA : Rabs (six_figures (B2R x)) = (IZR ds * bpow radix10 (k - 5))%R).
    { rewrite S', Rabs_mult, (Rabs_pos_eq (bpow _ _)) by apply bpow_ge_0. f_equal. rewrite <- abs_IZR. f_equal. destruct s; cbn [signed]; lia. }
    rewrite SA, <- !bpow10.
    assert (L1 : (bpow radix10 k <= IZR ds * bpow radix10 (k - 5))%R).
    { replace k with (5 + (k - 5)) at 1 by lia. rewrite bpow_plus. apply Rmult_le_compat_r; [apply bpow_ge_0|]. rewrite bpow10_IZR by lia. apply IZR_le. lia. }
    assert (L2 : (IZR ds * bpow radix10 (k - 5) < bpow radix10 (k + 1))%R).
    { replace (k + 1) with (6 + (k - 5)) at 1 by lia. rewrite bpow_plus. apply Rmult_lt_compat_r; [apply bpow_gt_0|]. rewrite bpow10_IZR by lia. apply IZR_lt. lia. }
    split.
    + intros (A1 & A2). right. split.
      * eapply Rle_trans; [|exact L1]. apply bpow_le. lia.
      * eapply Rlt_le_trans; [exact L2|]. apply bpow_le. lia.
    + intros [Z0 | (A1 & A2)].
      * exfalso. unfold x, B2R in Z0. apply eq_0_F2R in Z0. destruct s; discriminate.
      * assert (k < 6) by (apply (lt_bpow radix10); eapply Rle_lt_trans; [exact L1|exact A2]).
        assert (-4 < k + 1) by (apply (lt_bpow radix10); eapply Rle_lt_trans; [exact A1|exact L2]). lia.
Qed.
Lemma format_in_print x : in_print x (format_g x).
Proof.
  destruct (is_finite x) eqn:F.
  - destruct (format_printed x F) as (d & -> & P). constructor; assumption.
  - destruct x; try discriminate; [destruct s|]; constructor.
Qed.
