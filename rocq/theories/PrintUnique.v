(** The printed numeral of a number is unique, so the description of printing pins down the text. *)
From Coq Require Import Lia Ascii Reals Lra.
From Flocq Require Import Core.Core IEEE754.BinarySingleNaN.
From Verif Require Import Base BaseFacts Fp Text TextSpec TextFacts NumberFacts FormatFacts ChromaSpec PrintSpec PrintFacts.
From Coq Require Import ZifyBool ZifyNat.
Open Scope Z_scope.

Lemma digits_value_cons d l : digits_value (d :: l) = d * 10 ^ Z.of_nat (length l) + digits_value l.
Proof.
  unfold digits_value. cbn [fold_left].
  assert (H : forall l acc, fold_left (fun v d => 10 * v + d) l acc = acc * 10 ^ Z.of_nat (length l) + fold_left (fun v d => 10 * v + d) l 0).
  { clear. induction l as [|x l IH]; intros acc; [cbn; lia|]. cbn [fold_left length]. rewrite IH. rewrite (IH (10 * 0 + x)). rewrite Nat2Z.inj_succ, Z.pow_succ_r by lia. lia. }
  rewrite H. f_equal; lia.
Qed.
Lemma digits_value_bound l : Forall is_dig l -> 0 <= digits_value l < 10 ^ Z.of_nat (length l).
Proof.
  induction 1 as [|d l D F IH]; [cbn; lia|]. rewrite digits_value_cons. cbn [length]. rewrite Nat2Z.inj_succ, Z.pow_succ_r by lia. unfold is_dig in D. nia.
Qed.
Lemma digits_value_app a b : digits_value (a ++ b) = digits_value a * 10 ^ Z.of_nat (length b) + digits_value b.
Proof.
  induction a as [|x a IH]; [reflexivity|]. cbn [app]. rewrite !digits_value_cons, IH, app_length, Nat2Z.inj_add, Z.pow_add_r by lia. ring.
Qed.
Lemma digits_value_inj a b : Forall is_dig a -> Forall is_dig b -> length a = length b -> digits_value a = digits_value b -> a = b.
Proof.
  intros F. revert b. induction F as [|x a X F IH]; intros b G L V; destruct b as [|y b]; try discriminate; [reflexivity|].
  inversion_clear G. injection L as L. rewrite !digits_value_cons, L in V. pose proof (digits_value_bound a F). pose proof (digits_value_bound b H0). rewrite L in H1.
  assert (x = y) by nia. subst y. f_equal. apply IH; [assumption|exact L|lia].
Qed.
Lemma digits_value_lead_bound a : Forall is_dig a -> a <> [] -> hd 0 a <> 0 -> 10 ^ (Z.of_nat (length a) - 1) <= digits_value a.
Proof.
  intros F N H. destruct a as [|x a]; [now elim N|]. inversion_clear F. rewrite digits_value_cons. cbn [hd length] in *. pose proof (digits_value_bound a H1).
  replace (Z.of_nat (S (length a)) - 1) with (Z.of_nat (length a)) by lia. unfold is_dig in H0. nia.
Qed.
(** Without leading zeros the value determines the digits. *)
Definition no_lead (a : list Z) : Prop := a <> [] /\ (hd 0 a = 0 -> a = [0]).
Lemma no_lead_inj a b : Forall is_dig a -> Forall is_dig b -> no_lead a -> no_lead b -> digits_value a = digits_value b -> a = b.
Proof.
  intros F G (N & A) (M & B) V. apply digits_value_inj; [assumption..| |exact V].
  pose proof (digits_value_bound a F) as (_ & UA). pose proof (digits_value_bound b G) as (_ & UB).
  assert (Z0 : forall l, l <> [] -> Forall is_dig l -> (hd 0 l = 0 -> l = [0]) -> digits_value l = 0 -> l = [0]).
  { intros l L1 L2 L3 L4. apply L3. destruct (Z.eq_dec (hd 0 l) 0) as [E|E]; [exact E|]. exfalso. pose proof (digits_value_lead_bound l L2 L1 E).
    assert (0 < 10 ^ (Z.of_nat (length l) - 1)) by (apply Z.pow_pos_nonneg; [lia|destruct l; [now elim L1|cbn [length]; lia]]). lia. }
  destruct (Z.eq_dec (hd 0 a) 0) as [EA|EA]; [|destruct (Z.eq_dec (hd 0 b) 0) as [EB|EB]].
  - specialize (A EA). subst a. rewrite (Z0 b M G B); [reflexivity|]. rewrite <- V. reflexivity.
  - specialize (B EB). subst b. rewrite (Z0 a N F A); [reflexivity|]. rewrite V. reflexivity.
  - pose proof (digits_value_lead_bound a F N EA) as LA. pose proof (digits_value_lead_bound b G M EB) as LB.
    assert (Z.of_nat (length a) - 1 < Z.of_nat (length b)) by (apply (Z.pow_lt_mono_r_iff 10); lia).
    assert (Z.of_nat (length b) - 1 < Z.of_nat (length a)) by (apply (Z.pow_lt_mono_r_iff 10); lia). lia.
Qed.
(** Two mantissas with fractions that end in no zero. *)
Definition frac_ok (f : list Z) : Prop := f = [] \/ last f 0 <> 0.
Lemma last_mod f a : frac_ok f -> f <> [] -> Forall is_dig (a ++ f) -> digits_value (a ++ f) mod 10 <> 0.
Proof.
  intros [E|L] N F; [now elim N|]. destruct (exists_last N) as (g & x & ->). rewrite last_last in L. rewrite app_assoc, digits_value_snoc.
  rewrite app_assoc in F. apply Forall_app in F. destruct F as (_ & F). inversion_clear F. unfold is_dig in H.
  rewrite Z.add_comm, Z.mul_comm, Z.mod_add, Z.mod_small by lia. exact L.
Qed.
Lemma frac_length_le a f a' f' : frac_ok f' -> Forall is_dig (a' ++ f') ->
  digits_value (a ++ f) * 10 ^ Z.of_nat (length f') = digits_value (a' ++ f') * 10 ^ Z.of_nat (length f) -> (length f' <= length f)%nat.
Proof.
  intros K F E. destruct (Nat.le_gt_cases (length f') (length f)) as [L|L]; [exact L|exfalso].
  assert (N : f' <> []) by (intros ->; cbn in L; lia). apply (last_mod f' a' K N F).
  replace (Z.of_nat (length f')) with (Z.succ (Z.of_nat (length f' - length f - 1)) + Z.of_nat (length f)) in E by lia.
  rewrite Z.pow_add_r, Z.mul_assoc in E by lia. apply Z.mul_cancel_r in E; [|apply Z.pow_nonzero; lia]. rewrite <- E, Z.pow_succ_r by lia.
  rewrite Z.mul_assoc, (Z.mul_comm _ 10), <- Z.mul_assoc, Z.mul_comm. apply Z.mod_mul. lia.
Qed.
Lemma mantissa_inj a f a' f' : Forall is_dig (a ++ f) -> Forall is_dig (a' ++ f') -> no_lead a -> no_lead a' -> frac_ok f -> frac_ok f' ->
  digits_value (a ++ f) * 10 ^ Z.of_nat (length f') = digits_value (a' ++ f') * 10 ^ Z.of_nat (length f) -> a = a' /\ f = f'.
Proof.
  intros F F' N N' K K' E. assert (L : length f = length f').
  { apply Nat.le_antisymm; [apply (frac_length_le a' f' a f K F); symmetry; exact E|apply (frac_length_le a f a' f' K' F' E)]. }
  rewrite L in E. apply Z.mul_cancel_r in E; [|apply Z.pow_nonzero; lia]. rewrite !digits_value_app, L in E.
  apply Forall_app in F, F'. destruct F as (FA & FF), F' as (FA' & FF').
  pose proof (digits_value_bound f FF) as B. pose proof (digits_value_bound f' FF') as B'. rewrite L in B.
  assert (V : digits_value a = digits_value a') by nia. rewrite V in E.
  split; [apply no_lead_inj; assumption|apply digits_value_inj; [assumption..|lia]].
Qed.
Lemma signed_inj m a b : signed m a = signed m b -> a = b.
Proof. destruct m; cbn; lia. Qed.
Lemma power_IZR e : 0 <= e -> powerRZ 10 e = IZR (10 ^ e).
Proof. apply (powerRZ_IZR 10). Qed.
(** Equal values with equal exponents: the mantissas agree. *)
Lemma values_cross m a f a' f' e :
  (IZR (signed m (digits_value (a ++ f))) * powerRZ 10 (e - Z.of_nat (length f)) = IZR (signed m (digits_value (a' ++ f'))) * powerRZ 10 (e - Z.of_nat (length f')))%R ->
  digits_value (a ++ f) * 10 ^ Z.of_nat (length f') = digits_value (a' ++ f') * 10 ^ Z.of_nat (length f).
Proof.
  intros E. apply (signed_inj m). apply eq_IZR.
  assert (S : forall v n, signed m (v * n) = signed m v * n) by (intros v n; destruct m; cbn; lia). rewrite !S, !mult_IZR, <- !power_IZR by lia.
  apply Rmult_eq_reg_r with (powerRZ 10 (e - Z.of_nat (length f) - Z.of_nat (length f'))); [|apply powerRZ_NOR; lra].
  rewrite !Rmult_assoc, <- !powerRZ_add by lra.
  replace (Z.of_nat (length f') + (e - Z.of_nat (length f) - Z.of_nat (length f'))) with (e - Z.of_nat (length f)) by lia.
  replace (Z.of_nat (length f) + (e - Z.of_nat (length f) - Z.of_nat (length f'))) with (e - Z.of_nat (length f')) by lia. exact E.
Qed.
(** With one non-zero digit before the point the value determines the exponent. *)
Lemma lead_value x f e : is_dig x -> x <> 0 -> Forall is_dig f ->
  (powerRZ 10 e <= IZR (digits_value (x :: f)) * powerRZ 10 (e - Z.of_nat (length f)) < powerRZ 10 (e + 1))%R.
Proof.
  intros D N F. pose proof (digits_value_bound (x :: f) (Forall_cons _ D F)) as (_ & U). pose proof (digits_value_lead_bound (x :: f) (Forall_cons _ D F) ltac:(discriminate) N) as L.
  cbn [length] in *. replace (Z.of_nat (S (length f)) - 1) with (Z.of_nat (length f)) in L by lia.
  assert (P : (0 < powerRZ 10 (e - Z.of_nat (length f)))%R) by (apply powerRZ_lt; lra).
  replace e with (Z.of_nat (length f) + (e - Z.of_nat (length f))) at 1 by lia. replace (e + 1) with (Z.of_nat (S (length f)) + (e - Z.of_nat (length f))) by lia.
  rewrite !powerRZ_add by lra. rewrite (power_IZR (Z.of_nat (length f))), (power_IZR (Z.of_nat (S (length f)))) by lia. split.
  - apply Rmult_le_compat_r; [lra|]. apply IZR_le. exact L.
  - apply Rmult_lt_compat_r; [lra|]. apply IZR_lt. exact U.
Qed.
Lemma exponent_inj m x f e x' f' e' : is_dig x -> x <> 0 -> Forall is_dig f -> is_dig x' -> x' <> 0 -> Forall is_dig f' ->
  (IZR (signed m (digits_value (x :: f))) * powerRZ 10 (e - Z.of_nat (length f)) = IZR (signed m (digits_value (x' :: f'))) * powerRZ 10 (e' - Z.of_nat (length f')))%R -> e = e'.
Proof.
  intros D N F D' N' F' E.
  assert (E' : (IZR (digits_value (x :: f)) * powerRZ 10 (e - Z.of_nat (length f)) = IZR (digits_value (x' :: f')) * powerRZ 10 (e' - Z.of_nat (length f')))%R).
  { destruct m; cbn [signed] in E; try exact E. rewrite !opp_IZR in E. lra. }
  pose proof (lead_value x f e D N F) as (A & B). pose proof (lead_value x' f' e' D' N' F') as (A' & B'). rewrite E' in A, B. rewrite <- !bpow10 in *.
  assert (e < e' + 1) by (apply (lt_bpow radix10); lra). assert (e' < e + 1) by (apply (lt_bpow radix10); lra). lia.
Qed.
Lemma exp_digits_inj a b : Forall is_dig a -> Forall is_dig b -> (2 <= length a)%nat -> (2 <= length b)%nat ->
  ((2 < length a)%nat -> hd 0 a <> 0) -> ((2 < length b)%nat -> hd 0 b <> 0) -> digits_value a = digits_value b -> a = b.
Proof.
  intros F G LA LB HA HB V. apply digits_value_inj; [assumption..| |exact V].
  assert (W : forall a b, Forall is_dig a -> Forall is_dig b -> (2 <= length b)%nat -> ((2 < length a)%nat -> hd 0 a <> 0) -> digits_value a = digits_value b -> (length a <= length b)%nat).
  { clear. intros a b F G LB HA V. destruct (Nat.le_gt_cases (length a) (length b)) as [L|L]; [exact L|exfalso].
    pose proof (digits_value_lead_bound a F ltac:(intros ->; cbn in L; lia) ltac:(apply HA; lia)). pose proof (digits_value_bound b G).
    assert (10 ^ Z.of_nat (length b) <= 10 ^ (Z.of_nat (length a) - 1)) by (apply Z.pow_le_mono_r; lia). lia. }
  apply Nat.le_antisymm; [apply W|apply W]; try assumption. symmetry. exact V.
Qed.
Lemma frac_of_opt d : tidy d -> frac_ok (frac_digits d).
Proof. intros T. pose proof (tidy_frac d T) as H. unfold frac_digits. destruct (d_frac d) as [f|]; [right; apply H|left; reflexivity]. Qed.
Lemma frac_opt_inj d d' : tidy d -> tidy d' -> frac_digits d = frac_digits d' -> d_frac d = d_frac d'.
Proof.
  intros T T' E. pose proof (tidy_frac d T) as H. pose proof (tidy_frac d' T') as H'. unfold frac_digits in E. destruct (d_frac d) as [f|], (d_frac d') as [f'|]; subst; try reflexivity.
  - now elim (proj1 H).
  - now elim (proj1 H').
Qed.
Lemma decimal_eta d d' : d_mark d = d_mark d' -> d_int d = d_int d' -> d_frac d = d_frac d' -> d_exp d = d_exp d' -> d = d'.
Proof. destruct d, d'; cbn; congruence. Qed.
Lemma printed_unique x d d' : printed x d -> printed x d' -> d = d'.
Proof.
  intros P P'. pose proof (pr_tidy x d P) as T. pose proof (pr_tidy x d' P') as T'. pose proof (pr_formed x d P) as (W1 & W2 & W3). pose proof (pr_formed x d' P') as (W1' & W2' & W3').
  assert (M : d_mark d = d_mark d') by (rewrite (pr_sign x d P), (pr_sign x d' P'); reflexivity).
  assert (V : decimal_value d = decimal_value d') by (rewrite (pr_value x d P), (pr_value x d' P'); reflexivity).
  assert (X : d_exp d = None <-> d_exp d' = None) by (rewrite (pr_layout x d P), (pr_layout x d' P'); reflexivity).
  unfold decimal_value in V. rewrite <- M in V. unfold mantissa in *.
  destruct (d_exp d) as [((u, m), e)|] eqn:E; destruct (d_exp d') as [((u', m'), e')|] eqn:E'; try (exfalso; destruct X as [X1 X2]; (discriminate (X1 eq_refl) || discriminate (X2 eq_refl))).
  - pose proof (tidy_exp d T) as TE. pose proof (tidy_exp d' T') as TE'. rewrite E in TE. rewrite E' in TE'.
    destruct TE as (-> & S & L & H & y & I & N). destruct TE' as (-> & S' & L' & H' & y' & I' & N').
    rewrite I in *. rewrite I' in *. cbn [app] in V, W1, W1'. inversion_clear W1 as [|? ? Y Fr]. inversion_clear W1' as [|? ? Y' Fr'].
    pose proof (exponent_inj (d_mark d) _ _ _ _ _ _ Y N Fr Y' N' Fr' V) as EE. rewrite <- EE in V.
    destruct (mantissa_inj [y] (frac_digits d) [y'] (frac_digits d')) as (A & B).
    + constructor; assumption.
    + constructor; assumption.
    + split; [discriminate|]. intros Z0. now elim N.
    + split; [discriminate|]. intros Z0. now elim N'.
    + apply frac_of_opt. exact T.
    + apply frac_of_opt. exact T'.
    + apply (values_cross (d_mark d) [y] _ [y'] _ _ V).
    + apply decimal_eta; [exact M|rewrite I, I'; exact A|apply frac_opt_inj; assumption|]. rewrite E, E'.
      unfold exponent_value in EE. rewrite E, E' in EE.
      (* the exponent is not 0 *)
      assert (NZ : signed m (digits_value e) <> 0).
      { intros Z0. assert (Q : Some (false, m, e) = None :> option (bool * mark * list Z)); [|discriminate Q]. rewrite <- E. apply (pr_layout x d P). right.
        rewrite <- (pr_value x d P). unfold decimal_value, mantissa. rewrite I. cbn [app]. unfold exponent_value. rewrite E, Z0.
        rewrite Rabs_mult, (Rabs_pos_eq (powerRZ _ _)) by (apply Rlt_le, powerRZ_lt; lra). rewrite <- abs_IZR.
        pose proof (digits_value_bound (y :: frac_digits d) ltac:(constructor; assumption)) as (G & _).
        replace (Z.abs (signed (d_mark d) (digits_value (y :: frac_digits d)))) with (digits_value (y :: frac_digits d)) by (destruct (d_mark d); cbn [signed]; lia).
        pose proof (lead_value y (frac_digits d) 0 Y N Fr) as (G1 & G2). split.
        - eapply Rle_trans; [|exact G1]. rewrite <- !bpow10. apply bpow_le. lia.
        - eapply Rlt_le_trans; [exact G2|]. rewrite <- !bpow10. apply bpow_le. lia. }
      pose proof (digits_value_bound e (proj1 W3)). pose proof (digits_value_bound e' (proj1 W3')).
      assert (m = m') by (destruct m, m'; cbn [signed] in *; try congruence; lia). subst m'. apply signed_inj in EE.
      assert (e = e') as ->; [|reflexivity]. apply exp_digits_inj; try assumption; [apply W3|apply W3'].
  - unfold exponent_value in V. rewrite E, E' in V.
    destruct (mantissa_inj (d_int d) (frac_digits d) (d_int d') (frac_digits d')) as (A & B); try assumption.
    + apply (tidy_int d T).
    + apply (tidy_int d' T').
    + apply frac_of_opt. exact T.
    + apply frac_of_opt. exact T'.
    + apply (values_cross (d_mark d) _ _ _ _ 0 V).
    + apply decimal_eta; [exact M|exact A|apply frac_opt_inj; assumption|rewrite E, E'; reflexivity].
Qed.
(** The text is determined. *)
Lemma in_print_iff x s : in_print x s <-> s = format_g x.
Proof.
  split; [|intros ->; apply format_in_print]. intros H. pose proof (format_in_print x) as G. destruct H as [x d F P|b|].
  - destruct G as [x d' F' P'|b|]; try discriminate. now rewrite (printed_unique x d d' P P').
  - destruct b; reflexivity.
  - reflexivity.
Qed.
