(** Facts about printing values and reading them back. *)
From Coq Require Import Lia Ascii Reals Lra Sorted.
From Flocq Require Import Core.Core Relative IEEE754.BinarySingleNaN.
From Verif Require Import Base BaseFacts Fp Key PitchClass Text Options Output Chromagram MusicSpec TextSpec TextFacts NumberFacts ReadFacts FormatFacts
  ChromaSpec ChromaFacts PrintSpec PrintFacts PrintUnique.
From Coq Require Import ZifyBool ZifyNat.
Open Scope Z_scope.

Local Instance six_prec : Prec_gt_0 6. Proof. reflexivity. Qed.
Lemma bpow10_neg e n : 0 <= e -> n = - e -> bpow radix10 n = (/ IZR (10 ^ e))%R.
Proof. intros H ->. rewrite bpow_opp, bpow10_IZR by exact H. reflexivity. Qed.
Lemma bpow2_neg e n : 0 <= e -> n = - e -> bpow radix2 n = (/ IZR (2 ^ e))%R.
Proof. intros H ->. rewrite bpow_opp, <- IZR_Zpower by exact H. reflexivity. Qed.
(** ** Six figures *)
Lemma six_error v : (Rabs (six_figures v - v) <= 5 / 1000000 * Rabs v)%R.
Proof.
  unfold six_figures. pose proof (relative_error_N_FLX radix10 6 eq_refl (fun x => negb (Z.even x)) v) as H. eapply Rle_trans; [exact H|].
  apply Rmult_le_compat_r; [apply Rabs_pos|]. rewrite (bpow10_neg 5) by lia. change (10 ^ 5) with 100000. lra.
Qed.
Lemma six_le u v : (u <= v)%R -> (six_figures u <= six_figures v)%R.
Proof. apply round_le; typeclasses eauto. Qed.
Lemma six_abs v : six_figures (Rabs v) = Rabs (six_figures v).
Proof. apply round_NE_abs. typeclasses eauto. Qed.
Lemma six_format v : generic_format radix10 (FLX_exp 6) (six_figures v).
Proof. apply generic_format_round; typeclasses eauto. Qed.
Lemma six_exact m e : Z.abs m < 1000000 -> six_figures (IZR m * bpow radix10 e) = (IZR m * bpow radix10 e)%R.
Proof.
  intros H. apply round_generic; [typeclasses eauto|]. apply generic_format_FLX. exists (Float radix10 m e); [reflexivity|exact H].
Qed.
Lemma six_idem v : six_figures (six_figures v) = six_figures v.
Proof. apply round_generic; [typeclasses eauto|apply six_format]. Qed.
Lemma six_lower v : (bpow radix2 (-125) <= Rabs v)%R -> (bpow radix2 (-126) <= Rabs (six_figures v))%R.
Proof.
  intros H. pose proof (six_error v) as E. assert (T : (Rabs v - Rabs (six_figures v) <= Rabs (six_figures v - v))%R).
  { rewrite Rabs_minus_sym. apply Rabs_triang_inv. }
  assert (B : (bpow radix2 (-125) = 2 * bpow radix2 (-126))%R) by (change (-125) with (1 + -126); rewrite bpow_plus; reflexivity).
  pose proof (bpow_gt_0 radix2 (-126)). lra.
Qed.
Lemma six_zero v : (v = 0 \/ bpow radix2 (-125) <= Rabs v)%R -> six_figures v = 0%R <-> v = 0%R.
Proof.
  intros H. split; [|intros ->; apply six_figures_0]. intros E. destruct H as [H|H]; [exact H|]. apply six_lower in H. rewrite E, Rabs_R0 in H.
  pose proof (bpow_gt_0 radix2 (-126)). lra.
Qed.
Lemma max_float_Z : max_float = IZR 340282346638528859811704183484516925440.
Proof. unfold max_float. rewrite <- IZR_Zpower by lia. rewrite <- mult_IZR. apply f_equal. vm_compute. reflexivity. Qed.
Lemma six_upper v : (Rabs v <= max_float)%R -> (Rabs (six_figures v) <= max_float)%R.
Proof.
  intros H. rewrite <- six_abs. eapply Rle_trans; [apply six_le, H|]. rewrite max_float_Z.
  pose proof (six_digits_spec 340282346638528859811704183484516925440 1 eq_refl eq_refl) as S. replace (IZR 340282346638528859811704183484516925440 / 1)%R with (IZR 340282346638528859811704183484516925440) in S by field.
  assert (E : six_digits 340282346638528859811704183484516925440 1 = (340282, 38)) by (vm_compute; reflexivity). rewrite E in S. destruct S as (_ & ->).
  rewrite bpow10_IZR by lia. rewrite <- mult_IZR. apply IZR_le. vm_compute. discriminate.
Qed.
(** Seven binary digits more than needed: a decimal of six figures survives the nearest [float]. *)
Lemma six_near_pos D y : generic_format radix10 (FLX_exp 6) D -> (0 < D)%R -> (Rabs (y - D) <= bpow radix2 (-24) * D)%R -> six_figures y = D.
Proof.
  intros G P H. assert (B : (bpow radix2 (-24) <= 1 / 10000000)%R) by (rewrite (bpow2_neg 24 (-24)) by lia; change (2 ^ 24) with 16777216; lra).
  assert (H' : (Rabs (y - D) <= D / 10000000)%R).
  { eapply Rle_trans; [exact H|]. assert (bpow radix2 (-24) * D <= 1 / 10000000 * D)%R by (apply Rmult_le_compat_r; lra). lra. }
  apply Rabs_le_inv in H'.
  assert (U : (D / 1000000 <= ulp radix10 (FLX_exp 6) D)%R).
  { pose proof (ulp_FLX_ge radix10 6 D) as X. rewrite Rabs_pos_eq in X by lra. rewrite (bpow10_neg 6) in X by lia. change (10 ^ 6) with 1000000 in X. lra. }
  apply Rle_antisym.
  - apply round_N_le_midp; [typeclasses eauto|exact G|]. rewrite succ_eq_pos by lra. lra.
  - apply round_N_ge_midp; [typeclasses eauto|exact G|]. pose proof (pred_plus_ulp radix10 (FLX_exp 6) D P G) as Q.
    pose proof (pred_ge_0 radix10 (FLX_exp 6) D P G) as Q0.
    pose proof (ulp_FLX_ge radix10 6 (pred radix10 (FLX_exp 6) D)) as X. rewrite Rabs_pos_eq in X by exact Q0. rewrite (bpow10_neg 6) in X by lia. change (10 ^ 6) with 1000000 in X. lra.
Qed.
Lemma six_near D y : generic_format radix10 (FLX_exp 6) D -> (Rabs (y - D) <= bpow radix2 (-24) * Rabs D)%R -> six_figures y = D.
Proof.
  intros G H. destruct (Rtotal_order D 0) as [L|[E|L]].
  - rewrite <- (Ropp_involutive y), six_figures_opp. rewrite (six_near_pos (- D)); [ring|apply generic_format_opp; exact G|lra|].
    rewrite (Rabs_left D) in H by exact L. rewrite <- Rabs_Ropp. replace (- (- y - - D))%R with (y - D)%R by ring. exact H.
  - rewrite E in *. rewrite Rabs_R0, Rmult_0_r in H. pose proof (Rabs_pos (y - 0)). assert (Z0 : Rabs (y - 0) = 0%R) by lra.
    assert (y = 0)%R as -> by (destruct (Req_dec (y - 0) 0) as [Z1|Z1]; [lra|now apply Rabs_no_R0 in Z1]). apply six_figures_0.
  - apply six_near_pos; [exact G|lra|]. rewrite (Rabs_pos_eq D) in H by lra. exact H.
Qed.
(** The value of a number after printing and reading. *)
Definition back (v : R) : R := rounded 24 128 (six_figures v).
Definition ok (v : R) : Prop := v = 0%R \/ (bpow radix2 (-125) <= Rabs v <= max_float)%R.
Lemma back_six v : ok v -> six_figures (back v) = six_figures v.
Proof.
  intros [->|(L & U)].
  - unfold back. rewrite six_figures_0. rewrite (rounded_0 24 128). apply six_figures_0.
  - apply six_near; [apply six_format|]. unfold back, rounded. 
    pose proof (relative_error_N_FLT radix2 (3 - 128 - 24) 24 eq_refl (fun x => negb (Z.even x)) (six_figures v)) as R. eapply Rle_trans; [apply R; apply six_lower; exact L|].
    rewrite (bpow2_neg 23), (bpow2_neg 24) by lia. change (2 ^ 23) with 8388608. change (2 ^ 24) with 16777216. apply Req_le. field.
Qed.
Lemma back_le u v : (u <= v)%R -> (back u <= back v)%R.
Proof. intros H. apply round_le; [typeclasses eauto..|]. apply six_le. exact H. Qed.
Lemma back_0 : back 0 = 0%R.
Proof. unfold back. rewrite six_figures_0. apply (rounded_0 24 128). Qed.
Lemma back_zero v : ok v -> back v = 0%R <-> v = 0%R.
Proof.
  intros O. split; [|intros ->; apply back_0]. intros E. apply six_zero; [destruct O as [O|(O & _)]; auto|].
  rewrite <- (back_six v O), E. apply six_figures_0.
Qed.
Lemma back_error v : ok v -> (Rabs (back v - v) <= 6 / 1000000 * Rabs v)%R.
Proof.
  intros [->|(L & U)]; [rewrite back_0, Rminus_0_r, Rabs_R0; lra|].
  pose proof (relative_error_N_FLT radix2 (3 - 128 - 24) 24 eq_refl (fun x => negb (Z.even x)) (six_figures v) (six_lower v L)) as R.
  pose proof (six_error v) as E. fold (rounded 24 128 (six_figures v)) in R. fold (back v) in R.
  assert (B : (bpow radix2 (- (24) + 1) <= 2 / 10000000)%R) by (rewrite (bpow2_neg 23) by lia; change (2 ^ 23) with 8388608; lra).
  replace (back v - v)%R with ((back v - six_figures v) + (six_figures v - v))%R by ring. eapply Rle_trans; [apply Rabs_triang|].
  assert (T : (Rabs (six_figures v) <= Rabs v + Rabs (six_figures v - v))%R).
  { replace (six_figures v) with (v + (six_figures v - v))%R at 1 by ring. apply Rabs_triang. }
  assert (R' : (Rabs (back v - six_figures v) <= / 2 * (2 / 10000000) * Rabs (six_figures v))%R).
  { eapply Rle_trans; [exact R|]. apply Rmult_le_compat_r; [apply Rabs_pos|]. lra. }
  pose proof (Rabs_pos v). lra.
Qed.
Lemma back_small v : (Rabs v <= max_float)%R -> (Rabs (back v) <= max_float)%R.
Proof.
  intros H. apply six_upper in H. unfold back, rounded. rewrite <- round_NE_abs by typeclasses eauto.
  assert (M : rounded 24 128 max_float = max_float).
  { apply round_generic; [typeclasses eauto|]. apply generic_format_FLT. exists (Float radix2 (2 ^ 24 - 1) 104); [reflexivity|vm_compute; reflexivity|discriminate]. }
  rewrite <- M. apply round_le; [typeclasses eauto..|]. exact H.
Qed.

(** ** Print, then read *)
Lemma ends_here_nil d : ends_here d "".
Proof.
  split; [exact (fun x => x)|]. split; [intros _ _ X; exact X|]. split; [intros _ (u & m & ds & r & _ & _ & E); destruct u; discriminate E|]. intros _ _ _ (x & t & E & _). discriminate E.
Qed.
Lemma printed_ranges x d : safe x -> is_finite x = true -> printed x d -> ~ overflows 24 128 d /\ ~ underflows32 d.
Proof.
  intros S F P. specialize (S F). unfold overflows, underflows32. rewrite (pr_value x d P). fold (back (B2R x)). split.
  - intros H. assert (B : (Rabs (back (B2R x)) <= max_float)%R).
    { apply back_small. destruct S as [->|(_ & S)]; [|exact S]. rewrite Rabs_R0. rewrite max_float_Z. apply IZR_le. discriminate. }
    assert (M : (max_float < bpow radix2 128)%R) by (rewrite max_float_Z, <- IZR_Zpower by lia; apply IZR_lt; reflexivity). lra.
  - intros (N & L & _). destruct S as [E|(S & _)]; [apply N; rewrite E; apply six_figures_0|]. apply six_lower in S.
    assert (bpow radix2 (-126) <= Rabs (round radix2 (FLX_exp 24) ZnearestE (six_figures (B2R x))))%R; [|lra].
    assert (PG : Prec_gt_0 24) by reflexivity.
    rewrite <- round_NE_abs by typeclasses eauto. rewrite <- (round_generic radix2 (FLX_exp 24) ZnearestE (bpow radix2 (-126))).
    + apply round_le; [typeclasses eauto..|exact S].
    + apply generic_format_bpow. unfold FLX_exp. lia.
Qed.
Lemma token_unique s y y' : token_value s y -> token_value s y' -> y = y'.
Proof. intros A B. destruct (token_stof s y A) as (x & E & <-). destruct (token_stof s y' B) as (x' & E' & <-). congruence. Qed.
Lemma reread_unique x y y' : reread x y -> reread x y' -> y = y'.
Proof. intros (s & P & T) (s' & P' & T'). apply in_print_iff in P, P'. subst. exact (token_unique _ _ _ T T'). Qed.
Lemma reread_finite x : safe x -> is_finite x = true -> exists y, reread x y /\ is_finite y = true /\ B2R y = back (B2R x) /\ Bsign y = Bsign x.
Proof.
  intros S F. destruct (format_printed x F) as (d & E & P). destruct (printed_ranges x d S F P) as (O & U).
  destruct (stof_decimal d "" "" (Forall_nil _) (pr_formed x d P) (ends_here_nil d) O U) as (z & Ez & Fz & Vz & Sz).
  destruct (f32_to_64_value z Fz) as (A & B & C). exists (f32_to_64 z).
  assert (V : B2R (f32_to_64 z) = rounded 24 128 (decimal_value d)) by (rewrite B; exact Vz).
  assert (G : Bsign (f32_to_64 z) = match d_mark d with Minus => true | _ => false end) by (rewrite C; exact Sz).
  split; [|split; [exact A|split]].
  - exists (show_decimal d). split; [constructor; assumption|]. rewrite <- (app_string_nil (show_decimal d)). change (show_decimal d ++ "")%string with ("" ++ show_decimal d ++ "")%string.
    apply token_decimal; try assumption; [constructor|exact (pr_formed x d P)|apply ends_here_nil].
  - rewrite V, (pr_value x d P). reflexivity.
  - rewrite G, (pr_sign x d P). destruct (Bsign x); reflexivity.
Qed.
Lemma reread_total x : safe x -> exists y, reread x y.
Proof.
  intros S. destruct (is_finite x) eqn:F; [destruct (reread_finite x S F) as (y & R & _); now exists y|].
  destruct x as [s|s| |s m e B]; try discriminate.
  - exists (B754_infinity s). exists (if s then "-inf" else "inf")%string. split; [constructor|].
    change (B754_infinity s : dbl) with (B754_infinity (match (if s then Minus else NoSign) with Minus => true | _ => false end) : dbl) || idtac.
    destruct s; [exact (token_inf "" Minus "inf" (Forall_nil _) (ex_intro _ "inf"%string (ex_intro _ ""%string (conj eq_refl eq_refl))))|
                 exact (token_inf "" NoSign "inf" (Forall_nil _) (ex_intro _ "inf"%string (ex_intro _ ""%string (conj eq_refl eq_refl))))].
  - exists B754_nan, "nan"%string. split; [constructor|]. exact (token_nan "" NoSign "nan" (Forall_nil _) (ex_intro _ "nan"%string (ex_intro _ ""%string (conj eq_refl eq_refl)))).
Qed.
Lemma reread_value x y : safe x -> is_finite x = true -> reread x y -> is_finite y = true /\ B2R y = back (B2R x) /\ Bsign y = Bsign x.
Proof. intros S F R. destruct (reread_finite x S F) as (y' & R' & H). now rewrite (reread_unique x y y' R R'). Qed.
Lemma reread_other x y : is_finite x = false -> reread x y -> y = x.
Proof.
  intros F R. assert (S : safe x) by (intros F'; congruence). apply (reread_unique x y x R). destruct x as [s|s| |s m e B]; try discriminate.
  - exists (if s then "-inf" else "inf")%string. split; [constructor|].
    destruct s; [exact (token_inf "" Minus "inf" (Forall_nil _) (ex_intro _ "inf"%string (ex_intro _ ""%string (conj eq_refl eq_refl))))|
                 exact (token_inf "" NoSign "inf" (Forall_nil _) (ex_intro _ "inf"%string (ex_intro _ ""%string (conj eq_refl eq_refl))))].
  - exists "nan"%string. split; [constructor|]. exact (token_nan "" NoSign "nan" (Forall_nil _) (ex_intro _ "nan"%string (ex_intro _ ""%string (conj eq_refl eq_refl)))).
Qed.
Lemma printed_transfer x x' d : printed x d -> six_figures (B2R x') = six_figures (B2R x) -> Bsign x' = Bsign x -> (B2R x' = 0%R <-> B2R x = 0%R) -> printed x' d.
Proof.
  intros [W T S V L] E G Z. split; [exact W|exact T|rewrite G; exact S|rewrite E; exact V|]. rewrite E, Z. exact L.
Qed.
(** Printed again, the text is the same. *)
Lemma reread_print x y s : safe x -> reread x y -> in_print x s -> in_print y s.
Proof.
  intros S R P. destruct (is_finite x) eqn:F.
  - destruct (reread_value x y S F R) as (Fy & Vy & Sy). destruct P as [x d _ P|b|]; try discriminate. constructor; [exact Fy|]. specialize (S F).
    apply (printed_transfer x y d P); [rewrite Vy; apply back_six; exact S|exact Sy|rewrite Vy; apply back_zero; exact S].
  - rewrite (reread_other x y F R). exact P.
Qed.
Lemma reread_format x y : safe x -> reread x y -> format_g y = format_g x.
Proof. intros S R. symmetry. apply in_print_iff. apply (reread_print x y _ S R), in_print_iff. reflexivity. Qed.
Lemma reread_nan x y : safe x -> reread x y -> is_nan y = is_nan x.
Proof.
  intros S R. destruct (is_finite x) eqn:F; [|now rewrite (reread_other x y F R)]. destruct (reread_value x y S F R) as (Fy & _). destruct x, y; try discriminate; reflexivity.
Qed.
Lemma mark_sign d : well_formed d -> match d_mark d with Minus => (decimal_value d <= 0)%R | _ => (0 <= decimal_value d)%R end.
Proof.
  intros (W & _). pose proof (digits_value_bound (mantissa d) W) as (B & _). apply IZR_le in B. unfold decimal_value.
  assert (P : (0 < powerRZ 10 (exponent_value d - Z.of_nat (length (frac_digits d))))%R) by (apply powerRZ_lt; lra).
  destruct (d_mark d); cbn [signed]; rewrite ?opp_IZR; nra.
Qed.
(** Times in order that look different in print stay in order. *)
Lemma reread_order x x' y y' : safe x -> safe x' -> reread x y -> reread x' y' -> earlier x x' -> (forall s, in_print x s -> in_print x' s -> False) -> earlier y y'.
Proof.
  intros S S' R R' E D. destruct (earlier_nan x x' E) as (N & N'). pose proof (reread_nan x y S R) as Ny. pose proof (reread_nan x' y' S' R') as Ny'. rewrite N in Ny. rewrite N' in Ny'.
  apply earlier_tval; [assumption..|]. apply earlier_tval in E; [|assumption..].
  destruct (is_finite x) eqn:F; destruct (is_finite x') eqn:F'.
  - destruct (reread_value x y S F R) as (Fy & Vy & Sy). destruct (reread_value x' y' S' F' R') as (Fy' & Vy' & Sy'). rewrite !tval_finite in * by assumption.
    rewrite Vy, Vy'. destruct (Rle_lt_or_eq_dec (back (B2R x)) (back (B2R x'))) as [L|Q]; [apply back_le; lra|exact L|exfalso].
    specialize (S F). specialize (S' F').
    assert (Q6 : six_figures (B2R x) = six_figures (B2R x')) by (rewrite <- (back_six _ S), <- (back_six _ S'), Q; reflexivity).
    assert (Z : B2R x = 0%R <-> B2R x' = 0%R).
    { rewrite <- (six_zero (B2R x)), <- (six_zero (B2R x')), Q6; [reflexivity| |]; [destruct S' as [S'|(S' & _)]|destruct S as [S|(S & _)]]; auto. }
    assert (NZ : six_figures (B2R x) <> 0%R).
    { intros Z6. assert (B2R x = 0%R) by (apply six_zero; [destruct S as [S|(S & _)]; auto|exact Z6]). assert (B2R x' = 0%R) by (now apply Z). lra. }
    destruct (format_printed x F) as (d & Ed & P). destruct (format_printed x' F') as (d' & Ed' & P').
    assert (M : d_mark d = d_mark d').
    { pose proof (mark_sign d (pr_formed x d P)) as A. pose proof (mark_sign d' (pr_formed x' d' P')) as A'. rewrite (pr_value x d P) in A. rewrite (pr_value x' d' P'), <- Q6 in A'.
      rewrite (pr_sign x d P) in *. rewrite (pr_sign x' d' P') in *. destruct (Bsign x), (Bsign x'); try reflexivity; exfalso; apply NZ; lra. }
    assert (G : Bsign x = Bsign x') by (rewrite (pr_sign x d P), (pr_sign x' d' P') in M; destruct (Bsign x), (Bsign x'); congruence).
    apply (D (show_decimal d)); [constructor; assumption|]. constructor; [exact F'|]. apply (printed_transfer x x' d P); [symmetry; exact Q6|symmetry; exact G|symmetry; exact Z].
  - rewrite (reread_other x' y' F' R'). destruct (reread_value x y S F R) as (Fy & _). pose proof (tval_bound y Fy). pose proof (tval_bound x F).
    destruct x' as [s|[|]| |s m e B]; try discriminate; cbn [tval] in *; lra.
  - rewrite (reread_other x y F R). destruct (reread_value x' y' S' F' R') as (Fy & _). pose proof (tval_bound y' Fy). pose proof (tval_bound x' F').
    destruct x as [s|[|]| |s m e B]; try discriminate; cbn [tval] in *; lra.
  - rewrite (reread_other x y F R), (reread_other x' y' F' R'). exact E.
Qed.
