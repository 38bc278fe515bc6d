(** Reading numbers: the stream extraction and [stof] against the specification of decimal numerals. *)
From Coq Require Import Lia Ascii Reals Lra.
From Flocq Require Import Core.Core IEEE754.BinarySingleNaN.
From Verif Require Import Base BaseFacts Fp PitchClass Text TextSpec TextFacts NumberFacts.
From Coq Require Import ZifyBool ZifyNat.
Open Scope Z_scope.

Lemma rounded_0 prec emax {Hp : Prec_gt_0 prec} : rounded prec emax 0 = 0%R.
Proof. unfold rounded. apply round_0. apply valid_rnd_N. Qed.
Lemma signed_if m v : (if match m with Minus => true | _ => false end then - v else v) = signed m v.
Proof. now destruct m. Qed.
Lemma fraction_signed m b e n d mk : fraction m b e = (n, d) -> fraction (signed mk m) b e = (signed mk n, d).
Proof. unfold fraction. destruct (e <? 0); intros H; injection H as <- <-; destruct mk; cbn; f_equal; lia. Qed.
Lemma fraction_pos m b e n d : 0 < b -> 0 < m -> fraction m b e = (n, d) -> 0 < n.
Proof.
  intros Hb Hm. unfold fraction. destruct (e <? 0) eqn:E; intros H; injection H as <- <-; [exact Hm|].
  apply Z.mul_pos_pos; [exact Hm|]. apply Z.pow_pos_nonneg; lia.
Qed.
Lemma mantissa_nonneg d : Forall is_dig (mantissa d) -> 0 <= digits_value (mantissa d).
Proof. intros H. unfold digits_value. apply digits_value_nonneg; [exact H|lia]. Qed.

(** The nearest number of a format to a numeral. *)
Lemma nearest_numeral prec emax {Hp : Prec_gt_0 prec} {Hm : Prec_lt_emax prec emax} d : Forall is_dig (mantissa d) ->
  (nearest_to (nearest prec emax (numeral_of d)) d /\ ~ overflows prec emax d) \/
  (overflows prec emax d /\ nearest prec emax (numeral_of d) = B754_infinity (match d_mark d with Minus => true | _ => false end)).
Proof.
  intros F. pose proof (mantissa_nonneg d F) as Hn. unfold numeral_of, nearest, nearest_to, overflows.
  destruct (Z.eqb_spec (digits_value (mantissa d)) 0) as [E|E].
  - left. assert (V : decimal_value d = 0%R).
    { unfold decimal_value. rewrite E. replace (signed (d_mark d) 0) with 0 by now destruct (d_mark d). lra. }
    rewrite V, rounded_0 by exact Hp. repeat split. rewrite Rabs_R0. apply Rlt_not_le. apply bpow_gt_0.
  - destruct (fraction (digits_value (mantissa d)) 10 (exponent_value d - Z.of_nat (length (frac_digits d)))) as [n q] eqn:Fr.
    assert (Pn : 0 < n) by (eapply fraction_pos; [| |exact Fr]; lia).
    pose proof (fraction_value _ 10 _ _ _ ltac:(lia) (fraction_signed _ _ _ _ _ (d_mark d) Fr)) as V.
    rewrite signed_if. pose proof (ratB_correct prec emax (signed (d_mark d) n) q ltac:(destruct (d_mark d); cbn; lia)) as C. cbv zeta in C.
    rewrite V in C. change (IZR (signed (d_mark d) (digits_value (mantissa d))) * powerRZ 10 (exponent_value d - Z.of_nat (length (frac_digits d))))%R with (decimal_value d) in C.
    replace (signed (d_mark d) n <? 0) with (match d_mark d with Minus => true | _ => false end) in C by (destruct (d_mark d); cbn; lia).
    destruct (Rlt_bool_spec (Rabs (rounded prec emax (decimal_value d))) (bpow radix2 emax)) as [L|L].
    + left. split; [exact C|lra].
    + right. split; [exact L|exact C].
Qed.
Lemma nearest_unique prec emax (x y : binary_float prec emax) d : nearest_to x d -> nearest_to y d -> x = y.
Proof. intros (A1 & A2 & A3) (B1 & B2 & B3). apply B2R_Bsign_inj; congruence. Qed.

Lemma nearest_not_overflow prec emax (x : binary_float prec emax) d : nearest_to x d -> ~ overflows prec emax d.
Proof. intros (A & B & _) H. unfold overflows in H. rewrite <- B in H. pose proof (abs_B2R_lt_emax prec emax x). lra. Qed.

(** [stream >> val] succeeds exactly on readable texts. *)
Lemma skip_show d r : well_formed d -> skip_space (show_decimal d ++ r) = (show_decimal d ++ r)%string.
Proof.
  intros (F & NE & _). apply skip_space_head. unfold show_decimal, mantissa, frac_digits in *. destruct (d_mark d); [|reflexivity|reflexivity].
  cbn [show_mark append]. destruct (d_int d) as [|x l].
  - destruct (d_frac d); [reflexivity|now elim NE].
  - cbn. apply Forall_app in F. destruct F as [F _]. apply Forall_cons_iff in F. destruct F as [Hx _]. dig Hx; reflexivity.
Qed.
Lemma extract_readable s x r : readable s x r -> extract_double s = Some (x, r).
Proof.
  intros (ws & d & -> & W & K & S & N). unfold extract_double. rewrite skip_spaces by exact W. rewrite skip_show by exact K.
  pose proof (well_formed_raw d K) as R. rewrite take_number_raw; [|exact R|now apply stops_raw].
  rewrite scan_normal by exact R. destruct K as (F & NE & KE).
  destruct (mantissa d) as [|y l] eqn:M; [now elim NE|].
  assert (X : nearest prec64 emax64 (numeral_of d) = x).
  { destruct (nearest_numeral prec64 emax64 d) as [[H _]|[H _]]; [now rewrite M| |].
    - exact (nearest_unique _ _ _ _ _ H N).
    - now elim (nearest_not_overflow _ _ _ _ N). }
  assert (FX : is_finite x = true) by apply N.
  destruct (d_exp d) as [[[u m] [|z ds]]|]; [now destruct KE| |]; rewrite X; destruct x; try discriminate FX; reflexivity.
Qed.
Lemma readable_extract s x r : extract_double s = Some (x, r) -> readable s x r.
Proof.
  unfold extract_double. destruct (space_split s) as (ws & t & -> & W & E & H). rewrite E. clear E.
  destruct (raw_split t) as (d & r' & -> & R & S). rewrite take_number_raw by assumption. rewrite scan_normal by exact R.
  destruct (mantissa d) as [|y l] eqn:M; [discriminate|]. intros Q.
  assert (K : well_formed d /\ match nearest prec64 emax64 (numeral_of d) with B754_infinity _ => None | d0 => Some (d0, r') end = Some (x, r)).
  { unfold well_formed. rewrite M. destruct R as (F & KE). rewrite M in F. destruct (d_exp d) as [[[u m] [|z ds]]|].
    - cbn in Q. destruct m; discriminate Q.
    - split; [|exact Q]. split; [exact F|split; [discriminate|split; [apply KE|discriminate]]].
    - split; [|exact Q]. split; [exact F|split; [discriminate|exact I]]. }
  destruct K as (K & Q'). clear Q. exists ws, d.
  assert (N : nearest_to x d /\ r' = r).
  { destruct (nearest_numeral prec64 emax64 d) as [[N _]|[N X]]; [apply K| |].
    - destruct (nearest prec64 emax64 (numeral_of d)) as [a|a| |a b c e]; try (apply Some_inj in Q'; injection Q' as Q1 Q2; split; [now rewrite <- Q1|exact Q2]). discriminate.
    - rewrite X in Q'. discriminate. }
  destruct N as (N & ->). repeat split; try assumption; try apply N; try apply K.
  destruct r as [|c r]; [exact I|]. destruct S as (S1 & S2 & S3 & S4). split; [exact S1|]. split; [exact S2|].
  intros Hc. destruct (S3 Hc) as [A|A]; [exact A|congruence].
Qed.
Lemma extract_iff s x r : extract_double s = Some (x, r) <-> readable s x r.
Proof. split; [apply readable_extract|apply extract_readable]. Qed.

(** ** All numbers of a text *)
Lemma length_show_digits ds : String.length (show_digits ds) = length ds.
Proof. induction ds; cbn; congruence. Qed.
Lemma show_length d : well_formed d -> (0 < String.length (show_decimal d))%nat.
Proof.
  intros (F & NE & _). unfold show_decimal, mantissa, frac_digits in *. rewrite !length_app, length_show_digits.
  destruct (d_int d) as [|x l]; [|cbn; lia]. destruct (d_frac d); [|now elim NE]. cbn. lia.
Qed.
Lemma readable_shorter s x r : readable s x r -> (String.length r < String.length s)%nat.
Proof. intros (ws & d & -> & _ & K & _). rewrite !length_app. pose proof (show_length d K). lia. Qed.
Lemma extract_doubles_reads n s : (String.length s <= n)%nat -> reads s (extract_doubles n s).
Proof.
  revert s. induction n as [|n IH]; intros s H; cbn.
  - constructor. intros x r R. apply readable_shorter in R. lia.
  - destruct (extract_double s) as [[x r]|] eqn:E.
    + apply readable_extract in E. apply reads_next with r; [exact E|]. apply IH. apply readable_shorter in E. lia.
    + constructor. intros x r R. apply extract_readable in R. congruence.
Qed.
Lemma reads_unique s l l' : reads s l -> reads s l' -> l = l'.
Proof.
  intros H. revert l'. induction H as [s N|s x r l R H IH]; intros l' H'.
  - inversion H' as [|? x r ? R ?]; subst; [reflexivity|]. now elim (N x r).
  - inversion H' as [? N|? x' r' l'' R' H'']; subst; [now elim (N x r)|]. apply extract_readable in R, R'. rewrite R in R'.
    apply Some_inj in R'. injection R' as <- <-. f_equal. now apply IH.
Qed.
Lemma read_doubles_reads s : reads s (read_doubles s).
Proof. apply extract_doubles_reads. lia. Qed.
Lemma read_doubles_iff s l : read_doubles s = l <-> reads s l.
Proof.
  split; [intros <-; apply read_doubles_reads|]. intros H. exact (reads_unique s _ _ (read_doubles_reads s) H).
Qed.
Lemma reads_length s l : reads s l -> (length l <= String.length s)%nat.
Proof. induction 1 as [|s x r l R H IH]; cbn; [lia|]. apply readable_shorter in R. lia. Qed.

(** Numerals separated by space are all read. *)
Fixpoint spaced (l : list (string * decimal)) (tail : string) : string :=
  match l with [] => tail | (ws, d) :: l' => (ws ++ show_decimal d ++ spaced l' tail)%string end.
Definition in_range (d : decimal) : Prop := well_formed d /\ ~ overflows prec64 emax64 d.
Lemma space_stops d r : match r with String c _ => In c space_chars | EmptyString => True end -> stops d r.
Proof.
  destruct r as [|c r]; [exact (fun _ => I)|]. intros H. cbn in H.
  repeat (destruct H as [<-|H]; [split; [cbn; intuition discriminate|split; [discriminate|intros [|]; discriminate]]|]). destruct H.
Qed.
Lemma spaces_readless s : spaces s -> forall x r, ~ readable s x r.
Proof.
  intros H x r (ws & d & -> & _ & K & _). unfold spaces in H. rewrite !chars_app, !Forall_app in H. destruct H as (_ & H & _).
  pose proof (skip_show d "" K) as E. rewrite app_string_nil in E. pose proof (skip_spaces (show_decimal d) "" H) as E2. rewrite app_string_nil in E2.
  pose proof (show_length d K) as L. rewrite <- E, E2 in L. cbn in L. lia.
Qed.
Lemma reads_spaced l tail : spaces tail -> Forall (fun wd => spaces (fst wd) /\ in_range (snd wd)) l ->
  Forall (fun wd => fst wd <> ""%string) (tl l) ->
  reads (spaced l tail) (map (fun wd => nearest prec64 emax64 (numeral_of (snd wd))) l).
Proof.
  intros T. induction l as [|[ws d] l IH]; intros F N; cbn.
  - constructor. now apply spaces_readless.
  - apply Forall_cons_iff in F. destruct F as [[W [K O]] F]. cbn in W, K, O.
    apply reads_next with (spaced l tail).
    + exists ws, d. repeat split; try assumption; try apply K.
      * apply space_stops. destruct l as [|[ws' d'] l]; cbn [spaced tl] in *.
        -- destruct tail; [exact I|]. unfold spaces, chars in T. cbn in T. now apply Forall_cons_iff in T.
        -- apply Forall_cons_iff in N, F. destruct N as [N _], F as [[F _] _]. cbn in N, F. destruct ws'; [now elim N|].
           cbn. unfold spaces, chars in F. cbn in F. now apply Forall_cons_iff in F.
      * destruct (nearest_numeral prec64 emax64 d ltac:(apply K)) as [[H _]|[H _]]; [apply H|contradiction].
      * destruct (nearest_numeral prec64 emax64 d ltac:(apply K)) as [[H _]|[H _]]; [apply H|contradiction].
      * destruct (nearest_numeral prec64 emax64 d ltac:(apply K)) as [[H _]|[H _]]; [apply H|contradiction].
    + apply IH; [exact F|]. destruct l; [constructor|]. cbn in *. now apply Forall_cons_iff in N.
Qed.

(** ** [stof] *)
Lemma is_exactly_spec prec emax (x : binary_float prec emax) n d : is_finite x = true ->
  is_exactly x n d = true <-> B2R x = (IZR n / IZR (Zpos d))%R.
Proof.
  intros Fx. assert (D : (0 < IZR (Zpos d))%R) by (apply IZR_lt; lia).
  assert (Q : forall a b : R, (a = b / IZR (Zpos d) <-> a * IZR (Zpos d) = b)%R).
  { intros a b. split; [intros ->; field; lra|intros <-; field; lra]. }
  rewrite Q. destruct x as [s|s| |s m e H]; try discriminate; cbn [is_exactly B2R].
  - rewrite Rmult_0_l, Z.eqb_eq. split; [now intros ->|]. intros E. apply eq_IZR. now symmetry.
  - unfold F2R. cbn [Fnum Fexp]. destruct (Z.ltb_spec e 0) as [L|L]; rewrite Z.eqb_eq.
    + set (c := cond_Zopp s (Z.pos m)). assert (P : bpow radix2 e = (/ IZR (2 ^ (- e)))%R).
      { rewrite <- (Z.opp_involutive e) at 1. rewrite bpow_opp. f_equal. rewrite <- IZR_Zpower by lia. reflexivity. }
      rewrite P. assert (T : (0 < IZR (2 ^ (- e)))%R) by (apply IZR_lt; apply Z.pow_pos_nonneg; lia).
      split.
      * intros E. apply (f_equal IZR) in E. rewrite !mult_IZR in E. apply Rmult_eq_reg_r with (IZR (2 ^ (- e))); [|lra]. rewrite <- E. field. lra.
      * intros E. apply eq_IZR. rewrite !mult_IZR. rewrite <- E. field. lra.
    + assert (P : bpow radix2 e = IZR (2 ^ e)) by (rewrite <- IZR_Zpower by lia; reflexivity). rewrite P, <- !mult_IZR. split.
      * now intros ->.
      * intros E. now apply eq_IZR.
Qed.

(** Rounded to 24 digits without exponent limit, a positive number is below 2^-126 exactly if it is below 2^-126 - 2^-151. *)
Lemma tiny_threshold v : (0 < v)%R ->
  ((round radix2 (FLX_exp 24) ZnearestE v < bpow radix2 (-126)) <-> (v < bpow radix2 (-126) - bpow radix2 (-151)))%R.
Proof.
  intros Hv. assert (VE : Valid_exp (FLX_exp 24)) by (apply FLX_exp_valid; reflexivity).
  assert (FM : generic_format radix2 (FLX_exp 24) (bpow radix2 (-126))) by (apply generic_format_bpow; unfold FLX_exp; lia).
  assert (PR : pred radix2 (FLX_exp 24) (bpow radix2 (-126)) = (bpow radix2 (-126) - bpow radix2 (-150))%R).
  { rewrite pred_bpow. reflexivity. }
  assert (E150 : bpow radix2 (-150) = (2 * bpow radix2 (-151))%R) by (change (-150) with (1 + -151); now rewrite bpow_plus).
  split; intros H.
  - apply Rnot_le_lt. intros L. apply Rlt_not_le in H. apply H. clear H.
    destruct L as [L|L].
    + apply round_N_ge_midp; [exact VE|exact FM|]. rewrite PR. lra.
    + rewrite <- L. apply Req_le. symmetry.
      assert (MID : ((bpow radix2 (-126) - bpow radix2 (-151)) = F2R (Float radix2 (2 ^ 25 - 1) (-151)))%R).
      { unfold F2R. cbn [Fnum Fexp]. change (-126) with (25 + -151). rewrite bpow_plus. change (bpow radix2 25) with (IZR (2 ^ 25)). rewrite minus_IZR. ring. }
      unfold round. 
      assert (MG : mag radix2 (bpow radix2 (-126) - bpow radix2 (-151)) = (-126) :> Z).
      { apply mag_unique_pos. split.
        - change (-126 - 1) with (24 + -151). change (-126) with (25 + -151). rewrite !bpow_plus. pose proof (bpow_gt_0 radix2 (-151)).
          change (bpow radix2 24) with 16777216%R. change (bpow radix2 25) with 33554432%R. lra.
        - pose proof (bpow_gt_0 radix2 (-151)). lra. }
      unfold scaled_mantissa, cexp, FLX_exp. rewrite MG. change (-126 - 24) with (-150).
      replace ((bpow radix2 (-126) - bpow radix2 (-151)) * bpow radix2 (- (-150)))%R with (IZR (2 ^ 24 - 1) + / 2)%R.
      * replace (ZnearestE (IZR (2 ^ 24 - 1) + / 2)) with (2 ^ 24)%Z.
        -- unfold F2R. cbn [Fnum Fexp]. change (-126) with (24 + -150). rewrite bpow_plus. reflexivity.
        -- unfold Znearest. assert (FL : Zfloor (IZR (2 ^ 24 - 1) + / 2) = (2 ^ 24 - 1)%Z) by (apply Zfloor_imp; rewrite plus_IZR; lra).
           rewrite FL. rewrite Rcompare_Eq by lra. replace (negb (Z.even (2 ^ 24 - 1))) with true by reflexivity. rewrite Zceil_floor_neq; [rewrite FL; reflexivity|].
           rewrite FL. intros E. lra.
      * rewrite Rmult_minus_distr_r, <- !bpow_plus. change (-126 + - (-150)) with 24. change (-151 + - (-150)) with (-1).
        rewrite minus_IZR. change (bpow radix2 24) with (IZR (2 ^ 24)). change (bpow radix2 (-1)) with (/2)%R. lra.
  - assert (FP : generic_format radix2 (FLX_exp 24) (pred radix2 (FLX_exp 24) (bpow radix2 (-126)))) by (apply generic_format_pred; assumption).
    apply Rle_lt_trans with (pred radix2 (FLX_exp 24) (bpow radix2 (-126))).
    + apply round_N_le_midp; [exact VE|exact FP|]. rewrite succ_pred by assumption. rewrite PR. lra.
    + apply pred_lt_id. pose proof (bpow_gt_0 radix2 (-126)). lra.
Qed.
Lemma tiny_fraction n q : 0 < n ->
  (n * 2 ^ 151 <? (2 ^ 25 - 1) * Zpos q) = true <-> (IZR n / IZR (Zpos q) < bpow radix2 (-126) - bpow radix2 (-151))%R.
Proof.
  intros Hn. assert (D : (0 < IZR (Zpos q))%R) by (apply IZR_lt; lia).
  assert (E : (bpow radix2 (-126) - bpow radix2 (-151) = IZR (2 ^ 25 - 1) / IZR (2 ^ 151))%R).
  { change (-126) with (25 + -151). rewrite bpow_plus. change (-151) with (- (151)). rewrite bpow_opp.
    replace (bpow radix2 151) with (IZR (2 ^ 151)) by (rewrite <- (IZR_Zpower radix2) by lia; reflexivity).
    replace (bpow radix2 25) with (IZR (2 ^ 25)) by (rewrite <- (IZR_Zpower radix2) by lia; reflexivity).
    rewrite minus_IZR. unfold Rdiv. ring. }
  rewrite E. assert (T : (0 < IZR (2 ^ 151))%R) by (apply IZR_lt; reflexivity).
  rewrite Z.ltb_lt. split; intros H.
  - apply IZR_lt in H. rewrite !mult_IZR in H. apply Rmult_lt_reg_r with (IZR (Zpos q)); [exact D|].
    replace (IZR n / IZR (Zpos q) * IZR (Zpos q))%R with (IZR n) by (field; lra).
    apply Rmult_lt_reg_r with (IZR (2 ^ 151)); [exact T|].
    replace (IZR (2 ^ 25 - 1) / IZR (2 ^ 151) * IZR (Zpos q) * IZR (2 ^ 151))%R with (IZR (2 ^ 25 - 1) * IZR (Zpos q))%R by (field; lra). exact H.
  - apply lt_IZR. rewrite !mult_IZR. apply Rmult_lt_compat_r with (r := IZR (Zpos q)) in H; [|exact D].
    replace (IZR n / IZR (Zpos q) * IZR (Zpos q))%R with (IZR n) in H by (field; lra).
    apply Rmult_lt_compat_r with (r := IZR (2 ^ 151)) in H; [|exact T].
    replace (IZR (2 ^ 25 - 1) / IZR (2 ^ 151) * IZR (Zpos q) * IZR (2 ^ 151))%R with (IZR (2 ^ 25 - 1) * IZR (Zpos q))%R in H by (field; lra). exact H.
Qed.
Lemma erange_spec d : Forall is_dig (mantissa d) ->
  erange32 (numeral_of d) = true <-> overflows 24 128 d \/ underflows32 d.
Proof.
  intros F. pose proof (mantissa_nonneg d F) as Hn. pose proof (nearest_numeral prec32 emax32 d F) as N.
  unfold erange32. unfold numeral_of at 1.
  destruct (Z.eqb_spec (digits_value (mantissa d)) 0) as [E|E].
  - split; [discriminate|]. assert (V : decimal_value d = 0%R).
    { unfold decimal_value. rewrite E. replace (signed (d_mark d) 0) with 0 by now destruct (d_mark d). lra. }
    intros [H|[H _]]; [|contradiction]. destruct N as [[_ N]|[_ N]]; [contradiction|].
    unfold overflows in H. rewrite V, rounded_0 in H by reflexivity. rewrite Rabs_R0 in H. pose proof (bpow_gt_0 radix2 128). lra.
  - destruct (fraction (digits_value (mantissa d)) 10 (exponent_value d - Z.of_nat (length (frac_digits d)))) as [n q] eqn:Fr.
    assert (Pn : 0 < n) by (eapply fraction_pos; [| |exact Fr]; lia).
    pose proof (fraction_value _ 10 _ _ _ ltac:(lia) (fraction_signed _ _ _ _ _ (d_mark d) Fr)) as V.
    change (IZR (signed (d_mark d) (digits_value (mantissa d))) * powerRZ 10 (exponent_value d - Z.of_nat (length (frac_digits d))))%R with (decimal_value d) in V.
    rewrite signed_if. assert (D : (0 < IZR (Zpos q))%R) by (apply IZR_lt; lia). assert (Pn' : (0 < IZR n)%R) by (apply IZR_lt; lia).
    assert (PV : (0 < IZR n / IZR (Zpos q))%R) by (apply Rdiv_lt_0_compat; assumption).
    assert (AV : Rabs (decimal_value d) = (IZR n / IZR (Zpos q))%R).
    { rewrite <- V. destruct (d_mark d); cbn [signed]; try (apply Rabs_pos_eq; lra).
      rewrite opp_IZR. unfold Rdiv. rewrite Ropp_mult_distr_l_reverse, Rabs_Ropp. apply Rabs_pos_eq. unfold Rdiv in PV. lra. }
    destruct N as [[NN NO]|[O X]].
    + assert (FX : is_finite (nearest prec32 emax32 (numeral_of d)) = true) by apply NN.
      assert (S : (match nearest prec32 emax32 (numeral_of d) with
           | B754_infinity _ => true
           | x => (n * 2 ^ 151 <? (2 ^ 25 - 1) * Zpos q) && negb (is_exactly x (signed (d_mark d) n) q)
           end) = (n * 2 ^ 151 <? (2 ^ 25 - 1) * Zpos q) && negb (is_exactly (nearest prec32 emax32 (numeral_of d)) (signed (d_mark d) n) q)).
      { destruct (nearest prec32 emax32 (numeral_of d)); try reflexivity. discriminate. }
      rewrite S. rewrite andb_true_iff, tiny_fraction by exact Pn. rewrite <- tiny_threshold by exact PV. rewrite negb_true_iff.
      rewrite <- AV. rewrite round_NE_abs by (apply FLX_exp_valid; reflexivity).
      assert (B : is_exactly (nearest prec32 emax32 (numeral_of d)) (signed (d_mark d) n) q = false <-> rounded 24 128 (decimal_value d) <> decimal_value d).
      { pose proof (is_exactly_spec _ _ (nearest prec32 emax32 (numeral_of d)) (signed (d_mark d) n) q FX) as I. rewrite V in I.
        destruct NN as (_ & NB & _). rewrite NB in I. change (rounded prec32 emax32) with (rounded 24 128) in I. split.
        - intros H1 H2. apply I in H2. congruence.
        - intros H1. apply not_true_is_false. intros H2. apply H1. now apply I. }
      rewrite B. split.
      * intros [H1 H2]. right. split; [|split; assumption]. intros Z. rewrite Z, Rabs_R0 in AV. lra.
      * intros [H|[_ H]]; [contradiction|exact H].
    + rewrite X. split; [now left|reflexivity].
Qed.

Lemma begins_exponent_not r : ~ begins_exponent r -> exponent "e" r = (0, r).
Proof.
  intros H. destruct r as [|c r]; [reflexivity|].
  destruct (Ascii.eqb_spec c "e"%char) as [->|N1]; [|destruct (Ascii.eqb_spec c "E"%char) as [->|N2]]; [| |apply exponent_none; cbn; auto].
  - cbn. destruct (sign r) as [neg t] eqn:S. destruct (digit_split t) as (ds & u & -> & F & N).
    rewrite digits_show by assumption. destruct ds as [|d ds]; [reflexivity|]. exfalso. apply H.
    assert (R : exists m, r = (show_mark m ++ show_digits (d :: ds) ++ u)%string).
    { destruct r as [|c r]; cbn in S; [injection S as _ S; discriminate|].
      destruct (Ascii.eqb_spec c "-"%char) as [->|A]; [|destruct (Ascii.eqb_spec c "+"%char) as [->|B]].
      - injection S as _ ->. exists Minus. reflexivity.
      - injection S as _ ->. exists Plus. reflexivity.
      - exists NoSign. cbn [show_mark append]. pose proof (sign_nosign (String c r)) as Q. cbn in Q. rewrite Q in S by (intros [|]; auto). now apply (f_equal snd) in S. }
    destruct R as (m & ->). exists false, m, (d :: ds), u. split; [exact F|]. split; [discriminate|]. cbn [show_exp]. now rewrite !app_string_assoc.
  - cbn. destruct (sign r) as [neg t] eqn:S. destruct (digit_split t) as (ds & u & -> & F & N).
    rewrite digits_show by assumption. destruct ds as [|d ds]; [reflexivity|]. exfalso. apply H.
    assert (R : exists m, r = (show_mark m ++ show_digits (d :: ds) ++ u)%string).
    { destruct r as [|c r]; cbn in S; [injection S as _ S; discriminate|].
      destruct (Ascii.eqb_spec c "-"%char) as [->|A]; [|destruct (Ascii.eqb_spec c "+"%char) as [->|B]].
      - injection S as _ ->. exists Minus. reflexivity.
      - injection S as _ ->. exists Plus. reflexivity.
      - exists NoSign. cbn [show_mark append]. pose proof (sign_nosign (String c r)) as Q. cbn in Q. rewrite Q in S by (intros [|]; auto). now apply (f_equal snd) in S. }
    destruct R as (m & ->). exists true, m, (d :: ds), u. split; [exact F|]. split; [discriminate|]. cbn [show_exp]. now rewrite !app_string_assoc.
Qed.

Lemma stof_scan d ws r : spaces ws -> well_formed d -> ends_here d r -> scan (ws ++ show_decimal d ++ r) = Some (numeral_of d, r).
Proof.
  intros W K (E1 & E2 & E3 & E4). apply scan_show; try assumption.
  - destruct r; [exact I|exact E1].
  - intros A B. specialize (E2 A B). destruct r as [|c r]; [exact I|]. cbn in *. congruence.
  - intros A. apply begins_exponent_not. now apply E3.
Qed.
Lemma stof_decimal d ws r : spaces ws -> well_formed d -> ends_here d r ->
  ~ overflows 24 128 d -> ~ underflows32 d ->
  exists x, stof (ws ++ show_decimal d ++ r) = Ret x /\ nearest_to x d.
Proof.
  intros W K E O U. unfold stof. rewrite stof_scan by assumption.
  destruct (erange32 (numeral_of d)) eqn:R; [apply erange_spec in R; [tauto|apply K]|].
  exists (nearest prec32 emax32 (numeral_of d)). split; [reflexivity|].
  destruct (nearest_numeral prec32 emax32 d ltac:(apply K)) as [[H _]|[H _]]; [exact H|contradiction].
Qed.
Lemma stof_range d ws r : spaces ws -> well_formed d -> ends_here d r ->
  overflows 24 128 d \/ underflows32 d -> stof (ws ++ show_decimal d ++ r) = Throws StdOutOfRange.
Proof.
  intros W K E O. unfold stof. rewrite stof_scan by assumption. apply erange_spec in O; [|apply K]. now rewrite O.
Qed.

(** ** What [stof] rejects *)
Lemma lower_tolower c : MusicSpec.lower c = tolower c.
Proof.
  assert (C : forallb (fun c => (MusicSpec.lower c =? tolower c)%char) all_ascii = true) by (vm_compute; reflexivity).
  apply Ascii.eqb_eq. exact (ascii_sweep _ C c).
Qed.
Lemma starts_ci_iff p t : (exists r, starts_ci p t = Some r) <-> begins_word p t.
Proof.
  unfold begins_word. split.
  - intros [r H]. revert t H. induction p as [|c p IH]; intros t H; cbn in H.
    + exists ""%string, t. split; reflexivity.
    + destruct t as [|d t]; [discriminate|]. destruct (Ascii.eqb_spec (tolower d) c) as [E|]; [|discriminate].
      destruct (IH t H) as (a & b & -> & Ha). exists (String d a), b. split; [reflexivity|]. cbn. rewrite lower_tolower, E, Ha. reflexivity.
  - intros (a & b & -> & H). revert p H. induction a as [|d a IH]; intros p H; cbn in H; subst p; cbn.
    + now exists b.
    + rewrite lower_tolower, Ascii.eqb_refl. now apply IH.
Qed.
Lemma word_shorter p q t : begins_word (p ++ q) t -> begins_word p t.
Proof.
  intros H. apply starts_ci_iff in H. destruct H as [r H]. apply starts_ci_iff. revert t H. induction p as [|c p IH]; intros t H; cbn in *.
  - now exists t.
  - destruct t as [|d t]; [discriminate|]. destruct (tolower d =? c)%char; [|discriminate]. now apply (IH t).
Qed.
Lemma sign_split t0 : exists m t, t0 = (show_mark m ++ t)%string /\ snd (sign t0) = t.
Proof.
  destruct t0 as [|c t]; [exists NoSign, ""%string; now split|].
  destruct (Ascii.eqb_spec c "+"%char) as [->|N1]; [exists Plus, t; now split|].
  destruct (Ascii.eqb_spec c "-"%char) as [->|N2]; [exists Minus, t; now split|].
  exists NoSign, (String c t). split; [reflexivity|]. rewrite sign_nosign; [reflexivity|]. intros [|]; auto.
Qed.
Lemma positional_some neg t : (exists v, positional 10 "e" 1 10 neg t = Some v) <->
  begins_with (fun c => In c digit_chars) t \/ exists t', t = String "." t' /\ begins_with (fun c => In c digit_chars) t'.
Proof.
  destruct (digit_split t) as (ds & u & -> & F & N). unfold positional. rewrite digits_show by assumption.
  destruct ds as [|d ds].
  - cbn [show_digits append length fold_left Z.of_nat].
    destruct u as [|c u]; [cbn; split; [intros [? H]; discriminate|intros [[]|(t' & H & _)]; discriminate]|].
    destruct (Ascii.eqb_spec c "."%char) as [->|E].
    + destruct (digit_split u) as (fs & w & -> & Ff & Nw). rewrite digits_show by assumption. split.
      * intros [v H]. right. exists (show_digits fs ++ w)%string. split; [reflexivity|]. destruct fs as [|f fs]; [cbn in H; discriminate|].
        cbn. apply Forall_cons_iff in Ff. now apply show_digit_ok.
      * intros [H|(t' & E & H)]; [now elim N|]. injection E as <-. destruct fs as [|f fs].
        -- exfalso. cbn in H. destruct w; [exact H|]. now apply Nw.
        -- replace (0 + Z.of_nat (length (f :: fs)) =? 0) with false by (cbn [length]; lia). destruct (exponent "e" w). eexists. reflexivity.
    + assert (X : match String c u with String "."%char s' => digits 10 0 s' | _ => (0, 0, String c u) end = (0, 0, String c u)).
      { destruct c as [[] [] [] [] [] [] [] []]; try reflexivity. now elim E. }
      rewrite X. cbn. split; [intros [? H]; discriminate|]. intros [H|(t' & H & _)]; [now elim N|]. injection H as H. congruence.
  - split; intros _.
    + left. cbn. apply Forall_cons_iff in F. now apply show_digit_ok.
    + cbn [length]. destruct (match u with String "."%char s' => _ | _ => _ end) as [[m2 n2] s2] eqn:E2.
      assert (0 <= n2).
      { destruct u as [|c u]; [injection E2 as _ <- _; lia|].
        destruct (Ascii.eqb_spec c "."%char) as [->|Ec].
        - destruct (digit_split u) as (fs & w & -> & Ff & Nw). rewrite digits_show in E2 by assumption. injection E2 as _ <- _. lia.
        - destruct c as [[] [] [] [] [] [] [] []]; try (injection E2 as _ <- _; lia). now elim Ec. }
      replace (Z.of_nat (S (length ds)) + n2 =? 0) with false by lia. destruct (exponent "e" s2). eexists. reflexivity.
Qed.
Lemma word_head c p t : begins_word (String c p) t -> exists d t', t = String d t' /\ tolower d = c.
Proof.
  intros (a & b & -> & H). destruct a as [|d a]; [discriminate|]. cbn in H. injection H as H _. exists d, (a ++ b)%string. split; [reflexivity|].
  now rewrite <- lower_tolower.
Qed.
Lemma letter_head c : tolower c = "i"%char \/ tolower c = "n"%char -> is_space c = false /\ ~ is_sign c.
Proof.
  intros H. assert (C : forallb (fun c => implb ((tolower c =? "i")%char || (tolower c =? "n")%char) (negb (is_space c) && negb ((c =? "+")%char || (c =? "-")%char))) all_ascii = true) by (vm_compute; reflexivity).
  pose proof (ascii_sweep _ C c) as S. cbv beta in S. rewrite <- !Ascii.eqb_eq, <- orb_true_iff in H. rewrite H in S. cbn in S. apply andb_prop in S.
  destruct S as [S1 S2]. rewrite negb_true_iff in S1, S2. split; [exact S1|]. intros X. apply sign_char_spec in X. congruence.
Qed.
Lemma scan_some_iff s : (exists v, scan s = Some v) <-> begins_number s.
Proof.
  split.
  - unfold scan. destruct (space_split s) as (ws & t0 & -> & W & E & H). rewrite E. clear E. destruct (sign_split t0) as (m & t & -> & St).
    destruct (sign (show_mark m ++ t)) as [neg t'] eqn:Q. cbn in St. subst t'. intros V. exists ws, m, t. split; [reflexivity|]. split; [exact W|].
    destruct (starts_ci "infinity" t) eqn:S1; [right; right; left; apply (word_shorter "inf" "inity"); apply starts_ci_iff; eexists; exact S1|].
    destruct (starts_ci "inf" t) eqn:S2; [right; right; left; apply starts_ci_iff; eexists; exact S2|].
    destruct (starts_ci "nan" t) eqn:S3; [right; right; right; apply starts_ci_iff; eexists; exact S3|].
    destruct (starts_ci "0x" t) eqn:S4.
    + left. assert (B : begins_word "0x" t) by (apply starts_ci_iff; eexists; exact S4). apply word_head in B. destruct B as (d & t' & -> & Hd). cbn.
      assert (C : forallb (fun c => implb (tolower c =? "0")%char (c =? "0")%char) all_ascii = true) by (vm_compute; reflexivity).
      pose proof (ascii_sweep _ C d) as S. cbv beta in S. rewrite Hd in S. cbn in S. apply Ascii.eqb_eq in S. subst d. now left.
    + apply positional_some in V. tauto.
  - intros (ws & m & t & -> & W & H).
    assert (HD : exists c t', t = String c t' /\ is_space c = false /\ ~ is_sign c).
    { destruct H as [H|[(t' & -> & _)|[H|H]]].
      - destruct t as [|c t]; [destruct H|]. destruct (digit_or_dot_head c (or_introl H)) as (_ & _ & A & B). eauto.
      - destruct (digit_or_dot_head "." (or_intror eq_refl)) as (_ & _ & A & B). eauto.
      - apply word_head in H. destruct H as (d & t' & -> & E). destruct (letter_head d) as [A B]; [now left|]. eauto.
      - apply word_head in H. destruct H as (d & t' & -> & E). destruct (letter_head d) as [A B]; [now right|]. eauto. }
    destruct HD as (c & t' & T & C1 & C2).
    unfold scan. rewrite skip_spaces by exact W.
    assert (E : sign (skip_space (show_mark m ++ t)) = (match m with Minus => true | _ => false end, t)).
    { destruct m; cbn [show_mark append].
      - rewrite skip_space_head by (rewrite T; exact C1). apply sign_nosign. rewrite T. exact C2.
      - reflexivity.
      - reflexivity. }
    rewrite E.
    destruct (starts_ci "infinity" t); [eauto|]. destruct (starts_ci "inf" t) eqn:S2; [eauto|]. destruct (starts_ci "nan" t) eqn:S3; [eauto|].
    destruct (match starts_ci "0x" t with Some u => positional 16 "p" 4 2 match m with Minus => true | _ => false end u | None => None end); [eauto|].
    apply positional_some. destruct H as [H|[H|[H|H]]]; [now left|now right| |].
    + apply starts_ci_iff in H. destruct H as [r H]. congruence.
    + apply starts_ci_iff in H. destruct H as [r H]. congruence.
Qed.
Lemma stof_invalid s : stof s = Throws StdInvalidArgument <-> ~ begins_number s.
Proof.
  rewrite <- scan_some_iff. unfold stof. destruct (scan s) as [[v r]|].
  - split; [destruct (erange32 v); discriminate|]. intros H. elim H. eauto.
  - split; [|reflexivity]. intros _ [v H]. discriminate.
Qed.
(** The words for infinity and NaN, whatever follows. *)
Lemma sign_show m t : head_ok t (fun c => ~ is_sign c /\ is_space c = false) -> sign (skip_space (show_mark m ++ t)) = (match m with Minus => true | _ => false end, t).
Proof.
  intros H. destruct m; cbn [show_mark append]; [|reflexivity..]. destruct t as [|c t]; [reflexivity|]. destruct H as (A & B). rewrite skip_space_head by exact B. now apply sign_nosign.
Qed.
Lemma letter_ok c p t : (c = "i" \/ c = "n")%char -> begins_word (String c p) t -> head_ok t (fun c => ~ is_sign c /\ is_space c = false).
Proof. intros C H. apply word_head in H. destruct H as (d & t' & -> & E). destruct (letter_head d) as (A & B); [subst; tauto|]. now split. Qed.
Lemma stof_inf ws m t : spaces ws -> begins_word "inf" t -> stof (ws ++ show_mark m ++ t) = Ret (B754_infinity (match m with Minus => true | _ => false end)).
Proof.
  intros W H. unfold stof, scan. rewrite skip_spaces by exact W. rewrite sign_show by (apply (letter_ok "i" "nf"); auto). apply starts_ci_iff in H. destruct H as (r & H). rewrite H.
  destruct (starts_ci "infinity" t); reflexivity.
Qed.
Lemma stof_nan ws m t : spaces ws -> begins_word "nan" t -> stof (ws ++ show_mark m ++ t) = Ret B754_nan.
Proof.
  intros W H. unfold stof, scan. rewrite skip_spaces by exact W. rewrite sign_show by (apply (letter_ok "n" "an"); auto). pose proof H as N. apply starts_ci_iff in H. destruct H as (r & H). rewrite H.
  apply word_head in N. destruct N as (d & t' & -> & E). rewrite !starts_ci_head by (rewrite E; reflexivity). reflexivity.
Qed.
(** Every text that begins a number begins with a decimal numeral that ends there, a hexadecimal one, infinity or NaN. *)
Lemma show_digits_app a b : show_digits (a ++ b) = (show_digits a ++ show_digits b)%string.
Proof. induction a as [|d a IH]; [reflexivity|]. cbn. now rewrite IH. Qed.
Lemma exponent_split w : nodig w -> exists e r, w = (show_exp e ++ r)%string /\ match e with Some (_, _, ds) => Forall is_dig ds /\ ds <> [] | None => True end /\ nodig r /\ (e = None -> ~ begins_exponent r).
Proof.
  intros N. destruct (Classical_Prop.classic (begins_exponent w)) as [(u & m & ds & r & F & NE & ->)|H]; [|exists None, w; repeat split; [exact N|intros _; exact H]].
  destruct (digit_split r) as (ds' & r' & -> & F' & N'). exists (Some (u, m, (ds ++ ds')%list)), r'. split; [|split; [split|split; [exact N'|discriminate]]].
  - cbn [show_exp]. rewrite show_digits_app, !app_string_assoc. reflexivity.
  - apply Forall_app. now split.
  - destruct ds; [now elim NE|discriminate].
Qed.
Lemma decimal_split m t : begins_with (fun c => In c digit_chars) t \/ (exists t', t = String "." t' /\ begins_with (fun c => In c digit_chars) t') ->
  exists d r, d_mark d = m /\ (show_mark m ++ t = show_decimal d ++ r)%string /\ well_formed d /\ ((d_int d = [0] -> d_frac d = None -> d_exp d = None -> ~ begins_hex r) -> ends_here d r) /\
    (d_int d = [0] -> d_frac d = None -> d_exp d = None -> t = String "0" r).
Proof.
  intros H. destruct (digit_split t) as (ds & u & -> & F & N).
  assert (S : exists f w, u = (show_frac f ++ w)%string /\ Forall is_dig (match f with Some fs => fs | None => [] end) /\ nodig w /\ (f = None -> ~ begins_with (eq "."%char) w)).
  { destruct u as [|c u]; [exists None, ""%string; repeat split; [constructor|intros _ X; exact X]|]. destruct (Ascii.eqb_spec c "."%char) as [->|E].
    - destruct (digit_split u) as (fs & w & -> & Ff & Nw). exists (Some fs), w. repeat split; [exact Ff|exact Nw|discriminate].
    - exists None, (String c u). repeat split; [constructor|exact N|]. cbn. congruence. }
  destruct S as (f & w & -> & Ff & Nw & Pw). destruct (exponent_split w Nw) as (e & r & -> & Ke & Nr & Er).
  exists (mkDecimal m ds f e), r. split; [reflexivity|]. split; [unfold show_decimal; cbn; now rewrite !app_string_assoc|]. split; [|split].
  - split; [|split; [|exact Ke]].
    + unfold mantissa, frac_digits. cbn. apply Forall_app. split; [exact F|exact Ff].
    + unfold mantissa, frac_digits. cbn. intros Q. apply app_eq_nil in Q. destruct Q as (-> & Q). destruct H as [H|(t' & E & H)].
      * cbn in H. destruct f as [fs|]; [cbn in H; intuition discriminate|]. cbn in H. destruct e as [[[[] ?] ?]|]; cbn in H; [intuition discriminate..|]. destruct r; [exact H|now apply Nr].
      * destruct f as [fs|]; [|specialize (Pw eq_refl); cbn in E; rewrite E in Pw; now apply Pw]. subst fs. cbn in E. injection E as <-. destruct e as [[[[] ?] ?]|]; cbn in H; [intuition discriminate..|]. destruct r; [exact H|now apply Nr].
  - intros X. split; [|split; [|split; [exact Er|exact X]]].
    + destruct r; [exact (fun x => x)|exact Nr].
    + cbn. intros A B. rewrite B in Pw. exact (Pw A).
  - cbn. intros -> -> ->. reflexivity.
Qed.
Lemma stof_every_text s : ~ begins_number s \/ begins_hexadecimal s \/ (exists ws m t, s = (ws ++ show_mark m ++ t)%string /\ spaces ws /\ (begins_word "inf" t \/ begins_word "nan" t)) \/
  exists ws d r, s = (ws ++ show_decimal d ++ r)%string /\ spaces ws /\ well_formed d /\ ends_here d r.
Proof.
  destruct (Classical_Prop.classic (begins_number s)) as [B|B]; [right|now left]. destruct (Classical_Prop.classic (begins_hexadecimal s)) as [X|X]; [now left|right].
  destruct B as (ws & m & t & -> & W & H). assert (D : (begins_word "inf" t \/ begins_word "nan" t) \/ (begins_with (fun c => In c digit_chars) t \/ (exists t', t = String "." t' /\ begins_with (fun c => In c digit_chars) t'))) by tauto.
  destruct D as [D|D]; [left; exists ws, m, t; auto|]. right. destruct (decimal_split m t D) as (d & r & M & E & K & N & Z). exists ws, d, r. rewrite E. split; [reflexivity|]. split; [exact W|]. split; [exact K|].
  apply N. intros A1 A2 A3 Y. apply X. exists ws, m, r. split; [|split; [exact W|exact Y]]. now rewrite (Z A1 A2 A3).
Qed.
Lemma stof_cases s : (exists x, stof s = Ret x) \/ stof s = Throws StdOutOfRange \/ stof s = Throws StdInvalidArgument.
Proof. unfold stof. destruct (scan s) as [[v r]|]; [|auto]. destruct (erange32 v); eauto. Qed.
