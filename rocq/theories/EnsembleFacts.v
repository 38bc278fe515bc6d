(** Facts about words, numbers and features of the ensemble. *)
From Coq Require Import Lia Lra Reals Ascii.
From Flocq Require Import Core.Core IEEE754.BinarySingleNaN.
From Verif Require Import Base BaseFacts Fp Key PitchClass Text Options Output Main Py KeyProfile OptTables Dataset Ensemble.
From Verif Require Import MusicSpec TextSpec TextFacts NumberFacts ReadFacts PrintSpec PrintFacts PrintUnique DumpFacts ChromaSpec EnsembleSpec FloatKit LabelFacts OutputFacts.
Open Scope Z_scope.

(** ** Words *)
Lemma space_false c : is_space c = false <-> ~ In c space_chars.
Proof. rewrite <- is_space_chars. destruct (is_space c); split; congruence. Qed.
Lemma spaces_true b : spaces b -> Forall (fun c => is_space c = true) (list_ascii_of_string b).
Proof. apply Forall_impl. intros c. apply is_space_chars. Qed.
Lemma unspaced_false b : unspaced b -> Forall (fun c => is_space c = false) (list_ascii_of_string b).
Proof. apply Forall_impl. intros c. apply space_false. Qed.
Lemma words_split s l : words s l -> bytes_split s = l.
Proof.
  intros W. induction W as [s H|b w H1 H2 H3|b w d s l H1 H2 H3 H4 W IH]; unfold bytes_split, split_with.
  - rewrite <- (app_string_nil s). rewrite split_skip by now apply spaces_true. reflexivity.
  - rewrite split_skip by now apply spaces_true. rewrite <- (app_string_nil w) at 1. rewrite split_run by now apply unspaced_false. cbn [split_loop]. now apply flush_word.
  - rewrite split_skip by now apply spaces_true. rewrite split_run by now apply unspaced_false. cbn [split_loop]. apply is_space_chars in H4. rewrite H4. rewrite flush_word by exact H3. f_equal. exact IH.
Qed.
Lemma words_space c s l : In c space_chars -> words s l -> words (String c s) l.
Proof.
  intros B W. destruct W as [s H|b w H1 H2 H3|b w d s l H1 H2 H3 H4 H5].
  - apply words_none. now constructor.
  - apply (words_last (String c b) w); [now constructor|assumption|assumption].
  - apply (words_more (String c b) w d s l); try assumption. now constructor.
Qed.
Lemma split_words_loop s cur : Forall (fun c => ~ In c space_chars) cur -> words (text (rev cur) ++ s) (split_loop is_space cur s).
Proof.
  revert cur. induction s as [|c s IH]; intros cur H.
  - cbn [split_loop]. rewrite app_string_nil. destruct cur as [|c cur]; [apply words_none; constructor|]. unfold flush.
    apply (words_last "" (text (rev (c :: cur)))); [constructor| |apply text_rev_nonempty]. unfold unspaced, chars. rewrite chars_text. now apply Forall_rev.
  - cbn [split_loop]. destruct (is_space c) eqn:E.
    + apply is_space_chars in E. pose proof (IH [] (Forall_nil _)) as W. cbn in W. destruct cur as [|a cur]; [now apply words_space|]. unfold flush.
      apply (words_more "" (text (rev (a :: cur))) c s); try assumption; [constructor| |apply text_rev_nonempty]. unfold unspaced, chars. rewrite chars_text. now apply Forall_rev.
    + apply space_false in E. pose proof (IH (c :: cur) ltac:(now constructor)) as W. cbn [rev] in W. rewrite text_app in W. rewrite app_string_assoc in W. exact W.
Qed.
Lemma split_words s : words s (bytes_split s).
Proof. exact (split_words_loop s [] (Forall_nil _)). Qed.

(** ** Stripping *)
Lemma lstrip_skip space b s : Forall (fun c => space c = true) (list_ascii_of_string b) -> lstrip space (b ++ s) = lstrip space s.
Proof. induction b as [|c b IH]; intros H; [reflexivity|]. inversion H; subst. cbn. rewrite H2. now apply IH. Qed.
Lemma lstrip_id space s : Forall (fun c => space c = false) (list_ascii_of_string s) -> lstrip space s = s.
Proof. destruct s as [|c s]; [reflexivity|]. intros H. inversion H; subst. cbn. now rewrite H2. Qed.
Lemma lstrip_front space s t : s <> ""%string -> Forall (fun c => space c = false) (list_ascii_of_string s) -> lstrip space (s ++ t) = (s ++ t)%string.
Proof. destruct s as [|c s]; [congruence|]. intros _ H. inversion H; subst. cbn. now rewrite H2. Qed.
Lemma string_rev_chars s : list_ascii_of_string (string_rev s) = rev (list_ascii_of_string s).
Proof. unfold string_rev. apply chars_text. Qed.
Lemma strip_around space a t b : Forall (fun c => space c = true) (list_ascii_of_string a) -> Forall (fun c => space c = true) (list_ascii_of_string b) ->
  Forall (fun c => space c = false) (list_ascii_of_string t) -> strip_with space (a ++ t ++ b) = t.
Proof.
  intros A B T. unfold strip_with. rewrite lstrip_skip by exact A. destruct t as [|c t].
  - cbn [append]. rewrite <- (app_string_nil b), lstrip_skip by exact B. reflexivity.
  - rewrite lstrip_front by (discriminate || exact T). rewrite string_rev_app. rewrite lstrip_skip by (rewrite string_rev_chars; now apply Forall_rev).
    rewrite lstrip_id by (rewrite string_rev_chars; now apply Forall_rev). apply string_rev_rev.
Qed.

(** ** Numbers *)
Lemma digit_unspaced d : is_dig d -> ~ In (show_digit d) space_chars.
Proof. intros H. rewrite <- space_false. apply dig_cases in H. cbn in H. repeat (destruct H as [<-|H]; [reflexivity|]). destruct H. Qed.
Lemma unspaced_app a b : unspaced a -> unspaced b -> unspaced (a ++ b).
Proof. unfold unspaced, chars. rewrite chars_app. intros A B. now apply Forall_app. Qed.
Lemma unspaced_cons c s : ~ In c space_chars -> unspaced s -> unspaced (String c s).
Proof. intros A B. now constructor. Qed.
Lemma digits_unspaced ds : Forall is_dig ds -> unspaced (show_digits ds).
Proof. induction 1; [constructor|]. cbn. apply unspaced_cons; [now apply digit_unspaced|assumption]. Qed.
Lemma mark_unspaced m : unspaced (show_mark m).
Proof. destruct m; repeat constructor; rewrite <- space_false; reflexivity. Qed.
Lemma decimal_unspaced d : well_formed d -> unspaced (show_decimal d).
Proof.
  intros (F & _ & K). apply Forall_app in F. destruct F as [F1 F2]. unfold show_decimal. apply unspaced_app; [apply mark_unspaced|].
  apply unspaced_app; [now apply digits_unspaced|]. apply unspaced_app.
  - unfold frac_digits in F2. destruct (d_frac d); [|constructor]. apply unspaced_cons; [rewrite <- space_false; reflexivity|now apply digits_unspaced].
  - destruct (d_exp d) as [[[u m] ds]|]; [|constructor]. cbn. destruct K as [K _]. apply unspaced_app.
    + destruct u; repeat constructor; rewrite <- space_false; reflexivity.
    + apply unspaced_app; [apply mark_unspaced|now apply digits_unspaced].
Qed.
Lemma decimal_nonempty d : well_formed d -> show_decimal d <> ""%string.
Proof.
  intros (F & N & _) E. unfold show_decimal in E. destruct (show_mark (d_mark d)); [|discriminate]. cbn in E. unfold mantissa, frac_digits in N.
  destruct (d_int d); [|discriminate]. destruct (d_frac d); [discriminate|]. now elim N.
Qed.
Lemma float_decimal a d b : spaces a -> spaces b -> well_formed d -> float_of (a ++ show_decimal d ++ b) = Returns (nearest prec64 emax64 (numeral_of d)).
Proof.
  intros A B W. unfold float_of. rewrite strip_around; [|now apply spaces_true|now apply spaces_true|now apply unspaced_false, decimal_unspaced].
  destruct W as (F & NE & KE). destruct (proj1 (Forall_app _ _ _) F) as [F1 F2]. unfold show_decimal.
  set (u := show_exp (d_exp d)). set (t := (show_digits (d_int d) ++ show_frac (d_frac d) ++ u)%string).
  assert (T : exists c t', t = String c t' /\ (In c digit_chars \/ c = "."%char)).
  { unfold t, mantissa, frac_digits in *. destruct (d_int d) as [|x l].
    - destruct (d_frac d) as [fs|]; [|now elim NE]. cbn. eexists _, _. split; [reflexivity|now right].
    - cbn. apply Forall_cons_iff in F1. eexists _, _. split; [reflexivity|]. left. now apply show_digit_ok. }
  destruct T as (c & t' & T & Hc). destruct (digit_or_dot_head c Hc) as (C1 & C2 & C3 & C4).
  assert (E : sign (show_mark (d_mark d) ++ t) = (negative (d_mark d), t)).
  { destruct (d_mark d); cbn [show_mark append]; [|reflexivity|reflexivity]. apply sign_nosign. rewrite T. exact C4. }
  rewrite E. rewrite !starts_ci_head by (rewrite T; assumption).
  rewrite (mantissa_read d (negative (d_mark d)) u t F1 F2 NE); [| | |reflexivity].
  - unfold u. rewrite <- (app_string_nil (show_exp (d_exp d))), exponent_show; [|exact KE|exact I|reflexivity]. reflexivity.
  - unfold u. rewrite <- (app_string_nil (show_exp (d_exp d))). now apply show_exp_nodig.
  - intros _. unfold u. destruct (d_exp d) as [[[[] m] ds]|]; cbn; try exact I; discriminate.
Qed.
Lemma returns_eq {A} (x y : A) : Returns x = Returns y -> x = y.
Proof. congruence. Qed.
(** Every text: what is left after stripping, and what [float()] makes of it. *)
Lemma lstrip_parts space s : exists a, s = (a ++ lstrip space s)%string /\ Forall (fun c => space c = true) (list_ascii_of_string a).
Proof.
  induction s as [|c s (a & E & F)]; [exists ""%string; split; [reflexivity|constructor]|]. cbn. destruct (space c) eqn:S.
  - exists (String c a). split; [cbn; now rewrite <- E|now constructor].
  - exists ""%string. split; [reflexivity|constructor].
Qed.
Lemma strip_parts s : exists a b, s = (a ++ strip_with is_space s ++ b)%string /\ spaces a /\ spaces b.
Proof.
  destruct (lstrip_parts is_space s) as (a & E & F). unfold strip_with. set (t := lstrip is_space s) in *.
  destruct (lstrip_parts is_space (string_rev t)) as (b & E' & F'). set (u := lstrip is_space (string_rev t)) in *.
  exists a, (string_rev b). split; [|split].
  - rewrite E at 1. f_equal. rewrite <- (string_rev_rev t), E'. apply string_rev_app.
  - apply (Forall_impl _ (fun c => proj1 (is_space_chars c))). exact F.
  - unfold spaces, chars. rewrite string_rev_chars. apply Forall_rev. exact (Forall_impl _ (fun c => proj1 (is_space_chars c)) F').
Qed.
Lemma starts_whole p t : starts_ci p t = Some ""%string <-> lower_string t = p.
Proof.
  revert t. induction p as [|c p IH]; intros [|d t]; cbn; try (split; congruence || discriminate).
  rewrite lower_tolower. destruct (Ascii.eqb_spec (tolower d) c) as [E|E].
  - rewrite IH. split; [intros ->; now rewrite E|intros H; now injection H].
  - split; [discriminate|]. intros H. injection H as H _. contradiction.
Qed.
Lemma word_unspaced p t : lower_string t = p -> Forall (fun c => is_space c = false) (list_ascii_of_string p) -> unspaced t.
Proof.
  intros <-. induction t as [|c t IH]; [constructor|]. cbn. intros H. inversion H; subst. constructor; [|now apply IH].
  rewrite <- space_false. assert (C : forallb (fun c => implb (negb (is_space (MusicSpec.lower c))) (negb (is_space c))) all_ascii = true) by (vm_compute; reflexivity).
  pose proof (ascii_sweep _ C c) as S. cbv beta in S. rewrite H2 in S. now apply negb_true_iff in S.
Qed.
Lemma word_sign m t p : lower_string t = p -> p = "inf"%string \/ p = "infinity"%string \/ p = "nan"%string -> sign (show_mark m ++ t) = (negative m, t).
Proof.
  intros L P. destruct m; [|reflexivity..]. apply sign_nosign. destruct t as [|c t]; [exact I|]. cbn in L. cbn.
  destruct (letter_head c) as [_ H]; [|exact H]. rewrite <- lower_tolower. destruct P as [->|[->| ->]]; injection L as -> _; auto.
Qed.
Lemma decimal_positional d r neg : well_formed d -> ~ begins_with (fun c => In c digit_chars) r -> (d_frac d = None -> d_exp d = None -> ~ begins_with (eq "."%char) r) ->
  (d_exp d = None -> ~ begins_exponent r) ->
  positional 10 "e" 1 10 neg (show_digits (d_int d) ++ show_frac (d_frac d) ++ show_exp (d_exp d) ++ r) = Some (Finite neg (digits_value (mantissa d)) 10 (exponent_value d - Z.of_nat (length (frac_digits d))), r).
Proof.
  intros (F & NE & KE) R1 R2 R3. destruct (proj1 (Forall_app _ _ _) F) as [F1 F2].
  assert (N : nodig r) by (destruct r; [exact I|exact R1]).
  rewrite (mantissa_read d neg (show_exp (d_exp d) ++ r) _ F1 F2 NE); [|now apply show_exp_nodig| |reflexivity].
  - rewrite exponent_show; [reflexivity|exact KE|exact N|]. intros E. now apply begins_exponent_not, R3.
  - intros A. specialize (R2 A). destruct (d_exp d) as [[[[] m] ds]|]; cbn; [discriminate|discriminate|]. specialize (R2 eq_refl). destruct r; [exact I|]. cbn in *. congruence.
Qed.
Lemma float_returns s y : float_of s = Returns y -> python_number s y.
Proof.
  intros H. destruct (strip_parts s) as (a & b & E & A & B). unfold float_of in H. rewrite E. set (u := strip_with is_space s) in *. clearbody u. clear E s.
  destruct (sign_split u) as (m & t & -> & St).
  assert (SG : forall p, lower_string t = p -> p = "inf"%string \/ p = "infinity"%string \/ p = "nan"%string -> fst (sign (show_mark m ++ t)) = negative m) by (intros p L P; now rewrite (word_sign m t p)).
  assert (KEY : positional 10 "e" 1 10 (fst (sign (show_mark m ++ t))) t = None \/ exists v r, positional 10 "e" 1 10 (fst (sign (show_mark m ++ t))) t = Some (v, r)) by (destruct (positional 10 "e" 1 10 (fst (sign (show_mark m ++ t))) t) as [[v r]|]; eauto).
  destruct (sign (show_mark m ++ t)) as [neg t'] eqn:SE. cbn in St. subst t'. cbn [fst] in SG, KEY.
  assert (POS : match positional 10 "e" 1 10 neg t with Some (v, ""%string) => Returns (nearest prec64 emax64 v) | _ => Raises ValueError end = Returns y -> python_number (a ++ (show_mark m ++ t) ++ b) y).
  { clear H. intros H. destruct KEY as [K|(v & r & K)]; rewrite K in H; [discriminate|]. destruct r as [|c r]; [|discriminate].
    assert (P : exists v, positional 10 "e" 1 10 neg t = Some v) by eauto. apply positional_some in P.
    destruct (decimal_split m t P) as (d & r & M & T & W & EH & ZERO).
    assert (EQ : t = (show_digits (d_int d) ++ show_frac (d_frac d) ++ show_exp (d_exp d) ++ r)%string).
    { unfold show_decimal in T. rewrite M, !app_string_assoc in T. destruct m; cbn in T; [exact T|now injection T|now injection T]. }
    assert (NEG : neg = negative m).
    { destruct m; [|injection SE as <-; reflexivity..]. destruct t as [|c t]; [destruct P as [[]|(? & ? & _)]; discriminate|].
      cbn [show_mark append] in SE. rewrite sign_nosign in SE; [now injection SE as <-|]. destruct P as [P|(t' & P & _)]; cbn.
      - now destruct (digit_or_dot_head c (or_introl P)) as (_ & _ & _ & X).
      - injection P as -> _. now destruct (digit_or_dot_head "." (or_intror eq_refl)) as (_ & _ & _ & X). }
    assert (END : ends_here d r).
    { apply EH. intros Z1 Z2 Z3 (x & t' & -> & X & _). specialize (ZERO Z1 Z2 Z3). rewrite ZERO in K.
      assert (X1 : nodig (String x t')) by (destruct X as [-> | ->]; cbn; intuition discriminate).
      assert (X2 : head_ok (String x t') (fun c => c <> "."%char)) by (destruct X as [-> | ->]; cbn; discriminate).
      rewrite (mantissa_read (mkDecimal m [0] None None) neg (String x t')) in K; cbn; auto; try discriminate; try constructor; try constructor; try reflexivity; try discriminate.
      cbn in K. destruct X as [-> | ->]; cbn in K; discriminate K. }
    destruct END as (E1 & E2 & E3 & _). rewrite EQ in K. rewrite decimal_positional in K by assumption. injection K as <- ->.
    assert (SD : (show_mark m ++ t)%string = show_decimal d) by now rewrite T, app_string_nil. rewrite SD.
    assert (NU : numeral_of d = Finite neg (digits_value (mantissa d)) 10 (exponent_value d - Z.of_nat (length (frac_digits d)))) by (unfold numeral_of; rewrite M, NEG; now destruct m).
    rewrite <- NU in H. apply returns_eq in H. rewrite <- H. destruct (nearest_numeral prec64 emax64 d ltac:(apply W)) as [[N1 N2]|[N1 N2]].
    - now apply number_decimal.
    - rewrite N2. change (match d_mark d with Minus => true | _ => false end) with (negative (d_mark d)). now apply number_too_large. }
  destruct (starts_ci "infinity" t) as [[|]|] eqn:S1.
  - apply starts_whole in S1. injection H as <-. rewrite (SG _ S1) by auto. apply number_infinite; auto.
  - destruct (starts_ci "inf" t) as [[|]|] eqn:S2.
    + apply starts_whole in S2. injection H as <-. rewrite (SG _ S2) by auto. apply number_infinite; auto.
    + destruct (starts_ci "nan" t) as [[|]|] eqn:S3; [|exact (POS H)..]. apply starts_whole in S3. injection H as <-. now apply number_nan.
    + destruct (starts_ci "nan" t) as [[|]|] eqn:S3; [|exact (POS H)..]. apply starts_whole in S3. injection H as <-. now apply number_nan.
  - destruct (starts_ci "inf" t) as [[|]|] eqn:S2.
    + apply starts_whole in S2. injection H as <-. rewrite (SG _ S2) by auto. apply number_infinite; auto.
    + destruct (starts_ci "nan" t) as [[|]|] eqn:S3; [|exact (POS H)..]. apply starts_whole in S3. injection H as <-. now apply number_nan.
    + destruct (starts_ci "nan" t) as [[|]|] eqn:S3; [|exact (POS H)..]. apply starts_whole in S3. injection H as <-. now apply number_nan.
Qed.
Lemma float_infinite a b m t : spaces a -> spaces b -> lower_string t = "inf"%string \/ lower_string t = "infinity"%string -> float_of (a ++ (show_mark m ++ t) ++ b) = Returns (B754_infinity (negative m)).
Proof.
  intros A B L. assert (U : unspaced t) by (destruct L as [L|L]; apply (word_unspaced _ _ L); repeat constructor).
  unfold float_of. rewrite strip_around; [|now apply spaces_true|now apply spaces_true|apply unspaced_false, unspaced_app; [apply mark_unspaced|exact U]].
  destruct L as [L|L].
  - rewrite (word_sign m t "inf") by auto. apply starts_whole in L as L'. rewrite L'. destruct (starts_ci "infinity" t) as [[|]|]; reflexivity.
  - rewrite (word_sign m t "infinity") by auto. apply starts_whole in L as L'. now rewrite L'.
Qed.
Lemma float_nan a b m t : spaces a -> spaces b -> lower_string t = "nan"%string -> float_of (a ++ (show_mark m ++ t) ++ b) = Returns B754_nan.
Proof.
  intros A B L. assert (U : unspaced t) by (apply (word_unspaced _ _ L); repeat constructor).
  unfold float_of. rewrite strip_around; [|now apply spaces_true|now apply spaces_true|apply unspaced_false, unspaced_app; [apply mark_unspaced|exact U]].
  rewrite (word_sign m t "nan") by auto. apply starts_whole in L as L'. rewrite L'.
  destruct t as [|c t]; [discriminate|]. cbn in L. injection L as C _. rewrite !starts_ci_head by (rewrite lower_tolower in C; rewrite C; reflexivity). reflexivity.
Qed.
Lemma float_iff s y : float_of s = Returns y <-> python_number s y.
Proof.
  split; [apply float_returns|]. intros [a b d x A B W N O|a b d A B W O|a b m t A B L|a b m t A B L].
  - rewrite float_decimal by assumption. f_equal. destruct (nearest_numeral prec64 emax64 d ltac:(apply W)) as [[N1 _]|[N1 _]]; [|contradiction]. exact (nearest_unique _ _ _ _ d N1 N).
  - rewrite float_decimal by assumption. f_equal. destruct (nearest_numeral prec64 emax64 d ltac:(apply W)) as [[_ N1]|[_ N1]]; [contradiction|exact N1].
  - now apply float_infinite.
  - now apply float_nan.
Qed.
Lemma float_raises s : float_of s = Raises ValueError <-> forall y, ~ python_number s y.
Proof.
  split.
  - intros H y N. apply float_iff in N. congruence.
  - intros H. assert (X : float_of s = Raises ValueError \/ exists y, float_of s = Returns y).
    { unfold float_of. destruct (sign (strip_with is_space s)) as [neg t]. destruct (starts_ci "infinity" t) as [[|]|], (starts_ci "inf" t) as [[|]|], (starts_ci "nan" t) as [[|]|], (positional 10 "e" 1 10 neg t) as [[v [|]]|]; eauto. }
    destruct X as [X|(y & X)]; [exact X|]. apply float_iff in X. now elim (H y).
Qed.

(** ** Features *)
Notation max_int := (2 ^ 1024 - 2 ^ 971).
Lemma finite_bound (x : b64) : (Rabs (B2R x) <= IZR max_int)%R.
Proof.
  pose proof (abs_B2R_le_emax_minus_prec 53 1024 eq_refl x) as H. eapply Rle_trans; [exact H|]. apply Req_le. rewrite minus_IZR, <- !(IZR_Zpower radix2) by lia. reflexivity.
Qed.
Lemma Rdiv_1 r : (r / 1 = r)%R.
Proof. field. Qed.
Lemma six_upper64 v : (Rabs v <= IZR max_int)%R -> (Rabs (six_figures v) <= IZR max_int)%R.
Proof.
  intros H. rewrite <- six_abs. eapply Rle_trans; [apply six_le, H|].
  pose proof (six_digits_spec max_int 1 eq_refl eq_refl) as S. rewrite Rdiv_1 in S.
  assert (E : six_digits max_int 1 = (179769, 308)) by (vm_compute; reflexivity). rewrite E in S. destruct S as (_ & ->).
  rewrite bpow10_IZR by lia. rewrite <- mult_IZR. apply IZR_le. vm_compute. discriminate.
Qed.
Definition again (v : R) : R := rounded 53 1024 (six_figures v).
Lemma again_small v : (Rabs v <= IZR max_int)%R -> (Rabs (again v) <= IZR max_int)%R.
Proof.
  intros H. apply six_upper64 in H. unfold again, rounded. rewrite <- round_NE_abs by typeclasses eauto.
  assert (M : rounded 53 1024 (IZR max_int) = IZR max_int).
  { apply round_generic; [typeclasses eauto|]. apply generic_format_FLT. exists (Float radix2 (2 ^ 53 - 1) 971); [|vm_compute; reflexivity|discriminate].
    unfold F2R. cbn [Fnum Fexp]. rewrite <- IZR_Zpower by lia. rewrite <- mult_IZR. apply f_equal. vm_compute. reflexivity. }
  rewrite <- M. apply round_le; [typeclasses eauto..|]. exact H.
Qed.
Lemma printed_fits x d : printed x d -> ~ overflows 53 1024 d.
Proof.
  intros P. unfold overflows. rewrite (pr_value x d P). fold (again (B2R x)). pose proof (again_small _ (finite_bound x)) as B.
  assert (M : (IZR max_int < bpow radix2 1024)%R) by (rewrite <- IZR_Zpower by lia; apply IZR_lt; vm_compute; reflexivity). lra.
Qed.
Lemma feature_read x : exists y, float_of (format_g x) = Returns y /\ as_feature x y.
Proof.
  destruct (is_finite x) eqn:F.
  - destruct (format_printed x F) as (d & E & P). pose proof (pr_formed x d P) as W.
    exists (nearest prec64 emax64 (numeral_of d)). split.
    + rewrite E. pose proof (float_decimal "" d "" ltac:(constructor) ltac:(constructor) W) as H. rewrite app_string_nil in H. exact H.
    + unfold as_feature. rewrite F. destruct (nearest_numeral prec64 emax64 d ltac:(apply W)) as [[(N1 & N2 & N3) _]|[N _]]; [|now elim (printed_fits x d P)].
      split; [exact N1|]. split; [now rewrite <- (pr_value x d P)|]. etransitivity; [exact N3|]. rewrite (pr_sign x d P). now destruct (Bsign x).
  - exists x. unfold as_feature. rewrite F. split; [|reflexivity]. destruct x as [| [] | |]; try discriminate; reflexivity.
Qed.
Lemma feature_unique x y z : as_feature x y -> as_feature x z -> y = z.
Proof. unfold as_feature. destruct (is_finite x); [|congruence]. intros (A1 & A2 & A3) (B1 & B2 & B3). apply B2R_Bsign_inj; congruence. Qed.
Lemma feature_float x y : as_feature x y -> float_of (format_g x) = Returns y.
Proof. intros H. destruct (feature_read x) as (z & E & Z). rewrite E. f_equal. exact (feature_unique x z y Z H). Qed.
Lemma format_word x : unspaced (format_g x) /\ format_g x <> ""%string.
Proof.
  destruct (is_finite x) eqn:F.
  - destruct (format_printed x F) as (d & E & P). pose proof (pr_formed x d P) as W. rewrite E. split; [now apply decimal_unspaced|now apply decimal_nonempty].
  - destruct x as [| [] | |]; try discriminate F; (split; [|discriminate]); repeat constructor; rewrite <- space_false; reflexivity.
Qed.
Lemma printed_words probs : words (print_probabilities probs) (map format_g probs).
Proof.
  induction probs as [|p probs IH].
  - apply words_none. constructor; [|constructor]. cbn. auto.
  - destruct (format_word p) as (U & N). apply (words_more "" (format_g p) " " (print_probabilities probs)); [constructor|exact U|exact N|now left|exact IH].
Qed.
Lemma pymap_forall2 {A B} (f : A -> py B) l ys : Forall2 (fun x y => f x = Returns y) l ys -> pymap f l = Returns ys.
Proof. induction 1 as [|x y l ys H _ IH]; [reflexivity|]. cbn. rewrite H. cbn. now rewrite IH. Qed.
Lemma features_printed probs ys : length probs = 24%nat -> Forall2 as_feature probs ys -> features_of (print_probabilities probs) = Returns ys.
Proof.
  intros L H. unfold features_of. rewrite (words_split _ _ (printed_words probs)). rewrite map_length, L. cbn [Nat.eqb negb]. apply pymap_forall2.
  clear L. induction H; constructor; [now apply feature_float|assumption].
Qed.
Lemma feature_total probs : exists ys, Forall2 as_feature probs ys.
Proof. induction probs as [|x probs (ys & IH)]; [now exists []|]. destruct (feature_read x) as (y & _ & Y). exists (y :: ys). now constructor. Qed.
Definition million : decimal := mkDecimal Minus [1; 0; 0; 0; 0; 0; 0] None None.
Definition minus_million : b64 := nearest prec64 emax64 (numeral_of million).
Lemma million_formed : well_formed million.
Proof. split; [|split; [discriminate|exact I]]. repeat constructor; lia. Qed.
Lemma minus_million_text : float_of "-1000000" = Returns minus_million.
Proof. exact (float_decimal "" million "" ltac:(constructor) ltac:(constructor) million_formed). Qed.
Lemma minus_million_value : is_finite minus_million = true /\ B2R minus_million = (-1000000)%R.
Proof.
  assert (E : B2SF minus_million = SpecFloat.S754_finite true 8589934592000000 (-33)) by (vm_compute; reflexivity).
  assert (F : is_finite minus_million = true) by (rewrite <- is_finite_SF_B2SF, E; reflexivity). split; [exact F|].
  rewrite <- SF2R_B2SF, E. unfold SF2R, F2R. cbn [Fnum Fexp cond_Zopp]. rewrite (bpow2_neg 33) by lia. change (2 ^ 33) with 8589934592. rewrite opp_IZR. lra.
Qed.
Lemma features_failed output : length (bytes_split output) <> 24%nat -> exists ys, features_of output = Returns ys /\ failed ys.
Proof.
  intros H. unfold features_of. apply Nat.eqb_neq in H. rewrite H. cbn [negb].
  exists (repeat minus_million 24). split.
  - apply pymap_forall2. do 24 (constructor; [exact minus_million_text|]). constructor.
  - split; [reflexivity|]. apply Forall_forall. intros x X. apply repeat_spec in X. subst x. exact minus_million_value.
Qed.
