(** Facts about reading decimal numbers. *)
From Coq Require Import Lia Ascii Reals Lra.
From Flocq Require Import Core.Core IEEE754.BinarySingleNaN.
From Verif Require Import Base BaseFacts Fp PitchClass Text TextSpec TextFacts.
From Coq Require Import ZifyBool ZifyNat.
Open Scope Z_scope.

(** ** Correct rounding of fractions *)
Lemma ratB_correct prec emax {Hp : Prec_gt_0 prec} {Hm : Prec_lt_emax prec emax} n d : n <> 0 ->
  let v := (IZR n / IZR (Zpos d))%R in
  if Rlt_bool (Rabs (rounded prec emax v)) (bpow radix2 emax) then
    is_finite (ratB prec emax n d) = true /\ B2R (ratB prec emax n d) = rounded prec emax v /\ Bsign (ratB prec emax n d) = (n <? 0)
  else ratB prec emax n d = B754_infinity (n <? 0).
Proof.
  intros Hn v. unfold ratB. destruct n as [|p|p]; [lia| |].
  - pose proof (proj2 (Bdiv_correct_aux prec emax Hp Hm mode_NE false p 0 false d 0)) as H.
    generalize (proj1 (Bdiv_correct_aux prec emax Hp Hm mode_NE false p 0 false d 0)). intros Hv. cbn [xorb cond_Zopp] in *.
    assert (E : (F2R (Float radix2 (Z.pos p) 0) / F2R (Float radix2 (Z.pos d) 0) = v)%R).
    { unfold F2R. cbn [Fnum Fexp bpow]. rewrite !Rmult_1_r. reflexivity. }
    rewrite E in H. change (round_mode mode_NE) with ZnearestE in H.
    change (round radix2 (SpecFloat.fexp prec emax) ZnearestE v) with (rounded prec emax v) in H.
    cbv zeta in *.
    destruct (Rlt_bool _ _).
    + rewrite is_finite_SF2B, B2R_SF2B, Bsign_SF2B. destruct H as (A & B & C). repeat split; assumption.
    + apply B2SF_inj. rewrite B2SF_SF2B. exact H.
  - pose proof (proj2 (Bdiv_correct_aux prec emax Hp Hm mode_NE true p 0 false d 0)) as H.
    generalize (proj1 (Bdiv_correct_aux prec emax Hp Hm mode_NE true p 0 false d 0)). intros Hv. cbn [xorb cond_Zopp Z.opp] in *.
    assert (E : (F2R (Float radix2 (Z.neg p) 0) / F2R (Float radix2 (Z.pos d) 0) = v)%R).
    { unfold F2R. cbn [Fnum Fexp bpow]. rewrite !Rmult_1_r. reflexivity. }
    rewrite E in H. change (round_mode mode_NE) with ZnearestE in H.
    change (round radix2 (SpecFloat.fexp prec emax) ZnearestE v) with (rounded prec emax v) in H.
    cbv zeta in *.
    destruct (Rlt_bool _ _).
    + rewrite is_finite_SF2B, B2R_SF2B, Bsign_SF2B. destruct H as (A & B & C). repeat split; assumption.
    + apply B2SF_inj. rewrite B2SF_SF2B. exact H.
Qed.

Lemma powerRZ_IZR b e : 0 <= e -> powerRZ (IZR b) e = IZR (b ^ e).
Proof.
  intros H. rewrite <- (Z2Nat.id e H). rewrite <- pow_powerRZ, pow_IZR. reflexivity.
Qed.
Lemma fraction_value m b e n d : 0 < b -> fraction m b e = (n, d) ->
  (IZR n / IZR (Zpos d) = IZR m * powerRZ (IZR b) e)%R.
Proof.
  intros Hb. unfold fraction. destruct (e <? 0) eqn:E; intros H; injection H as <- <-.
  - rewrite Z2Pos.id by (apply Z.pow_pos_nonneg; lia). rewrite <- powerRZ_IZR by lia.
    rewrite powerRZ_neg' . unfold Rdiv. rewrite Rinv_inv. reflexivity.
  - unfold Rdiv. rewrite Rinv_1, Rmult_1_r, mult_IZR, powerRZ_IZR by lia. reflexivity.
Qed.

(** ** Digits *)
Lemma is_digit_chars c : is_digit c = true <-> In c digit_chars.
Proof.
  split.
  - intros H. assert (C : forallb (fun c => implb (is_digit c) (existsb (Ascii.eqb c) digit_chars)) all_ascii = true) by (vm_compute; reflexivity).
    pose proof (ascii_sweep (fun c => implb (is_digit c) (existsb (Ascii.eqb c) digit_chars)) C c) as S. cbv beta in S. rewrite H in S.
    apply existsb_exists in S. destruct S as (x & Hx & E). apply Ascii.eqb_eq in E. now subst.
  - intros H. repeat (destruct H as [<-|H]; [reflexivity|]). destruct H.
Qed.
Lemma not_digit c : ~ In c digit_chars -> is_digit c = false.
Proof. intros H. destruct (is_digit c) eqn:E; [|reflexivity]. now apply is_digit_chars in E. Qed.
Lemma dig_cases d : is_dig d -> In d [0;1;2;3;4;5;6;7;8;9].
Proof. unfold is_dig. cbn. lia. Qed.
Ltac dig H := apply dig_cases in H; repeat (destruct H as [<-|H]; [|]); [.. | destruct H].
Lemma show_digit_ok d : is_dig d -> digit 10 (show_digit d) = Some d /\ is_digit (show_digit d) = true /\ In (show_digit d) digit_chars.
Proof. intros H. dig H; (split; [reflexivity|split; [reflexivity|cbn; tauto]]). Qed.
Lemma digit_char_show c : In c digit_chars -> exists d, is_dig d /\ c = show_digit d.
Proof.
  intros H. apply (In_nth _ _ "0"%char) in H. destruct H as (n & Hn & E). exists (Z.of_nat n). cbn in Hn. unfold is_dig, show_digit.
  split; [lia|]. now rewrite Nat2Z.id.
Qed.
Lemma digit10_none c : ~ In c digit_chars -> digit 10 c = None.
Proof.
  intros H. apply not_digit in H. unfold digit. rewrite H.
  replace ((97 <=? code (tolower c)) && (code (tolower c) <? 87 + 10)) with false; [reflexivity|]. symmetry. lia.
Qed.

Definition nodig (r : string) : Prop := match r with EmptyString => True | String c _ => ~ In c digit_chars end.
Lemma digits_show acc ds r : Forall is_dig ds -> nodig r ->
  digits 10 acc (show_digits ds ++ r) = (fold_left (fun v d => 10 * v + d) ds acc, Z.of_nat (length ds), r).
Proof.
  intros F N. revert acc. induction F as [|d ds Hd F IH]; intros acc.
  - cbn. destruct r as [|c r]; [reflexivity|]. cbn [digits]. rewrite digit10_none by exact N. reflexivity.
  - cbn [show_digits append digits]. destruct (show_digit_ok d Hd) as (E & _). rewrite E, IH. cbn [fold_left length].
    replace (acc * 10 + d) with (10 * acc + d) by lia. f_equal. f_equal. lia.
Qed.
Lemma digit_split s : exists ds r, s = (show_digits ds ++ r)%string /\ Forall is_dig ds /\ nodig r.
Proof.
  induction s as [|c s IH].
  - exists [], ""%string. repeat split; constructor.
  - destruct (In_dec Ascii.ascii_dec c digit_chars) as [H|H].
    + destruct (digit_char_show c H) as (d & Hd & ->). destruct IH as (ds & r & E & F & N).
      exists (d :: ds), r. cbn. rewrite <- E. repeat split; [constructor; assumption|assumption].
    + exists [], (String c s). repeat split; [constructor|exact H].
Qed.
Lemma digits_value_nonneg ds acc : Forall is_dig ds -> 0 <= acc -> 0 <= fold_left (fun v d => 10 * v + d) ds acc.
Proof. intros F. revert acc. induction F as [|d ds Hd F IH]; intros acc H; cbn [fold_left]; [exact H|]. apply IH. unfold is_dig in Hd. lia. Qed.

(** ** Raw decompositions: a numeral that may lack digits, as the stream reader sees it *)
Definition raw_ok (d : decimal) : Prop :=
  Forall is_dig (mantissa d) /\ match d_exp d with Some (_, _, ds) => Forall is_dig ds /\ mantissa d <> [] | None => True end.
Definition is_sign (c : ascii) : Prop := c = "+"%char \/ c = "-"%char.
Definition raw_stops (d : decimal) (rest : string) : Prop :=
  match rest with
  | EmptyString => True
  | String c _ =>
      ~ In c digit_chars /\ (c = "."%char -> d_frac d <> None \/ d_exp d <> None) /\
      (c = "e"%char \/ c = "E"%char -> d_exp d <> None \/ mantissa d = []) /\
      (is_sign c -> (d_mark d <> NoSign \/ mantissa d <> [] \/ d_frac d <> None) /\
        match d_exp d with Some (_, NoSign, []) => False | _ => True end)
  end.
Lemma well_formed_raw d : well_formed d -> raw_ok d.
Proof. intros (A & B & C). split; [exact A|]. destruct (d_exp d) as [[[u m] ds]|]; [|exact I]. split; [apply C|exact B]. Qed.
Lemma stops_raw d r : well_formed d -> stops d r -> raw_stops d r.
Proof.
  intros (A & B & C) S. destruct r as [|c r]; [exact I|]. destruct S as (S1 & S2 & S3). repeat split; try assumption.
  - intros H. left. now apply S3.
  - right. left. exact B.
  - destruct (d_exp d) as [[[u []] [|]]|]; try exact I. now destruct C.
Qed.

Lemma accumulate_sci m dec ds r : Forall is_dig ds -> nodig r -> accumulate m dec true (show_digits ds ++ r) = (show_digits ds, r).
Proof.
  intros F N. revert m. induction F as [|d ds Hd F IH]; intros m.
  - cbn [show_digits append]. destruct r as [|c r]; [reflexivity|]. cbn [accumulate]. rewrite (not_digit c N). cbn [negb andb].
    rewrite !andb_false_r. reflexivity.
  - cbn [show_digits append accumulate]. destruct (show_digit_ok d Hd) as (_ & E & _). rewrite E, IH. reflexivity.
Qed.

(** What the reader keeps: leading zeros once, a lower-case exponent letter. *)
Fixpoint drop0 (ds : list Z) : list Z := match ds with d :: ds' => if d =? 0 then drop0 ds' else ds | [] => [] end.
Definition has0 (ds : list Z) : bool := match ds with d :: _ => d =? 0 | [] => false end.
Definition lower_exp (e : option (bool * mark * list Z)) := match e with Some (_, m, ds) => Some (false, m, ds) | None => None end.
Definition normal (d : decimal) : decimal :=
  mkDecimal (d_mark d) ((if has0 (d_int d) then [0] else []) ++ drop0 (d_int d)) (d_frac d) (lower_exp (d_exp d)).

(** Exponent part: what follows the mantissa digits. *)
Definition exp_stops (e : option (bool * mark * list Z)) (has dec : bool) (r : string) : Prop :=
  nodig r /\ match r with
  | EmptyString => True
  | String c _ => (c = "."%char -> dec = true \/ e <> None) /\ (c = "e"%char \/ c = "E"%char -> e <> None \/ has = false) /\
      (is_sign c -> match e with Some (_, NoSign, []) => False | _ => True end)
  end.
Definition exp_ok (e : option (bool * mark * list Z)) (has : bool) : Prop :=
  match e with Some (_, _, ds) => Forall is_dig ds /\ has = true | None => True end.
Lemma sign_char_spec c : (c =? "+")%char || (c =? "-")%char = true <-> is_sign c.
Proof.
  unfold is_sign. rewrite orb_true_iff, !Ascii.eqb_eq. reflexivity.
Qed.
Lemma accumulate_exp has dec e r : exp_ok e has -> exp_stops e has dec r ->
  accumulate has dec false (show_exp e ++ r) = (show_exp (lower_exp e), r).
Proof.
  intros K (N & S). destruct e as [[[u m] ds]|].
  - destruct K as (F & ->).
    assert (A : forall rest, accumulate true dec false (String (if u then "E" else "e")%char rest) =
      match rest with
      | EmptyString => (String "e" EmptyString, EmptyString)
      | String d s'' =>
            if (d =? "+")%char || (d =? "-")%char
            then let '(x, r) := accumulate true dec true s'' in (String "e" (String d x), r)
            else let '(x, r) := accumulate true dec true rest in (String "e" x, r)
      end) by (intros rest; destruct u; reflexivity).
    cbn [lower_exp]. unfold show_exp.
    replace (((if u then "E" else "e") ++ show_mark m ++ show_digits ds) ++ r)%string
      with (String (if u then "E" else "e")%char (show_mark m ++ show_digits ds ++ r)) by (destruct u; cbn; now rewrite app_string_assoc).
    rewrite A. destruct m; cbn [show_mark append].
    + destruct ds as [|d ds].
      * cbn [show_digits append]. destruct r as [|c r]; [reflexivity|]. destruct S as (_ & _ & S3).
        destruct ((c =? "+")%char || (c =? "-")%char) eqn:E; [apply sign_char_spec in E; elim (S3 E)|].
        pose proof (accumulate_sci true dec [] (String c r) (Forall_nil _) N) as P. cbn [show_digits append] in P. rewrite P. reflexivity.
      * pose proof (accumulate_sci true dec (d :: ds) r F N) as P. cbn [show_digits append] in P |- *. rewrite P.
        apply Forall_cons_iff in F. destruct F as [Hd _]. clear - Hd. dig Hd; reflexivity.
    + rewrite (accumulate_sci true dec ds r F N). reflexivity.
    + rewrite (accumulate_sci true dec ds r F N). reflexivity.
  - cbn [show_exp append lower_exp]. destruct r as [|c r]; [reflexivity|]. cbn [accumulate]. rewrite (not_digit c N).
    destruct S as (S1 & S2 & _).
    assert (X : (c =? ".")%char && negb dec && negb false = false).
    { destruct (Ascii.eqb_spec c "."%char) as [E|E]; [|reflexivity]. destruct (S1 E) as [->|H]; [reflexivity|now elim H]. }
    rewrite X. assert (Y : ((c =? "e")%char || (c =? "E")%char) && negb false && has = false).
    { destruct (((c =? "e")%char || (c =? "E")%char)) eqn:E; [|reflexivity]. rewrite orb_true_iff, !Ascii.eqb_eq in E.
      destruct (S2 E) as [H| ->]; [now elim H|reflexivity]. }
    rewrite Y. reflexivity.
Qed.
Lemma accumulate_digits m dec ds t : Forall is_dig ds ->
  accumulate m dec false (show_digits ds ++ t) =
  (let '(x, r) := accumulate (m || negb (match ds with [] => true | _ => false end)) dec false t in (show_digits ds ++ x, r)%string).
Proof.
  intros F. revert m. induction F as [|d ds Hd F IH]; intros m.
  - cbn [show_digits append]. rewrite orb_false_r. destruct (accumulate m dec false t). reflexivity.
  - cbn [show_digits append accumulate]. destruct (show_digit_ok d Hd) as (_ & E & _). rewrite E, IH. cbn [orb negb].
    rewrite orb_true_r. destruct (accumulate true dec false t). reflexivity.
Qed.

Definition has {A} (l : list A) : bool := match l with [] => false | _ => true end.
Lemma exp_stops_of d r : raw_stops d r -> exp_stops (d_exp d) (has (mantissa d)) (match d_frac d with Some _ => true | None => false end) r.
Proof.
  intros S. split; [destruct r; [exact I|apply S]|]. destruct r as [|c r]; [exact I|]. destruct S as (_ & S2 & S3 & S4). repeat split.
  - intros E. destruct (S2 E) as [H|H]; [left|now right]. now destruct (d_frac d).
  - intros E. destruct (S3 E) as [H|H]; [now left|right]. now rewrite H.
  - intros E. apply (S4 E).
Qed.
Lemma exp_ok_of d : raw_ok d -> exp_ok (d_exp d) (has (mantissa d)).
Proof. intros (_ & H). unfold exp_ok. destruct (d_exp d) as [[[u m] ds]|]; [|exact I]. destruct H as [F N]. split; [exact F|]. now destruct (mantissa d). Qed.
Lemma mantissa_digits d : raw_ok d -> Forall is_dig (d_int d) /\ Forall is_dig (frac_digits d).
Proof. intros (F & _). now apply Forall_app. Qed.

Lemma leading_zeros_show ds t : Forall is_dig ds -> (forall t', t <> String "0" t') ->
  leading_zeros (show_digits ds ++ t) = (has0 ds, show_digits (drop0 ds) ++ t)%string.
Proof.
  intros F N. induction F as [|d ds Hd F IH].
  - cbn [show_digits append has0 drop0]. destruct t as [|c t]; [reflexivity|]. cbn [leading_zeros].
    destruct (Ascii.eqb_spec c "0"%char) as [->|E]; [now elim (N t)|reflexivity].
  - cbn [show_digits append leading_zeros has0 drop0].
    destruct (Z.eqb_spec d 0) as [->|E].
    + cbn [show_digit]. change (show_digit 0 =? "0")%char with true. cbn iota. rewrite IH. reflexivity.
    + replace (show_digit d =? "0")%char with false; [reflexivity|]. dig Hd; try reflexivity. now elim E.
Qed.
Lemma drop0_ok ds : Forall is_dig ds -> Forall is_dig (drop0 ds).
Proof. induction 1 as [|d ds Hd F IH]; cbn; [constructor|]. destruct (d =? 0); [exact IH|constructor; assumption]. Qed.
Lemma has_drop0 ds : has0 ds || has (drop0 ds) = has ds.
Proof. destruct ds as [|d ds]; [reflexivity|]. cbn. now destruct (d =? 0). Qed.
Lemma accumulate_tail d r z : raw_ok d -> raw_stops d r -> z || has (drop0 (d_int d)) = has (d_int d) ->
  accumulate z false false (show_digits (drop0 (d_int d)) ++ show_frac (d_frac d) ++ show_exp (d_exp d) ++ r) =
  ((show_digits (drop0 (d_int d)) ++ show_frac (d_frac d) ++ show_exp (lower_exp (d_exp d)))%string, r).
Proof.
  intros K S Z. destruct (mantissa_digits d K) as [F1 F2]. rewrite accumulate_digits by now apply drop0_ok.
  replace (z || negb match drop0 (d_int d) with [] => true | _ :: _ => false end) with (has (d_int d))
    by (rewrite <- Z; now destruct (drop0 (d_int d))).
  pose proof (exp_ok_of d K) as KE. pose proof (exp_stops_of d r S) as SE. unfold mantissa, frac_digits in *.
  destruct (d_frac d) as [fs|]; cbn [show_frac].
  - rewrite !app_string_assoc. cbn [append]. cbn [accumulate]. change (is_digit ".") with false. cbn [Ascii.eqb negb andb].
    change (("." =? ".")%char) with true. cbn iota. cbn [andb].
    rewrite accumulate_digits by exact F2.
    replace (has (d_int d) || negb match fs with [] => true | _ :: _ => false end) with (has (d_int d ++ fs))
      by (now destruct (d_int d), fs).
    rewrite (accumulate_exp _ _ _ _ KE SE). rewrite ?app_string_assoc. reflexivity.
  - rewrite app_nil_r in *. cbn [append]. rewrite (accumulate_exp _ _ _ _ KE SE). reflexivity.
Qed.
Lemma tail_head d r c t : raw_ok d -> (show_digits (d_int d) ++ show_frac (d_frac d) ++ show_exp (d_exp d) ++ r = String c t)%string ->
  In c digit_chars \/ c = "."%char \/ (mantissa d = [] /\ d_frac d = None /\ d_exp d = None /\ r = String c t).
Proof.
  intros K E. destruct (mantissa_digits d K) as [F1 F2]. destruct K as (_ & K). unfold mantissa, frac_digits in *. destruct (d_int d) as [|x l].
  - cbn [show_digits append app] in *. destruct (d_frac d) as [fs|]; cbn [show_frac append] in E.
    + right. left. now injection E.
    + right. right. destruct (d_exp d) as [[[u m] ds]|]; [now destruct K|]. cbn [show_exp append] in E. auto.
  - left. cbn [show_digits append] in E. injection E as <- _. apply Forall_cons_iff in F1. now apply show_digit_ok.
Qed.
Lemma take_number_raw d r : raw_ok d -> raw_stops d r -> take_number (show_decimal d ++ r) = (show_decimal (normal d), r).
Proof.
  intros K S. destruct (mantissa_digits d K) as [F1 F2]. unfold take_number, show_decimal. rewrite !app_string_assoc.
  set (t := (show_digits (d_int d) ++ show_frac (d_frac d) ++ show_exp (d_exp d) ++ r)%string).
  assert (E : (match (show_mark (d_mark d) ++ t)%string with
                  | String c s' => if (c =? "+")%char || (c =? "-")%char then (String c EmptyString, s') else (EmptyString, (show_mark (d_mark d) ++ t)%string)
                  | EmptyString => (EmptyString, (show_mark (d_mark d) ++ t)%string)
                  end) = (show_mark (d_mark d), t)).
  { destruct (d_mark d) eqn:M; [|reflexivity|reflexivity]. cbn [show_mark append]. destruct t as [|c t'] eqn:T; [reflexivity|].
    destruct ((c =? "+")%char || (c =? "-")%char) eqn:C; [|reflexivity]. exfalso. apply sign_char_spec in C.
    destruct (tail_head d r c t' K T) as [H|[H|(H1 & H2 & H3 & ->)]].
    - destruct C as [-> | ->]; cbn in H; intuition discriminate.
    - subst c. destruct C; discriminate.
    - destruct S as (_ & _ & _ & S4). destruct (S4 C) as [[H|[H|H]] _]; congruence. }
  rewrite E. clear E. unfold t. rewrite leading_zeros_show; [|exact F1|].
  - rewrite accumulate_tail by (assumption || apply has_drop0). cbn [d_mark d_int d_frac d_exp normal].
    destruct (has0 (d_int d)); reflexivity.
  - intros t' E. assert (X := E). destruct (d_frac d); [discriminate E|]. cbn [show_frac append] in E.
    destruct (d_exp d) as [[[[] m] ds]|]; [discriminate E|discriminate E|]. cbn [show_exp append] in E. subst r. destruct S as (S1 & _). apply S1. now left.
Qed.

(** ** The reading part of strtod on a numeral *)
Definition numeral_of (d : decimal) : numeral :=
  Finite (match d_mark d with Minus => true | _ => false end) (digits_value (mantissa d)) 10 (exponent_value d - Z.of_nat (length (frac_digits d))).
Lemma exponent_show e r : match e with Some (_, _, ds) => Forall is_dig ds /\ ds <> [] | None => True end -> nodig r ->
  (e = None -> exponent "e" r = (0, r)) ->
  exponent "e" (show_exp e ++ r) = (match e with Some (_, m, ds) => signed m (digits_value ds) | None => 0 end, r).
Proof.
  intros K N R. destruct e as [[[u m] ds]|]; [|now apply R]. destruct K as [F NE]. unfold show_exp. rewrite !app_string_assoc.
  assert (A : forall t, exponent "e" ((if u then "E" else "e") ++ t)%string =
     let '(neg, t') := sign t in let '(e, n, r) := digits 10 0 t' in if n =? 0 then (0, ((if u then "E" else "e") ++ t)%string) else ((if neg then - e else e), r))
    by (intros t; destruct u; reflexivity).
  rewrite A. destruct m; cbn [show_mark append].
  - destruct ds as [|d ds]; [now elim NE|]. assert (X : sign (show_digits (d :: ds) ++ r) = (false, (show_digits (d :: ds) ++ r)%string)).
    { apply Forall_cons_iff in F. destruct F as [Hd _]. cbn [show_digits append]. dig Hd; reflexivity. }
    rewrite X. cbv beta iota. rewrite digits_show by assumption. reflexivity.
  - cbn [sign]. rewrite digits_show by assumption. destruct ds as [|d ds]; [now elim NE|]. reflexivity.
  - cbn [sign]. rewrite digits_show by assumption. destruct ds as [|d ds]; [now elim NE|]. reflexivity.
Qed.
Lemma skip_space_head s : match s with String c _ => is_space c = false | EmptyString => True end -> skip_space s = s.
Proof. destruct s as [|c s]; [reflexivity|]. cbn. now intros ->. Qed.
Lemma is_space_chars c : is_space c = true <-> In c space_chars.
Proof.
  split.
  - intros H. assert (C : forallb (fun c => implb (is_space c) (existsb (Ascii.eqb c) space_chars)) all_ascii = true) by (vm_compute; reflexivity).
    pose proof (ascii_sweep (fun c => implb (is_space c) (existsb (Ascii.eqb c) space_chars)) C c) as S. cbv beta in S. rewrite H in S.
    apply existsb_exists in S. destruct S as (x & Hx & E). apply Ascii.eqb_eq in E. now subst.
  - intros H. repeat (destruct H as [<-|H]; [reflexivity|]). destruct H.
Qed.
Lemma skip_spaces ws s : spaces ws -> skip_space (ws ++ s) = skip_space s.
Proof.
  unfold spaces, chars. induction ws as [|c ws IH]; intros H; [reflexivity|]. cbn in H. apply Forall_cons_iff in H. destruct H as [Hc Hw].
  cbn. apply is_space_chars in Hc. rewrite Hc. now apply IH.
Qed.
Lemma space_split s : exists ws t, s = (ws ++ t)%string /\ spaces ws /\ skip_space s = t /\ match t with String c _ => ~ In c space_chars | EmptyString => True end.
Proof.
  induction s as [|c s (ws & t & E & H1 & H2 & H3)].
  - exists ""%string, ""%string. repeat split; constructor.
  - destruct (is_space c) eqn:C.
    + exists (String c ws), t. cbn. rewrite C. repeat split; [now rewrite E| |exact H2|exact H3].
      unfold spaces, chars in *. cbn. constructor; [now apply is_space_chars|exact H1].
    + exists ""%string, (String c s). cbn. rewrite C. repeat split; [constructor|]. intros H. apply is_space_chars in H. congruence.
Qed.

Lemma starts_ci_head p a s : match s with String c _ => (tolower c =? a)%char = false | EmptyString => True end -> starts_ci (String a p) s = None.
Proof. destruct s as [|c s]; [reflexivity|]. cbn. now intros ->. Qed.
Definition head_ok (r : string) (ok : ascii -> Prop) : Prop := match r with EmptyString => True | String c _ => ok c end.

(** Digits, optional fraction, then [u] (the exponent part and whatever follows). *)
Lemma mantissa_read d neg u s : Forall is_dig (d_int d) -> Forall is_dig (frac_digits d) -> mantissa d <> [] -> nodig u ->
  (d_frac d = None -> head_ok u (fun c => c <> "."%char)) ->
  s = (show_digits (d_int d) ++ show_frac (d_frac d) ++ u)%string ->
  positional 10 "e" 1 10 neg s =
  (let '(e, r) := exponent "e" u in Some (Finite neg (digits_value (mantissa d)) 10 (e - Z.of_nat (length (frac_digits d))), r)).
Proof.
  intros F1 F2 NE N P ->. unfold positional.
  assert (NE' : Z.of_nat (length (d_int d)) + Z.of_nat (length (frac_digits d)) =? 0 = false).
  { unfold mantissa in NE. destruct (d_int d), (frac_digits d); cbn; try lia. now elim NE. }
  unfold mantissa, frac_digits in *. destruct (d_frac d) as [fs|]; cbn [show_frac].
  - rewrite app_string_assoc. cbn [append]. rewrite digits_show; [|exact F1|cbn; intuition discriminate].
    cbv iota beta. rewrite digits_show by assumption. rewrite NE'. unfold digits_value. rewrite fold_left_app.
    destruct (exponent "e" u) as [e r]. repeat f_equal. lia.
  - cbn [append]. rewrite digits_show by assumption. rewrite app_nil_r. cbn [length] in *. specialize (P eq_refl).
    assert (X : match u with String "."%char s' => digits 10 (fold_left (fun v d => 10 * v + d) (d_int d) 0) s' | _ => (fold_left (fun v d => 10 * v + d) (d_int d) 0, 0, u) end
      = (fold_left (fun v d => 10 * v + d) (d_int d) 0, 0, u)).
    { destruct u as [|c u]; [reflexivity|]. cbn in P. destruct c as [[] [] [] [] [] [] [] []]; try reflexivity. now elim P. }
    change (Z.of_nat 0) with 0 in *. rewrite X, NE'. destruct (exponent "e" u) as [e r]. unfold digits_value. reflexivity.
Qed.
Lemma digit_or_dot_head c : In c digit_chars \/ c = "."%char ->
  (tolower c =? "i")%char = false /\ (tolower c =? "n")%char = false /\ is_space c = false /\ ~ is_sign c.
Proof.
  unfold is_sign. intros [H|H]; [|subst c; repeat split; try reflexivity; now intros [|]].
  repeat (destruct H as [<-|H]; [repeat split; try reflexivity; now intros [|]|]). destruct H.
Qed.
Lemma sign_nosign t : head_ok t (fun c => ~ is_sign c) -> sign t = (false, t).
Proof.
  destruct t as [|c t]; [reflexivity|]. cbn. unfold is_sign. intros H.
  destruct c as [[] [] [] [] [] [] [] []]; try reflexivity; exfalso; apply H; auto.
Qed.
Lemma digit16 c : digit 16 c = None <-> ~ In c hex_chars.
Proof.
  assert (C : forallb (fun c => Bool.eqb (match digit 16 c with None => true | Some _ => false end) (negb (existsb (Ascii.eqb c) hex_chars))) all_ascii = true) by (vm_compute; reflexivity).
  pose proof (ascii_sweep _ C c) as S. cbv beta in S. apply Bool.eqb_prop in S. assert (E : existsb (Ascii.eqb c) hex_chars = true <-> In c hex_chars).
  { rewrite existsb_exists. split; [intros (x & X & Y); apply Ascii.eqb_eq in Y; now subst|intros H; exists c; split; [exact H|apply Ascii.eqb_refl]]. }
  rewrite <- E. clear C E. destruct (digit 16 c); rewrite <- not_false_iff_true.
  - split; [discriminate|]. intros H. elim H. intros G. rewrite G in S. discriminate.
  - split; [|reflexivity]. intros _ H. apply H. now destruct (existsb (Ascii.eqb c) hex_chars).
Qed.
Lemma digits16_none acc u : ~ begins_with (fun c => In c hex_chars) u -> digits 16 acc u = (acc, 0, u).
Proof. destruct u as [|c u]; [reflexivity|]. cbn [begins_with digits]. intros H. apply digit16 in H. now rewrite H. Qed.
Lemma hex_none neg c u : (tolower c =? "x")%char = true -> ~ begins_hex (String c u) -> positional 16 "p" 4 2 neg u = None.
Proof.
  intros X H. assert (X' : c = "x"%char \/ c = "X"%char).
  { assert (C : forallb (fun c => implb (tolower c =? "x")%char ((c =? "x")%char || (c =? "X")%char)) all_ascii = true) by (vm_compute; reflexivity).
    pose proof (ascii_sweep _ C c) as S. cbv beta in S. rewrite X in S. cbn in S. now rewrite orb_true_iff, !Ascii.eqb_eq in S. }
  assert (H1 : ~ begins_with (fun c => In c hex_chars) u) by (intros B; apply H; exists c, u; auto).
  unfold positional. rewrite digits16_none by exact H1. destruct u as [|e u]; [reflexivity|]. destruct (Ascii.eqb_spec e "."%char) as [->|E].
  - rewrite digits16_none; [reflexivity|]. intros B. apply H. exists c, (String "." u). split; [reflexivity|]. split; [exact X'|]. right. now exists u.
  - assert (Y : match String e u with String "."%char s' => digits 16 0 s' | _ => (0, 0, String e u) end = (0, 0, String e u)).
    { destruct e as [[] [] [] [] [] [] [] []]; try reflexivity. now elim E. }
    rewrite Y. reflexivity.
Qed.
Lemma hex_guard d neg u : Forall is_dig (d_int d) -> mantissa d <> [] -> (d_int d = [0] -> d_frac d = None -> ~ begins_hex u) ->
  match starts_ci "0x" (show_digits (d_int d) ++ show_frac (d_frac d) ++ u) with Some v => positional 16 "p" 4 2 neg v | None => None end = None.
Proof.
  intros F NE H. unfold mantissa, frac_digits in NE.
  destruct (d_int d) as [|x [|y l]].
  - destruct (d_frac d); [|now elim NE]. reflexivity.
  - cbn [show_digits append starts_ci]. destruct (Ascii.eqb_spec (tolower (show_digit x)) "0"%char) as [E|E]; [|reflexivity].
    destruct (d_frac d); [reflexivity|]. cbn [show_frac append]. destruct u as [|c u]; [reflexivity|].
    assert (x = 0) as ->. { apply Forall_cons_iff in F. destruct F as [Hx _]. dig Hx; try discriminate; reflexivity. }
    destruct (tolower c =? "x")%char eqn:X; [|reflexivity]. apply (hex_none neg c u X). now apply H.
  - cbn [show_digits append starts_ci]. destruct (tolower (show_digit x) =? "0")%char; [|reflexivity].
    apply Forall_cons_iff in F. destruct F as [_ F]. apply Forall_cons_iff in F. destruct F as [Hy _].
    replace (tolower (show_digit y) =? "x")%char with false; [reflexivity|]. dig Hy; reflexivity.
Qed.
Lemma scan_mantissa d ws u : spaces ws -> Forall is_dig (d_int d) -> Forall is_dig (frac_digits d) -> mantissa d <> [] -> nodig u ->
  (d_frac d = None -> head_ok u (fun c => c <> "."%char)) -> (d_int d = [0] -> d_frac d = None -> ~ begins_hex u) ->
  scan (ws ++ show_mark (d_mark d) ++ show_digits (d_int d) ++ show_frac (d_frac d) ++ u)%string =
  (let '(e, r) := exponent "e" u in
   Some (Finite (match d_mark d with Minus => true | _ => false end) (digits_value (mantissa d)) 10 (e - Z.of_nat (length (frac_digits d))), r)).
Proof.
  intros W F1 F2 NE N P X. unfold scan. rewrite skip_spaces by exact W.
  set (t := (show_digits (d_int d) ++ show_frac (d_frac d) ++ u)%string).
  assert (T : exists c t', t = String c t' /\ (In c digit_chars \/ c = "."%char)).
  { unfold t, mantissa, frac_digits in *. destruct (d_int d) as [|x l].
    - destruct (d_frac d) as [fs|]; [|now elim NE]. cbn. eexists _, _. split; [reflexivity|now right].
    - cbn. apply Forall_cons_iff in F1. eexists _, _. split; [reflexivity|]. left. now apply show_digit_ok. }
  destruct T as (c & t' & T & Hc). destruct (digit_or_dot_head c Hc) as (C1 & C2 & C3 & C4).
  assert (E : sign (skip_space (show_mark (d_mark d) ++ t)) = (match d_mark d with Minus => true | _ => false end, t)).
  { destruct (d_mark d); cbn [show_mark append].
    - rewrite skip_space_head by (rewrite T; exact C3). apply sign_nosign. rewrite T. exact C4.
    - reflexivity.
    - reflexivity. }
  rewrite E. rewrite !starts_ci_head by (rewrite T; assumption).
  unfold t at 1. rewrite hex_guard by assumption.
  apply mantissa_read; try assumption. reflexivity.
Qed.
Lemma stops_nodig d r : stops d r -> nodig r.
Proof. destruct r; [intros; exact I|]. intros (H & _). exact H. Qed.
Lemma show_exp_nodig e r : nodig r -> nodig (show_exp e ++ r).
Proof. intros N. destruct e as [[[[] m] ds]|]; cbn; [intuition discriminate|intuition discriminate|exact N]. Qed.
(** A well-formed numeral, followed by text that cannot continue it. *)
Lemma scan_show d ws r : spaces ws -> well_formed d -> nodig r ->
  (d_frac d = None -> d_exp d = None -> head_ok r (fun c => c <> "."%char)) ->
  (d_exp d = None -> exponent "e" r = (0, r)) ->
  (d_int d = [0] -> d_frac d = None -> d_exp d = None -> ~ begins_hex r) ->
  scan (ws ++ show_decimal d ++ r) = Some (numeral_of d, r).
Proof.
  intros W (F & NE & KE) N P E X. destruct (proj1 (Forall_app _ _ _) F) as [F1 F2]. unfold show_decimal. rewrite !app_string_assoc.
  rewrite scan_mantissa; try assumption.
  - rewrite exponent_show by assumption. reflexivity.
  - now apply show_exp_nodig.
  - intros Q. destruct (d_exp d) as [[[[] m] ds]|]; cbn; try discriminate. apply P; [exact Q|reflexivity].
  - intros A B. destruct (d_exp d) as [[[[] m] ds]|]; cbn [show_exp append]; try (intros (x & t & Q & [-> | ->] & _); discriminate Q). now apply X.
Qed.
Lemma exponent_none r : head_ok r (fun c => c <> "e"%char /\ c <> "E"%char) -> exponent "e" r = (0, r).
Proof.
  destruct r as [|c r]; [reflexivity|]. cbn. intros [H1 H2].
  assert (C : forallb (fun c => implb (tolower c =? "e")%char ((c =? "e")%char || (c =? "E")%char)) all_ascii = true) by (vm_compute; reflexivity).
  pose proof (ascii_sweep _ C c) as S. cbv beta in S.
  destruct (tolower c =? "e")%char; [|reflexivity]. cbn in S. rewrite orb_true_iff, !Ascii.eqb_eq in S. tauto.
Qed.

(** ** The stream reader on raw numerals *)
Lemma fold_zeros ds l : digits_value ((if has0 ds then [0] else []) ++ drop0 ds ++ l) = digits_value (ds ++ l).
Proof.
  unfold digits_value.
  replace (fold_left (fun v d => 10 * v + d) ((if has0 ds then [0] else []) ++ drop0 ds ++ l) 0) with (fold_left (fun v d => 10 * v + d) (drop0 ds ++ l) 0)
    by now destruct (has0 ds).
  induction ds as [|d ds IH]; [reflexivity|]. cbn [drop0 app]. destruct (Z.eqb_spec d 0) as [->|E]; [|reflexivity]. exact IH.
Qed.
Lemma normal_numeral d : numeral_of (normal d) = numeral_of d.
Proof.
  unfold numeral_of, normal, mantissa, exponent_value, frac_digits. cbn [d_mark d_int d_frac d_exp]. rewrite <- app_assoc, fold_zeros.
  destruct (d_exp d) as [[[u m] ds]|]; reflexivity.
Qed.
Lemma normal_digits d : raw_ok d -> Forall is_dig (d_int (normal d)) /\ Forall is_dig (frac_digits (normal d)).
Proof.
  intros K. destruct (mantissa_digits d K) as [F1 F2]. split; [|exact F2]. cbn. apply Forall_app. split; [|now apply drop0_ok].
  destruct (has0 (d_int d)); repeat constructor; unfold is_dig; lia.
Qed.
Lemma normal_empty d : mantissa (normal d) = [] <-> mantissa d = [].
Proof.
  unfold mantissa. cbn. change (frac_digits (normal d)) with (frac_digits d). destruct (d_int d) as [|x l]; [reflexivity|]. cbn.
  destruct (x =? 0) eqn:E; cbn; split; discriminate.
Qed.
Lemma scan_normal d : raw_ok d ->
  scan (show_decimal (normal d)) =
    match mantissa d, d_exp d with
    | [], _ => None
    | _, Some (_, m, []) => Some (Finite (match d_mark d with Minus => true | _ => false end) (digits_value (mantissa d)) 10 (- Z.of_nat (length (frac_digits d))), (show_exp (lower_exp (d_exp d))))
    | _, _ => Some (numeral_of d, ""%string)
    end.
Proof.
  intros K. destruct (normal_digits d K) as [F1 F2]. pose proof (proj2 K) as KE.
  destruct (mantissa d) as [|x l] eqn:M.
  - pose proof (proj2 (normal_empty d) M) as M'. apply app_eq_nil in M'. destruct M' as [M1 M2].
    unfold show_decimal. rewrite M1. cbn [d_exp normal]. destruct (d_exp d) as [[[u m] ds]|]; [now destruct KE|].
    cbn [d_frac d_mark normal] in *. unfold frac_digits in M2. cbn in M2. destruct (d_frac d) as [[|]|]; [| |]; try discriminate M2; destruct (d_mark d); reflexivity.
  - assert (NE : mantissa (normal d) <> []) by (rewrite normal_empty; congruence).
    assert (S : scan (show_decimal (normal d)) = (let '(e, r) := exponent "e" (show_exp (d_exp (normal d))) in
        Some (Finite (match d_mark d with Minus => true | _ => false end) (digits_value (mantissa (normal d))) 10 (e - Z.of_nat (length (frac_digits d))), r))).
    { unfold show_decimal. replace (show_exp (d_exp (normal d))) with (show_exp (d_exp (normal d)) ++ "")%string at 1 by apply app_string_nil.
      rewrite <- !app_string_assoc. rewrite !app_string_assoc, app_string_nil.
      change (show_mark (d_mark (normal d)) ++ ?t)%string with ("" ++ show_mark (d_mark (normal d)) ++ t)%string.
      rewrite scan_mantissa; try assumption.
      - reflexivity.
      - constructor.
      - replace (show_exp (d_exp (normal d))) with (show_exp (d_exp (normal d)) ++ "")%string by apply app_string_nil. now apply show_exp_nodig.
      - intros _. destruct (d_exp (normal d)) as [[[[] m] ds]|]; cbn; discriminate || exact I.
      - intros _ _ (hx & t & Q & [-> | ->] & _); destruct (d_exp (normal d)) as [[[[] m] ds]|]; discriminate Q. }
    rewrite S. clear S. assert (V : digits_value (mantissa (normal d)) = digits_value (x :: l)).
    { rewrite <- M. unfold mantissa. cbn. rewrite <- app_assoc. apply fold_zeros. }
    rewrite V. cbn [d_exp normal]. unfold numeral_of. rewrite M. unfold exponent_value.
    destruct (d_exp d) as [[[u m] [|y ds]]|].
    + destruct m; reflexivity.
    + replace (show_exp (lower_exp (Some (u, m, y :: ds)))) with (show_exp (lower_exp (Some (u, m, y :: ds))) ++ "")%string by apply app_string_nil.
      rewrite exponent_show; [reflexivity| |exact I|discriminate]. cbn. split; [apply KE|discriminate].
    + reflexivity.
Qed.

(** Every text has exactly one raw decomposition. *)
Lemma raw_split t : exists d r, t = (show_decimal d ++ r)%string /\ raw_ok d /\ raw_stops d r.
Proof.
  assert (M : exists m t1, t = (show_mark m ++ t1)%string /\ (m = NoSign -> head_ok t1 (fun c => ~ is_sign c))).
  { destruct t as [|c t]; [exists NoSign, ""%string; now split|].
    destruct (Ascii.eqb_spec c "+"%char) as [->|N1]; [exists Plus, t; now split|].
    destruct (Ascii.eqb_spec c "-"%char) as [->|N2]; [exists Minus, t; now split|].
    exists NoSign, (String c t). split; [reflexivity|]. intros _ [|]; auto. }
  destruct M as (m & t1 & -> & Hm). destruct (digit_split t1) as (ds & t2 & -> & F & N).
  assert (P : exists f t3, t2 = (show_frac f ++ t3)%string /\ Forall is_dig (match f with Some l => l | None => [] end) /\ nodig t3 /\
      (f = None -> head_ok t3 (fun c => c <> "."%char))).
  { destruct t2 as [|c t2]; [exists None, ""%string; repeat split; constructor|].
    destruct (Ascii.eqb_spec c "."%char) as [->|N1].
    - destruct (digit_split t2) as (fs & t3 & -> & F' & N'). exists (Some fs), t3. now repeat split.
    - exists None, (String c t2). repeat split; [constructor|exact N|]. now intros _. }
  destruct P as (f & t3 & -> & Ff & N3 & Hf).
  set (mm := ds ++ match f with Some l => l | None => [] end).
  assert (Q : exists e r, t3 = (show_exp e ++ r)%string /\ (match e with Some (_, _, l) => Forall is_dig l /\ mm <> [] | None => True end) /\ nodig r /\
      (match e with
       | None => t3 = r /\ head_ok r (fun c => c = "e"%char \/ c = "E"%char -> mm = [])
       | Some (_, NoSign, []) => head_ok r (fun c => ~ is_sign c)
       | _ => True end)).
  { destruct mm as [|x l] eqn:MM.
    - exists None, t3. repeat split; [exact N3|]. destruct t3; cbn; auto.
    - destruct t3 as [|c t3]; [exists None, ""%string; now repeat split|].
      assert (G : forall u, c = (if u : bool then "E" else "e")%char ->
        exists e r, String c t3 = (show_exp e ++ r)%string /\ (match e with Some (_, _, l') => Forall is_dig l' /\ x :: l <> [] | None => True end) /\ nodig r /\
          (match e with
           | None => String c t3 = r /\ head_ok r (fun c => c = "e"%char \/ c = "E"%char -> x :: l = [])
           | Some (_, NoSign, []) => head_ok r (fun c => ~ is_sign c)
           | _ => True end)).
      { intros u ->.
        assert (M : exists m t1, t3 = (show_mark m ++ t1)%string /\ (m = NoSign -> head_ok t1 (fun c => ~ is_sign c))).
        { clear N3 Hf. destruct t3 as [|c t3]; [exists NoSign, ""%string; now split|].
          destruct (Ascii.eqb_spec c "+"%char) as [->|N1]; [exists Plus, t3; now split|].
          destruct (Ascii.eqb_spec c "-"%char) as [->|N2]; [exists Minus, t3; now split|].
          exists NoSign, (String c t3). split; [reflexivity|]. intros _ [|]; auto. }
        destruct M as (m' & t4 & -> & Hm'). destruct (digit_split t4) as (es & r & -> & Fe & Ne).
        exists (Some (u, m', es)), r. cbn [show_exp]. repeat split; [|exact Fe|discriminate|exact Ne|].
        - rewrite !app_string_assoc. now destruct u.
        - destruct m'; try exact I. destruct es; [|exact I]. now apply Hm'. }
      destruct (Ascii.eqb_spec c "e"%char) as [->|N1]; [now apply (G false)|].
      destruct (Ascii.eqb_spec c "E"%char) as [->|N2]; [now apply (G true)|].
      exists None, (String c t3). repeat split; [exact N3|]. cbn. intuition congruence. }
  destruct Q as (e & r & -> & He & Nr & Hr). exists (mkDecimal m ds f e), r. split; [|split].
  - unfold show_decimal. cbn. now rewrite !app_string_assoc.
  - unfold raw_ok. change (mantissa (mkDecimal m ds f e)) with mm. cbn [d_exp]. split; [|exact He]. unfold mm. now apply Forall_app.
  - destruct r as [|c r]; [exact I|]. unfold raw_stops. change (mantissa (mkDecimal m ds f e)) with mm. cbn [d_mark d_frac d_exp].
    split; [exact Nr|]. split; [|split].
    + intros ->. destruct f; [left; discriminate|]. destruct e; [right; discriminate|]. destruct Hr as [E _]. cbn [show_exp append] in *.
      specialize (Hf eq_refl). cbn in Hf. now elim Hf.
    + intros Hc. destruct e; [left; discriminate|]. right. destruct Hr as [_ Hr]. now apply Hr.
    + intros Hs. split.
      * destruct m; [|left; discriminate|left; discriminate]. destruct mm as [|x l] eqn:MM; [|right; left; discriminate].
        destruct f; [right; right; discriminate|]. exfalso. destruct e as [[[u m'] es]|]; [now destruct He|].
        apply app_eq_nil in MM. destruct MM as [-> _]. specialize (Hm eq_refl). cbn in Hm. now apply Hm.
      * destruct e as [[[u []] []]|]; try exact I. cbn in Hr. now apply Hr.
Qed.
